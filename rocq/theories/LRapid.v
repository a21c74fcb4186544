(** The rapidjson reader accepts exactly the texts of the grammar of SRapid.v with byte strings
    and its own numbers. *)
From Coq Require Import ZArith Bool Lia Ascii String List.
From Verif Require Import Base F64 Value MNum LNum MJson SJsonText SRapid MRapid LRapidNum LRapidStr.
Import ListNotations.
Local Open Scope Z_scope.

(** A number literal and what it is read as. *)
Definition rj_num (t : text) (j : json) : Prop :=
  exists neg l lf ex, literal t neg l lf ex /\ num_res neg l lf ex = Some j.
Notation rval := (gval bstring rj_num).
Notation relems := (gelems bstring rj_num).
Notation rmembers := (gmembers bstring rj_num).

(** * White space *)
Lemma rj_blank_blank c : rj_blank c = true <-> blank c.
Proof.
  split.
  - unfold rj_blank. intros H. rewrite !orb_true_iff, !Ascii.eqb_eq in H.
    destruct H as [[[-> | ->]| ->]| ->]; cbv; tauto.
  - intros H. rewrite <- (ch_byte c). destruct H as [H|[H|[H|[H|[]]]]]; rewrite <- H; reflexivity.
Qed.
Definition no_blank (t : text) : Prop := match t with [] => True | c :: _ => rj_blank c = false end.
Lemma skip_blanks_ws w t : ws w -> no_blank t -> skip_blanks (w ++ t) = t.
Proof.
  intros Hw Ht. induction Hw as [|c w Hc Hw IH]; cbn [app skip_blanks].
  - destruct t as [|c t]; [reflexivity|]. cbn in *. now rewrite Ht.
  - now rewrite (proj2 (rj_blank_blank c) Hc).
Qed.
Lemma skip_blanks_split t : exists w, t = w ++ skip_blanks t /\ ws w /\ no_blank (skip_blanks t).
Proof.
  induction t as [|c t (w & E & Hw & Hb)]; cbn [skip_blanks].
  - exists []. repeat split. constructor.
  - destruct (rj_blank c) eqn:B.
    + exists (c :: w). split; [cbn [app]; now rewrite <- E|]. split; [|assumption]. constructor; [|assumption].
      now apply rj_blank_blank.
    + exists []. split; [reflexivity|]. split; [constructor|]. exact B.
Qed.

(** * First characters *)
Definition value_start (c : ascii) : Prop :=
  rj_blank c = false /\ c <> "]"%char /\ c <> "}"%char /\ c <> ","%char /\ N_of_ascii c <> 0%N.
Definition num_start (c : ascii) : Prop :=
  c <> "n"%char /\ c <> "t"%char /\ c <> "f"%char /\ c <> ascii_of_N 34 /\ c <> "{"%char /\ c <> "["%char.
Lemma literal_start t neg l lf ex : literal t neg l lf ex -> exists c r, t = c :: r /\ value_start c /\ num_start c.
Proof.
  intros (tf & te & -> & Hl & Hi & _). destruct neg; cbn [minus app].
  - eexists _, _. split; [reflexivity|]. split; repeat split; discriminate.
  - destruct Hl as [|d l Hd Hl]; [destruct Hi as [?|(? & ? & ? & _)]; discriminate|]. cbn [map app].
    eexists _, _. split; [reflexivity|]. clear Hi Hl. revert d Hd.
    apply (digit_char (fun c => value_start c /\ num_start c)); repeat split; discriminate.
Qed.
Lemma bstring_start t s : bstring t s -> exists r, t = ch 34 :: r.
Proof. intros [u x _]. eauto. Qed.
Lemma value_first t j : rval t j -> exists c r, t = c :: r /\ value_start c.
Proof.
  intros [ | | |u x (neg & l & lf & ex & L & _)|u s B|w _|u l _|w _|u m _];
    try (eexists _, _; split; [reflexivity|]; repeat split; discriminate).
  - destruct (literal_start _ _ _ _ _ L) as (c & r & -> & H & _). eauto.
  - destruct (bstring_start _ _ B) as (r & ->). eexists _, _. split; [reflexivity|]. repeat split; discriminate.
Qed.

(** * What follows a value *)
Lemma ws_num_end w c r : ws w -> In c ["]"%char; "}"%char; ","%char] -> num_end (w ++ c :: r).
Proof.
  intros Hw Hc. destruct Hw as [|b w Hb Hw]; cbn [app].
  - destruct Hc as [<-|[<-|[<-|[]]]]; repeat split; discriminate.
  - apply rj_blank_blank in Hb. repeat split.
    + destruct (digit_val b) as [d|] eqn:E; [|reflexivity]. apply digit_val_inv in E. destruct E as [-> Hd]. exfalso.
      revert Hb. revert d Hd. apply (digit_char (fun c => rj_blank c = true -> False)); discriminate.
    + intros ->. discriminate.
    + intros ->. discriminate.
    + intros ->. discriminate.
Qed.

Lemma parse_value_number n t r j : (1 <= n)%nat -> rj_num t j -> num_end r -> parse_value n (t ++ r) = Some (j, r).
Proof.
  intros Hn (neg & l & lf & ex & L & E) Hr. destruct n as [|n]; [lia|].
  destruct (literal_start _ _ _ _ _ L) as (c & t' & -> & _ & N1 & N2 & N3 & N4 & N5 & N6).
  cbn [app parse_value]. rewrite (proj2 (Ascii.eqb_neq _ _) N1), (proj2 (Ascii.eqb_neq _ _) N2), (proj2 (Ascii.eqb_neq _ _) N3),
    (proj2 (Ascii.eqb_neq _ _) N4), (proj2 (Ascii.eqb_neq _ _) N5), (proj2 (Ascii.eqb_neq _ _) N6).
  change (c :: t' ++ r) with ((c :: t') ++ r). rewrite (parse_number_eq _ _ _ _ _ _ L Hr). now rewrite E.
Qed.

(** * Every text of the grammar is read as its document *)
Lemma parse_complete :
  (forall t j, rval t j -> forall n r, (2 * List.length t + 1 <= n)%nat -> num_end r -> parse_value n (t ++ r) = Some (j, r)) /\
  (forall t l, relems t l -> forall n r, (2 * List.length t + 2 <= n)%nat ->
     parse_elems n (skip_blanks (t ++ "]"%char :: r)) = Some (l, r) /\ consume "]" (skip_blanks (t ++ "]"%char :: r)) = None) /\
  (forall t m, rmembers t m -> forall n r, (2 * List.length t + 2 <= n)%nat ->
     parse_members n (skip_blanks (t ++ "}"%char :: r)) = Some (m, r) /\ consume "}" (skip_blanks (t ++ "}"%char :: r)) = None).
Proof.
  apply gjson_ind.
  - intros n r Hn _. destruct n as [|n]; [lia|]. reflexivity.
  - intros n r Hn _. destruct n as [|n]; [lia|]. reflexivity.
  - intros n r Hn _. destruct n as [|n]; [lia|]. reflexivity.
  - intros t j Hj n r Hn Hr. apply parse_value_number; [lia|assumption..].
  - intros t s B n r Hn Hr. destruct n as [|n]; [lia|]. destruct (bstring_start _ _ B) as (t' & E). pose proof (parse_string_eq t s r B) as P.
    subst t. cbn [app] in *. cbn [parse_value]. change (Ascii.eqb (ch 34) "n") with false. change (Ascii.eqb (ch 34) "t") with false.
    change (Ascii.eqb (ch 34) "f") with false. change (Ascii.eqb (ch 34) (ascii_of_N 34)) with true. cbv iota. now rewrite P.
  - intros w Hw n r Hn Hr. destruct n as [|n]; [lia|]. cbn [app parse_value].
    change (Ascii.eqb "[" "n") with false. change (Ascii.eqb "[" "t") with false. change (Ascii.eqb "[" "f") with false.
    change (Ascii.eqb "[" (ascii_of_N 34)) with false. change (Ascii.eqb "[" "{") with false. change (Ascii.eqb "[" "[") with true.
    cbv iota zeta. rewrite <- app_assoc. cbn [app]. rewrite skip_blanks_ws by (assumption || reflexivity). now rewrite consume_eq.
  - intros t l _ IH n r Hn Hr. destruct n as [|n]; [lia|]. cbn [List.length] in Hn. rewrite app_length in Hn. cbn [List.length] in Hn.
    cbn [app parse_value].
    change (Ascii.eqb "[" "n") with false. change (Ascii.eqb "[" "t") with false. change (Ascii.eqb "[" "f") with false.
    change (Ascii.eqb "[" (ascii_of_N 34)) with false. change (Ascii.eqb "[" "{") with false. change (Ascii.eqb "[" "[") with true.
    cbv iota zeta. rewrite <- app_assoc. cbn [app]. destruct (IH n r ltac:(lia)) as [-> ->]. reflexivity.
  - intros w Hw n r Hn Hr. destruct n as [|n]; [lia|]. cbn [app parse_value].
    change (Ascii.eqb "{" "n") with false. change (Ascii.eqb "{" "t") with false. change (Ascii.eqb "{" "f") with false.
    change (Ascii.eqb "{" (ascii_of_N 34)) with false. change (Ascii.eqb "{" "{") with true.
    cbv iota zeta. rewrite <- app_assoc. cbn [app]. rewrite skip_blanks_ws by (assumption || reflexivity). now rewrite consume_eq.
  - intros t m _ IH n r Hn Hr. destruct n as [|n]; [lia|]. cbn [List.length] in Hn. rewrite app_length in Hn. cbn [List.length] in Hn.
    cbn [app parse_value].
    change (Ascii.eqb "{" "n") with false. change (Ascii.eqb "{" "t") with false. change (Ascii.eqb "{" "f") with false.
    change (Ascii.eqb "{" (ascii_of_N 34)) with false. change (Ascii.eqb "{" "{") with true.
    cbv iota zeta. rewrite <- app_assoc. cbn [app]. destruct (IH n r ltac:(lia)) as [-> ->]. reflexivity.
  - (* one element *)
    intros w t j w' Hw V IH Hw' n r Hn. rewrite !app_length in Hn. destruct n as [|n]; [lia|].
    destruct (value_first _ _ V) as (c & t' & E & Hb & N1 & N2 & N3 & _).
    assert (S : skip_blanks ((w ++ t ++ w') ++ "]"%char :: r) = t ++ w' ++ "]"%char :: r).
    { rewrite <- !app_assoc. apply skip_blanks_ws; [assumption|]. rewrite E. exact Hb. }
    rewrite S. split.
    + cbn [parse_elems]. rewrite IH by (lia || (apply ws_num_end; [assumption|cbn; tauto])). cbv zeta.
      rewrite skip_blanks_ws by (assumption || reflexivity). change (consume "," ("]"%char :: r)) with (@None text). cbv iota.
      now rewrite consume_eq.
    + rewrite E. cbn [app]. now apply consume_neq.
  - (* more elements *)
    intros w t j w' ts l Hw V IH Hw' _ IHl n r Hn. rewrite !app_length in Hn. cbn [List.length] in Hn. destruct n as [|n]; [lia|].
    destruct (value_first _ _ V) as (c & t' & E & Hb & N1 & N2 & N3 & _).
    assert (S : skip_blanks ((w ++ t ++ w' ++ ","%char :: ts) ++ "]"%char :: r) = t ++ w' ++ ","%char :: ts ++ "]"%char :: r).
    { rewrite <- !app_assoc. cbn [app]. apply skip_blanks_ws; [assumption|]. rewrite E. exact Hb. }
    rewrite S. split.
    + cbn [parse_elems]. rewrite IH by (lia || (apply ws_num_end; [assumption|cbn; tauto])). cbv zeta.
      rewrite skip_blanks_ws by (assumption || reflexivity). rewrite consume_eq.
      destruct (IHl n r ltac:(lia)) as [-> _]. reflexivity.
    + rewrite E. cbn [app]. now apply consume_neq.
  - (* one member *)
    intros w k s w1 w2 t j w' Hw B Hw1 Hw2 V IH Hw' n r Hn. rewrite !app_length in Hn. cbn [List.length] in Hn. rewrite !app_length in Hn.
    destruct n as [|n]; [lia|].
    destruct (bstring_start _ _ B) as (k' & Ek).
    destruct (value_first _ _ V) as (c & t' & E & Hb & N1 & N2 & N3 & _).
    assert (S : skip_blanks ((w ++ k ++ w1 ++ ":"%char :: w2 ++ t ++ w') ++ "}"%char :: r) = k ++ w1 ++ ":"%char :: w2 ++ t ++ w' ++ "}"%char :: r).
    { rewrite <- !app_assoc. cbn [app]. rewrite <- !app_assoc. apply skip_blanks_ws; [assumption|]. rewrite Ek. reflexivity. }
    rewrite S. split.
    + cbn [parse_members]. rewrite (parse_string_eq k s _ B). rewrite skip_blanks_ws by (assumption || reflexivity). rewrite consume_eq.
      assert (S2 : skip_blanks (w2 ++ t ++ w' ++ "}"%char :: r) = t ++ w' ++ "}"%char :: r).
      { apply skip_blanks_ws; [assumption|]. rewrite E. exact Hb. }
      rewrite S2. rewrite IH by (lia || (apply ws_num_end; [assumption|cbn; tauto])). cbv zeta.
      rewrite skip_blanks_ws by (assumption || reflexivity). change (consume "," ("}"%char :: r)) with (@None text). cbv iota.
      now rewrite consume_eq.
    + rewrite Ek. reflexivity.
  - (* more members *)
    intros w k s w1 w2 t j w' ts m Hw B Hw1 Hw2 V IH Hw' _ IHm n r Hn. rewrite !app_length in Hn. cbn [List.length] in Hn.
    rewrite !app_length in Hn. cbn [List.length] in Hn. destruct n as [|n]; [lia|].
    destruct (bstring_start _ _ B) as (k' & Ek).
    destruct (value_first _ _ V) as (c & t' & E & Hb & N1 & N2 & N3 & _).
    assert (S : skip_blanks ((w ++ k ++ w1 ++ ":"%char :: w2 ++ t ++ w' ++ ","%char :: ts) ++ "}"%char :: r) =
                k ++ w1 ++ ":"%char :: w2 ++ t ++ w' ++ ","%char :: ts ++ "}"%char :: r).
    { rewrite <- !app_assoc. cbn [app]. rewrite <- !app_assoc. apply skip_blanks_ws; [assumption|]. rewrite Ek. reflexivity. }
    rewrite S. split.
    + cbn [parse_members]. rewrite (parse_string_eq k s _ B). rewrite skip_blanks_ws by (assumption || reflexivity). rewrite consume_eq.
      assert (S2 : skip_blanks (w2 ++ t ++ w' ++ ","%char :: ts ++ "}"%char :: r) = t ++ w' ++ ","%char :: ts ++ "}"%char :: r).
      { apply skip_blanks_ws; [assumption|]. rewrite E. exact Hb. }
      rewrite S2. rewrite IH by (lia || (apply ws_num_end; [assumption|cbn; tauto])). cbv zeta.
      rewrite skip_blanks_ws by (assumption || reflexivity). rewrite consume_eq.
      destruct (IHm n r ltac:(lia)) as [-> _]. reflexivity.
    + rewrite Ek. reflexivity.
Qed.

(** * Everything read is a text of the grammar *)
Lemma gelems_ws w t l : ws w -> relems t l -> relems (w ++ t) l.
Proof.
  intros Hw H. inversion H; subst; rewrite app_assoc; constructor; try assumption; now apply Forall_app.
Qed.
Lemma gmembers_ws w t l : ws w -> rmembers t l -> rmembers (w ++ t) l.
Proof.
  intros Hw H. inversion H; subst; rewrite app_assoc; constructor; try assumption; now apply Forall_app.
Qed.
Lemma consume_all_inv w t r : consume_all w t = Some r -> t = w ++ r.
Proof.
  revert t. induction w as [|c w IH]; intros t; cbn [consume_all app].
  - intros E. apply Some_inj in E. exact E.
  - destruct (consume c t) as [t'|] eqn:E; [|discriminate]. apply consume_inv in E. subst t. intros H. apply IH in H. now subst.
Qed.

Lemma parse_sound n :
  (forall t j r, parse_value n t = Some (j, r) -> exists u, t = u ++ r /\ rval u j) /\
  (forall t l r, parse_elems n t = Some (l, r) -> exists u, t = u ++ "]"%char :: r /\ relems u l) /\
  (forall t m r, parse_members n t = Some (m, r) -> exists u, t = u ++ "}"%char :: r /\ rmembers u m).
Proof.
  induction n as [|n (IHv & IHe & IHm)]; [repeat split; intros; discriminate|]. split; [|split].
  - intros t j r H. destruct t as [|c t]; [discriminate|]. cbn [parse_value] in H.
    destruct (Ascii.eqb_spec c "n") as [->|_].
    { destruct (consume_all _ t) as [r1|] eqn:E; [|discriminate]. injection H as <- <-. apply consume_all_inv in E. subst t.
      exists (txt "null"). split; [reflexivity|constructor]. }
    destruct (Ascii.eqb_spec c "t") as [->|_].
    { destruct (consume_all _ t) as [r1|] eqn:E; [|discriminate]. injection H as <- <-. apply consume_all_inv in E. subst t.
      exists (txt "true"). split; [reflexivity|constructor]. }
    destruct (Ascii.eqb_spec c "f") as [->|_].
    { destruct (consume_all _ t) as [r1|] eqn:E; [|discriminate]. injection H as <- <-. apply consume_all_inv in E. subst t.
      exists (txt "false"). split; [reflexivity|constructor]. }
    destruct (Ascii.eqb_spec c (ascii_of_N 34)) as [->|_].
    { destruct (parse_string _) as [[s r1]|] eqn:E; [|discriminate]. injection H as <- <-. apply parse_string_inv in E.
      destruct E as (u & E & B). exists u. split; [exact E|]. now apply gv_string. }
    destruct (Ascii.eqb_spec c "{") as [->|_].
    { cbv zeta in H. destruct (skip_blanks_split t) as (w & E & Hw & _).
      destruct (consume "}" (skip_blanks t)) as [r1|] eqn:C.
      - injection H as <- <-. apply consume_inv in C. exists ("{"%char :: w ++ ["}"%char]). split; [rewrite E, C; cbn [app]; now rewrite <- app_assoc|].
        now apply gv_obj0.
      - destruct (parse_members n (skip_blanks t)) as [[m r1]|] eqn:P; [|discriminate]. injection H as <- <-.
        destruct (IHm _ _ _ P) as (u & Eu & M). exists ("{"%char :: (w ++ u) ++ ["}"%char]). split; [rewrite E, Eu; cbn [app]; now rewrite <- !app_assoc|].
        apply gv_obj. now apply gmembers_ws. }
    destruct (Ascii.eqb_spec c "[") as [->|_].
    { cbv zeta in H. destruct (skip_blanks_split t) as (w & E & Hw & _).
      destruct (consume "]" (skip_blanks t)) as [r1|] eqn:C.
      - injection H as <- <-. apply consume_inv in C. exists ("["%char :: w ++ ["]"%char]). split; [rewrite E, C; cbn [app]; now rewrite <- app_assoc|].
        now apply gv_arr0.
      - destruct (parse_elems n (skip_blanks t)) as [[m r1]|] eqn:P; [|discriminate]. injection H as <- <-.
        destruct (IHe _ _ _ P) as (u & Eu & M). exists ("["%char :: (w ++ u) ++ ["]"%char]). split; [rewrite E, Eu; cbn [app]; now rewrite <- !app_assoc|].
        apply gv_arr. now apply gelems_ws. }
    apply parse_number_inv in H. destruct H as (u & neg & l & lf & ex & E & L & R). exists u. split; [exact E|].
    apply gv_number. exists neg, l, lf, ex. auto.
  - intros t l r H. cbn [parse_elems] in H.
    destruct (parse_value n t) as [[j r0]|] eqn:V; [|discriminate]. destruct (IHv _ _ _ V) as (u & -> & Hu). cbv zeta in H.
    destruct (skip_blanks_split r0) as (w & E & Hw & _). rewrite E. clear E.
    destruct (consume "," (skip_blanks r0)) as [r1|] eqn:C.
    + apply consume_inv in C. rewrite C. destruct (parse_elems n (skip_blanks r1)) as [[l1 r2]|] eqn:P; [|discriminate].
      injection H as <- <-. destruct (IHe _ _ _ P) as (u1 & E1 & H1). destruct (skip_blanks_split r1) as (w1 & E & Hw1 & _).
      rewrite E, E1. exists ([] ++ u ++ w ++ ","%char :: w1 ++ u1). split; [cbn [app]; rewrite <- !app_assoc; cbn [app]; now rewrite <- !app_assoc|].
      constructor; try assumption; [constructor|]. now apply gelems_ws.
    + destruct (consume "]" (skip_blanks r0)) as [r1|] eqn:C1; [|discriminate]. apply consume_inv in C1. rewrite C1. injection H as <- <-.
      exists ([] ++ u ++ w). split; [cbn [app]; now rewrite <- !app_assoc|]. constructor; try assumption. constructor.
  - intros t m r H. cbn [parse_members] in H.
    destruct (parse_string t) as [[k r0]|] eqn:S; [|discriminate]. apply parse_string_inv in S. destruct S as (uk & -> & B).
    destruct (skip_blanks_split r0) as (w1 & E & Hw1 & _). rewrite E. clear E.
    destruct (consume ":" (skip_blanks r0)) as [r1|] eqn:C; [|discriminate]. apply consume_inv in C. rewrite C. clear C.
    destruct (skip_blanks_split r1) as (w2 & E & Hw2 & _). rewrite E. clear E.
    destruct (parse_value n (skip_blanks r1)) as [[j r2]|] eqn:V; [|discriminate]. destruct (IHv _ _ _ V) as (u & -> & Hu). cbv zeta in H.
    destruct (skip_blanks_split r2) as (w & E & Hw & _). rewrite E. clear E.
    destruct (consume "," (skip_blanks r2)) as [r3|] eqn:C.
    + apply consume_inv in C. rewrite C. destruct (parse_members n (skip_blanks r3)) as [[l1 r4]|] eqn:P; [|discriminate].
      injection H as <- <-. destruct (IHm _ _ _ P) as (u1 & E1 & H1). destruct (skip_blanks_split r3) as (w3 & E & Hw3 & _).
      rewrite E, E1. exists ([] ++ uk ++ w1 ++ ":"%char :: w2 ++ u ++ w ++ ","%char :: w3 ++ u1).
      split; [cbn [app]; rewrite <- !app_assoc; cbn [app]; rewrite <- !app_assoc; cbn [app]; now rewrite <- !app_assoc|].
      constructor; try assumption; [constructor|]. now apply gmembers_ws.
    + destruct (consume "}" (skip_blanks r2)) as [r3|] eqn:C1; [|discriminate]. apply consume_inv in C1. rewrite C1. injection H as <- <-.
      exists ([] ++ uk ++ w1 ++ ":"%char :: w2 ++ u ++ w). split; [cbn [app]; rewrite <- !app_assoc; cbn [app]; now rewrite <- !app_assoc|].
      constructor; try assumption. constructor.
Qed.

(** * Documents *)
Definition ended (t : text) : Prop := match t with [] => True | c :: _ => byte c = 0%N end.
Lemma ended_num_end w v : ws w -> ended v -> num_end (w ++ v).
Proof.
  intros Hw Hv. destruct Hw as [|b w Hb Hw]; cbn [app].
  - destruct v as [|c v]; [exact I|]. cbn in Hv. rewrite <- (ch_byte c), Hv. repeat split; discriminate.
  - exact (ws_num_end (b :: w) "]"%char [] (Forall_cons _ Hb Hw) (or_introl eq_refl)).
Qed.
Lemma at_end_spec t : at_end t = true <-> ended t.
Proof. destruct t as [|c t]; unfold at_end, ended, byte; [tauto|]. exact (N.eqb_eq (N_of_ascii c) 0). Qed.

Theorem rapidjson_spec t j : rapidjson t = Some j <-> exists u v, t = u ++ v /\ ended v /\ gtext bstring rj_num u j.
Proof.
  split.
  - intros H. unfold rapidjson in H. cbv zeta in H. destruct (at_end (skip_blanks t)) eqn:E0; [discriminate|].
    destruct (parse_value _ (skip_blanks t)) as [[j' r]|] eqn:P; [|discriminate].
    destruct (at_end (skip_blanks r)) eqn:E1; [|discriminate]. apply Some_inj in H. subst j'.
    apply (proj1 (parse_sound _)) in P. destruct P as (u & Eu & V).
    destruct (skip_blanks_split t) as (w & Ew & Hw & _). destruct (skip_blanks_split r) as (w' & Ew' & Hw' & _).
    exists (w ++ u ++ w'), (skip_blanks r). split.
    { rewrite Ew, Eu. rewrite Ew' at 1. now rewrite <- !app_assoc. }
    split; [now apply at_end_spec|]. exists w, u, w'. auto.
  - intros (u & v & -> & Hv & (w & x & w' & -> & Hw & V & Hw')).
    destruct (value_first _ _ V) as (c & x' & E & Hb & _ & _ & _ & H0).
    assert (S : skip_blanks ((w ++ x ++ w') ++ v) = x ++ w' ++ v).
    { rewrite <- !app_assoc. apply skip_blanks_ws; [assumption|]. rewrite E. exact Hb. }
    unfold rapidjson. rewrite S. cbv zeta.
    assert (A : at_end (x ++ w' ++ v) = false).
    { rewrite E. cbn [app at_end]. now apply N.eqb_neq. }
    rewrite A. rewrite (proj1 parse_complete _ _ V); [|rewrite app_length; lia|now apply ended_num_end].
    assert (B : at_end (skip_blanks (w' ++ v)) = true).
    { rewrite skip_blanks_ws; [now apply at_end_spec|assumption|]. destruct v as [|b v]; [exact I|].
      cbn in Hv. cbn. rewrite <- (ch_byte b), Hv. reflexivity. }
    now rewrite B.
Qed.
