(** The lexer of from_json2 finds the tokens of SJsonToks.v. *)
From Coq Require Import ZArith Bool Lia Ascii String List.
From Verif Require Import Base F64 StrMap Value MBasic MNum LNum MText MJson MJson2 SJsonText SJsonToks LJson2Run LJson2Lex.
Import ListNotations.
Local Open Scope Z_scope.

Definition kind (k : tk) : Z :=
  match k with
  | Lcurly => S_LCURLY | Rcurly => S_RCURLY | Lbrack => S_LBRACE | Rbrack => S_RBRACE | Comma => S_COMMA | Colon => S_COLON
  | KTrue => S_TRUE | KFalse => S_FALSE | KNull => S_NULL | Str => S_STRING | Int => S_INTEGER | Real => S_FLOAT
  end.

(** * Characters *)
Lemma all_ascii (P : ascii -> Prop) : (forall n, (n < 256)%N -> P (ascii_of_N n)) -> forall c, P c.
Proof. intros H c. rewrite <- (ascii_N_embedding c). apply H. apply N_ascii_bounded. Qed.
Lemma lblank_space c : lblank c <-> is_space c = true.
Proof.
  unfold lblank, is_space, byte. rewrite orb_true_iff, andb_true_iff, N.eqb_eq, !N.leb_le. tauto.
Qed.
Lemma ldigit_isdig c : ldigit c <-> isdig c = true.
Proof.
  split.
  - intros (d & H & ->). apply isdig_digit. unfold is_digit. lia.
  - unfold isdig. destruct (digit_val c) as [d|] eqn:E; [|discriminate]. intros _. exists d. revert E. revert c. intros c.
    unfold dig. destruct c as [[] [] [] [] [] [] [] []]; cbn; intros E; try discriminate; injection E as <-; (split; [lia|reflexivity]).
Qed.
Lemma lsign_is c : lsign c <-> is_sign c = true.
Proof. unfold lsign, is_sign. rewrite orb_true_iff, !Ascii.eqb_eq. tauto. Qed.
Lemma is_e_iff c : is_e c = true <-> c = "e"%char \/ c = "E"%char.
Proof. unfold is_e. now rewrite orb_true_iff, !Ascii.eqb_eq. Qed.
Lemma after_stops t : after_number t <-> stops t.
Proof.
  unfold after_number, stops. split.
  - intros (c & t' & -> & H1 & H2 & H3 & H4 & H5). rewrite ldigit_isdig in H1. rewrite lsign_is in H2.
    split; [now destruct (isdig c)|]. split; [assumption|]. split; [|now destruct (is_sign c)].
    destruct (is_e c) eqn:E; [|reflexivity]. apply is_e_iff in E. tauto.
  - destruct t as [|c t']; [contradiction|]. intros (H1 & H2 & H3 & H4). exists c, t'. split; [reflexivity|].
    rewrite ldigit_isdig, lsign_is, H1, H4. split; [discriminate|]. split; [discriminate|]. split; [assumption|].
    split; intros ->; discriminate H3.
Qed.
Lemma byte_code c : code c = Z.of_N (byte c).
Proof. reflexivity. Qed.

(** * Strings *)
Lemma cont_ok c : cont c <-> ok_unicode c = true.
Proof. unfold cont, ok_unicode. rewrite andb_true_iff, Z.leb_le, Z.ltb_lt, byte_code. lia. Qed.
Lemma lchars_lex u : lchars u -> forall r, exists s, lex_string (u ++ quote :: r) = Some (s, r).
Proof.
  induction 1 as [|c t Hc Hq Hb _ IH|c t _ IH|c c1 t Hc H1 _ IH|c c1 c2 t Hc H1 H2 _ IH|c c1 c2 c3 t Hc H1 H2 H3 _ IH]; intros r; cbn [app].
  - exists []. reflexivity.
  - destruct (IH r) as (s & E). exists (c :: s). cbn [lex_string]. rewrite (proj2 (Ascii.eqb_neq c quote) Hq).
    replace (unicode_1 c) with true by (symmetry; apply Z.ltb_lt; rewrite byte_code; lia).
    rewrite (proj2 (Ascii.eqb_neq c bslash) Hb), E. reflexivity.
  - destruct (IH r) as (s & E). exists (unescape c ++ s). change (ch 92) with bslash. cbn [lex_string].
    replace (Ascii.eqb bslash quote) with false by reflexivity. replace (unicode_1 bslash) with true by reflexivity.
    rewrite Ascii.eqb_refl, E. reflexivity.
  - destruct (IH r) as (s & E). exists (c :: c1 :: s). cbn [lex_string]. rewrite eqb_quote, byte_code, (proj2 (Z.eqb_neq _ _)) by lia.
    replace (unicode_1 c) with false by (symmetry; apply Z.ltb_ge; rewrite byte_code; lia).
    rewrite (proj1 (cont_ok c1) H1). cbn [negb]. replace (unicode_min_3 c) with false by (symmetry; apply Z.leb_gt; rewrite byte_code; lia).
    rewrite E. reflexivity.
  - destruct (IH r) as (s & E). exists (c :: c1 :: c2 :: s). cbn [lex_string]. rewrite eqb_quote, byte_code, (proj2 (Z.eqb_neq _ _)) by lia.
    replace (unicode_1 c) with false by (symmetry; apply Z.ltb_ge; rewrite byte_code; lia).
    rewrite (proj1 (cont_ok c1) H1), (proj1 (cont_ok c2) H2). cbn [negb]. replace (unicode_min_3 c) with true by (symmetry; apply Z.leb_le; rewrite byte_code; lia).
    replace (unicode_min_4 c) with false by (symmetry; apply Z.leb_gt; rewrite byte_code; lia).
    rewrite E. reflexivity.
  - destruct (IH r) as (s & E). exists (c :: c1 :: c2 :: c3 :: s). cbn [lex_string]. rewrite eqb_quote, byte_code, (proj2 (Z.eqb_neq _ _)) by lia.
    replace (unicode_1 c) with false by (symmetry; apply Z.ltb_ge; rewrite byte_code; lia).
    rewrite (proj1 (cont_ok c1) H1), (proj1 (cont_ok c2) H2), (proj1 (cont_ok c3) H3). cbn [negb].
    replace (unicode_min_3 c) with true by (symmetry; apply Z.leb_le; rewrite byte_code; lia).
    replace (unicode_min_4 c) with true by (symmetry; apply Z.leb_le; rewrite byte_code; lia).
    rewrite E. reflexivity.
Qed.
Lemma lex_lchars : forall n t s r, (length t <= n)%nat -> lex_string t = Some (s, r) -> exists u, t = u ++ quote :: r /\ lchars u.
Proof.
  induction n as [|n IH]; intros t s r L E.
  { destruct t; [discriminate|cbn in L; lia]. }
  destruct t as [|c t1]; [discriminate|]. cbn [lex_string] in E. cbn [length] in L.
  destruct (Ascii.eqb c quote) eqn:Eq.
  { injection E as _ <-. apply Ascii.eqb_eq in Eq. subst c. exists []. split; [reflexivity|constructor]. }
  apply Ascii.eqb_neq in Eq.
  destruct (unicode_1 c) eqn:E1.
  { apply Z.ltb_lt in E1. rewrite byte_code in E1.
    destruct (Ascii.eqb c bslash) eqn:Eb.
    - apply Ascii.eqb_eq in Eb. subst c. destruct t1 as [|e t2]; [discriminate|]. destruct (lex_string t2) as [[s' r']|] eqn:E2; [|discriminate].
      injection E as _ ->. cbn [length] in L. apply IH in E2 as (u & -> & Hu); [|lia]. exists (bslash :: e :: u). split; [reflexivity|now constructor].
    - destruct (lex_string t1) as [[s' r']|] eqn:E2; [|discriminate]. injection E as _ ->. apply IH in E2 as (u & -> & Hu); [|lia].
      exists (c :: u). split; [reflexivity|]. apply lc_plain; [lia|exact Eq|now apply Ascii.eqb_neq in Eb|assumption]. }
  apply Z.ltb_ge in E1. rewrite byte_code in E1.
  destruct t1 as [|c1 t2]; [discriminate|]. destruct (ok_unicode c1) eqn:O1; [|discriminate]. cbn [negb length] in *. apply cont_ok in O1.
  destruct (unicode_min_3 c) eqn:E3.
  2:{ apply Z.leb_gt in E3. rewrite byte_code in E3. destruct (lex_string t2) as [[s' r']|] eqn:E2; [|discriminate]. injection E as _ ->.
      apply IH in E2 as (u & -> & Hu); [|lia]. exists (c :: c1 :: u). split; [reflexivity|]. apply lc_2; [lia|assumption|assumption]. }
  apply Z.leb_le in E3. rewrite byte_code in E3.
  destruct t2 as [|c2 t3]; [discriminate|]. destruct (ok_unicode c2) eqn:O2; [|discriminate]. cbn [negb length] in *. apply cont_ok in O2.
  destruct (unicode_min_4 c) eqn:E4.
  2:{ apply Z.leb_gt in E4. rewrite byte_code in E4. destruct (lex_string t3) as [[s' r']|] eqn:E2; [|discriminate]. injection E as _ ->.
      apply IH in E2 as (u & -> & Hu); [|lia]. exists (c :: c1 :: c2 :: u). split; [reflexivity|]. apply lc_3; [lia|assumption|assumption|assumption]. }
  apply Z.leb_le in E4. rewrite byte_code in E4.
  destruct t3 as [|c3 t4]; [discriminate|]. destruct (ok_unicode c3) eqn:O3; [|discriminate]. cbn [negb length] in *. apply cont_ok in O3.
  destruct (lex_string t4) as [[s' r']|] eqn:E2; [|discriminate]. injection E as _ ->.
  apply IH in E2 as (u & -> & Hu); [|lia]. exists (c :: c1 :: c2 :: c3 :: u). split; [reflexivity|]. apply lc_4; [lia|assumption..].
Qed.

(** * Numbers *)
(** What has been read in each state. *)
Definition in_state (st : Z) (p : text) : Prop :=
  (st = 0 /\ exists c, lsign c /\ p = [c]) \/ (st = 1 /\ lint p) \/ (st = 2 /\ lfrac p) \/
  (st = 3 /\ exists m e, p = m ++ [e] /\ (lint m \/ lfrac m) /\ (e = "e"%char \/ e = "E"%char)) \/ (st = 4 /\ lexp p).
Definition num_kind (k : Z) (t : text) : Prop := (k = S_INTEGER /\ lint t) \/ (k = S_FLOAT /\ (lfrac t \/ lexp t)).
Lemma state_digit st p c : in_state st p -> ldigit c -> in_state (if st =? 0 then 1 else if st =? 3 then 4 else st) (p ++ [c]).
Proof.
  intros [(-> & s & Hs & ->)|[(-> & sg & ds & -> & Hs & Hd & Hn)|[(-> & sg & ds & fs & -> & Hs & Hd & Hf & Hn)|[(-> & m & e & -> & Hm & He)|(-> & m & e & x & ds & -> & Hm & He & Hx & Hd)]]]] Hc; cbn [Z.eqb Pos.eqb].
  - right. left. split; [reflexivity|]. exists [s], [c]. split; [reflexivity|]. split; [right; eauto|]. split; [now constructor|discriminate].
  - right. left. split; [reflexivity|]. exists sg, (ds ++ [c]). split; [now rewrite app_assoc|]. split; [assumption|].
    split; [apply Forall_app; split; [assumption|now constructor]|]. now destruct ds.
  - right. right. left. split; [reflexivity|]. exists sg, ds, (fs ++ [c]). split; [rewrite <- !app_assoc; reflexivity|]. split; [assumption|]. split; [assumption|].
    split; [apply Forall_app; split; [assumption|now constructor]|assumption].
  - do 4 right. split; [reflexivity|]. exists m, e, c, []. split; [rewrite <- app_assoc; reflexivity|]. split; [assumption|]. split; [assumption|]. split; [now right|constructor].
  - do 4 right. split; [reflexivity|]. exists m, e, x, (ds ++ [c]). split; [rewrite <- app_assoc; reflexivity|]. split; [assumption|]. split; [assumption|]. split; [assumption|].
    apply Forall_app; split; [assumption|now constructor].
Qed.
Lemma state_point st p : in_state st p -> (1 <? st) = false -> in_state 2 (p ++ ["."%char]).
Proof.
  intros [(-> & s & Hs & ->)|[(-> & sg & ds & -> & Hs & Hd & Hn)|[(-> & _)|[(-> & _)|(-> & _)]]]] L; try discriminate L; right; right; left; (split; [reflexivity|]).
  - exists [s], [], []. split; [reflexivity|]. split; [right; eauto|]. split; [constructor|]. split; [constructor|discriminate].
  - exists sg, ds, []. split; [now rewrite app_assoc|]. split; [assumption|]. split; [assumption|]. split; [constructor|]. intros E. apply app_eq_nil in E. now apply Hn.
Qed.
Lemma state_e st p c : in_state st p -> (2 <? st) || (st =? 0) = false -> is_e c = true -> in_state 3 (p ++ [c]).
Proof.
  intros H L Hc. apply is_e_iff in Hc. right. right. right. left. split; [reflexivity|]. exists p, c. split; [reflexivity|]. split; [|assumption].
  destruct H as [(-> & _)|[(-> & H)|[(-> & H)|[(-> & _)|(-> & _)]]]]; try discriminate L; auto.
Qed.
Lemma state_sign p c : in_state 3 p -> lsign c -> in_state 4 (p ++ [c]).
Proof.
  intros [(E & _)|[(E & _)|[(E & _)|[(_ & m & e & -> & Hm & He)|(E & _)]]]] Hc; try discriminate E.
  do 4 right. split; [reflexivity|]. exists m, e, c, []. split; [rewrite <- app_assoc; reflexivity|]. split; [assumption|]. split; [assumption|]. split; [now left|constructor].
Qed.
Lemma lex_number_sound : forall t st p k l r, in_state st p -> lex_number st t = Some ((k, l), r) ->
  t = l ++ r /\ num_kind k (p ++ l) /\ stops r.
Proof.
  induction t as [|c t IH]; intros st p k l r H E; [discriminate|]. cbn [lex_number] in E.
  assert (G : forall st', in_state st' (p ++ [c]) ->
    match lex_number st' t with Some ((k, l), r) => Some ((k, c :: l), r) | None => None end = Some ((k, l), r) ->
    c :: t = l ++ r /\ num_kind k (p ++ l) /\ stops r).
  { intros st' H' E'. destruct (lex_number st' t) as [[[k' l'] r']|] eqn:L; [|discriminate]. injection E' as <- <- <-.
    destruct (IH _ _ _ _ _ H' L) as (-> & Hk & Hr). rewrite <- app_assoc in Hk. auto. }
  destruct (isdig c) eqn:Ed. { apply (G _ (state_digit _ _ _ H (proj2 (ldigit_isdig c) Ed)) E). }
  destruct (Ascii.eqb c ".") eqn:Ep.
  { destruct (1 <? st) eqn:L; [discriminate|]. apply Ascii.eqb_eq in Ep. subst c. apply (G _ (state_point _ _ H L) E). }
  destruct (is_e c) eqn:Ee. { destruct (_ || _) eqn:L; [discriminate|]. apply (G _ (state_e _ _ _ H L Ee) E). }
  destruct (is_sign c) eqn:Es.
  { destruct (Z.eqb_spec st 3) as [->|]; [|discriminate]. apply (G _ (state_sign _ _ H (proj2 (lsign_is c) Es)) E). }
  assert (Sp : stops (c :: t)) by (cbn [stops]; apply Ascii.eqb_neq in Ep; auto).
  destruct (Z.eqb_spec st 1) as [->|N1].
  { injection E as <- <- <-. split; [reflexivity|]. rewrite app_nil_r. split; [|assumption]. left. split; [reflexivity|].
    destruct H as [(E & _)|[(_ & H)|[(E & _)|[(E & _)|(E & _)]]]]; try discriminate E. assumption. }
  destruct ((st =? 4) || (st =? 2)) eqn:L; [|discriminate]. injection E as <- <- <-. split; [reflexivity|]. rewrite app_nil_r. split; [|assumption].
  right. split; [reflexivity|]. destruct H as [(-> & _)|[(-> & H)|[(-> & H)|[(-> & _)|(-> & H)]]]]; try discriminate L; try contradiction; auto.
Qed.

(** The other direction: the states along a number. *)
Definition nstep (st : Z) (c : ascii) : option Z :=
  if isdig c then Some (if st =? 0 then 1 else if st =? 3 then 4 else st)
  else if Ascii.eqb c "." then if 1 <? st then None else Some 2
  else if is_e c then if (2 <? st) || (st =? 0) then None else Some 3
  else if is_sign c then if st =? 3 then Some 4 else None
  else None.
Fixpoint nsteps (st : Z) (t : text) : option Z :=
  match t with [] => Some st | c :: t' => match nstep st c with Some st' => nsteps st' t' | None => None end end.
Lemma nsteps_app st t t' : nsteps st (t ++ t') = match nsteps st t with Some st' => nsteps st' t' | None => None end.
Proof. revert st. induction t as [|c t IH]; intros st; cbn [app nsteps]; [reflexivity|]. destruct (nstep st c); [apply IH|reflexivity]. Qed.
Lemma lex_number_complete l : forall st st' r, nsteps st l = Some st' -> In st' [1; 2; 4] -> stops r ->
  lex_number st (l ++ r) = Some ((kinds st', l), r).
Proof.
  induction l as [|c l IH]; intros st st' r E Hs Hr; cbn [nsteps app] in *.
  - injection E as <-. now apply lex_number_stop.
  - unfold nstep in E. cbn [lex_number]. destruct (isdig c); [now rewrite (IH _ _ _ E Hs Hr)|].
    destruct (Ascii.eqb c "."); [destruct (1 <? st); [discriminate|now rewrite (IH _ _ _ E Hs Hr)]|].
    destruct (is_e c); [destruct (_ || _); [discriminate|now rewrite (IH _ _ _ E Hs Hr)]|].
    destruct (is_sign c); [|discriminate]. destruct (st =? 3); [now rewrite (IH _ _ _ E Hs Hr)|discriminate].
Qed.
Lemma nsteps_digits ds : Forall ldigit ds -> forall st, In st [1; 2; 4] -> nsteps st ds = Some st.
Proof.
  induction 1 as [|c ds Hc _ IH]; intros st Hs; cbn [nsteps]; [reflexivity|]. unfold nstep. rewrite (proj1 (ldigit_isdig c) Hc).
  destruct Hs as [<-|[<-|[<-|[]]]]; apply IH; cbn; auto.
Qed.
(** A number is a first character and a path to the end. *)
Definition npath (t : text) (st : Z) : Prop :=
  exists c l, t = c :: l /\ (is_sign c || isdig c)%bool = true /\ nsteps (if is_sign c then 0 else 1) l = Some st.
Lemma npath_app t u st st' : npath t st -> nsteps st u = Some st' -> npath (t ++ u) st'.
Proof. intros (c & l & -> & Hc & E) E'. exists c, (l ++ u). split; [reflexivity|]. split; [assumption|]. now rewrite nsteps_app, E. Qed.
Lemma digit_not_sign c : ldigit c -> is_sign c = false.
Proof. intros (d & H & ->). assert (is_digit d) as D by (unfold is_digit; lia). change (ch (Z.to_N (48 + d))) with (digit d). clear H; revert d D. clear. apply digit_cases; reflexivity. Qed.
Lemma lint_path t : lint t -> npath t 1.
Proof.
  intros (sg & ds & -> & Hs & Hd & Hn). destruct Hd as [|d ds Hd Hds]; [contradiction|].
  assert (I : nsteps 1 ds = Some 1) by (apply nsteps_digits; [assumption|cbn; auto]). pose proof (proj1 (ldigit_isdig d) Hd) as E.
  destruct Hs as [->|(c & Hc & ->)]; cbn [app].
  - exists d, ds. split; [reflexivity|]. rewrite E, (digit_not_sign d Hd). split; [reflexivity|exact I].
  - exists c, (d :: ds). split; [reflexivity|]. apply lsign_is in Hc. rewrite Hc. split; [reflexivity|]. cbn [nsteps]. unfold nstep. rewrite E. exact I.
Qed.
Lemma lfrac_path t : lfrac t -> npath t 2.
Proof.
  intros (sg & ds & fs & -> & Hs & Hd & Hf & Hn).
  assert (I : nsteps 2 fs = Some 2) by (apply nsteps_digits; [assumption|cbn; auto]).
  destruct Hd as [|d ds Hd Hds].
  - destruct Hs as [->|(c & Hc & ->)]; [contradiction|]. cbn [app]. exists c, ("."%char :: fs). split; [reflexivity|].
    apply lsign_is in Hc. rewrite Hc. split; [reflexivity|]. exact I.
  - rewrite app_assoc. apply (npath_app _ _ 1); [|exact I]. apply lint_path. exists sg, (d :: ds). split; [reflexivity|]. split; [assumption|]. split; [now constructor|discriminate].
Qed.
Lemma lexp_path t : lexp t -> npath t 4.
Proof.
  intros (m & e & x & ds & -> & Hm & He & Hx & Hd).
  assert (I : nsteps 4 ds = Some 4) by (apply nsteps_digits; [assumption|cbn; auto]).
  assert (X : nstep 3 x = Some 4).
  { unfold nstep. destruct Hx as [[-> | ->]|Hx]; [reflexivity|reflexivity|]. rewrite (proj1 (ldigit_isdig x) Hx). reflexivity. }
  destruct Hm as [Hm|Hm]; [apply (npath_app m _ 1); [now apply lint_path|]|apply (npath_app m _ 2); [now apply lfrac_path|]];
    cbn [nsteps]; destruct He as [-> | ->];
    match goal with |- context [nstep ?a ?b] => replace (nstep a b) with (Some 3) by reflexivity end; now rewrite X.
Qed.

(** * Tokens *)
Lemma skip_lws w t : lws w -> (match t with c :: _ => ~ lblank c | [] => True end) -> skip_space (w ++ t) = t.
Proof.
  intros Hw Ht. induction Hw as [|c w Hc Hw IH]; cbn [app skip_space].
  - destruct t as [|c t]; [reflexivity|]. cbn [skip_space]. rewrite lblank_space in Ht. destruct (is_space c); [now destruct Ht|reflexivity].
  - now rewrite (proj1 (lblank_space c) Hc).
Qed.
Lemma skip_space_split t : exists w, t = w ++ skip_space t /\ lws w /\ match skip_space t with c :: _ => ~ lblank c | [] => True end.
Proof.
  induction t as [|c t IH]; cbn [skip_space]; [exists []; repeat split; constructor|]. destruct (is_space c) eqn:E.
  - destruct IH as (w & E' & Hw & Hc). exists (c :: w). split; [cbn [app]; congruence|]. split; [constructor; [now apply lblank_space|assumption]|exact Hc].
  - exists []. split; [reflexivity|]. split; [constructor|]. rewrite lblank_space. congruence.
Qed.
(** The first character of a token: an ASCII character that is not white space. *)
Lemma path_first t st : npath t st -> exists c l, t = c :: l /\ ~ lblank c /\ (byte c < 128)%N.
Proof.
  intros (c & l & -> & Hc & _). exists c, l. split; [reflexivity|]. apply orb_true_iff in Hc.
  assert (In c (map ch [43; 45; 48; 49; 50; 51; 52; 53; 54; 55; 56; 57]%N)) as I.
  { destruct Hc as [Hc|Hc].
    - apply lsign_is in Hc as [-> | ->]; cbn; auto.
    - apply ldigit_isdig in Hc as (d & H & ->). assert (is_digit d) as D by (unfold is_digit; lia).
      change (ch (Z.to_N (48 + d))) with (digit d). clear H; revert d D. clear. apply digit_cases; cbn; auto 20. }
  rewrite lblank_space. cbn [map In] in I.
  repeat (destruct I as [<-|I]; [split; [discriminate|reflexivity]|]). destruct I.
Qed.
Lemma num_token w t st r : lws w -> npath t st -> In st [1; 2; 4] -> stops r -> lex (w ++ t ++ r) = ((kinds st, t), r).
Proof.
  intros Hw Hp Hs Hr. destruct (path_first _ _ Hp) as (c0 & l0 & E & Hb & Ha). destruct Hp as (c & l & -> & Hc & Hn). injection E as <- <-.
  unfold lex. rewrite skip_lws by assumption. cbn [app].
  replace (unicode_1 c) with true by (symmetry; apply Z.ltb_lt; rewrite byte_code; lia). cbn [negb].
  assert (Ascii.eqb c quote = false) as ->. { apply Ascii.eqb_neq. intros ->. discriminate Hc. }
  rewrite Hc, (lex_number_complete _ _ _ _ Hn Hs Hr). reflexivity.
Qed.
Lemma token_lex w k u r : lws w -> ltoken k u r -> exists v, lex (w ++ u ++ r) = ((kind k, v), r).
Proof.
  intros Hw H. destruct H as [r|r|r|r|r|r|r|r|r|u r Hu|u r Hu Hr|u r Hu Hr];
    try (eexists; unfold lex; rewrite skip_lws by (assumption || (intros X; apply lblank_space in X; discriminate X)); reflexivity).
  - destruct (lchars_lex u Hu r) as (s & E). exists s. unfold lex. rewrite skip_lws by (assumption || (intros X; apply lblank_space in X; discriminate X)).
    cbn [app]. rewrite <- app_assoc. cbn [app]. replace (negb (unicode_1 (ch 34))) with false by reflexivity.
    replace (Ascii.eqb (ch 34) quote) with true by reflexivity. change (ch 34 :: r) with (quote :: r). rewrite E. reflexivity.
  - exists u. apply after_stops in Hr. apply (num_token w u 1 r); [assumption|now apply lint_path|cbn; auto|assumption].
  - exists u. apply after_stops in Hr.
    destruct Hu as [Hu|Hu]; [apply (num_token w u 2 r)|apply (num_token w u 4 r)]; try assumption; try (cbn; auto); [now apply lfrac_path|now apply lexp_path].
Qed.
Lemma skip_prefix_some p : forall t r, skip_prefix p t = Some r -> t = p ++ r.
Proof.
  induction p as [|a p IH]; intros t r E; cbn in E. { now injection E as <-. }
  destruct t as [|b t]; [discriminate|]. destruct (Ascii.eqb a b) eqn:Eb; [|discriminate]. apply Ascii.eqb_eq in Eb. subst b. cbn. now rewrite (IH _ _ E).
Qed.
(** What the lexer finds is a token, the end, or a byte with the high bit set. *)
Lemma lex_cases t k v r : lex t = ((k, v), r) ->
  (exists w x u, t = w ++ u ++ r /\ lws w /\ ltoken x u r /\ k = kind x) \/ k = S_EOF \/
  (k = S_ERROR /\ exists w c r', t = w ++ c :: r' /\ lws w /\ (128 <= byte c)%N).
Proof.
  unfold lex. destruct (skip_space_split t) as (w & Et & Hw & Hc). destruct (skip_space t) as [|c l]; intros E.
  { injection E as <- _ _. auto. }
  destruct (unicode_1 c) eqn:E1; cbn [negb] in E.
  2:{ injection E as <- _ _. do 2 right. split; [reflexivity|]. exists w, c, l. split; [assumption|]. split; [assumption|]. apply Z.ltb_ge in E1. rewrite byte_code in E1. lia. }
  destruct (Ascii.eqb c quote) eqn:Eq.
  { destruct (lex_string l) as [[s r0]|] eqn:Es; injection E as <- _ <-; [|auto]. apply Ascii.eqb_eq in Eq. subst c.
    apply (lex_lchars _ _ _ _ (le_n _)) in Es as (u & -> & Hu). left. exists w, Str, (ch 34 :: u ++ [ch 34]).
    split; [rewrite Et; cbn [app]; rewrite <- app_assoc; reflexivity|]. split; [assumption|]. split; [now constructor|reflexivity]. }
  destruct (is_sign c || isdig c)%bool eqn:En.
  { destruct (lex_number _ l) as [[[k0 l0] r0]|] eqn:El; injection E as <- _ <-; [|auto]. left.
    apply (lex_number_sound _ _ [c]) in El as (-> & Hk & Hr).
    - exists w, (if k0 =? S_INTEGER then Int else Real), (c :: l0). split; [assumption|]. split; [assumption|]. apply after_stops in Hr.
      destruct Hk as [[-> Hk]|[-> Hk]]; cbn [Z.eqb Pos.eqb S_INTEGER S_FLOAT app] in *; (split; [|reflexivity]); now constructor.
    - destruct (is_sign c) eqn:Es; [left; split; [reflexivity|]; exists c; split; [now apply lsign_is|reflexivity]|].
      right. left. split; [reflexivity|]. exists [], [c]. split; [reflexivity|]. split; [now left|]. split; [|discriminate].
      constructor; [|constructor]. now apply ldigit_isdig. }
  assert (K : forall p x, keyword p (kind x) (c :: l) = ((k, v), r) -> (forall r, ltoken x (txt p) r) ->
    (exists w x u, t = w ++ u ++ r /\ lws w /\ ltoken x u r /\ k = kind x) \/ k = S_EOF).
  { intros p x Ek Hx. unfold keyword in Ek. destruct (skip_prefix (txt p) (c :: l)) as [r0|] eqn:Ep; injection Ek as <- _ <-; [|auto].
    apply skip_prefix_some in Ep. left. exists w, x, (txt p). rewrite Ep in Et. auto. }
  assert (P : forall x, (forall r, ltoken x [c] r) -> ((kind x, [c]), l) = ((k, v), r) ->
    (exists w x u, t = w ++ u ++ r /\ lws w /\ ltoken x u r /\ k = kind x)).
  { intros x Hx E'. injection E' as <- _ <-. exists w, x, [c]. auto. }
  clear Eq En Hc E1.
  destruct c as [[] [] [] [] [] [] [] []];
    try (injection E as <- _ _; right; left; reflexivity);
    first [ left; apply (P Lcurly); [constructor|exact E] | left; apply (P Rcurly); [constructor|exact E]
          | left; apply (P Lbrack); [constructor|exact E] | left; apply (P Rbrack); [constructor|exact E]
          | left; apply (P Comma); [constructor|exact E] | left; apply (P Colon); [constructor|exact E]
          | destruct (K "true"%string KTrue E); [constructor|now left|now right; left]
          | destruct (K "false"%string KFalse E); [constructor|now left|now right; left]
          | destruct (K "null"%string KNull E); [constructor|now left|now right; left] ].
Qed.
Lemma token_first k u r : ltoken k u r -> exists c l, u = c :: l /\ ~ lblank c /\ (byte c < 128)%N.
Proof.
  intros H. destruct H; try (do 2 eexists; split; [reflexivity|]; rewrite lblank_space; split; [discriminate|reflexivity]).
  - apply (path_first _ 1). now apply lint_path.
  - destruct H as [H|H]; [apply (path_first _ 2); now apply lfrac_path|apply (path_first _ 4); now apply lexp_path].
Qed.
Lemma kind_range x : 0 < kind x < 15.
Proof. destruct x; cbv; split; reflexivity. Qed.
Lemma ends_lex t : ends t <-> exists v r, lex t = ((S_EOF, v), r).
Proof.
  split.
  - intros (w & r & -> & Hw & Hr). destruct (lex (w ++ r)) as [[k v] r0] eqn:E. pose proof E as E'. apply lex_cases in E as [(w' & x & u & E & Hw' & Hx & ->)|[->|(-> & w' & c & r' & E & Hw' & Hb)]].
    + exfalso. assert (r = u ++ r0) as Er.
      { destruct (token_first _ _ _ Hx) as (c & l & -> & Hc & _). rewrite <- (skip_lws w r Hw), E; [|destruct r; [exact I|apply Hr]]. apply skip_lws; assumption. }
      destruct r as [|c r]; [destruct (token_first _ _ _ Hx) as (c & l & -> & _); discriminate|]. now apply (proj2 (proj2 Hr) x u r0).
    + eauto.
    + exfalso. assert (r = c :: r') as Er.
      { rewrite <- (skip_lws w r Hw), E; [|destruct r; [exact I|apply Hr]]. apply skip_lws; [assumption|]. unfold lblank. intros [H|H]; rewrite ?H in Hb; lia. }
      subst r. destruct Hr as (_ & Hr & _). lia.
  - intros (v & r & E). destruct (skip_space_split t) as (w & Et & Hw & Hc). exists w, (skip_space t). split; [assumption|]. split; [assumption|].
    destruct (skip_space t) as [|c l] eqn:Es; [exact I|]. split; [assumption|]. split.
    + unfold lex in E. rewrite Es in E. destruct (unicode_1 c) eqn:E1; [|discriminate E]. apply Z.ltb_lt in E1. rewrite byte_code in E1. lia.
    + intros k u r' Eu Hk. rewrite Eu in Et. destruct (token_lex w k u r' Hw Hk) as (v' & E'). rewrite <- Et, E in E'.
      injection E' as E' _ _. pose proof (kind_range k) as R. rewrite <- E' in R. cbv in R. destruct R; discriminate.
Qed.
