(** from_json2 on JSON documents: the automaton performs the recursive reading [feed]. *)
From Coq Require Import ZArith Bool Lia Ascii String List.
From Verif Require Import Base F64 StrMap Value MBasic MNum LNum MText MJson MJson2 SJsonText LJson2Run LJson2Lex.
Import ListNotations.
Local Open Scope Z_scope.

(** Reading one value into the container on top of the stack. *)
Definition leaf (j : json) (g : gc) : gc :=
  match j with
  | JNull => clear g
  | JBool b => set_bool b g
  | JInt z => let c := clamp z in if (c <=? 2^31 - 1) && (- 2^31 <=? c) then set_int c g else set_long c g
  | JDbl x => set_real x g
  | JStr s => set_string s g
  | _ => g
  end.
Fixpoint feed (j : json) (g : gc) : gc :=
  match j with
  | JArr l => (fix go (l : list json) (c : gc) : gc :=
                 match l with [] => c | x :: l' => go l' (feed x c) end) l (on_slot (set_vector_sz 0) g)
  | JObj m => on_slot (fun s => GMap
                ((fix go (m : list (string * json)) (acc : list (string * gc)) : list (string * gc) :=
                    match m with
                    | [] => acc
                    | (k, x) :: m' => go m' (mset k (feed x (match mfind k acc with Some e => e | None => GNone end)) acc)
                    end) m (old_map s))) g
  | _ => on_slot (leaf j) g
  end.
Definition feed_elems (l : list json) (g : gc) : gc := fold_left (fun c x => feed x c) l g.
Fixpoint feed_members (m : list (string * json)) (acc : list (string * gc)) : list (string * gc) :=
  match m with
  | [] => acc
  | (k, x) :: m' => feed_members m' (mset k (feed x (match mfind k acc with Some e => e | None => GNone end)) acc)
  end.
Lemma feed_arr l g : feed (JArr l) g = feed_elems l (on_slot (set_vector_sz 0) g).
Proof.
  cbn [feed]. generalize (on_slot (set_vector_sz 0) g). induction l as [|x l IH]; intros c; [reflexivity|].
  cbn [feed_elems fold_left]. apply IH.
Qed.
Lemma feed_obj m g : feed (JObj m) g = on_slot (fun s => GMap (feed_members m (old_map s))) g.
Proof. reflexivity. Qed.

(** * Steps *)
Definition reach (p q : pst) : Prop := exists n, forall f, run (n + f) p = run f q.
Lemma reach_refl p : reach p p.
Proof. exists O. reflexivity. Qed.
Lemma reach_trans p q r : reach p q -> reach q r -> reach p r.
Proof. intros [n Hn] [m Hm]. exists (n + m)%nat. intros f. rewrite <- PeanoNat.Nat.add_assoc, Hn. apply Hm. Qed.
Lemma reach_step p q r : pstep p = Run q -> reach q r -> reach p r.
Proof. intros E [n Hn]. exists (S n). intros f. cbn [run plus]. rewrite E. apply Hn. Qed.

(** The entry of the tables for a state and a token: 0 for the default. *)
Definition act (s k : Z) : Z :=
  let i := tab yypact s + k in
  if (i <? 0) || (18 <? i) || negb (tab yycheck i =? k) then 0 else tab yytable i.
Lemma reach_shift s v S t k u r w a q : lex t = ((k, u), r) -> (s =? 15) = false -> (tab yypact s =? -15) = false ->
  act s k = a -> (0 <? a) = true ->
  reach (Pst ((a, u) :: (s, v) :: S) None r w) q -> reach (Pst ((s, v) :: S) None t w) q.
Proof.
  intros El Hs Hp Ha Hpos. apply reach_step. unfold pstep. cbn [stk la inp wr]. rewrite Hs, Hp, El.
  unfold act in Ha. destruct (_ || _ || _) eqn:E; [subst a; discriminate|]. rewrite Ha, Hpos. reflexivity.
Qed.
Lemma reach_shift_la s v S t k u w a q : (s =? 15) = false -> (tab yypact s =? -15) = false ->
  act s k = a -> (0 <? a) = true ->
  reach (Pst ((a, u) :: (s, v) :: S) None t w) q -> reach (Pst ((s, v) :: S) (Some (k, u)) t w) q.
Proof.
  intros Hs Hp Ha Hpos. apply reach_step. unfold pstep. cbn [stk la inp wr]. rewrite Hs, Hp.
  unfold act in Ha. destruct (_ || _ || _) eqn:E; [subst a; discriminate|]. rewrite Ha, Hpos. reflexivity.
Qed.
(** A default reduction after looking at the next token. *)
Lemma reach_look s v S t k u r w p' q : lex t = ((k, u), r) -> (s =? 15) = false -> (tab yypact s =? -15) = false ->
  act s k = 0 -> tab yytable (tab yypact s + k) <> 0 \/ True -> default s (Pst ((s, v) :: S) (Some (k, u)) r w) = Run p' ->
  (let i := tab yypact s + k in (i <? 0) || (18 <? i) || negb (tab yycheck i =? k) = true) ->
  reach p' q -> reach (Pst ((s, v) :: S) None t w) q.
Proof.
  intros El Hs Hp Ha _ Hd Hi. apply reach_step. unfold pstep. cbn [stk la inp wr]. rewrite Hs, Hp, El. cbv zeta in Hi. now rewrite Hi.
Qed.

(** * Reductions *)
Ltac vst H := destruct H as [<-|[<-|[<-|[<-|[]]]]].
Lemma red_scalar x s v v0 S la t w w' : In s vstates -> In x [3; 4; 5; 6; 7; 8] -> action (tab yydefact x) v w = Some w' ->
  pstep (Pst ((x, v) :: (s, v0) :: S) la t w) = Run (Pst ((goto s 18, v) :: (s, v0) :: S) la t w').
Proof.
  intros Hs Hx Ha.
  destruct Hx as [<-|[<-|[<-|[<-|[<-|[<-|[]]]]]]]; vst Hs; cbn in Ha; apply Some_inj in Ha; rewrite <- Ha; reflexivity.
Qed.
Lemma red_group x s v v0 S la t w : In s vstates -> In x [11; 12] ->
  pstep (Pst ((x, v) :: (s, v0) :: S) la t w) = Run (Pst ((goto s 18, v) :: (s, v0) :: S) la t w).
Proof. intros Hs [<-|[<-|[]]]; vst Hs; reflexivity. Qed.
Lemma red_open_map v S la t w :
  pstep (Pst ((1, v) :: S) la t w) = Run (Pst ((13, v) :: (1, v) :: S) la t (open_map w)).
Proof. reflexivity. Qed.
Lemma red_open_vec v S la t w :
  pstep (Pst ((2, v) :: S) la t w) = Run (Pst ((14, v) :: (2, v) :: S) la t (on_top (set_vector_sz 0) w)).
Proof. reflexivity. Qed.
Lemma red_key v v0 S la t w s : In s [13; 25] ->
  pstep (Pst ((16, v) :: (s, v0) :: S) la t w) = Run (Pst ((23, v) :: (16, v) :: (s, v0) :: S) la t (set_key v w)).
Proof. intros [<-|[<-|[]]]; reflexivity. Qed.
Lemma red_member v v1 v2 v3 v0 S la t w w' s : In s [13; 25] -> pop w = Some w' ->
  pstep (Pst ((31, v) :: (28, v1) :: (23, v2) :: (16, v3) :: (s, v0) :: S) la t w) =
    Run (Pst ((if s =? 13 then 19 else 29, v3) :: (s, v0) :: S) la t w').
Proof.
  intros [<-|[<-|[]]] E; destruct w as [c [|p o]]; try discriminate; apply Some_inj in E; rewrite <- E; reflexivity.
Qed.
Lemma red_first_member v v0 S la t w :
  pstep (Pst ((19, v) :: (13, v0) :: S) la t w) = Run (Pst ((18, v) :: (13, v0) :: S) la t w).
Proof. reflexivity. Qed.
Lemma red_next_member v v0 v1 v2 S la t w :
  pstep (Pst ((29, v) :: (25, v0) :: (18, v1) :: (13, v2) :: S) la t w) = Run (Pst ((18, v1) :: (13, v2) :: S) la t w).
Proof. reflexivity. Qed.
Lemma red_object v v1 v2 v3 v0 S la t w w' s : In s vstates -> pop w = Some w' ->
  pstep (Pst ((24, v) :: (17, v1) :: (13, v2) :: (1, v3) :: (s, v0) :: S) la t w) = Run (Pst ((11, v3) :: (s, v0) :: S) la t w').
Proof.
  intros Hs E; destruct w as [c [|p o]]; try discriminate; apply Some_inj in E; rewrite <- E; vst Hs; reflexivity.
Qed.
Lemma red_array v v1 v2 v3 v0 S la t w s : In s vstates ->
  pstep (Pst ((26, v) :: (21, v1) :: (14, v2) :: (2, v3) :: (s, v0) :: S) la t w) = Run (Pst ((12, v3) :: (s, v0) :: S) la t w).
Proof. intros Hs; vst Hs; reflexivity. Qed.
Lemma red_first_elem v v0 S la t w :
  pstep (Pst ((20, v) :: (14, v0) :: S) la t w) = Run (Pst ((22, v) :: (14, v0) :: S) la t w).
Proof. reflexivity. Qed.
Lemma red_next_elem v v0 v1 v2 S la t w :
  pstep (Pst ((30, v) :: (27, v0) :: (22, v1) :: (14, v2) :: S) la t w) = Run (Pst ((22, v1) :: (14, v2) :: S) la t w).
Proof. reflexivity. Qed.

(** * The ends of lists *)
Lemma end_elems v v0 S w0 r w : ws w0 ->
  exists v' v1, reach (Pst ((22, v) :: (14, v0) :: S) None (w0 ++ "]"%char :: r) w) (Pst ((26, v') :: (21, v1) :: (14, v0) :: S) None r w).
Proof.
  intros Hw. do 2 eexists. eapply reach_look; [apply (lex_punct w0 "]"%char S_RBRACE); [assumption|cbn; auto 10]|reflexivity|reflexivity|reflexivity|now right|reflexivity|reflexivity|].
  eapply reach_shift_la with (a := 26); [reflexivity|reflexivity|reflexivity|reflexivity|]. apply reach_refl.
Qed.
Lemma end_members v v0 S w0 r w : ws w0 ->
  exists v' v1, reach (Pst ((18, v) :: (13, v0) :: S) None (w0 ++ "}"%char :: r) w) (Pst ((24, v') :: (17, v1) :: (13, v0) :: S) None r w).
Proof.
  intros Hw. do 2 eexists. eapply reach_look; [apply (lex_punct w0 "}"%char S_RCURLY); [assumption|cbn; auto 10]|reflexivity|reflexivity|reflexivity|now right|reflexivity|reflexivity|].
  eapply reach_shift_la with (a := 24); [reflexivity|reflexivity|reflexivity|reflexivity|]. apply reach_refl.
Qed.
Lemma empty_elems v0 S w0 r w : ws w0 ->
  exists v' v1, reach (Pst ((14, v0) :: S) None (w0 ++ "]"%char :: r) w) (Pst ((26, v') :: (21, v1) :: (14, v0) :: S) None r w).
Proof.
  intros Hw. do 2 eexists. eapply reach_look; [apply (lex_punct w0 "]"%char S_RBRACE); [assumption|cbn; auto 10]|reflexivity|reflexivity|reflexivity|now right|reflexivity|reflexivity|].
  eapply reach_shift_la with (a := 26); [reflexivity|reflexivity|reflexivity|reflexivity|]. apply reach_refl.
Qed.
Lemma empty_members v0 S w0 r w : ws w0 ->
  exists v' v1, reach (Pst ((13, v0) :: S) None (w0 ++ "}"%char :: r) w) (Pst ((24, v') :: (17, v1) :: (13, v0) :: S) None r w).
Proof.
  intros Hw. do 2 eexists. eapply reach_look; [apply (lex_punct w0 "}"%char S_RCURLY); [assumption|cbn; auto 10]|reflexivity|reflexivity|reflexivity|now right|reflexivity|reflexivity|].
  eapply reach_shift_la with (a := 24); [reflexivity|reflexivity|reflexivity|reflexivity|]. apply reach_refl.
Qed.

(** * Values *)
Definition is_num (j : json) : bool := match j with JInt _ | JDbl _ => true | _ => false end.
Definition val_ok (t : text) (j : json) : Prop :=
  forall s v S w0 r w, In s vstates -> ws w0 -> (is_num j = true -> stops r) ->
  exists v', reach (Pst ((s, v) :: S) None (w0 ++ t ++ r) w) (Pst ((goto s 18, v') :: (s, v) :: S) None r (Wrap (feed j (cur w)) (outer w))).
Definition elem_start (st S : list (Z * text)) (v : text) : Prop :=
  st = (14, v) :: S \/ exists v0 v1, st = (27, v0) :: (22, v1) :: (14, v) :: S.
Definition elems_ok (t : text) (l : list json) : Prop :=
  forall st S v r w, elem_start st S v ->
  exists v' v1, reach (Pst st None (t ++ "]"%char :: r) w)
                      (Pst ((26, v') :: (21, v1) :: (14, v) :: S) None r (Wrap (feed_elems l (cur w)) (outer w))).
Definition member_start (st S : list (Z * text)) (v : text) : Prop :=
  st = (13, v) :: S \/ exists v0 v1, st = (25, v0) :: (18, v1) :: (13, v) :: S.
Definition members_ok (t : text) (m : list (string * json)) : Prop :=
  forall st S v r w m0, member_start st S v -> cur w = GMap m0 ->
  exists v' v1, reach (Pst st None (t ++ "}"%char :: r) w)
                      (Pst ((24, v') :: (17, v1) :: (13, v) :: S) None r (Wrap (GMap (feed_members m m0)) (outer w))).

Lemma stops_after w c r : ws w -> In c [","%char; "]"%char; "}"%char] -> stops (w ++ c :: r).
Proof.
  intros Hw Hc. destruct Hw as [|b w Hb Hw]; cbn [app].
  - destruct Hc as [<-|[<-|[<-|[]]]]; repeat split; discriminate.
  - revert b Hb. apply blank_cases; repeat split; discriminate.
Qed.
Lemma vgoto s : In s vstates -> goto s 18 = if s =? 0 then 10 else if s =? 14 then 20 else if s =? 27 then 30 else 31.
Proof. intros H; vst H; reflexivity. Qed.

(** A scalar token. *)
Lemma scalar_ok t j k x (u : text) : (k, x) = (S_NULL, 5) \/ (k, x) = (S_TRUE, 3) \/ (k, x) = (S_FALSE, 4) \/ (k, x) = (S_STRING, 6) \/ (k, x) = (S_INTEGER, 8) \/ (k, x) = (S_FLOAT, 7) ->
  (forall w0 r, ws w0 -> (is_num j = true -> stops r) -> lex (w0 ++ t ++ r) = ((k, u), r)) ->
  (forall w, action (tab yydefact x) u w = Some (Wrap (feed j (cur w)) (outer w))) ->
  val_ok t j.
Proof.
  intros Hk Hl Ha s v S w0 r w Hs Hw Hr. exists u.
  eapply reach_shift with (a := x); [now apply Hl| | | | |].
  - vst Hs; reflexivity.
  - vst Hs; reflexivity.
  - vst Hs; repeat (destruct Hk as [Hk|Hk]; [injection Hk as -> ->; reflexivity|]); injection Hk as -> ->; reflexivity.
  - repeat (destruct Hk as [Hk|Hk]; [injection Hk as -> ->; reflexivity|]); injection Hk as -> ->; reflexivity.
  - eapply reach_step; [|apply reach_refl]. apply red_scalar; [assumption| |apply Ha].
    repeat (destruct Hk as [Hk|Hk]; [injection Hk as -> ->; cbn; auto 10|]); injection Hk as -> ->; cbn; auto 10.
Qed.

Lemma elems_value_done st S v r w0 t j w : elem_start st S v -> ws w0 -> val_ok t j -> (is_num j = true -> stops r) ->
  exists v', reach (Pst st None (w0 ++ t ++ r) w) (Pst ((22, v') :: (14, v) :: S) None r (Wrap (feed j (cur w)) (outer w))).
Proof.
  intros Hst Hw Hv Hr. destruct Hst as [->|(v0 & v1 & ->)].
  - destruct (Hv 14 v S w0 r w) as [v' H]; [cbn; auto|assumption|assumption|]. eexists. eapply reach_trans; [exact H|].
    eapply reach_step; [apply red_first_elem|]. apply reach_refl.
  - destruct (Hv 27 v0 ((22, v1) :: (14, v) :: S) w0 r w) as [v' H]; [cbn; auto|assumption|assumption|]. eexists. eapply reach_trans; [exact H|].
    eapply reach_step; [apply red_next_elem|]. apply reach_refl.
Qed.
Lemma members_value_done st S v r w0 k s w1 w2 t j w m0 : member_start st S v -> ws w0 -> jstring false k s -> ws w1 -> ws w2 -> val_ok t j ->
  (is_num j = true -> stops r) -> cur w = GMap m0 ->
  exists v', reach (Pst st None (w0 ++ k ++ w1 ++ ":"%char :: w2 ++ t ++ r) w) (Pst ((18, v') :: (13, v) :: S) None r
     (Wrap (GMap (mset s (feed j (match mfind s m0 with Some e => e | None => GNone end)) m0)) (outer w))).
Proof.
  intros Hst Hw Hk Hw1 Hw2 Hv Hr Hm.
  assert (G : forall s0 v0 S0, In s0 [13; 25] -> st = (s0, v0) :: S0 ->
    reach (Pst st None (w0 ++ k ++ w1 ++ ":"%char :: w2 ++ t ++ r) w) (Pst ((if s0 =? 13 then 19 else 29, txt s) :: (s0, v0) :: S0) None r
       (Wrap (GMap (mset s (feed j (match mfind s m0 with Some e => e | None => GNone end)) m0)) (outer w)))).
  { intros s0 v0 S0 Hs0 ->.
    eapply reach_shift with (a := 16); [apply (jstring_lex _ _ _ _ Hw Hk)| | | |reflexivity|]; try (destruct Hs0 as [<-|[<-|[]]]; reflexivity).
    eapply reach_step; [now apply red_key|].
    eapply reach_shift with (a := 28); [apply (lex_punct w1 ":"%char S_COLON); [assumption|cbn; auto 10]|reflexivity|reflexivity|reflexivity|reflexivity|].
    destruct (Hv 28 [":"%char] ((23, txt s) :: (16, txt s) :: (s0, v0) :: S0) w2 r (set_key (txt s) w)) as [v' H]; [cbn; auto|assumption|assumption|].
    eapply reach_trans; [exact H|]. clear H.
    unfold set_key. rewrite Hm. cbn [outer cur old_map]. assert (Eu : untxt (txt s) = s) by (unfold untxt, txt; apply string_of_list_ascii_of_string). rewrite Eu.
    eapply reach_step; [apply red_member; [assumption|reflexivity]|]. cbn [outer cur]. apply reach_refl. }
  destruct Hst as [E|(v0 & v1 & E)].
  - eexists. eapply reach_trans; [apply (G 13 v S); [cbn; auto|assumption]|]. eapply reach_step; [apply red_first_member|]. apply reach_refl.
  - eexists. eapply reach_trans; [apply (G 25 v0 ((18, v1) :: (13, v) :: S)); [cbn; auto|assumption]|]. eapply reach_step; [apply red_next_member|]. apply reach_refl.
Qed.

Scheme jval_mut := Minimality for jval Sort Prop
  with jelems_mut := Minimality for jelems Sort Prop
  with jmembers_mut := Minimality for jmembers Sort Prop.
Combined Scheme json_mut from jval_mut, jelems_mut, jmembers_mut.

Lemma plug_open w : exists p, open_map w = Wrap (set_map0 (match cur w with GVec _ => GNone | c => c end)) (p :: outer w) /\
  forall m, p (GMap m) = match cur w with GVec v => GVec (v ++ [GMap m]) | _ => GMap m end.
Proof. unfold open_map. destruct (cur w); eexists; (split; [reflexivity|]); reflexivity. Qed.

Lemma json_ok :
  (forall t j, jval false t j -> val_ok t j) /\
  (forall t l, jelems false t l -> elems_ok t l) /\
  (forall t m, jmembers false t m -> members_ok t m).
Proof.
  apply (json_mut false val_ok elems_ok members_ok).
  - apply (scalar_ok _ _ S_NULL 5 (txt "null")); [tauto| |reflexivity]. intros w0 r Hw _. apply lex_keyword; [assumption|cbn; auto].
  - apply (scalar_ok _ _ S_TRUE 3 (txt "true")); [tauto| |reflexivity]. intros w0 r Hw _. apply lex_keyword; [assumption|cbn; auto].
  - apply (scalar_ok _ _ S_FALSE 4 (txt "false")); [tauto| |reflexivity]. intros w0 r Hw _. apply lex_keyword; [assumption|cbn; auto].
  - intros t j Hj. assert (N : (exists z, j = JInt z) \/ (exists x, j = JDbl x)) by (inversion Hj; eauto).
    destruct N as [[z ->]|[x ->]].
    + apply (scalar_ok _ _ S_INTEGER 8 t); [tauto| |].
      * intros w0 r Hw Hr. now apply (jnumber_lex w0 t (JInt z)); [| |apply Hr].
      * intros w. replace (tab yydefact 8) with 7 by reflexivity. cbn [action]. unfold on_top.
        cbn [feed]. unfold set_integer. rewrite (jnumber_int _ _ Hj). reflexivity.
    + apply (scalar_ok _ _ S_FLOAT 7 t); [tauto| |].
      * intros w0 r Hw Hr. now apply (jnumber_lex w0 t (JDbl x)); [| |apply Hr].
      * intros w. replace (tab yydefact 7) with 8 by reflexivity. cbn [action]. unfold on_top.
        cbn [feed]. unfold set_float. rewrite (jnumber_real _ _ Hj). reflexivity.
  - intros t s Hs. apply (scalar_ok _ _ S_STRING 6 (txt s)); [tauto| |].
    + intros w0 r Hw _. now apply jstring_lex.
    + intros w. replace (tab yydefact 6) with 6 by reflexivity. cbn [action]. unfold untxt, txt. rewrite string_of_list_ascii_of_string. reflexivity.
  - intros w0 Hw0 s v S w r wr Hs Hw _. exists ["["%char]. rewrite feed_arr. cbn [app]. rewrite <- app_assoc. cbn [app].
    eapply reach_shift with (a := 2); [apply (lex_punct w "["%char S_LBRACE); [assumption|cbn; auto 10]| | | |reflexivity|]; try (vst Hs; reflexivity).
    eapply reach_step; [apply red_open_vec|].
    destruct (empty_elems ["["%char] ((2, ["["%char]) :: (s, v) :: S) w0 r (on_top (set_vector_sz 0) wr) Hw0) as (v1 & v2 & H).
    eapply reach_trans; [exact H|].
    eapply reach_step; [now apply red_array|]. eapply reach_step; [apply red_group; [assumption|cbn; auto]|]. apply reach_refl.
  - intros t l _ IH s v S w r wr Hs Hw _. exists ["["%char]. rewrite feed_arr. cbn [app]. rewrite <- app_assoc. cbn [app].
    eapply reach_shift with (a := 2); [apply (lex_punct w "["%char S_LBRACE); [assumption|cbn; auto 10]| | | |reflexivity|]; try (vst Hs; reflexivity).
    eapply reach_step; [apply red_open_vec|].
    destruct (IH ((14, ["["%char]) :: (2, ["["%char]) :: (s, v) :: S) ((2, ["["%char]) :: (s, v) :: S) ["["%char] r (on_top (set_vector_sz 0) wr)) as (v1 & v2 & H); [now left|].
    eapply reach_trans; [exact H|].
    eapply reach_step; [now apply red_array|]. eapply reach_step; [apply red_group; [assumption|cbn; auto]|]. apply reach_refl.
  - intros w0 Hw0 s v S w r wr Hs Hw _. exists ["{"%char]. rewrite feed_obj. cbn [app]. rewrite <- app_assoc. cbn [app].
    eapply reach_shift with (a := 1); [apply (lex_punct w "{"%char S_LCURLY); [assumption|cbn; auto 10]| | | |reflexivity|]; try (vst Hs; reflexivity).
    eapply reach_step; [apply red_open_map|].
    destruct (plug_open wr) as (p & -> & Hp).
    destruct (empty_members ["{"%char] ((1, ["{"%char]) :: (s, v) :: S) w0 r (Wrap (set_map0 (match cur wr with GVec _ => GNone | c => c end)) (p :: outer wr)) Hw0) as (v1 & v2 & H).
    eapply reach_trans; [exact H|].
    eapply reach_step; [apply red_object; [assumption|reflexivity]|]. eapply reach_step; [apply red_group; [assumption|cbn; auto]|].
    cbn [cur outer]. unfold set_map0. rewrite Hp. cbn [feed_members]. destruct wr as [c o]. cbn [cur outer]. unfold on_slot. destruct c; apply reach_refl.
  - intros t m _ IH s v S w r wr Hs Hw _. exists ["{"%char]. rewrite feed_obj. cbn [app]. rewrite <- app_assoc. cbn [app].
    eapply reach_shift with (a := 1); [apply (lex_punct w "{"%char S_LCURLY); [assumption|cbn; auto 10]| | | |reflexivity|]; try (vst Hs; reflexivity).
    eapply reach_step; [apply red_open_map|]. destruct (plug_open wr) as (p & -> & Hp).
    destruct (IH ((13, ["{"%char]) :: (1, ["{"%char]) :: (s, v) :: S) ((1, ["{"%char]) :: (s, v) :: S) ["{"%char] r
      (Wrap (set_map0 (match cur wr with GVec _ => GNone | c => c end)) (p :: outer wr)) (old_map (match cur wr with GVec _ => GNone | c => c end))) as (v1 & v2 & H); [now left|reflexivity|].
    eapply reach_trans; [exact H|].
    eapply reach_step; [apply red_object; [assumption|reflexivity]|]. eapply reach_step; [apply red_group; [assumption|cbn; auto]|].
    cbn [cur outer]. rewrite Hp. destruct wr as [c o]. cbn [cur outer]. unfold on_slot. destruct c; apply reach_refl.
  - intros w t j w' Hw _ IH Hw' st S v r wr Hst. rewrite <- !app_assoc.
    destruct (elems_value_done st S v (w' ++ "]"%char :: r) w t j wr Hst Hw IH) as (v0 & H0);
      [intros _; apply stops_after; [assumption|cbn; auto]|].
    destruct (end_elems v0 v S w' r (Wrap (feed j (cur wr)) (outer wr)) Hw') as (v1 & v2 & H).
    exists v1, v2. exact (reach_trans _ _ _ H0 H).
  - intros w t j w' ts l Hw _ IH Hw' _ IHl st S v r wr Hst. rewrite <- !app_assoc. cbn [app].
    destruct (elems_value_done st S v (w' ++ ","%char :: ts ++ "]"%char :: r) w t j wr Hst Hw IH) as (v0 & H0);
      [intros _; apply stops_after; [assumption|cbn; auto]|].
    destruct (IHl ((27, [","%char]) :: (22, v0) :: (14, v) :: S) S v r (Wrap (feed j (cur wr)) (outer wr))) as (v1 & v2 & H);
      [right; eauto|].
    exists v1, v2. eapply reach_trans; [exact H0|].
    eapply reach_shift with (a := 27); [apply (lex_punct w' ","%char S_COMMA); [assumption|cbn; auto 10]|reflexivity|reflexivity|reflexivity|reflexivity|].
    exact H.
  - intros w k s w1 w2 t j w' Hw Hk Hw1 Hw2 _ IH Hw' st S v r wr m0 Hst Hm. rewrite <- !app_assoc. cbn [app]. rewrite <- !app_assoc.
    destruct (members_value_done st S v (w' ++ "}"%char :: r) w k s w1 w2 t j wr m0 Hst Hw Hk Hw1 Hw2 IH) as (v0 & H0);
      [intros _; apply stops_after; [assumption|cbn; auto]|assumption|].
    destruct (end_members v0 v S w' r (Wrap (GMap (mset s (feed j (match mfind s m0 with Some e => e | None => GNone end)) m0)) (outer wr)) Hw') as (v1 & v2 & H).
    exists v1, v2. exact (reach_trans _ _ _ H0 H).
  - intros w k s w1 w2 t j w' ts m Hw Hk Hw1 Hw2 _ IH Hw' _ IHm st S v r wr m0 Hst Hm. rewrite <- !app_assoc. cbn [app]. rewrite <- !app_assoc. cbn [app].
    destruct (members_value_done st S v (w' ++ ","%char :: ts ++ "}"%char :: r) w k s w1 w2 t j wr m0 Hst Hw Hk Hw1 Hw2 IH) as (v0 & H0);
      [intros _; apply stops_after; [assumption|cbn; auto]|assumption|].
    destruct (IHm ((25, [","%char]) :: (18, v0) :: (13, v) :: S) S v r
      (Wrap (GMap (mset s (feed j (match mfind s m0 with Some e => e | None => GNone end)) m0)) (outer wr)) _ ltac:(right; eauto) eq_refl) as (v1 & v2 & H).
    exists v1, v2. eapply reach_trans; [exact H0|].
    eapply reach_shift with (a := 25); [apply (lex_punct w' ","%char S_COMMA); [assumption|cbn; auto 10]|reflexivity|reflexivity|reflexivity|reflexivity|].
    exact H.
Qed.

(** Documents.  A number at the very end of the text is not a token. *)
Theorem parse_json t j g : json_text false t j ->
  (is_num j = true -> exists t' c, t = t' ++ [c] /\ blank c) ->
  parse t g = (Ok tt, feed j g).
Proof.
  intros (w & u & w' & -> & Hw & Hj & Hw') Hn. destruct json_ok as [V _].
  assert (Hs : is_num j = true -> stops w').
  { intros N. destruct (Hn N) as (t' & cb & Ht & Hc). destruct Hw' as [|b w' Hb Hw'].
    2:{ clear - Hb. revert b Hb. apply blank_cases; repeat split; discriminate. }
    exfalso. rewrite app_nil_r in Ht. clear Hn V.
    assert (L : exists d v, is_digit d /\ u = v ++ [digit d]).
    { assert (Hu : jnumber u j) by (inversion Hj; subst; try discriminate; assumption).
      assert (E : forall v l, Forall is_digit l -> l <> [] -> exists d y, is_digit d /\ v ++ map digit l = y ++ [digit d]).
      { intros v l Hl Hne. destruct (exists_last Hne) as (l0 & d & ->). exists d, (v ++ map digit l0).
        rewrite map_app, app_assoc. apply Forall_app in Hl as [_ Hl]. inversion Hl; subst. split; [assumption|reflexivity]. }
      destruct Hu as [neg x l Hd Hi|neg x l tf lf te e Hd Hi Hf He Hne]; apply digits_map in Hd as [-> Hl]; apply int_part_nonempty in Hi.
      - now apply E.
      - destruct He as [[-> _]|(c & y & l' & neg' & sg & -> & _ & Hd & Hne' & _)].
        + rewrite app_nil_r in *. destruct Hf as [[-> ->]|(y & -> & Hd & Hne')]; [congruence|]. apply digits_map in Hd as [-> Hl'].
          destruct (E (minus neg ++ map digit l ++ ["."%char]) lf Hl' Hne') as (d & z & Hd & Ez). exists d, z. split; [assumption|].
          rewrite <- Ez, <- !app_assoc. reflexivity.
        + apply digits_map in Hd as [-> Hl'].
          destruct (E (minus neg ++ map digit l ++ tf ++ c :: sg) l' Hl' Hne') as (d & z & Hd & Ez). exists d, z. split; [assumption|].
          rewrite <- Ez, <- !app_assoc. cbn [app]. reflexivity. }
    destruct L as (d & v & Hd & ->). rewrite app_assoc in Ht.
    assert (C : is_space (digit d) = false) by (clear -Hd; revert d Hd; apply digit_cases; reflexivity).
    apply app_inj_tail in Ht as [_ Ht]. rewrite Ht in C. rewrite blank_space in C; [discriminate|assumption]. }
  destruct (V u j Hj 0 [] [] w w' (Wrap g [])) as (v' & [n H]); [cbn; auto|assumption|assumption|].
  eapply (parse_eq (n + 4) _ _ (Ok tt) (Wrap (feed j g) [])); [|discriminate]. rewrite H. clear H.
  cbn [run]. replace (pstep _) with (Run (Pst [(9, v'); (0, [])] None w' (Wrap (feed j g) []))) by reflexivity.
  unfold pstep at 1. cbn [stk]. cbn [Z.eqb Pos.eqb]. replace (tab yypact 9 =? -15) with false by reflexivity. cbn [la inp].
  rewrite (lex_end w' Hw'). reflexivity.
Qed.
