(** What from_json2 stores: documents without arrays inside arrays, and well-formedness for
    every text. *)
From Coq Require Import ZArith Bool Lia Ascii String List.
From Verif Require Import Base F64 StrMap Value MBasic SGet SPromote SCollapse MNum LNum LNum2 MText MJson SJson LJson LBuild MJson2 SJsonText LJson2Run LJson2Lex LJson2Parse.
Import ListNotations.
Local Open Scope Z_scope.

(** * Doubles *)
Lemma dval_nonneg l : Forall is_digit l -> 0 <= dval l.
Proof.
  intros H. unfold dval. assert (G : forall a, 0 <= a -> 0 <= fold_left (fun a d => 10 * a + d) l a); [|apply G; lia].
  induction H as [|d l [H0 H9] _ IH]; intros a Ha; cbn [fold_left]; [assumption|]. apply IH. lia.
Qed.
Lemma rnd_even_nonneg a b : 0 <= a -> 0 < b -> 0 <= rnd_even a b.
Proof.
  intros Ha Hb. unfold rnd_even. assert (0 <= a / b) by (apply Z.div_pos; lia).
  destruct (_ <? _); [assumption|]. destruct (_ <? _); [lia|]. destruct (Z.even _); lia.
Qed.
Lemma f_of_Q_range num den : 0 <= num -> 0 < den -> 0 <= f_of_Q num den <= 2047 * 2^52.
Proof.
  intros Hn Hd. unfold f_of_Q. cbv zeta.
  match goal with |- context [Z.max ?e (-1074)] => set (k := Z.max e (-1074)) end.
  assert (Hk : -1074 <= k) by apply Z.le_max_r.
  assert (Hs : 0 <= (if 0 <=? k then rnd_even num (den * 2^k) else rnd_even (num * 2^(-k)) den)).
  { destruct (Z.leb_spec 0 k).
    - apply rnd_even_nonneg; [assumption|]. pose proof (Z.pow_pos_nonneg 2 k). nia.
    - apply rnd_even_nonneg; [|assumption]. pose proof (Z.pow_pos_nonneg 2 (- k)). nia. }
  destruct (Z.ltb_spec ((k + 1074) * 2^52 + (if 0 <=? k then rnd_even num (den * 2^k) else rnd_even (num * 2^(-k)) den)) (2047 * 2^52)).
  - split; [|lia]. apply Z.add_nonneg_nonneg; [|assumption]. apply Z.mul_nonneg_nonneg; lia.
  - lia.
Qed.
Lemma scale_range m k : 0 <= m -> 0 <= scale m k <= 2047 * 2^52.
Proof.
  intros Hm. unfold scale. destruct (m =? 0); [lia|]. destruct (Z.leb_spec 0 k).
  - apply f_of_Q_range; [|lia]. apply Z.mul_nonneg_nonneg; [assumption|]. apply Z.pow_nonneg. lia.
  - apply f_of_Q_range; [assumption|]. apply Z.pow_pos_nonneg; lia.
Qed.
Lemma signed_f64 (neg : bool) x : 0 <= x <= 2047 * 2^52 -> f64 ((if neg then 2^63 else 0) + x).
Proof. intros H. unfold f64. assert (2047 * 2^52 < 2^63) by (vm_compute; reflexivity). destruct neg; lia. Qed.
Lemma read_digits_digits t : Forall is_digit (fst (read_digits t)).
Proof.
  induction t as [|c t IH]; [constructor|]. cbn [read_digits]. unfold digit_val.
  destruct (_ && _) eqn:E; [|constructor]. destruct (read_digits t) as [l r]. cbn [fst] in *. constructor; [|assumption].
  apply andb_true_iff in E as [A B]. apply Z.leb_le in A, B. unfold is_digit. lia.
Qed.
Lemma strtod_all_f64 t x : strtod_all t = Some x -> f64 x.
Proof.
  unfold strtod_all. destruct (read_sign t) as [neg t0]. pose proof (read_digits_digits t0) as D1.
  destruct (read_digits t0) as [li t1]. cbn [fst] in D1.
  assert (D2 : Forall is_digit (fst (read_frac t1))).
  { unfold read_frac. destruct t1 as [|c t1]; [constructor|]. destruct c as [[] [] [] [] [] [] [] []]; try constructor. apply read_digits_digits. }
  destruct (read_frac t1) as [lf t2]. cbn [fst] in D2. assert (D : 0 <= dval (li ++ lf)) by (apply dval_nonneg; apply Forall_app; now split).
  destruct (li ++ lf) as [|d l] eqn:E; [discriminate|]. destruct (read_exp t2) as [e [|? ?]]; [|discriminate].
  intros H. apply Some_inj in H. rewrite <- H. apply signed_f64. now apply scale_range.
Qed.

(** * Well-formedness for every text *)
Definition wok (w : wrap) : Prop := wf (cur w) /\ Forall (fun p => forall c, wf c -> wf (p c)) (outer w).
Lemma on_slot_wf f g : (forall s, wf s -> wf (f s)) -> wf g -> wf (on_slot f g).
Proof.
  intros Hf Hg. destruct g; try (apply Hf; assumption). cbn [on_slot]. rewrite wf_vec in Hg |- *.
  apply Forall_app. split; [assumption|]. constructor; [|constructor]. apply Hf. exact I.
Qed.
Lemma on_top_ok f w : (forall s, wf s -> wf (f s)) -> wok w -> wok (on_top f w).
Proof. intros Hf [H1 H2]. split; [now apply on_slot_wf|assumption]. Qed.
Lemma old_map_wf g : wf g -> msorted (old_map g) /\ Forall (fun kv => wf (snd kv)) (old_map g).
Proof. intros H. destruct g; try (split; constructor). now apply wf_map. Qed.
Lemma mset_wf k e m : msorted m -> Forall (fun kv => wf (snd kv)) m -> wf e -> wf (GMap (mset k e m)).
Proof. intros H1 H2 H3. apply wf_map. split; [now apply mset_sorted|]. now apply mset_forall. Qed.
Lemma action_ok rule v w w' : wok w -> action rule v w = Some w' -> wok w'.
Proof.
  intros H. assert (P : forall w', pop w = Some w' -> wok w').
  { intros x E. unfold pop in E. destruct H as [H1 H2]. destruct (outer w) as [|p o]; [discriminate|]. apply Some_inj in E. subst x.
    inversion H2; subst. split; cbn [cur outer]; auto. }
  assert (S : forall f, (forall s, wf s -> wf (f s)) -> Some (on_top f w) = Some w' -> wok w').
  { intros f Hf E. apply Some_inj in E. subst w'. now apply on_top_ok. }
  assert (SS : forall w0, Some w0 = Some w' -> wok w0 -> wok w') by (intros w0 E H0; apply Some_inj in E; now subst).
  unfold action. intros E.
  destruct (Z.eq_dec rule 6) as [->|N6]; [apply (S _) in E; [exact E|]; intros; exact I|].
  destruct (Z.eq_dec rule 7) as [->|N7].
  { apply (S _) in E; [exact E|]. intros s Hs. unfold set_integer. unfold strtoll_all.
    destruct (read_sign v) as [neg t0]. destruct (read_digits t0) as [[|d l] [|c r]]; try exact Hs.
    cbv zeta. set (z := if neg then _ else _). destruct (_ && _) eqn:B.
    - apply andb_true_iff in B as [B1 B2]. apply Z.leb_le in B1, B2. split; lia.
    - split; lia. }
  destruct (Z.eq_dec rule 8) as [->|N8].
  { apply (S _) in E; [exact E|]. intros s Hs. unfold set_float. destruct (strtod_all v) eqn:Ex; [|exact Hs]. exact (strtod_all_f64 _ _ Ex). }
  destruct (Z.eq_dec rule 9) as [->|N9]; [apply (S _) in E; [exact E|]; intros; exact I|].
  destruct (Z.eq_dec rule 10) as [->|N10]; [apply (S _) in E; [exact E|]; intros; exact I|].
  destruct (Z.eq_dec rule 11) as [->|N11]; [apply (S _) in E; [exact E|]; intros; exact I|].
  destruct (Z.eq_dec rule 12) as [->|N12].
  { apply (SS _) in E; [exact E|]. destruct H as [H1 H2]. unfold open_map.
    destruct (cur w) eqn:Ec; (split; [|constructor; [|assumption]]); cbn [cur outer]; intros; try exact I; try assumption; try (split; constructor).
    apply wf_vec. apply wf_vec in H1. apply Forall_app. split; [assumption|]. now constructor. }
  destruct (Z.eq_dec rule 13) as [->|N13]; [now apply P|].
  destruct (Z.eq_dec rule 18) as [->|N18].
  { apply (SS _) in E; [exact E|]. destruct H as [H1 H2]. unfold set_key.
    assert (G : forall c, wf c -> wok (Wrap (match mfind (untxt v) (old_map c) with Some e => e | None => GNone end)
                                    ((fun e => GMap (mset (untxt v) e (old_map c))) :: outer w))).
    { intros c Hc. destruct (old_map_wf c Hc) as [M1 M2]. split; cbn [cur outer].
      - destruct (mfind (untxt v) (old_map c)) eqn:F; [|exact I]. apply mfind_in in F. rewrite Forall_forall in M2. apply (M2 _ F).
      - constructor; [|assumption]. intros e He. now apply mset_wf. }
    destruct (cur w) eqn:Ec; try (apply G; assumption).
    split; cbn [cur outer]; [exact I|]. constructor; [|assumption]. intros e He. apply wf_vec. apply wf_vec in H1. apply Forall_app.
    split; [assumption|]. constructor; [|constructor]. apply mset_wf; [constructor|constructor|assumption]. }
  destruct (Z.eq_dec rule 19) as [->|N19]; [now apply P|].
  destruct (Z.eq_dec rule 20) as [->|N20].
  { apply (S _) in E; [exact E|]. intros s Hs. unfold set_vector_sz, alloc_vec.
    apply wf_vec. destruct s; try constructor. now apply wf_vec in Hs. }
  assert (D : match rule with 6 | 7 | 8 | 9 | 10 | 11 | 12 | 13 | 18 | 19 | 20 => False | _ => True end).
  { repeat match goal with |- match ?x with _ => _ end => destruct x; try congruence end; exact I. }
  apply (SS w); [|assumption]. rewrite <- E.
  repeat match goal with H : match ?x with _ => _ end |- _ => destruct x; try contradiction; try reflexivity end.
Qed.

Lemma reduce_ok rule p p' : wok (wr p) -> reduce rule p = Run p' -> wok (wr p').
Proof.
  intros H E. unfold reduce in E. destruct (stk p) as [|[s v] l]; [discriminate|].
  destruct (skipn _ _) as [|[s' v'] l']; [discriminate|]. destruct (action rule v (wr p)) as [w|] eqn:Ea; [|discriminate].
  injection E as <-. exact (action_ok _ _ _ _ H Ea).
Qed.
Lemma reduce_stop rule p r w : reduce rule p = Stop r w -> w = wr p.
Proof.
  intros E. unfold reduce in E. destruct (stk p) as [|[s v] l]; [now injection E|].
  destruct (skipn _ _) as [|[s' v'] l']; [now injection E|]. destruct (action rule v (wr p)); [discriminate|now injection E].
Qed.
Lemma pstep_ok p : wok (wr p) -> match pstep p with Run p' => wok (wr p') | Stop _ w => wok w end.
Proof.
  intros H. unfold pstep. destruct (stk p) as [|[s v] l] eqn:Es; [exact H|]. destruct (s =? 15); [exact H|].
  assert (D : forall q, wr q = wr p -> match default s q with Run p' => wok (wr p') | Stop _ w => wok w end).
  { intros q Eq. unfold default. destruct (_ =? _); [now rewrite Eq|]. destruct (reduce _ q) eqn:E.
    - eapply reduce_ok; [|exact E]. now rewrite Eq.
    - apply reduce_stop in E. subst w. now rewrite Eq. }
  destruct (_ =? -15); [now apply D|].
  destruct (match la p with Some (k, v) => ((k, v), inp p) | None => lex (inp p) end) as [[k u] r]. cbv zeta.
  destruct (_ || _ || _); [now apply D|]. destruct (0 <? _); [exact H|]. destruct (_ =? -1); [exact H|].
  destruct (reduce _ _) eqn:E.
  - eapply reduce_ok; [|exact E]. exact H.
  - apply reduce_stop in E. subst w. exact H.
Qed.
Lemma run_wok n : forall p r w, wok (wr p) -> run n p = (r, w) -> wok w.
Proof.
  induction n as [|n IH]; intros p r w H E; cbn [run] in E; [now injection E as _ <-|].
  pose proof (pstep_ok p H) as S. destruct (pstep p); [eapply IH; eassumption|]. now injection E as _ <-.
Qed.
Lemma plug_wf w : wok w -> wf (plug w).
Proof.
  intros [H1 H2]. unfold plug. destruct w as [c o]. cbn [cur outer] in *. revert c H1.
  induction H2 as [|p o Hp _ IH]; intros c Hc; cbn [fold_left]; auto.
Qed.
Theorem parse_wf t g : wf g -> wf (snd (parse t g)).
Proof.
  intros H. unfold parse. destruct (run _ _) as [r w] eqn:E. cbn [snd]. apply plug_wf. eapply run_wok; [|exact E].
  split; [exact H|constructor].
Qed.

(** * Documents *)
(** No array directly inside an array. *)
Definition no_array_in_array (j : json) : Prop :=
  match j with JArr l => forall l', ~ In (JArr l') l | _ => True end.
Definition int64_literals (j : json) : Prop := match j with JInt z => - 2^63 <= z < 2^63 | _ => True end.

Lemma leaf_build j g : (forall l, j <> JArr l) -> (forall m, j <> JObj m) -> int64_literals j -> leaf j g = build j.
Proof.
  intros Ha Ho Hi. destruct j; try reflexivity; [|now contradiction (Ha l)|now contradiction (Ho m)].
  cbn [leaf build int64_literals] in *. cbv zeta. replace (clamp z) with z by (unfold clamp; lia). unfold stored_int.
  destruct (_ && _) eqn:E.
  - replace ((- 2^31 <=? z) && (z <? 2^31)) with true; [reflexivity|]. symmetry.
    apply andb_true_iff in E as [A B]. apply Z.leb_le in A, B. apply andb_true_iff. split; [apply Z.leb_le|apply Z.ltb_lt]; lia.
  - replace ((- 2^31 <=? z) && (z <? 2^31)) with false; [reflexivity|]. symmetry.
    apply andb_false_iff in E. apply andb_false_iff. destruct E as [E|E]; apply Z.leb_gt in E.
    + right. apply Z.ltb_ge. lia.
    + left. apply Z.leb_gt. lia.
Qed.
Lemma on_slot_fresh f g : fresh g -> on_slot f g = f g.
Proof. intros [H _]. destruct g; try reflexivity. now contradiction (H v). Qed.

Lemma feed_build j : jall no_array_in_array j -> jall distinct_names j -> jall int64_literals j ->
  (forall g, fresh g -> feed j g = build j) /\ (forall v, (forall l, j <> JArr l) -> feed j (GVec v) = GVec (v ++ [build j])).
Proof.
  induction j as [j Ha Ho | l IH | m IH] using json_nest_ind; intros Hn Hd Hi.
  - apply jall_here in Hi.
    assert (E : forall g, feed j g = on_slot (leaf j) g) by (intros; destruct j; try reflexivity; [now contradiction (Ha l)|now contradiction (Ho m)]).
    split.
    + intros g Hg. rewrite E, on_slot_fresh by assumption. now apply leaf_build.
    + intros v _. rewrite E. cbn [on_slot]. now rewrite leaf_build.
  - apply jall_arr in Hn as [Hn0 Hn], Hd as [_ Hd], Hi as [_ Hi]. split; [|intros v H; now contradiction (H l)].
    intros g Hg. rewrite feed_arr, on_slot_fresh by assumption. cbn [build].
    assert (E0 : set_vector_sz 0 g = GVec []) by (unfold set_vector_sz, alloc_vec; now rewrite fresh_vec).
    rewrite E0. change (map build l) with ([] ++ map build l). cbn [no_array_in_array] in Hn0. clear E0 g Hg.
    assert (G : forall v, feed_elems l (GVec v) = GVec (v ++ map build l)); [|apply G].
    induction l as [|x l IHl]; intros v; [now rewrite app_nil_r|].
    inversion IH as [|? ? IH1 IH2]; inversion Hn; inversion Hd; inversion Hi; subst.
    cbn [feed_elems fold_left]. rewrite (proj2 (IH1 ltac:(assumption) ltac:(assumption) ltac:(assumption))) by (intros l' ->; apply (Hn0 l'); now left).
    fold (feed_elems l (GVec (v ++ [build x]))). rewrite IHl; try assumption; [|intros l' Hl'; apply (Hn0 l'); now right].
    cbn [map]. now rewrite <- app_assoc.
  - apply jall_obj in Hn as [_ Hn], Hd as [Hd0 Hd], Hi as [_ Hi]. cbn [distinct_names] in Hd0.
    assert (G : forall acc, (forall k, In k (map fst m) -> ~ In k (map fst acc)) ->
      feed_members m acc = fold_left (fun acc kv => mset (fst kv) (snd kv) acc) (map (fun kv => (fst kv, build (snd kv))) m) acc).
    { assert (F : Forall (fun kv => feed (snd kv) GNone = build (snd kv)) m).
      { rewrite Forall_forall in *. intros kv H. apply (proj1 (IH kv H (Hn kv H) (Hd kv H) (Hi kv H))). split; [intros ?; discriminate|intros ?; discriminate]. }
      clear Hn Hd Hi IH. revert Hd0 F. induction m as [|[k x] m IHm]; intros Hd0 F acc Hk; [reflexivity|].
      cbn [map fst] in Hd0, Hk. apply NoDup_cons_iff in Hd0 as (Hd1 & Hd2). inversion F as [|? ? F1 F2]; subst. cbn [snd] in F1.
      cbn [feed_members map fst snd fold_left]. rewrite (mfind_none_key k acc) by (apply Hk; now left). rewrite F1.
      apply IHm; [assumption|assumption|]. intros k' H. rewrite mset_keys. intros [->|H']; [easy|]. apply (Hk k'); [now right|assumption]. }
    split.
    + intros g Hg. rewrite feed_obj, on_slot_fresh by assumption. rewrite fresh_map by assumption. cbn [build]. f_equal. apply G. intros k _ H. exact H.
    + intros v _. rewrite feed_obj. cbn [on_slot old_map build]. do 3 f_equal. f_equal. apply G. intros k _ H. exact H.
Qed.

(** * The doubles of a document *)
Definition double_literals (j : json) : Prop := match j with JDbl x => f64 x | _ => True end.
Lemma json_f64 esc :
  (forall t j, jval esc t j -> jall double_literals j) /\
  (forall t l, jelems esc t l -> Forall (jall double_literals) l) /\
  (forall t m, jmembers esc t m -> Forall (fun kv => jall double_literals (snd kv)) m).
Proof.
  apply (json_mut esc (fun _ j => jall double_literals j) (fun _ l => Forall (jall double_literals) l)
    (fun _ m => Forall (fun kv => jall double_literals (snd kv)) m)); try (intros; split; exact I).
  - intros t j H. destruct H as [|neg t l tf lf te e Hd Hi Hf He Hne]; [split; exact I|]. split; [|exact I].
    apply digits_map in Hd as [-> Hl]. apply signed_f64. apply scale_range. apply dval_nonneg. apply Forall_app. split; [assumption|].
    destruct Hf as [[_ ->]|(u & _ & Hu & _)]; [constructor|]. now apply digits_map in Hu as [_ Hu].
  - intros t l _ H. apply jall_arr. split; [exact I|assumption].
  - intros t l _ H. apply jall_obj. split; [exact I|assumption].
  - intros. now constructor.
  - intros. now constructor.
  - intros. now constructor.
  - intros. now constructor.
Qed.
Lemma json_storable esc t j : json_text esc t j -> jall int64_literals j -> jall storable j.
Proof.
  intros (w & u & w' & _ & _ & Hj & _) Hi. pose proof (proj1 (json_f64 esc) _ _ Hj) as Hf. clear Hj. revert Hi Hf.
  induction j as [j Ha Ho | l IH | m IH] using json_nest_ind; intros Hi Hf.
  - apply jall_here in Hi, Hf. destruct j; try (split; [exact I|exact I]); [split; [exact Hi|exact I]|split; [exact Hf|exact I]|now contradiction (Ha l)|now contradiction (Ho m)].
  - apply jall_arr in Hi as [_ Hi], Hf as [_ Hf]. apply jall_arr. split; [exact I|]. rewrite Forall_forall in *. auto.
  - apply jall_obj in Hi as [_ Hi], Hf as [_ Hf]. apply jall_obj. split; [exact I|]. rewrite Forall_forall in *. auto.
Qed.
