(** Lemmas for writing JSON and reading it back: the document written meets the conditions of
    the readers. *)
From Coq Require Import ZArith Bool Lia Ascii String List.
From Verif Require Import Base F64 StrMap Value MBasic SGet SPromote SCollapse MMat MNum LNum LNum2 MText MJson SJson LJson LJson2
  SJsonText SToJson MToJson LJson2Lex LJson2Parse LJson2Doc LToJson Props_mat.
Import ListNotations.
Local Open Scope Z_scope.

(** * Conditions on every value of the document *)
Definition jleaf (j : json) : Prop := match j with JArr _ | JObj _ => False | _ => True end.
Lemma jall_leaf (Q : json -> Prop) j : jleaf j -> Q j -> jall Q j.
Proof. destruct j; intros L H; try contradiction; split; auto. Qed.
Lemma jall_impl (Q R : json -> Prop) : (forall j, Q j -> R j) -> forall j, jall Q j -> jall R j.
Proof.
  intros I. induction j as [j Ha Ho | l IH | m IH] using json_nest_ind; intros H.
  - pose proof (jall_here _ _ H). destruct j; try (split; [auto|exact Logic.I]); [now contradiction (Ha l)|now contradiction (Ho m)].
  - apply jall_arr in H as [H0 H]. apply jall_arr. split; [auto|]. rewrite Forall_forall in *. auto.
  - apply jall_obj in H as [H0 H]. apply jall_obj. split; [auto|]. rewrite Forall_forall in *. auto.
Qed.
Lemma jall_and (Q R : json -> Prop) : forall j, jall Q j -> jall R j -> jall (fun j => Q j /\ R j) j.
Proof.
  induction j as [j Ha Ho | l IH | m IH] using json_nest_ind; intros H1 H2.
  - pose proof (jall_here _ _ H1). pose proof (jall_here _ _ H2).
    destruct j; try (split; [auto|exact Logic.I]); [now contradiction (Ha l)|now contradiction (Ho m)].
  - apply jall_arr in H1 as [H0 H1], H2 as [H3 H2]. apply jall_arr. split; [auto|]. rewrite Forall_forall in *. auto.
  - apply jall_obj in H1 as [H0 H1], H2 as [H3 H2]. apply jall_obj. split; [auto|]. rewrite Forall_forall in *. auto.
Qed.
Lemma F2_in_r {A B} (R : A -> B -> Prop) v l b : Forall2 R v l -> In b l -> exists a, In a v /\ R a b.
Proof. induction 1 as [|x y v l Hxy _ IH]; intros []; [subst; exists x; split; [now left|assumption]|]. destruct (IH H) as (a & ? & ?). exists a. split; [now right|assumption]. Qed.

Section DocAll.
  Variable P : nat.
  Variable N : gc -> Prop.
  Variable Q : json -> Prop.
  Hypothesis Hflat : forall g j, (forall v, g <> GVec v) -> (forall m, g <> GMap m) -> N g -> doc P g j -> jall Q j.
  Hypothesis Hvec : forall v l, N (GVec v) -> Forall2 (doc P) v l -> Q (JArr l).
  Hypothesis Hmap : forall m l, N (GMap m) -> Forall2 (fun a b => fst a = fst b /\ doc P (snd a) (snd b)) m l -> Q (JObj l).
  Lemma doc_all g j : everywhere N g -> doc P g j -> jall Q j.
  Proof.
    revert j. induction g as [g Hv Hm | v IH | m IH] using gc_nest_ind; intros j E H.
    - apply everywhere_here in E. eauto.
    - apply everywhere_vec in E as [E0 E]. inversion H as [| | | | | | | | | | | | | | | |? l Hl|]; subst.
      apply jall_arr. split; [eauto|]. apply Forall_forall. intros i Hi. destruct (F2_in_r _ _ _ _ Hl Hi) as (a & Ha & Hai).
      rewrite Forall_forall in *. eauto.
    - apply everywhere_map in E as [E0 E]. inversion H as [| | | | | | | | | | | | | | | | |? l Hl]; subst.
      apply jall_obj. split; [eauto|]. apply Forall_forall. intros i Hi. destruct (F2_in_r _ _ _ _ Hl Hi) as (a & Ha & _ & Hai).
      rewrite Forall_forall in *. exact (IH a Ha _ (E a Ha) Hai).
  Qed.
End DocAll.

Lemma list_doc_all {A} (R : A -> json -> Prop) (Q : json -> Prop) v j : list_doc R v j ->
  (forall l, Forall2 R v l -> Q (JArr l)) -> (forall a i, In a v -> R a i -> jall Q i) -> jall Q j.
Proof.
  intros (l & -> & H) H0 H1. apply jall_arr. split; [auto|]. apply Forall_forall. intros i Hi.
  destruct (F2_in_r _ _ _ _ H Hi) as (a & Ha & Hai). eauto.
Qed.
Lemma mat_doc_all {A} (R : A -> json -> Prop) (Q : json -> Prop) m j : mat_doc R m j ->
  (forall l, Forall2 (list_doc R) (columns (Z.to_nat (mrows m)) (Z.to_nat (mcols m)) (mdata m)) l -> Q (JArr l)) ->
  (forall c l, In c (columns (Z.to_nat (mrows m)) (Z.to_nat (mcols m)) (mdata m)) -> Forall2 R c l -> Q (JArr l)) ->
  (forall a i, In a (mdata m) -> R a i -> jall Q i) -> jall Q j.
Proof.
  intros H H0 H1 H2. apply (list_doc_all _ _ _ _ H H0). intros c i Hc Hi. apply (list_doc_all _ _ _ _ Hi); [eauto|].
  intros a k Ha. apply H2. eauto using in_columns.
Qed.

(** * Integers and strings *)
Section Leaves.
  Variable P : nat.
  Variable QI : Z -> Prop.
  Variable QS : string -> Prop.
  Definition leafQ (j : json) : Prop := match j with JInt n => QI n | JStr s => QS s | _ => True end.
  Definition realQ (x : Z) : Prop := forall n, Z.abs n < 10 ^ Z.of_nat P -> d_int n = d_real x -> QI n.
  Definition nodeQ (g : gc) : Prop :=
    exact_node P g /\
    match g with
    | GInt i => QI i
    | GLong i => QI i
    | GReal x => realQ x
    | GStr s => QS s
    | GVInt v => Forall QI v
    | GVLong v => Forall QI v
    | GVReal v => Forall realQ v
    | GVStr v => Forall QS v
    | GMInt m => Forall QI (mdata m)
    | GMLong m => Forall QI (mdata m)
    | GMReal m => Forall realQ (mdata m)
    | _ => True
    end.
  Lemma real_leaf x j : real_doc P x j -> exact_real P x -> realQ x -> jall leafQ j.
  Proof. intros [(n & -> & Hn & E)|(y & -> & E)] Ex HQ; (split; [|exact I]); cbn; [apply HQ; auto|exact I]. Qed.
  Lemma doc_leaf g j : everywhere nodeQ g -> doc P g j -> jall leafQ j.
  Proof.
    apply doc_all; try (intros; exact I). clear g j. intros g j Hv Hm (X & N) H.
    inversion H; subst; cbn [exact_node] in *; try contradiction; try nested_contra Hv Hm; try (split; [first [assumption|exact I]|exact I]).
    all: try match goal with
      | H : list_doc _ _ _ |- _ => apply (list_doc_all _ _ _ _ H); [intros; exact I|]; cbn beta; intros a i Ha Hi
      | H : mat_doc _ _ _ |- _ => apply (mat_doc_all _ _ _ _ H); [intros; exact I|intros; exact I|]; cbn beta; intros a i Ha Hi
      end; try rewrite Forall_forall in N; try rewrite Forall_forall in X;
      try (subst; split; [|exact I]); try exact I; cbn; eauto using real_leaf.
  Qed.
End Leaves.

(** * Names *)
Lemma sorted_nodup l : Sorted.StronglySorted slt l -> NoDup l.
Proof.
  induction 1 as [|a l _ IH F]; constructor; [|assumption]. intros H. rewrite Forall_forall in F. specialize (F a H).
  unfold slt in F. now apply (slt_irrefl a).
Qed.
Lemma doc_names P g j : wf g -> doc P g j -> jall distinct_names j.
Proof.
  intros W. apply (doc_all P (fun g => match g with GMap m => msorted m | _ => True end)).
  - clear g j W. intros g j Hv Hm _ H. inversion H; subst; try nested_contra Hv Hm; try (split; exact I).
    all: try match goal with
      | H : list_doc _ _ _ |- _ => apply (list_doc_all _ _ _ _ H); [intros; exact I|]; cbn beta; intros a i Ha Hi
      | H : mat_doc _ _ _ |- _ => apply (mat_doc_all _ _ _ _ H); [intros; exact I|intros; exact I|]; cbn beta; intros a i Ha Hi
      end.
    all: try match goal with H : real_doc _ _ _ |- _ => destruct H as [(? & -> & _)|(? & -> & _)] end.
    all: try match goal with H : is_str _ |- _ => destruct H as (? & ->) end.
    all: subst; split; exact I.
  - intros; exact I.
  - intros m l Hs Hl. cbn [distinct_names]. unfold msorted in Hs. replace (map fst l) with (map fst m); [now apply sorted_nodup|].
    clear Hs. induction Hl as [|a b m l [E _] _ IH]; [reflexivity|]. cbn. now f_equal.
  - revert W. clear j. induction g as [g Hv Hm | v IH | m IH] using gc_nest_ind; intros W.
    + destruct g; try (split; exact I); nested_contra Hv Hm.
    + apply wf_vec in W. apply everywhere_vec. split; [exact I|]. rewrite Forall_forall in *. auto.
    + apply wf_map in W as [Ws W]. apply everywhere_map. split; [exact Ws|]. rewrite Forall_forall in *. auto.
Qed.

(** * Sizes *)
Lemma jsize_pos j : 1 <= jsize j.
Proof.
  induction j as [j Ha Ho | l IH | m IH] using json_nest_ind.
  - destruct j; cbn [jsize]; try lia; [now contradiction (Ha l)|now contradiction (Ho m)].
  - rewrite jsize_arr. enough (0 <= jsum l) by lia. induction IH as [|a l H _ IHl]; cbn [jsum fold_right]; [lia|]. fold (jsum l). lia.
  - rewrite jsize_obj. enough (0 <= jsum (map snd m)) by lia. induction IH as [|a l H _ IHl]; cbn [jsum map fold_right]; [lia|]. fold (jsum (map snd l)). lia.
Qed.
Lemma jsum_in l j : In j l -> jsize j <= jsum l.
Proof.
  assert (P0 : forall l, 0 <= jsum l). { intros k. induction k as [|a k IH]; cbn [jsum fold_right]; [lia|]. fold (jsum k). pose proof (jsize_pos a). lia. }
  induction l as [|a l IH]; intros []; cbn [jsum fold_right]; fold (jsum l).
  - subst. specialize (P0 l). lia.
  - specialize (IH H). pose proof (jsize_pos a). lia.
Qed.
Lemma jsum_len l : zlen l <= jsum l.
Proof.
  induction l as [|a l IH]; [unfold zlen; cbn; lia|]. cbn [jsum fold_right]. fold (jsum l). pose proof (jsize_pos a). unfold zlen in *. cbn [length]. lia.
Qed.
Definition short (B : Z) (j : json) : Prop := match j with JArr l => zlen l < B | _ => True end.
Lemma short_all B j : jsize j < B -> jall (short B) j.
Proof.
  induction j as [j Ha Ho | l IH | m IH] using json_nest_ind; intros H.
  - destruct j; try (split; exact I); [now contradiction (Ha l)|now contradiction (Ho m)].
  - rewrite jsize_arr in H. apply jall_arr. split; [cbn; pose proof (jsum_len l); lia|]. rewrite Forall_forall in *. intros a Ha.
    apply IH; [assumption|]. pose proof (jsum_in l a Ha). lia.
  - rewrite jsize_obj in H. apply jall_obj. split; [exact I|]. rewrite Forall_forall in *. intros a Ha.
    apply IH; [assumption|]. pose proof (jsum_in (map snd m) (snd a) (in_map snd _ _ Ha)). lia.
Qed.
Lemma list_doc_size {A} (R : A -> json -> Prop) k v j : list_doc R v j -> (forall a i, In a v -> R a i -> jsize i <= k) ->
  jsize j <= 1 + k * zlen v.
Proof.
  intros (l & -> & H) E. rewrite jsize_arr. enough (jsum l <= k * zlen v) by lia. unfold zlen.
  induction H as [|a i v l Hi _ IH]; cbn [jsum fold_right length]; [lia|]. fold (jsum l).
  specialize (E a i (or_introl eq_refl) Hi) as E0. specialize (IH (fun a i Ha => E a i (or_intror Ha))). lia.
Qed.
Lemma leaf_size j : jleaf j -> jsize j <= 1.
Proof. destruct j; cbn; lia. Qed.
Lemma mat_doc_size {A} (R : A -> json -> Prop) (Q : A -> Prop) m j : wf_mat Q m -> 0 < mrows m -> mrows m * mcols m < 2^32 ->
  mat_doc R m j -> (forall a i, R a i -> jleaf i) -> jsize j <= 1 + 2 * zlen (mdata m).
Proof.
  intros W Hr Hs H L. destruct (wf_mat_ok Q m W Hs) as (H1 & H2 & _ & H3).
  pose proof (list_doc_size _ (1 + mrows m) _ _ H) as S.
  assert (Lc : forall nr nc (l c : list A), In c (columns nr nc l) -> zlen c <= Z.of_nat nr).
  { intros nr nc. induction nc as [|nc IH]; intros l c []; [subst; unfold zlen; rewrite firstn_length; lia|eauto]. }
  assert (Z0 : zlen (columns (Z.to_nat (mrows m)) (Z.to_nat (mcols m)) (mdata m)) = mcols m).
  { unfold zlen. rewrite columns_length. lia. }
  rewrite Z0 in S.
  enough (jsize j <= 1 + (1 + mrows m) * mcols m) by nia. apply S. intros c i Hc Hi.
  pose proof (list_doc_size _ 1 _ _ Hi (fun a i _ Ha => leaf_size i (L a i Ha))). specialize (Lc _ _ _ _ Hc). lia.
Qed.
Lemma real_doc_leaf P x j : real_doc P x j -> jleaf j.
Proof. intros [(n & -> & _)|(y & -> & _)]; exact I. Qed.
Lemma is_str_leaf j : is_str j -> jleaf j.
Proof. intros (s & ->). exact I. Qed.
Lemma doc_size P g j : wf g -> everywhere json_node g -> doc P g j -> jsize j <= 2 * weight g.
Proof.
  revert j. induction g as [g Hv Hm | v IH | m IH] using gc_nest_ind; intros j W N H.
  - apply everywhere_here in N. inversion H; subst; try nested_contra Hv Hm; cbn [weight jsize] in *; try lia.
    all: try match goal with
      | H : real_doc _ _ _ |- _ => apply real_doc_leaf, leaf_size in H; lia
      | H : is_str _ |- _ => apply is_str_leaf, leaf_size in H; lia
      | H : list_doc _ ?v _ |- _ => apply (list_doc_size _ 1) in H; [unfold zlen in *; lia|]; cbn beta; intros a i Ha Hi; apply leaf_size
      | H : mat_doc _ _ _ |- _ => cbn [json_node wf] in *; eapply mat_doc_size in H; [| eassumption | tauto | tauto | ]; [lia|]; cbn beta; intros a i Hi
      end; try (subst; exact I); eauto using real_doc_leaf, is_str_leaf.
  - apply everywhere_vec in N as [_ N]. apply wf_vec in W. inversion H as [| | | | | | | | | | | | | | | |? l Hl|]; subst.
    rewrite jsize_arr, weight_vec. enough (jsum l <= 2 * sumw v) by lia. clear H.
    induction Hl as [|a b v l Hab _ IHl]; cbn [jsum sumw fold_right]; [lia|]. fold (jsum l) (sumw v).
    inversion IH as [|? ? Ia Iv]; inversion N; inversion W; subst. specialize (Ia b ltac:(assumption) ltac:(assumption) Hab).
    specialize (IHl Iv ltac:(assumption) ltac:(assumption)). lia.
  - apply everywhere_map in N as [_ N]. apply wf_map in W as [_ W]. inversion H as [| | | | | | | | | | | | | | | | |? l Hl]; subst.
    rewrite jsize_obj, weight_map. enough (jsum (map snd l) <= 2 * sumwm m) by lia. clear H.
    induction Hl as [|a b v l [_ Hab] _ IHl]; cbn [jsum sumwm map fold_right]; [lia|]. fold (jsum (map snd l)) (sumwm v).
    inversion IH as [|? ? Ia Iv]; inversion N; inversion W; subst. specialize (Ia (snd b) ltac:(assumption) ltac:(assumption) Hab).
    specialize (IHl Iv ltac:(assumption) ltac:(assumption)). lia.
Qed.

(** * Arrays *)
Lemma doc_scalar P a l : doc P a (JArr l) -> exact_node P a -> scalar a -> False.
Proof.
  unfold scalar. intros H X S. inversion H; subst; cbn in S, X; try contradiction; try intuition discriminate.
  match goal with H : real_doc _ _ _ |- _ => now apply real_doc_leaf in H end.
Qed.
Lemma doc_map_arr P m l : ~ doc P (GMap m) (JArr l).
Proof. intros H. inversion H. Qed.
Lemma doc_no_arrays P g j : everywhere (fun g => no_nested_arrays g /\ exact_node P g) g -> doc P g j ->
  jall no_array_in_array j /\ jall not_jmixed j.
Proof.
  intros E H. enough (K : jall no_array_in_array j).
  { split; [assumption|]. revert K. apply jall_impl. clear. intros j K. destruct j; try exact I. cbn in *. split.
    - intros a b _ Hb. now apply K in Hb.
    - intros [_ Hb]. now apply K in Hb. }
  assert (E' : everywhere (fun g => (no_nested_arrays g /\ exact_node P g) /\
            (forall v, g = GVec v -> Forall (exact_node P) v)) g).
  { clear H. revert E. induction g as [g Hv Hm | v IH | m IH] using gc_nest_ind; intros E.
    - apply everywhere_here in E. destruct g; try (split; [split; [exact E|discriminate]|exact I]); nested_contra Hv Hm.
    - apply everywhere_vec in E as [E0 E]. apply everywhere_vec. split.
      + split; [assumption|]. intros w Ew. injection Ew as <-. rewrite Forall_forall in *. intros a Ha. specialize (E a Ha). apply everywhere_here in E. tauto.
      + rewrite Forall_forall in *. auto.
    - apply everywhere_map in E as [E0 E]. apply everywhere_map. split.
      + split; [assumption|discriminate].
      + rewrite Forall_forall in *. auto. }
  revert E' H. apply doc_all; try (intros; exact I).
  - clear. intros g j Hv Hm ((N & X) & _) H.
    assert (F : forall A (R : A -> json -> Prop) v j, list_doc R v j -> (forall a i, R a i -> jleaf i) -> jall no_array_in_array j).
    { intros A R v i Hl L. apply (list_doc_all _ _ _ _ Hl).
      - intros l Hl2 l' Hin. destruct (F2_in_r _ _ _ _ Hl2 Hin) as (a & _ & Ha). now apply L in Ha.
      - intros a k _ Ha. apply L in Ha. apply jall_leaf; [assumption|]. destruct k; try exact I; contradiction. }
    inversion H; subst; try nested_contra Hv Hm; cbn [no_nested_arrays] in N; try contradiction; try (split; exact I).
    all: try match goal with H : list_doc _ _ _ |- _ => apply (F _ _ _ _ H); cbn beta; intros a i Hi; try (subst; exact I); eauto using real_doc_leaf, is_str_leaf end.
    + match goal with H : real_doc _ _ _ |- _ => destruct H as [(n & -> & _)|(y & -> & _)]; split; exact I end.
  - intros v l ((N & _) & X) Hl l' Hin. destruct (F2_in_r _ _ _ _ Hl Hin) as (a & Ha & Hd). cbn [no_nested_arrays] in N.
    specialize (X v eq_refl). rewrite Forall_forall in N, X. destruct (N a Ha) as [S|S].
    + eapply doc_scalar; eauto.
    + destruct a; try discriminate S. now apply doc_map_arr in Hd.
Qed.
Lemma doc_not_empty P g : json_node g -> wf g -> ~ doc P g (JArr []).
Proof.
  intros N W H. inversion H as [| | | |x j Hx|c j Hc| |v j Hl|v j Hl|v j Hl|v j Hl|v j Hl|v j Hl|m j Hl|m j Hl|m j Hl|v l Hl|]; subst; cbn [json_node] in N.
  - now apply real_doc_leaf in Hx.
  - now apply is_str_leaf in Hc.
  - destruct Hl as (l & El & Hl). injection El as <-. inversion Hl; subst. now apply N.
  - destruct Hl as (l & El & Hl). injection El as <-. inversion Hl; subst. now apply N.
  - destruct Hl as (l & El & Hl). injection El as <-. inversion Hl; subst. now apply N.
  - destruct Hl as (l & El & Hl). injection El as <-. inversion Hl; subst. now apply N.
  - destruct Hl as (l & El & Hl). injection El as <-. inversion Hl; subst. now apply N.
  - destruct Hl as (l & El & Hl). injection El as <-. inversion Hl; subst. now apply N.
  - destruct Hl as (l & El & Hl). injection El as <-. inversion Hl as [E|]. symmetry in E. apply (f_equal (@length _)) in E. rewrite columns_length in E. cbn in E. lia.
  - destruct Hl as (l & El & Hl). injection El as <-. inversion Hl as [E|]. symmetry in E. apply (f_equal (@length _)) in E. rewrite columns_length in E. cbn in E. lia.
  - destruct Hl as (l & El & Hl). injection El as <-. inversion Hl as [E|]. symmetry in E. apply (f_equal (@length _)) in E. rewrite columns_length in E. cbn in E. lia.
  - inversion Hl; subst. now apply N.
Qed.
Lemma everywhere_impl (N M : gc -> Prop) : (forall g, N g -> M g) -> forall g, everywhere N g -> everywhere M g.
Proof.
  intros I. induction g as [g Hv Hm | v IH | m IH] using gc_nest_ind; intros E.
  - apply everywhere_here in E. destruct g; try (split; [auto|exact Logic.I]); nested_contra Hv Hm.
  - apply everywhere_vec in E as [E0 E]. apply everywhere_vec. split; [auto|]. rewrite Forall_forall in *. auto.
  - apply everywhere_map in E as [E0 E]. apply everywhere_map. split; [auto|]. rewrite Forall_forall in *. auto.
Qed.
Lemma everywhere_and (N M : gc -> Prop) : forall g, everywhere N g -> everywhere M g -> everywhere (fun g => N g /\ M g) g.
Proof.
  induction g as [g Hv Hm | v IH | m IH] using gc_nest_ind; intros E F.
  - apply everywhere_here in E, F. destruct g; try (split; [auto|exact Logic.I]); nested_contra Hv Hm.
  - apply everywhere_vec in E as [E0 E], F as [F0 F]. apply everywhere_vec. split; [auto|]. rewrite Forall_forall in *. auto.
  - apply everywhere_map in E as [E0 E], F as [F0 F]. apply everywhere_map. split; [auto|]. rewrite Forall_forall in *. auto.
Qed.
(** A property of the whole container holds at every level. *)
Lemma everywhere_sub (N : gc -> Prop) : (forall v, N (GVec v) -> Forall N v) -> (forall m, N (GMap m) -> Forall (fun kv => N (snd kv)) m) ->
  forall g, N g -> everywhere N g.
Proof.
  intros Iv Im. induction g as [g Hv Hm | v IH | m IH] using gc_nest_ind; intros E.
  - destruct g; try (split; [auto|exact Logic.I]); nested_contra Hv Hm.
  - apply everywhere_vec. split; [auto|]. apply Iv in E. rewrite Forall_forall in *. auto.
  - apply everywhere_map. split; [auto|]. apply Im in E. rewrite Forall_forall in *. auto.
Qed.
Lemma everywhere_wf g : wf g -> everywhere wf g.
Proof. apply everywhere_sub; intros; [now apply wf_vec|now apply wf_map]. Qed.
Lemma everywhere_twice N g : everywhere N g -> everywhere (everywhere N) g.
Proof. apply everywhere_sub; intros v H; [now apply everywhere_vec in H|now apply everywhere_map in H]. Qed.
Lemma doc_leaf_scalar P a j : doc P a j -> jleaf j -> scalar a.
Proof.
  intros H L. inversion H; subst; try (cbn; tauto); try contradiction;
    match goal with H : list_doc _ _ _ |- _ => destruct H as (? & -> & _) | H : mat_doc _ _ _ |- _ => destruct H as (? & -> & _) end; contradiction.
Qed.
Lemma doc_unmixed P g j : wf g -> everywhere json_node g -> everywhere (exact_node P) g -> everywhere not_mixed_data g ->
  doc P g j -> jall not_jmixed j.
Proof.
  intros W N X M.
  apply (doc_all P (fun g => wf g /\ everywhere json_node g /\ everywhere (exact_node P) g /\ not_mixed_data g)).
  - clear. intros g j Hv Hm (W & N & X & _) H. apply everywhere_here in N, X.
    assert (L0 : forall i, jleaf i -> jall not_jmixed i) by (intros i Hi; apply jall_leaf; [assumption|]; destruct i; try exact I; contradiction).
    assert (F : forall A (R : A -> json -> Prop) v j, list_doc R v j -> (forall a i, R a i -> jleaf i) -> jall not_jmixed j).
    { intros A R v i Hl L. apply (list_doc_all _ _ _ _ Hl).
      - intros l Hl2. cbn. split.
        + intros a b _ Hin. destruct (F2_in_r _ _ _ _ Hl2 Hin) as (c & _ & Hc). now apply L in Hc.
        + intros [_ Hin]. destruct (F2_in_r _ _ _ _ Hl2 Hin) as (c & _ & Hc). now apply L in Hc.
      - intros a k _ Ha. apply L in Ha. auto. }
    assert (G : forall A (R : A -> json -> Prop) m j, mat_doc R m j -> (forall a i, R a i -> jleaf i) -> jall not_jmixed j).
    { intros A R m i Hl L. apply (list_doc_all _ _ _ _ Hl).
      - intros l Hl2. cbn. split.
        + intros a b Ha _. destruct (F2_in_r _ _ _ _ Hl2 Ha) as (c & _ & (k & -> & _)). exact I.
        + intros [Ha _]. destruct (F2_in_r _ _ _ _ Hl2 Ha) as (c & _ & (k & E & _)). discriminate.
      - intros a k _ Ha. apply (F _ _ _ _ Ha L). }
    inversion H; subst; try nested_contra Hv Hm; try (split; exact I).
    all: try match goal with
      | H : list_doc _ _ _ |- _ => apply (F _ _ _ _ H)
      | H : mat_doc _ _ _ |- _ => apply (G _ _ _ _ H)
      end; cbn beta; try (intros; subst; exact I); eauto using real_doc_leaf, is_str_leaf.
  - clear. intros v l (W & N & X & M) Hl. apply wf_vec in W. apply everywhere_vec in N as [_ N], X as [_ X]. rewrite Forall_forall in W, N, X.
    cbn [not_jmixed not_mixed_data] in *. split.
    + intros ja b Ha Hb. destruct (F2_in_r _ _ _ _ Hl Ha) as (a & Ia & Da). destruct (F2_in_r _ _ _ _ Hl Hb) as (c & Ic & Dc).
      pose proof (doc_data P c _ (W c Ic) (X c Ic) Dc) as E. cbn [json_data map] in E. symmetry in E.
      assert (L : jleaf ja -> a = GNone) by (intros L; apply (M a c _ Ia Ic (doc_leaf_scalar _ _ _ Da L) E)).
      destruct ja; try exact I; rewrite (L I) in Da; inversion Da.
    + intros [_ Hb]. destruct (F2_in_r _ _ _ _ Hl Hb) as (c & Ic & Dc). specialize (N c Ic). apply everywhere_here in N.
      now apply (doc_not_empty P c N (W c Ic)).
  - intros; exact I.
  - apply everywhere_and; [now apply everywhere_wf|]. apply everywhere_and; [now apply everywhere_twice|].
    apply everywhere_and; [now apply everywhere_twice|assumption].
Qed.
