(** Which statements on a container are undefined behaviour. *)
From Coq Require Import ZArith Bool Lia Ascii String List.
From Verif Require Import Base F64 StrMap Value MBasic MGet MMap MMat MPromote MRef MCopy MCollapse SCopy MOps SSafe.
From Verif Require Import LCopy LMap LSafe WfDec.
Import ListNotations.
Local Open Scope Z_scope.

Lemma promote_iff t g : wf g -> fits g -> (undefined (fst (promote t g)) <-> hazard (Promote t) g).
Proof.
  intros W F. destruct t, g; cbn [promote promote_to_int promote_to_long promote_to_real promote_to_complex promote_to_vec_int promote_to_vec_long
    promote_to_vec_real promote_to_vec_complex promote_to_mat_int promote_to_mat_long promote_to_mat_real promote_to_mat_complex promote_to_vector hazard scalar to_int_column to_complex_column];
  try (cbn [fst undefined]; tauto);
  try (rewrite elems_total by exact F; cbn [fst undefined]; tauto);
  try (rewrite (pmat_total _ _ _ _ _ W); cbn [undefined]; tauto);
  try (match goal with |- context [promote_col ?k ?f ?v] => destruct (pcol_fst k f v) as [-> | ->]; cbn [undefined]; tauto end);
  destruct v; cbn [promote_col_wrong fst undefined]; tauto.
Qed.


(** * References to elements *)
Lemma hz_row up i g : row g -> ~ scalar g -> (i = last_index <-> slot_hazard up i g).
Proof. unfold slot_hazard. tauto. Qed.
Lemma hz_up (up : gc -> Prop) i g : up g -> (i = last_index <-> slot_hazard up i g).
Proof. unfold slot_hazard. tauto. Qed.
Lemma hz_scalar (up : gc -> Prop) i g (P : Prop) : scalar g -> ~ up g -> P -> (P <-> slot_hazard up i g).
Proof. unfold slot_hazard. tauto. Qed.
Lemma hz_none (up : gc -> Prop) i g (P : Prop) : ~ row g -> ~ scalar g -> ~ up g -> ~ P -> (P <-> slot_hazard up i g).
Proof. unfold slot_hazard. tauto. Qed.
Lemma vslot_iff {A} up (k : A -> gc) d i g x : uint32 i -> fits g -> g <> GNone -> ~ up g ->
  (undefined (fst (rwrite x (vslot k d i g))) <-> slot_hazard up i g).
Proof.
  intros U F N NU.
  assert (row g \/ scalar g \/ (~ row g /\ ~ scalar g)) as [R|[S|[N1 N2]]] by (destruct g; cbn; tauto).
  - destruct (vslot_typed k d i g R F N) as (v & Fv & ->). rewrite slot_in_iff by assumption. apply hz_row; [exact R|]. destruct g; try contradiction; cbn; tauto.
  - apply hz_scalar; auto. now apply vslot_scalar.
  - apply hz_none; auto. destruct g; cbn in N1, N2 |- *; tauto.
Qed.
Lemma vslot_read_iff {A} up (k : A -> gc) d i g : uint32 i -> fits g -> g <> GNone -> ~ up g ->
  (undefined (fst (forget (rread (vslot k d i g)))) <-> slot_hazard up i g).
Proof.
  intros U F N NU.
  assert (row g \/ scalar g \/ (~ row g /\ ~ scalar g)) as [R|[S|[N1 N2]]] by (destruct g; cbn; tauto).
  - destruct (vslot_typed k d i g R F N) as (v & Fv & ->). rewrite slot_read_iff by assumption. apply hz_row; [exact R|]. destruct g; try contradiction; cbn; tauto.
  - apply hz_scalar; auto. now apply vslot_scalar_read.
  - apply hz_none; auto. destruct g; cbn in N1, N2 |- *; tauto.
Qed.
Ltac hz := first [ apply hz_row; [exact I | exact (fun H => H)] | apply hz_up; exact I ].
Ltac few_tac := first [ assumption | exact few_nil | apply few_one | (apply few_map; assumption) ].
Ltac at_tac U F :=
  first [ (apply vslot_iff; [exact U | exact F | discriminate | exact (fun H => H)])
        | (rewrite grow_ref_iff; [hz | exact U | few_tac])
        | (rewrite elems_total by exact F; cbn [after vint_at vlong_at vreal_at vcomplex_at]; rewrite grow_ref_iff; [hz | exact U | apply few_map; exact F]) ].
Lemma bool_at_iff i g : uint32 i -> fits g -> (undefined (fst (perform (ShowBoolAt i) g)) <-> hazard (ShowBoolAt i) g).
Proof.
  intros U F. cbn [perform hazard]. destruct g; cbn [ref_bool_at];
  first [ (apply vslot_read_iff; [exact U | exact F | discriminate | exact (fun H => H)])
        | (rewrite grow_read_iff; [hz | exact U | few_tac]) ].
Qed.
Lemma int_at_iff i x g : uint32 i -> fits g -> (undefined (fst (perform (PutIntAt i x) g)) <-> hazard (PutIntAt i x) g).
Proof.
  intros U F. cbn [perform hazard]. destruct g; cbn [ref_int_at set_vint_sz promote_to_vec_int after vint_at];
  try (unfold set_vint_sz; cbn [vint_at]); at_tac U F.
Qed.
Lemma long_at_iff i x g : uint32 i -> fits g -> (undefined (fst (perform (PutLongAt i x) g)) <-> hazard (PutLongAt i x) g).
Proof.
  intros U F. cbn [perform hazard]. destruct g; cbn [ref_long_at promote_to_vec_long after vlong_at];
  try (unfold set_vlong_sz; cbn [vlong_at]); at_tac U F.
Qed.
Lemma real_at_iff i x g : uint32 i -> fits g -> (undefined (fst (perform (PutRealAt i x) g)) <-> hazard (PutRealAt i x) g).
Proof.
  intros U F. cbn [perform hazard]. destruct g; cbn [ref_real_at promote_to_vec_real after vreal_at];
  try (unfold set_vreal_sz; cbn [vreal_at]); at_tac U F.
Qed.
Lemma complex_at_iff i x g : uint32 i -> fits g -> (undefined (fst (perform (PutComplexAt i x) g)) <-> hazard (PutComplexAt i x) g).
Proof.
  intros U F. cbn [perform hazard]. destruct g; cbn [ref_complex_at promote_to_vec_complex after vcomplex_at];
  try (unfold set_vcomplex_sz; cbn [vcomplex_at]); at_tac U F.
Qed.
Lemma string_at_iff i x g : uint32 i -> fits g -> (undefined (fst (perform (PutStrAt i x) g)) <-> hazard (PutStrAt i x) g).
Proof. intros U F. cbn [perform hazard]. destruct g; cbn [ref_string_at]; at_tac U F. Qed.

(** * Whole vectors and matrices *)
Ltac none := cbn [perform hazard swrite rwrite failed overwrite sets_to forget omap fst undefined after]; tauto.
Lemma push_iff o g : match o with PushBool _ | PushInt _ | PushLong _ | PushReal _ | PushComplex _ | PushStr _ => True | _ => False end ->
  fits g -> (undefined (fst (perform o g)) <-> hazard o g).
Proof.
  intros K F. destruct o; try contradiction; destruct g;
  cbn [perform hazard push_bool push_int push_long push_real push_complex push_string promote_to_vec_int promote_to_vec_long promote_to_vec_real
       promote_to_vec_complex promote_to_vector scalar];
  try none; rewrite elems_total by exact F; none.
Qed.
Lemma vec_ref_iff o g : match o with PutVPtr _ | PutVBool _ | PutVInt _ | PutVLong _ | PutVReal _ | PutVComplex _ | PutVStr _ => True | _ => False end ->
  fits g -> (undefined (fst (perform o g)) <-> hazard o g).
Proof.
  intros K F. destruct o; try contradiction; destruct g;
  cbn [perform hazard ref_vec_pointer ref_vec_bool ref_vec_int ref_vec_long ref_vec_real ref_vec_complex ref_vec_string promote_to_vec_int
       promote_to_vec_long promote_to_vec_real promote_to_vec_complex after as_vint as_vlong as_vreal as_vcomplex set_vint_sz set_vlong_sz set_vreal_sz set_vcomplex_sz];
  try none; rewrite elems_total by exact F; none.
Qed.
Lemma at2_iff {A} (mk : mat A -> gc) i j m x : ~ undefined (fst (rwrite x (mat_ref mk i j m))).
Proof. unfold mat_ref. destruct (znth _ _); cbn; auto. Qed.
Lemma mat_ref_iff o g : match o with PutMInt _ | PutMLong _ | PutMReal _ | PutMComplex _ | PutIntAt2 _ _ _ | PutLongAt2 _ _ _
    | PutRealAt2 _ _ _ | PutComplexAt2 _ _ _ => True | _ => False end ->
  wf g -> (undefined (fst (perform o g)) <-> hazard o g).
Proof.
  intros K W. destruct o; try contradiction; destruct g;
  cbn [perform hazard ref_mat_int ref_mat_long ref_mat_real ref_mat_complex ref_int_at2 ref_long_at2 ref_real_at2 ref_complex_at2
       promote_to_mat_int promote_to_mat_long promote_to_mat_real promote_to_mat_complex as_mint as_mlong as_mreal as_mcomplex
       mint_at mlong_at mreal_at mcomplex_at set_mint_sz set_mlong_sz set_mreal_sz set_mcomplex_sz to_int_column to_complex_column];
  try none;
  try (match goal with |- context [mat_ref ?k ?i ?j ?m] => pose proof (@at2_iff _ k i j m) as Hm; split; [apply Hm | tauto] end);
  try (match goal with |- context [after (promote_mat ?k ?d ?f ?m) ?h] => destruct (pmat_ref _ k d f m h W) as [n ->] end);
  try (match goal with |- context [after (promote_col ?k ?f ?v) ?h] => destruct (pcol_ref k f v h) as [[n ->] | [g' ->]] end);
  try (match goal with |- context [promote_col_wrong] => destruct v; cbn [promote_col_wrong after] end);
  cbn [as_mint as_mlong as_mreal as_mcomplex mint_at mlong_at mreal_at mcomplex_at];
  try none;
  try (match goal with |- context [mat_ref ?k ?i ?j ?m] => pose proof (@at2_iff _ k i j m) as Hm; split; [apply Hm | tauto] end).
Qed.

(** * Everything *)
Lemma over_ok r g : (exists g', r = Ok g') -> ~ undefined (fst (overwrite r g)).
Proof. intros [g' ->]. cbn. auto. Qed.
Lemma set_iff o g : match o with SetVPtr _ | SetVBool _ | SetVInt _ | SetVLong _ | SetVReal _ | SetVComplex _ | SetVStr _
    | SetMInt _ | SetMLong _ | SetMReal _ | SetMComplex _ => True | _ => False end ->
  small_args o -> ~ undefined (fst (perform o g)).
Proof.
  intros K S. destruct o; try contradiction; cbn [perform small_args] in *; apply over_ok;
  try (unfold set_vptr, set_vbool, set_vint, set_vlong, set_vreal, set_vcomplex, set_vstr;
       unfold alloc_vptr, alloc_vbool, alloc_vint, alloc_vlong, alloc_vreal, alloc_vcomplex, alloc_vstr; rewrite copy_alloc by exact S; eexists; reflexivity);
  unfold set_mint, set_mlong, set_mreal, set_mcomplex; rewrite (mcopy_exact _ _ _ _ S); eexists; reflexivity.
Qed.
Lemma copy_iff o g : match o with Assign _ | ToGc _ | Merge _ => True | _ => False end -> small_args o -> ~ undefined (fst (perform o g)).
Proof.
  intros K S. destruct o; try contradiction; cbn [perform small_args] in *; destruct S as [W F].
  - apply over_ok, from_gc_total; assumption.
  - rewrite to_gc_from_gc. apply over_ok, from_gc_total; assumption.
  - destruct src; cbn [merge]; try (cbn; tauto). apply wf_map in W as [_ W]. apply fits_map in F.
    assert (forall acc, exists r, assign_map m acc = Ok r) as T.
    { apply assign_map_total. rewrite Forall_forall in *. intros a Ha. apply from_gc_total; auto. }
    destruct g; try (cbn; tauto); [destruct (T []) as [r E]; cbn [merge set_map0] | destruct (T m0) as [r E]].
    all: cbn; try rewrite E; cbn; tauto.
Qed.

Lemma member_ok k g : wf g -> fits g -> wf (member k g) /\ fits (member k g).
Proof.
  intros W F. destruct g; try (split; exact I). cbn [member]. destruct (mfind k m) as [e|] eqn:E; [|split; exact I].
  apply wf_map in W as [_ W]. apply fits_map in F. rewrite Forall_forall in W, F. apply mfind_in in E.
  split; [exact (W _ E) | exact (F _ E)].
Qed.
Lemma element_ok i g : wf g -> fits g -> wf (element i g) /\ fits (element i g).
Proof.
  intros W F. destruct g; try (split; exact I). cbn [element]. apply wf_vec in W. apply fits_vec in F as [_ F].
  destruct (nth_in_or_default (Z.to_nat i) v GNone) as [Hin | ->]; [|split; exact I]. rewrite Forall_forall in W, F. split; auto.
Qed.
Lemma slot_element i g : slot i (old_vec g) = element i g.
Proof.
  destruct g; try (unfold slot; cbn; destruct (Z.to_nat i); reflexivity). unfold slot. cbn [old_vec element].
  destruct (nth_error v (Z.to_nat i)) as [e|] eqn:E; symmetry; [now apply nth_error_nth | apply nth_error_None in E; now apply nth_overflow].
Qed.
Lemma fst_let {A B C} (p : A * B) (f : B -> C) : fst (let '(r, e) := p in (r, f e)) = fst p.
Proof. destruct p. reflexivity. Qed.

Theorem C103_partial o : core o -> small_args o -> forall g, wf g -> fits g -> (undefined (fst (perform o g)) <-> hazard o g).
Proof.
  induction o; intros C S g W F; try contradiction;
  try (split; [intros H; exfalso; revert H; apply set_iff; [exact I | exact S] | contradiction]);
  try (split; [intros H; exfalso; revert H; apply copy_iff; [exact I | exact S] | contradiction]);
  try (apply push_iff; [exact I | exact F]);
  try (apply vec_ref_iff; [exact I | exact F]);
  try (apply mat_ref_iff; [exact I | exact W]);
  try (apply promote_iff; assumption);
  try (apply bool_at_iff; assumption); try (apply int_at_iff; assumption); try (apply long_at_iff; assumption);
  try (apply real_at_iff; assumption); try (apply complex_at_iff; assumption); try (apply string_at_iff; assumption);
  try none;
  try (destruct g; none).
  all: cbn [core small_args] in C, S.
  - (* Key *) cbn [perform hazard]. unfold with_key. rewrite fst_let. destruct (member_ok (cstr k) g W F) as [W1 F1].
    rewrite <- (IHo C S _ W1 F1). destruct g; cbn; reflexivity.
  - (* Idx *) destruct S as [U S]. cbn [perform hazard]. destruct (Z.eq_dec i last_index) as [->|N].
    + split; [auto|]. intros _. unfold with_idx. rewrite grow_last; [exact I|]. destruct g; try exact few_nil. now apply fits_vec in F.
    + rewrite with_idx_spec by (unfold uint32, last_index in *; lia). cbn [fst]. rewrite slot_element.
      destruct (element_ok i g W F) as [W1 F1]. rewrite (IHo C S _ W1 F1). tauto.
  - (* CallKey *) cbn [perform hazard]. destruct g; try (cbn; split; [tauto | intros (m9 & e9 & H & _); discriminate H]). unfold call_key_with.
    destruct (mfind (cstr k) m) as [e|] eqn:E.
    + rewrite fst_let. destruct (member_ok (cstr k) (GMap m) W F) as [W1 F1]. cbn [member] in W1, F1. rewrite E in W1, F1.
      rewrite (IHo C S _ W1 F1). split; [intros H; exists m, e; auto|]. intros (m1 & e1 & H1 & H2 & H3). injection H1 as ->. rewrite E in H2.
      apply Some_inj in H2. now subst.
    + cbn. split; [tauto|]. intros (m1 & e1 & H1 & H2 & H3). injection H1 as ->. congruence.
  - (* CallIdx *) destruct S as [U S]. cbn [perform hazard]. destruct g; try (cbn; split; [tauto | intros (v9 & H & _); discriminate H]). unfold call_idx_with.
    destruct (Z.ltb_spec i (zlen v)) as [L|L].
    + destruct (znth i v) as [e|] eqn:E.
      * rewrite fst_let. destruct (element_ok i (GVec v) W F) as [W1 F1].
        assert (element i (GVec v) = e) as Ee.
        { cbn [element]. unfold uint32 in U. rewrite znth_nth in E by lia. now apply nth_error_nth. }
        rewrite Ee in *. rewrite (IHo C S _ W1 F1). split; [intros H; exists v; auto|]. intros (w & H & _ & Hz). assumption.
      * exfalso. unfold uint32 in U. rewrite znth_nth in E by lia. apply nth_error_None in E. unfold zlen in L. lia.
    + cbn. split; [tauto|]. intros (w & H & Hl & _). injection H as ->. lia.
  - (* ConstKey *) destruct g; try none. cbn [perform hazard const_idx_key]. destruct (mfind _ _); none.
  - (* MapAt *) cbn [perform hazard]. destruct g; try (cbn; split; [tauto | intros (m9 & H & _); discriminate H]).
    rewrite fst_let. destruct (member_ok k (GMap m) W F) as [W1 F1]. cbn [member] in *. rewrite (IHo C S _ W1 F1).
    split; [intros H; exists m; auto | intros (n & _ & H); exact H].
  - (* DropBack *) destruct g; cbn [perform hazard]; try (cbn; split; [tauto | discriminate]). destruct v; cbn; split; try tauto; try discriminate.
  - (* Back *) cbn [perform hazard]. destruct g; try (cbn; split; [tauto | intros (v9 & H & _); discriminate H]). unfold with_back.
    destruct (rev v) as [|e r] eqn:E.
    + split; [|intros _; exact I]. intros _. exists v. split; [reflexivity|]. left. apply (f_equal (@rev gc)) in E. now rewrite rev_involutive in E.
    + rewrite fst_let. assert (v = rev r ++ [e]) as Ev by (apply (f_equal (@rev gc)) in E; now rewrite rev_involutive in E).
      assert (wf e /\ fits e) as [W1 F1].
      { apply wf_vec in W. apply fits_vec in F as [_ F]. subst v. apply Forall_app in W as [_ W]. apply Forall_app in F as [_ F].
        inversion W; inversion F; auto. }
      rewrite (IHo C S _ W1 F1). split; [intros H; exists v; split; [reflexivity|]; right; exists (rev r), e; auto|].
      intros (w & H & [Hn | (w1 & e1 & H1 & H2)]); injection H as <-.
      * rewrite Hn in Ev. now destruct (rev r).
      * rewrite Ev in H1. apply app_inj_tail in H1 as [_ ->]. exact H2.
Qed.

(** "No call on a valid container is undefined" is false, for simple containers and arguments. *)
Theorem C103_refuted :
  ~ (forall o g, core o -> small_args o -> wf g -> fits g -> ~ undefined (fst (perform o g))) /\
  undefined (fst (perform (Promote ToVec) (GInt 3))) /\ undefined (fst (perform (PushStr "x"%string) (GStr "y"%string))) /\
  undefined (fst (perform (PutIntAt2 0 0 5) (GVInt [1; 2]))) /\ undefined (fst (perform (PutMComplex (Mat 0 0 [])) (GVReal [1]))) /\
  undefined (fst (perform (PutRealAt 0 5) (GReal 1))) /\ undefined (fst (perform (Idx (2^32 - 1) Clear) GNone)).
Proof.
  split; [|do 5 (split; [exact I|])].
  - intros H. apply (H (PushStr "x"%string) (GStr "y"%string)); exact I.
  - apply C103_partial; try exact I; [split; [unfold uint32; lia | exact I]|]. left. reflexivity.
Qed.
(** The theorem on a nested statement: the hazard is on the part the references lead to. *)
Definition ex_g : gc := GMap [("a"%string, GVec [GNone; GInt 1]); ("b"%string, GVReal [1])].
Example C103_example :
  wf ex_g /\ fits ex_g /\
  hazard (Key "a"%string (Idx 1 (PushStr "x"%string))) ex_g /\ ~ hazard (Key "a"%string (Idx 0 (PushStr "x"%string))) ex_g /\
  hazard (CallKey "b"%string (PutComplexAt2 0 0 c_zero)) ex_g /\ ~ hazard (CallKey "c"%string (PutComplexAt2 0 0 c_zero)) ex_g /\
  ~ hazard (Key "b"%string (PutRealAt 7 1)) ex_g /\ hazard (Key "b"%string (PutRealAt (2^32 - 1) 1)) ex_g.
Proof.
  split; [wfd|]. split; [repeat split|]. split; [right; exact I|]. split; [intros [H|H]; [discriminate H | exact H]|].
  split; [eexists; eexists; split; [reflexivity|]; split; [reflexivity|]; exact I|].
  split; [intros (m & e & H & H1 & _); injection H as <-; discriminate H1|].
  split; [intros [[_ H]|[H _]]; [discriminate H | exact H]|]. left. split; [left; exact I | reflexivity].
Qed.
Print Assumptions C103_partial.
Print Assumptions C103_refuted.
