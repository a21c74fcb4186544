(** What an exception leaves behind. *)
From Coq Require Import ZArith Bool Lia Ascii String List.
From Verif Require Import Base F64 StrMap Value MBasic MGet MMap MMat MPromote MRef MCopy MCollapse SCopy MOps SSafe SThrow.
From Verif Require Import LCopy LMap LSafe WfDec.
Import ListNotations.
Local Open Scope Z_scope.

Definition throws {A} (r : out A * gc) : Prop := fst r = Throw.
Ltac quiet := cbn [perform swrite rwrite failed overwrite sets_to forget omap fst snd after calm throws]; try (intros; discriminate); try (split; intros; auto; fail).

Lemma elems_not {A B} (k : list B -> gc) d (f : A -> B) v : throws (promote_elems k d f v) -> False.
Proof. unfold throws, promote_elems. destruct (copy_into _ _); discriminate. Qed.
Lemma pmat_not {A B} (k : mat B -> gc) d (f : A -> B) v : throws (promote_mat k d f v) -> False.
Proof. unfold throws, promote_mat. destruct (copy_into _ _); discriminate. Qed.
Lemma pcw_not {A B} (k : mat B -> gc) (v : list A) : throws (promote_col_wrong k v) -> False.
Proof. unfold throws. destruct v; discriminate. Qed.
Lemma pcol_not {A B} (k : mat B -> gc) (f : A -> B) v : few v -> promote_col k f v = (Ok tt, k (Mat (zlen v) 1 (map f v))).
Proof.
  intros H. unfold promote_col, few in *. pose proof (zlen_nonneg v). rewrite to_u32_id by (unfold uint32; lia). rewrite Z.leb_refl.
  unfold zlen. now rewrite Nat2Z.id, firstn_all.
Qed.
Lemma promote_calm t g : fits g -> throws (promote t g) -> snd (promote t g) = g.
Proof.
  intros F. destruct t, g;
  cbn [promote promote_to_int promote_to_long promote_to_real promote_to_complex promote_to_vec_int promote_to_vec_long
    promote_to_vec_real promote_to_vec_complex promote_to_mat_int promote_to_mat_long promote_to_mat_real promote_to_mat_complex promote_to_vector];
  try (intros; discriminate); try reflexivity;
  try (intros H; now apply elems_not in H); try (intros H; now apply pmat_not in H); try (intros H; now apply pcw_not in H);
  rewrite pcol_not by exact F; intros; discriminate.
Qed.
Lemma set_calm (r : out gc) g : throws (overwrite r g) -> snd (overwrite r g) = g.
Proof. destruct r; cbn; try discriminate; reflexivity. Qed.
Lemma push_calm o g : match o with PushBool _ | PushInt _ | PushLong _ | PushReal _ | PushComplex _ | PushStr _ => True | _ => False end ->
  fits g -> throws (perform o g) -> snd (perform o g) = g.
Proof.
  intros K F. destruct o; try contradiction; destruct g;
  cbn [perform push_bool push_int push_long push_real push_complex push_string promote_to_vec_int promote_to_vec_long promote_to_vec_real
       promote_to_vec_complex promote_to_vector]; try (intros; discriminate); try reflexivity;
  rewrite elems_total by exact F; intros; discriminate.
Qed.
Lemma vec_calm o g : match o with PutVPtr _ | PutVBool _ | PutVInt _ | PutVLong _ | PutVReal _ | PutVComplex _ | PutVStr _ => True | _ => False end ->
  fits g -> throws (perform o g) -> snd (perform o g) = g.
Proof.
  intros K F. destruct o; try contradiction; destruct g;
  cbn [perform ref_vec_pointer ref_vec_bool ref_vec_int ref_vec_long ref_vec_real ref_vec_complex ref_vec_string promote_to_vec_int
       promote_to_vec_long promote_to_vec_real promote_to_vec_complex after as_vint as_vlong as_vreal as_vcomplex set_vint_sz set_vlong_sz set_vreal_sz set_vcomplex_sz];
  try (intros; discriminate); try reflexivity; rewrite elems_total by exact F; intros; discriminate.
Qed.
Lemma mat_calm o g : match o with PutMInt _ | PutMLong _ | PutMReal _ | PutMComplex _ | PutIntAt2 _ _ _ | PutLongAt2 _ _ _
    | PutRealAt2 _ _ _ | PutComplexAt2 _ _ _ => True | _ => False end ->
  wf g -> fits g -> throws (perform o g) -> (snd (perform o g) = g <-> calm o g).
Proof.
  assert (forall A (mk : mat A -> gc) i j m x, throws (rwrite x (mat_ref mk i j m)) -> snd (rwrite x (mat_ref mk i j m)) = mk m) as MR.
  { intros A mk i j m x. unfold mat_ref. destruct (znth _ _); [discriminate | reflexivity]. }
  intros K W F. destruct o; try contradiction; destruct g;
  cbn [perform calm ref_mat_int ref_mat_long ref_mat_real ref_mat_complex ref_int_at2 ref_long_at2 ref_real_at2 ref_complex_at2
       promote_to_mat_int promote_to_mat_long promote_to_mat_real promote_to_mat_complex as_mint as_mlong as_mreal as_mcomplex
       mint_at mlong_at mreal_at mcomplex_at set_mint_sz set_mlong_sz set_mreal_sz set_mcomplex_sz];
  try (intros; discriminate); try (intros _; split; reflexivity);
  try (match goal with |- context [after (promote_mat ?k ?d ?f ?m) ?h] => destruct (pmat_ref _ k d f m h W) as [n ->] end);
  try (rewrite pcol_not by exact F; cbn [after]);
  try (match goal with |- context [promote_col_wrong] => destruct v; cbn [promote_col_wrong after] end);
  cbn [as_mint as_mlong as_mreal as_mcomplex mint_at mlong_at mreal_at mcomplex_at];
  try (intros; discriminate); try (intros _; split; reflexivity);
  try (intros H; pose proof (MR _ _ _ _ _ _ H) as E; rewrite E; split; [discriminate | contradiction]);
  try (intros H; pose proof (MR _ _ _ _ _ _ H) as E; rewrite E; split; reflexivity);
  cbn; intros _; (split; [discriminate | contradiction]).
Qed.
Lemma slot_calm {A} (k : A -> gc) d i v x : throws (rwrite x (slot_in k d i v)) -> False.
Proof. unfold throws, slot_in. destruct (znth _ _); discriminate. Qed.
Lemma grow_calm {A} (k : list A -> gc) d i v x : throws (rwrite x (grow_ref k d i v)) -> False.
Proof. unfold throws, grow_ref. destruct (znth _ _); discriminate. Qed.
Lemma grow_calm_read {A} (k : list A -> gc) d i v : throws (forget (rread (grow_ref k d i v))) -> False.
Proof. unfold throws, grow_ref. destruct (znth _ _); discriminate. Qed.
Lemma vslot_calm {A} (k : A -> gc) d i g x : fits g -> g <> GNone -> throws (rwrite x (vslot k d i g)) -> snd (rwrite x (vslot k d i g)) = g.
Proof.
  intros F N. assert (row g \/ ~ row g) as [R|R] by (destruct g; cbn; tauto).
  - destruct (vslot_typed k d i g R F N) as (v & _ & ->). intros H. now apply slot_calm in H.
  - destruct g; cbn in R |- *; try (exfalso; apply R; exact I); try discriminate; reflexivity.
Qed.
Lemma vslot_calm_read {A} (k : A -> gc) d i g : fits g -> g <> GNone -> throws (forget (rread (vslot k d i g))) -> snd (forget (rread (vslot k d i g))) = g.
Proof.
  intros F N. assert (row g \/ ~ row g) as [R|R] by (destruct g; cbn; tauto).
  - destruct (vslot_typed k d i g R F N) as (v & _ & ->). unfold slot_in. destruct (znth _ _); intros H; discriminate.
  - destruct g; cbn in R |- *; try (exfalso; apply R; exact I); try discriminate; reflexivity.
Qed.
Lemma at_calm o g : match o with ShowBoolAt _ | PutIntAt _ _ | PutLongAt _ _ | PutRealAt _ _ | PutComplexAt _ _ | PutStrAt _ _ => True | _ => False end ->
  fits g -> throws (perform o g) -> snd (perform o g) = g.
Proof.
  intros K F. destruct o; try contradiction; destruct g;
  cbn [perform ref_bool_at ref_int_at ref_long_at ref_real_at ref_complex_at ref_string_at promote_to_vec_int promote_to_vec_long promote_to_vec_real
       promote_to_vec_complex after vint_at vlong_at vreal_at vcomplex_at];
  try (unfold set_vint_sz, set_vlong_sz, set_vreal_sz, set_vcomplex_sz; cbn [vint_at vlong_at vreal_at vcomplex_at]);
  try (apply vslot_calm; [exact F | discriminate]); try (apply vslot_calm_read; [exact F | discriminate]);
  try (intros H; now apply grow_calm in H); try (intros H; now apply grow_calm_read in H);
  rewrite elems_total by exact F; cbn [after vint_at vlong_at vreal_at vcomplex_at]; intros H; now apply grow_calm in H.
Qed.
Lemma same_iff (g g' : gc) (P : Prop) : g' = g -> P -> (g' = g <-> P).
Proof. tauto. Qed.

(** After an exception the container is as before exactly if it is calm for the statement. *)
Theorem C105_partial o : core o -> small_args o -> forall g, wf g -> fits g -> throws (perform o g) -> (snd (perform o g) = g <-> calm o g).
Proof.
  induction o; intros C S g W F; try contradiction;
  try (intros T; apply same_iff; [|exact I]; revert T; apply set_calm);
  try (intros T; apply same_iff; [|exact I]; revert T; apply push_calm; [exact I | exact F]);
  try (intros T; apply same_iff; [|exact I]; revert T; apply vec_calm; [exact I | exact F]);
  try (intros T; apply same_iff; [|exact I]; revert T; apply at_calm; [exact I | exact F]);
  try (intros T; apply same_iff; [|exact I]; revert T; apply promote_calm; exact F);
  try (apply mat_calm; [exact I | exact W | exact F]);
  try (intros; discriminate);
  try (destruct g; cbn; (intros; discriminate) || (intros _; split; reflexivity); fail).
  all: cbn [core small_args] in C, S.
  - (* Merge *) intros T. apply same_iff; [|exact I]. revert T. destruct S as [W1 F1]. cbn [perform].
    destruct src; cbn [merge]; try (intros; discriminate); try reflexivity. apply wf_map in W1 as [_ W1]. apply fits_map in F1.
    assert (forall acc, exists r, assign_map m acc = Ok r) as T.
    { apply assign_map_total. rewrite Forall_forall in *. intros a Ha. apply from_gc_total; auto. }
    destruct g; cbn; try reflexivity; [destruct (T []) as [r ->] | destruct (T m0) as [r ->]]; discriminate.
  - (* Key *) cbn [perform calm]. unfold with_key, throws. set (e := match mfind (cstr k) (old_map g) with Some e => e | None => GNone end).
    assert (wf e /\ fits e) as [W1 F1].
    { unfold e. destruct g; try (split; exact I). cbn [old_map]. destruct (mfind (cstr k) m) as [e0|] eqn:E; [|split; exact I].
      apply wf_map in W as [_ W]. apply fits_map in F. rewrite Forall_forall in W, F. apply mfind_in in E. split; [exact (W _ E) | exact (F _ E)]. }
    specialize (IHo C S e W1 F1). unfold throws in IHo. destruct (perform o e) as [r e'] eqn:E. cbn [fst snd] in *. intros T. specialize (IHo T).
    split.
    + intros H. destruct g; try discriminate H. cbn [old_map] in *. injection H as H. exists m. 
      pose proof (mfind_mset_same (cstr k) e' m) as Q. rewrite H in Q. exists e'. split; [reflexivity|]. split; [exact Q|].
      unfold e in IHo. rewrite Q in IHo. now apply IHo.
    + intros (m & e0 & -> & Q & Hc). cbn [old_map] in *. unfold e in IHo. rewrite Q in IHo. apply IHo in Hc. subst e'.
      f_equal. apply mset_id; [exact Q | now apply wf_map in W].
  - (* Idx *) destruct S as [U S]. cbn [perform calm]. unfold throws. destruct (Z.eq_dec i last_index) as [->|N].
    + unfold with_idx. rewrite grow_last; [discriminate|]. destruct g; try exact few_nil. now apply fits_vec in F.
    + assert (0 <= i < 2^32 - 1) as Hi by (unfold uint32, last_index in *; lia).
      rewrite with_idx_spec by exact Hi. cbn [fst snd]. set (e := slot i (old_vec g)).
      assert (wf e /\ fits e) as [W1 F1].
      { unfold e, slot. destruct g; try (cbn; destruct (Z.to_nat i); split; exact I). cbn [old_vec]. destruct (nth_error v (Z.to_nat i)) as [e0|] eqn:E; [|split; exact I].
        apply wf_vec in W. apply fits_vec in F as [_ F]. rewrite Forall_forall in W, F. apply nth_error_In in E. auto. }
      specialize (IHo C S e W1 F1). unfold throws in IHo. intros T. specialize (IHo T). split.
      * intros H. destruct g; try discriminate H. cbn [old_vec] in *. injection H as H. exists v.
        pose proof (slot_lset i (snd (perform o e)) v Hi) as Q. rewrite H in Q. exists (snd (perform o e)). split; [reflexivity|]. split; [exact Q|].
        assert (e = snd (perform o e)) as Ee by (unfold e at 1, slot; now rewrite Q). rewrite <- Ee. apply IHo. now symmetry.
      * intros (v & e0 & -> & Q & Hc). cbn [old_vec] in *. assert (e = e0) as Ee by (unfold e, slot; now rewrite Q). rewrite <- Ee in Hc.
        apply IHo in Hc. rewrite Hc. f_equal. assert (Z.to_nat i < length v)%nat as L by (apply nth_error_Some; congruence).
        replace (check_resize GNone i v) with v; [apply lset_same; congruence|]. unfold check_resize. 
        replace (zlen v <=? i) with false; [reflexivity|]. symmetry. apply Z.leb_gt. unfold zlen. lia.
  - (* CallKey *) cbn [perform calm]. destruct g; try (intros _; apply same_iff; [reflexivity | intros; discriminate]). unfold call_key_with, throws.
    destruct (mfind (cstr k) m) as [e|] eqn:Q; [|intros _; apply same_iff; [reflexivity|]; intros m1 e1 H; injection H as <-; congruence].
    assert (wf e /\ fits e) as [W1 F1].
    { apply wf_map in W as [_ W]. apply fits_map in F. rewrite Forall_forall in W, F. apply mfind_in in Q. split; [exact (W _ Q) | exact (F _ Q)]. }
    specialize (IHo C S e W1 F1). unfold throws in IHo. destruct (perform o e) as [r e'] eqn:E. cbn [fst snd] in *. intros T. specialize (IHo T). split.
    + intros H. injection H as H. pose proof (mfind_mset_same (cstr k) e' m) as Q2. rewrite H, Q in Q2. apply Some_inj in Q2.
      intros m1 e1 Hm He. injection Hm as <-. rewrite Q in He. apply Some_inj in He. rewrite <- He. apply IHo. now symmetry.
    + intros H. specialize (H m e eq_refl Q). apply IHo in H. subst e'. f_equal. apply mset_id; [exact Q | now apply wf_map in W].
  - (* CallIdx *) destruct S as [U S]. cbn [perform calm]. destruct g; try (intros _; apply same_iff; [reflexivity | intros; discriminate]). unfold call_idx_with, throws.
    unfold uint32 in U. destruct (Z.ltb_spec i (zlen v)) as [L|L].
    + rewrite znth_nth by lia. destruct (nth_error v (Z.to_nat i)) as [e|] eqn:Q; [|discriminate].
      assert (wf e /\ fits e) as [W1 F1].
      { apply wf_vec in W. apply fits_vec in F as [_ F]. rewrite Forall_forall in W, F. apply nth_error_In in Q. auto. }
      specialize (IHo C S e W1 F1). unfold throws in IHo. destruct (perform o e) as [r e'] eqn:E. cbn [fst snd] in *. intros T. specialize (IHo T). split.
      * intros H. injection H as H. pose proof (lset_nth_same (Z.to_nat i) e' v) as Q2. rewrite H, Q in Q2.
        assert (Some e = Some e') as Q3 by (apply Q2, nth_error_Some; congruence). apply Some_inj in Q3.
        intros v1 e1 Hm He. injection Hm as <-. rewrite Q in He. apply Some_inj in He. rewrite <- He. apply IHo. now symmetry.
      * intros H. specialize (H v e eq_refl Q). apply IHo in H. subst e'. f_equal. now apply lset_same.
    + intros _. apply same_iff; [reflexivity|]. intros v1 e1 H He. injection H as <-. exfalso.
      assert (Z.to_nat i < length v)%nat by (apply nth_error_Some; congruence). unfold zlen in L. lia.
  - (* ConstKey *) destruct g; try (intros _; split; reflexivity). cbn [perform const_idx_key]. destruct (mfind _ _); discriminate.
  - (* MapAt *) cbn [perform calm]. destruct g; try (intros _; apply same_iff; [reflexivity | intros; discriminate]). unfold throws.
    set (e := match mfind k m with Some e => e | None => GNone end).
    assert (wf e /\ fits e) as [W1 F1].
    { unfold e. destruct (mfind k m) as [e0|] eqn:Q; [|split; exact I]. apply wf_map in W as [_ W]. apply fits_map in F. rewrite Forall_forall in W, F.
      apply mfind_in in Q. split; [exact (W _ Q) | exact (F _ Q)]. }
    specialize (IHo C S e W1 F1). unfold throws in IHo. destruct (perform o e) as [r e'] eqn:E. cbn [fst snd] in *. intros T. specialize (IHo T). split.
    + intros H. injection H as H. pose proof (mfind_mset_same k e' m) as Q. rewrite H in Q. intros m1 Hm. injection Hm as <-. exists e'. split; [exact Q|].
      unfold e in IHo. rewrite Q in IHo. now apply IHo.
    + intros H. destruct (H m eq_refl) as (e0 & Q & Hc). unfold e in IHo. rewrite Q in IHo. apply IHo in Hc. subst e'. f_equal. apply mset_id; [exact Q | now apply wf_map in W].
  - (* DropBack *) destruct g; try (intros _; split; reflexivity). destruct v; discriminate.
  - (* Back *) cbn [perform calm]. destruct g; try (intros _; apply same_iff; [reflexivity | intros; discriminate]). unfold with_back, throws.
    destruct (rev v) as [|e r] eqn:E; [discriminate|].
    assert (v = rev r ++ [e]) as Ev by (apply (f_equal (@rev gc)) in E; now rewrite rev_involutive in E).
    assert (wf e /\ fits e) as [W1 F1].
    { apply wf_vec in W. apply fits_vec in F as [_ F]. subst v. apply Forall_app in W as [_ W]. apply Forall_app in F as [_ F].
      inversion W; inversion F; auto. }
    specialize (IHo C S e W1 F1). unfold throws in IHo. destruct (perform o e) as [r' e'] eqn:E'. cbn [fst snd] in *. intros T. specialize (IHo T). rewrite Ev. split.
    + intros H. injection H as H. apply app_inv_head in H. injection H as H. intros w e1 Hm. injection Hm as Hm. apply app_inj_tail in Hm as [_ Hm].
      rewrite <- Hm. now apply IHo.
    + intros H. specialize (H (rev r) e eq_refl). apply IHo in H. now subst e'.
Qed.

(** "An exception leaves the container unchanged" is false. *)
Theorem C105_refuted :
  ~ (forall o g, core o -> small_args o -> wf g -> fits g -> throws (perform o g) -> snd (perform o g) = g) /\
  perform (PutIntAt2 2 3 5) GNone = (Throw, GMReal (Mat 2 3 [0; 0; 0; 0; 0; 0])) /\
  perform (PutLongAt2 0 0 5) (GVBool [true]) = (Throw, GMReal (Mat 1 1 [f_of_Z 1])) /\
  perform (PutRealAt2 7 0 5) (GVInt [1; 2]) = (Throw, GMReal (Mat 2 1 [f_of_Z 1; f_of_Z 2])) /\
  perform (Key "a"%string (Erase "b"%string)) (GVec [GInt 1]) = (Throw, GMap [("a"%string, GNone)]) /\
  perform (Idx 1 (Erase "b"%string)) (GVec []) = (Throw, GVec [GNone; GNone]).
Proof.
  split; [|vmc]. intros H. specialize (H (Key "a"%string (Erase "b"%string)) (GVec [GInt 1]) I I).
  assert (wf (GVec [GInt 1])) as W by wfd. assert (fits (GVec [GInt 1])) as F by (apply fits_vec; split; [reflexivity|]; repeat constructor).
  specialize (H W F eq_refl). discriminate H.
Qed.
(** A statement that throws deep inside existing parts changes nothing. *)
Definition ex_t : gc := GMap [("a"%string, GVec [GNone; GMInt (Mat 1 1 [4])]); ("b"%string, GVLong [1])].
Example C105_example :
  wf ex_t /\ fits ex_t /\
  throws (perform (Key "a"%string (Idx 1 (PutIntAt2 3 3 1))) ex_t) /\ calm (Key "a"%string (Idx 1 (PutIntAt2 3 3 1))) ex_t /\
  perform (Key "a"%string (Idx 1 (PutIntAt2 3 3 1))) ex_t = (Throw, ex_t) /\
  throws (perform (Key "b"%string (PutLongAt2 3 3 1)) ex_t) /\ ~ calm (Key "b"%string (PutLongAt2 3 3 1)) ex_t /\
  throws (perform (CallKey "c"%string (PushInt 1)) ex_t) /\ calm (CallKey "c"%string (PushInt 1)) ex_t.
Proof.
  split; [wfd|]. split; [repeat split|]. split; [vmc|].
  split; [eexists; eexists; split; [reflexivity|]; split; [reflexivity|]; eexists; eexists; split; [reflexivity|]; split; [reflexivity|]; exact I|].
  split; [vmc|]. split; [vmc|].
  split; [intros (m & e & H & H1 & H2); injection H as <-; cbv in H1; injection H1 as <-; exact H2|].
  split; [vmc|]. intros m e H H1. injection H as <-. discriminate H1.
Qed.
Print Assumptions C105_partial.
Print Assumptions C105_refuted.
