(** Outcomes of the statements on a container, for [Props_safe.v]. *)
From Coq Require Import ZArith Bool Lia Ascii String List.
From Verif Require Import Base F64 StrMap Value MBasic MGet MMap MMat MPromote MRef MCopy MCollapse SCopy MOps SSafe.
From Verif Require Import LCopy LMap.
Import ListNotations.
Local Open Scope Z_scope.

Lemma elems_total {A B} (k : list B -> gc) d (f : A -> B) v : few v -> promote_elems k d f v = (Ok tt, k (map f v)).
Proof.
  intros H. unfold promote_elems.
  assert (zlen v = zlen (map f v)) as L by (unfold zlen; now rewrite map_length).
  rewrite L. rewrite copy_alloc by (unfold few in *; lia). destruct v; reflexivity.
Qed.
Lemma pmat_total {A B} (P : A -> Prop) (k : mat B -> gc) d (f : A -> B) m : wf_mat P m -> fst (promote_mat k d f m) = Ok tt.
Proof.
  intros (_ & _ & L & _). unfold promote_mat, copy_into. rewrite map_length, resize_length.
  replace (length (mdata m) <=? Z.to_nat (to_u32 (mrows m * mcols m)))%nat with true; [reflexivity|].
  symmetry. apply Nat.leb_le. unfold zlen in L. lia.
Qed.
Lemma pmat_ref {A B C} (P : A -> Prop) (k : mat B -> gc) d (f : A -> B) m (h : gc -> refr C) : wf_mat P m ->
  exists n, after (promote_mat k d f m) h = h (k n).
Proof.
  intros W. pose proof (pmat_total P k d f m W) as E. unfold promote_mat in *. destruct (copy_into _ _); try discriminate E.
  cbn [after]. eexists. reflexivity.
Qed.
Lemma pcol_fst {A B} (k : mat B -> gc) (f : A -> B) v : fst (promote_col k f v) = Ok tt \/ fst (promote_col k f v) = Throw.
Proof. unfold promote_col. cbn [fst]. destruct (_ <=? _); auto. Qed.
Lemma pcol_ref {A B C} (k : mat B -> gc) (f : A -> B) v (h : gc -> refr C) :
  (exists n, after (promote_col k f v) h = h (k n)) \/ exists g, after (promote_col k f v) h = Bad Throw g.
Proof. unfold promote_col. cbn zeta. destruct (_ <=? _); [left|right]; cbn [after]; eexists; reflexivity. Qed.

(** * Growing *)
Lemma grow_last {A} (d : A) v : few v -> check_resize d last_index v = [].
Proof.
  unfold few, last_index. intros H. unfold check_resize. destruct (Z.leb_spec (zlen v) (2^32 - 1)); [|lia]. reflexivity.
Qed.
Lemma grow_some {A} (d : A) i v : uint32 i -> i <> last_index -> exists a, znth i (check_resize d i v) = Some a.
Proof.
  unfold uint32, last_index. intros U N. destruct (znth i (check_resize d i v)) as [a|] eqn:E; [eauto|].
  rewrite znth_nth in E by lia. apply nth_error_None in E. destruct (check_resize_grow d i v) as [_ L]; [lia|].
  unfold zlen in *. lia.
Qed.
Lemma grow_ref_iff {A} (mk : list A -> gc) d i v x : uint32 i -> few v ->
  (undefined (fst (rwrite x (grow_ref mk d i v))) <-> i = last_index).
Proof.
  intros U F. unfold grow_ref. destruct (Z.eq_dec i last_index) as [->|N].
  - rewrite grow_last by assumption. split; [reflexivity|]. intros _. exact I.
  - destruct (grow_some d i v U N) as [a ->]. cbn [rwrite fst undefined]. tauto.
Qed.
Lemma grow_read_iff {A} (mk : list A -> gc) d i v : uint32 i -> few v ->
  (undefined (fst (forget (rread (grow_ref mk d i v)))) <-> i = last_index).
Proof.
  intros U F. unfold grow_ref. destruct (Z.eq_dec i last_index) as [->|N].
  - rewrite grow_last by assumption. split; [reflexivity|]. intros _. exact I.
  - destruct (grow_some d i v U N) as [a ->]. cbn. tauto.
Qed.
Definition slot_in {A} (k : A -> gc) (d : A) (i : Z) (v : list gc) : refr A :=
  let w := check_resize GNone i v in
  match znth i w with
  | Some _ => Ref d (fun x => GVec (lset (Z.to_nat i) (k x) w))
  | None => Bad Undef (GVec w)
  end.
Lemma slot_in_iff {A} (k : A -> gc) d i v x : uint32 i -> few v ->
  (undefined (fst (rwrite x (slot_in k d i v))) <-> i = last_index).
Proof.
  intros U F. unfold slot_in. destruct (Z.eq_dec i last_index) as [->|N].
  - rewrite grow_last by assumption. split; [reflexivity|]. intros _. exact I.
  - destruct (grow_some GNone i v U N) as [a ->]. cbn. tauto.
Qed.
Lemma slot_read_iff {A} (k : A -> gc) d i v : uint32 i -> few v ->
  (undefined (fst (forget (rread (slot_in k d i v)))) <-> i = last_index).
Proof.
  intros U F. unfold slot_in. destruct (Z.eq_dec i last_index) as [->|N].
  - rewrite grow_last by assumption. split; [reflexivity|]. intros _. exact I.
  - destruct (grow_some GNone i v U N) as [a ->]. cbn. tauto.
Qed.
Lemma few_map {A B} (f : A -> B) v : few v -> few (map f v).
Proof. unfold few, zlen. now rewrite map_length. Qed.
Lemma few_nil {A} : few (@nil A). Proof. reflexivity. Qed.
Lemma few_one {A} (x : A) : few [x]. Proof. reflexivity. Qed.
(** The three outcomes of [vslot]. *)
Lemma vslot_vec {A} (k : A -> gc) d i v : vslot k d i (GVec v) = slot_in k d i v.
Proof. reflexivity. Qed.
Lemma vslot_elems {A B} (k : A -> gc) d i (f : B -> gc) (v : list B) : few v ->
  after (promote_elems GVec GNone f v) (fun g => match g with GVec v => slot_in k d i v | _ => Bad Undef g end) = slot_in k d i (map f v).
Proof. intros H. rewrite elems_total by assumption. reflexivity. Qed.
Lemma vslot_typed {A} (k : A -> gc) d i g : row g -> fits g -> g <> GNone -> exists v, few v /\ vslot k d i g = slot_in k d i v.
Proof.
  intros R F N. destruct g; try contradiction; try congruence; try (apply fits_vec in F; exists v; split; [tauto | reflexivity]);
  unfold vslot; cbv iota; cbn [promote_to_vector]; rewrite elems_total by exact F; eexists;
  (split; [|reflexivity]); apply few_map; exact F.
Qed.
Lemma vslot_scalar {A} (k : A -> gc) d i g x : scalar g -> undefined (fst (rwrite x (vslot k d i g))).
Proof. destruct g; try contradiction; intros _; exact I. Qed.
Lemma vslot_scalar_read {A} (k : A -> gc) d i g : scalar g -> undefined (fst (forget (rread (vslot k d i g)))).
Proof. destruct g; try contradiction; intros _; exact I. Qed.

(** * Copies *)
Lemma assign_vec_total v : Forall (fun a => forall b, exists r, from_gc a b = Ok r) v -> forall w, (length v <= length w)%nat ->
  exists r, assign_vec v w = Ok r.
Proof.
  induction 1 as [|a v Ha _ IH]; intros w L; [exists w; reflexivity|]. destruct w as [|b w]; [cbn in L; lia|]. cbn [assign_vec].
  destruct (Ha b) as [r ->]. cbn [bind]. destruct (IH w) as [s ->]; [cbn in L; lia|]. eexists. reflexivity.
Qed.
Lemma assign_map_total m : Forall (fun kv => forall b, exists r, from_gc (snd kv) b = Ok r) m -> forall acc, exists r, assign_map m acc = Ok r.
Proof.
  induction 1 as [|[k a] m Ha _ IH]; intros acc; [exists acc; reflexivity|]. cbn [assign_map snd] in *.
  destruct (Ha (odflt (mfind (cstr k) acc))) as [r ->]. cbn [bind]. apply IH.
Qed.
Lemma from_gc_total src : wf src -> fits src -> forall dst, exists r, from_gc src dst = Ok r.
Proof.
  induction src as [src Hv Hm | v IH | m IH] using gc_nest_ind; intros W F dst.
  - destruct src; try (exfalso; eapply Hv; reflexivity); try (exfalso; eapply Hm; reflexivity); cbn [from_gc];
    try (eexists; reflexivity);
    try (unfold set_vptr, set_vbool, set_vint, set_vlong, set_vreal, set_vcomplex, set_vstr;
         unfold alloc_vptr, alloc_vbool, alloc_vint, alloc_vlong, alloc_vreal, alloc_vcomplex, alloc_vstr; rewrite copy_alloc by exact F; eexists; reflexivity);
    unfold set_mint, set_mlong, set_mreal, set_mcomplex; rewrite (mcopy_exact _ _ _ _ W); eexists; reflexivity.
  - rewrite from_gc_vec. apply wf_vec in W. apply fits_vec in F as [F1 F]. destruct (assign_vec_total v) with (w := alloc_vec (to_u32 (zlen v)) dst) as [r ->].
    + rewrite Forall_forall in *. intros a Ha. apply IH; auto.
    + unfold alloc_vec. rewrite valloc_length by assumption. destruct v; cbn [length]; lia.
    + eexists. reflexivity.
  - rewrite from_gc_map. apply wf_map in W as [_ W]. apply fits_map in F. destruct (assign_map_total m) with (acc := old_map dst) as [r ->].
    + rewrite Forall_forall in *. intros a Ha. apply IH; auto.
    + eexists. reflexivity.
Qed.
