(** Proofs about typed set operations, counts and type names. *)
From Coq Require Import ZArith Bool Lia Ascii String List.
From Verif Require Import Base F64 StrMap Value MBasic MCopy SCopy LCopy.
Import ListNotations.
Local Open Scope Z_scope.

Lemma set_vec_exact (v : list Z) (old : gc) : few v -> v <> [] ->
  set_vint v old = Ok (GVInt v) /\ set_vlong v old = Ok (GVLong v) /\
  set_vreal v old = Ok (GVReal v) /\ set_vptr v old = Ok (GVPtr v).
Proof.
  intros H Hne. unfold set_vint, set_vlong, set_vreal, set_vptr, alloc_vint, alloc_vlong, alloc_vreal, alloc_vptr.
  rewrite !copy_alloc by assumption. destruct v; [congruence|]. auto.
Qed.

Lemma set_vbool_exact v old : few v -> v <> [] -> set_vbool v old = Ok (GVBool v).
Proof.
  intros H Hne. unfold set_vbool, alloc_vbool. rewrite copy_alloc by assumption.
  destruct v; [congruence|]. auto.
Qed.
Lemma set_vcomplex_exact v old : few v -> v <> [] -> set_vcomplex v old = Ok (GVComplex v).
Proof.
  intros H Hne. unfold set_vcomplex, alloc_vcomplex. rewrite copy_alloc by assumption.
  destruct v; [congruence|]. auto.
Qed.
Lemma set_vstr_exact v old : few v -> v <> [] -> set_vstr v old = Ok (GVStr v).
Proof.
  intros H Hne. unfold set_vstr, alloc_vstr. rewrite copy_alloc by assumption.
  destruct v; [congruence|]. auto.
Qed.

Lemma set_mat_exact old :
  (forall m, wf_mat int32 m -> set_mint m old = Ok (GMInt m)) /\
  (forall m, wf_mat int64 m -> set_mlong m old = Ok (GMLong m)) /\
  (forall m, wf_mat f64 m -> set_mreal m old = Ok (GMReal m)) /\
  (forall m, wf_mat fc m -> set_mcomplex m old = Ok (GMComplex m)).
Proof.
  repeat split; intros m H; unfold set_mint, set_mlong, set_mreal, set_mcomplex;
    rewrite (mcopy_exact _ _ _ _ H); reflexivity.
Qed.

(** An empty vector of the type already stored changes nothing. *)
Lemma set_vec_empty (old : gc) :
  (forall w, old = GVInt w -> set_vint [] old = Ok old) /\
  (forall w, old = GVReal w -> set_vreal [] old = Ok old) /\
  (forall w, old = GVLong w -> set_vlong [] old = Ok old) /\
  (forall w, old = GVBool w -> set_vbool [] old = Ok old) /\
  (forall w, old = GVComplex w -> set_vcomplex [] old = Ok old) /\
  (forall w, old = GVStr w -> set_vstr [] old = Ok old).
Proof. repeat split; intros w ->; reflexivity. Qed.

Lemma type_name_inj t t' : type_name t = type_name t' -> t = t'.
Proof. destruct t, t'; intros H; first [reflexivity | discriminate H]. Qed.

Lemma type_name_nonempty t : type_name t <> EmptyString.
Proof. destruct t; discriminate. Qed.

(** Number of entries a value holds, as the user sees it. *)
Definition entries (g : gc) : Z :=
  match g with
  | GNone => 0
  | GPtr _ | GBool _ | GInt _ | GLong _ | GReal _ | GComplex _ | GStr _ => 1
  | GVPtr v | GVInt v | GVLong v | GVReal v => zlen v
  | GVBool v => zlen v
  | GVComplex v => zlen v
  | GVStr v => zlen v
  | GMInt m | GMLong m | GMReal m => mrows m * mcols m
  | GMComplex m => mrows m * mcols m
  | GVec v => zlen v
  | GMap m => zlen m
  end.

Lemma counts_agree g : wf g -> entries g < 2^32 ->
  num_elements g = entries g /\ num_rows g * num_cols g = entries g.
Proof.
  intros Hw He.
  assert (V : forall A (v : list A), zlen v < 2^32 -> to_u32 (zlen v) = zlen v)
    by (intros A v H; apply to_u32_id; unfold uint32; pose proof (zlen_nonneg v); lia).
  assert (M : forall A P (m : mat A), wf_mat P m -> mrows m * mcols m < 2^32 ->
            to_u32 (zlen (mdata m)) = mrows m * mcols m).
  { intros A P m (H1 & H2 & H3 & _) H. rewrite H3. unfold uint32 in *.
    rewrite (to_u32_id (mrows m * mcols m)) by (unfold uint32; split; [apply Z.mul_nonneg_nonneg; lia|lia]).
    apply to_u32_id. unfold uint32. split; [apply Z.mul_nonneg_nonneg; lia|lia]. }
  destruct g; cbn [num_elements num_rows num_cols entries wf] in *; rewrite ?V by assumption;
    try (split; [reflexivity|lia]);
    (split; [eapply M; eauto | reflexivity]).
Qed.
