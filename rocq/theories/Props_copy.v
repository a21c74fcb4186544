(** Properties C01-C07: copy, assignment, merge, typed set, counts, names. *)
From Coq Require Import ZArith Bool Lia Ascii String List.
From Verif Require Import Base F64 StrMap Value MBasic MCopy SCopy LCopy LBasic.
Import ListNotations.
Local Open Scope Z_scope.

(** A nested value used as a witness that hypotheses are satisfiable. *)
Definition sample : gc :=
  GMap [("a", GVec [GInt 3; GStr "x"; GVInt [1; 2]]);
        ("m", GMInt (Mat 2 1 [5; 6])); ("z", GMap [("k", GReal f_one)])]%string.
Lemma sample_ok : value_ok sample.
Proof.
  unfold value_ok, sample. repeat split; cbn; try reflexivity; try lia; auto;
    repeat constructor; unfold no_nul; cbn; try (intuition discriminate);
    unfold int32, uint32, f64; cbn; try lia.
Qed.

(** C01: copying into an empty container gives exactly the source, for every value. *)
Theorem C01_copy_exact : forall g, value_ok g -> from_gc g GNone = Ok g.
Proof. exact from_gc_empty. Qed.
Example C01_nonvacuous : value_ok sample /\ from_gc sample GNone = Ok sample.
Proof. split; [exact sample_ok | reflexivity]. Qed.
Print Assumptions C01_copy_exact.

(** C01 also holds over any content of a different type, and writing out (to_gc) agrees
    with reading in (from_gc). *)
Theorem C01_copy_over_other_type : forall g old, value_ok g -> wfm old ->
  tag_of old <> tag_of g -> from_gc g old = Ok g.
Proof. exact from_gc_fresh. Qed.
Theorem C01_to_gc_is_from_gc : forall a b, to_gc a b = from_gc a b.
Proof. exact to_gc_from_gc. Qed.
Print Assumptions C01_copy_over_other_type.
Print Assumptions C01_to_gc_is_from_gc.

(** C02: assignment does not replace.  A map assigned over a map keeps foreign keys; an
    empty vector assigned over a vector of the same type keeps the old elements. *)
Theorem C02_assignment_replaces_refuted :
  exists a b r, value_ok a /\ value_ok b /\ from_gc b a = Ok r /\ r <> b /\ r <> a.
Proof.
  exists (GMap [("old", GInt 1)])%string, (GMap [("new", GInt 2)])%string,
         (GMap [("new", GInt 2); ("old", GInt 1)])%string.
  repeat split; cbn; try reflexivity; try discriminate; auto;
    repeat constructor; unfold no_nul, int32; cbn; try lia; intuition discriminate.
Qed.
Theorem C02_empty_vector_assignment_ignored :
  exists a b, value_ok a /\ value_ok b /\ a <> b /\ from_gc b a = Ok a.
Proof.
  exists (GVReal [f_one]), (GVReal []). repeat split; cbn; try reflexivity; try discriminate; auto.
  repeat constructor; unfold f64; cbn; lia.
Qed.
Print Assumptions C02_assignment_replaces_refuted.
Print Assumptions C02_empty_vector_assignment_ignored.

(** C02, what does hold: the old content disappears exactly when [clean old new] (no key of
    old outside new, no empty vector over a non-empty one of the same type, recursively). *)
Theorem C02_assignment_replaces_iff_partial : forall old g, value_ok g -> wfm old ->
  (from_gc g old = Ok g <-> clean old g).
Proof. intros; now apply from_gc_clean_iff. Qed.
Theorem C02_clear_then_assign : forall old g, value_ok g -> from_gc g (clear old) = Ok g.
Proof. intros; now apply from_gc_empty. Qed.
Example C02_nonvacuous :
  let old := GMap [("a", GVec [GInt 1]); ("m", GBool true)]%string in
  value_ok sample /\ wfm old /\ clean old sample.
Proof.
  cbv zeta. split; [exact sample_ok|].
  assert (W : wfm (GMap [("a", GVec [GInt 1]); ("m", GBool true)]%string)).
  { split; [|cbn; auto]. repeat constructor. }
  split; [exact W|]. apply from_gc_clean_iff; [exact sample_ok | exact W | reflexivity].
Qed.
Print Assumptions C02_assignment_replaces_iff_partial.
Print Assumptions C02_clear_then_assign.

(** C03: the exact effect of `a = b`, and the specification determines it. *)
Theorem C03_assignment_effect : forall b a, value_ok b -> wfm a ->
  exists r, from_gc b a = Ok r /\ wfm r /\ assigned a b r.
Proof. intros; now apply from_gc_assigned. Qed.
Theorem C03_effect_unique : forall b a r r', wfm b -> wfm a ->
  assigned a b r -> assigned a b r' -> r = r'.
Proof. intros b a r r' Hb Ha. exact (assigned_fun b Hb a r r' Ha). Qed.
Example C03_nonvacuous : exists a b r, value_ok b /\ wfm a /\ from_gc b a = Ok r /\ r <> a /\ r <> b.
Proof.
  exists (GVec [GVInt [1]; GMap [("k", GInt 1)]])%string, (GVec [GVInt []; GMap [("j", GInt 2)]])%string.
  eexists. repeat split; cbn; try reflexivity; try discriminate; auto;
    repeat constructor; unfold no_nul, int32; cbn; try lia; intuition discriminate.
Qed.
Print Assumptions C03_assignment_effect.
Print Assumptions C03_effect_unique.

(** C04: merge. *)
Theorem C04_merge : forall m dst, value_ok (GMap m) -> wfm dst ->
  (dst = GNone \/ exists d, dst = GMap d) ->
  exists r, merge (GMap m) dst = (Ok tt, GMap r) /\ msorted r /\
    (forall k, mfind k m = None -> mfind k r = mfind k (old_map dst)) /\
    (forall k x, mfind k m = Some x ->
       exists y, mfind k r = Some y /\ assigned (find_or_empty k (old_map dst)) x y).
Proof. intros m dst H1 H2 H3. eapply merge_spec; eauto. Qed.
Theorem C04_merge_errors_change_nothing : forall src dst,
  (tag_of src <> TNone /\ tag_of src <> TMap) \/
  (tag_of src = TMap /\ tag_of dst <> TNone /\ tag_of dst <> TMap) ->
  merge src dst = (Throw, dst).
Proof.
  intros src dst [[H1 H2]|(H1 & H2 & H3)]; [now apply merge_bad_src|].
  destruct src; try discriminate. now apply merge_bad_dst.
Qed.
Theorem C04_merge_nothing : forall dst, merge GNone dst = (Ok tt, dst).
Proof. exact merge_noop. Qed.
Example C04_nonvacuous :
  merge (GMap [("b", GInt 2); ("c", GInt 3)])%string (GMap [("a", GInt 1); ("b", GStr "x")])%string
  = (Ok tt, GMap [("a", GInt 1); ("b", GInt 2); ("c", GInt 3)])%string.
Proof. reflexivity. Qed.
Print Assumptions C04_merge.
Print Assumptions C04_merge_errors_change_nothing.
Print Assumptions C04_merge_nothing.

(** C05: clear and typed set operations. *)
Theorem C05_scalar_sets_forget : forall old,
  clear old = GNone /\
  (forall b, set_bool b old = GBool b) /\ (forall i, set_int i old = GInt i) /\
  (forall l, set_long l old = GLong l) /\ (forall r, set_real r old = GReal r) /\
  (forall c, set_complex c old = GComplex c) /\ (forall s, set_string s old = GStr s) /\
  (forall p, set_pointer p old = GPtr p).
Proof. intros; repeat split. Qed.
Theorem C05_matrix_sets_forget : forall old,
  (forall m, wf_mat int32 m -> set_mint m old = Ok (GMInt m)) /\
  (forall m, wf_mat int64 m -> set_mlong m old = Ok (GMLong m)) /\
  (forall m, wf_mat f64 m -> set_mreal m old = Ok (GMReal m)) /\
  (forall m, wf_mat fc m -> set_mcomplex m old = Ok (GMComplex m)).
Proof. exact set_mat_exact. Qed.
Theorem C05_nonempty_vector_sets_forget_partial : forall old,
  (forall v, few v -> v <> [] ->
     set_vint v old = Ok (GVInt v) /\ set_vlong v old = Ok (GVLong v) /\
     set_vreal v old = Ok (GVReal v) /\ set_vptr v old = Ok (GVPtr v)) /\
  (forall v, few v -> v <> [] -> set_vbool v old = Ok (GVBool v)) /\
  (forall v, few v -> v <> [] -> set_vcomplex v old = Ok (GVComplex v)) /\
  (forall v, few v -> v <> [] -> set_vstr v old = Ok (GVStr v)).
Proof.
  intros old. repeat split; intros; try (now apply set_vec_exact); auto using set_vbool_exact,
    set_vcomplex_exact, set_vstr_exact.
Qed.
(** Missing from the full property: the empty vector, for which it is false. *)
Theorem C05_empty_vector_set_refuted :
  exists old r, wf old /\ set_vint [] old = Ok r /\ r <> GVInt [].
Proof.
  exists (GVInt [7]), (GVInt [7]). repeat split; try discriminate.
  cbn. repeat constructor; unfold int32; lia.
Qed.
Print Assumptions C05_scalar_sets_forget.
Print Assumptions C05_matrix_sets_forget.
Print Assumptions C05_nonempty_vector_sets_forget_partial.
Print Assumptions C05_empty_vector_set_refuted.

(** C06: type names. *)
Theorem C06_type_names_identify : forall g h,
  type_name (tag_of g) = type_name (tag_of h) -> tag_of g = tag_of h.
Proof. intros g h H; now apply type_name_inj. Qed.
Theorem C06_type_names_nonempty : forall g, type_name (tag_of g) <> EmptyString.
Proof. intros; apply type_name_nonempty. Qed.
Print Assumptions C06_type_names_identify.
Print Assumptions C06_type_names_nonempty.

(** C07: element counts. *)
Theorem C07_counts : forall g, wf g -> entries g < 2^32 ->
  num_elements g = entries g /\ num_rows g * num_cols g = entries g.
Proof. exact counts_agree. Qed.
Example C07_nonvacuous : num_elements (GMInt (Mat 2 3 [1;2;3;4;5;6])) = 6.
Proof. reflexivity. Qed.
Print Assumptions C07_counts.
