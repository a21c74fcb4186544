(** C30, C31: matrix element, row and column access. *)
From Coq Require Import ZArith Bool Lia Ascii String List.
From Verif Require Import Base F64 StrMap Value MBasic MGet MMat.
Import ListNotations.
Local Open Scope Z_scope.

(** A matrix whose number of entries does not overflow 32 bits. *)
Definition mat_ok {A} (m : mat A) : Prop :=
  0 <= mrows m /\ 0 <= mcols m /\ mrows m * mcols m < 2^32 /\
  zlen (mdata m) = mrows m * mcols m.

Lemma wf_mat_ok {A} (P : A -> Prop) (m : mat A) :
  wf_mat P m -> mrows m * mcols m < 2^32 -> mat_ok m.
Proof.
  unfold wf_mat, mat_ok, uint32. intros (H1 & H2 & H3 & _) H.
  repeat split; try lia. rewrite H3. apply to_u32_id. unfold uint32. nia.
Qed.

(** The entry of the matrix in row i and column j (column-major order). *)
Definition entry {A} (m : mat A) (i j : Z) : option A :=
  nth_error (mdata m) (Z.to_nat (i + j * mrows m)).

Lemma pos_in nr nc i j : 0 <= i < nr -> 0 <= j < nc -> 0 <= i + j * nr < nr * nc.
Proof. intros. nia. Qed.

Lemma pos_inj nr i j i' j' : 0 <= i < nr -> 0 <= i' < nr ->
  i + j * nr = i' + j' * nr -> i = i' /\ j = j'.
Proof.
  intros Hi Hi' H. assert (j = j') by nia. subst. lia.
Qed.

Lemma mpos_in {A} (m : mat A) i j : mat_ok m -> 0 <= i < mrows m -> 0 <= j < mcols m ->
  mpos m i j = i + j * mrows m.
Proof.
  intros (H1 & H2 & H3 & _) Hi Hj. unfold mpos. apply to_u32_id.
  pose proof (pos_in _ _ _ _ Hi Hj). unfold uint32. lia.
Qed.

Lemma entry_in {A} (m : mat A) i j : mat_ok m -> 0 <= i < mrows m -> 0 <= j < mcols m ->
  exists a, entry m i j = Some a /\ znth (mpos m i j) (mdata m) = Some a.
Proof.
  intros Hm Hi Hj. pose proof (pos_in _ _ _ _ Hi Hj) as P. destruct Hm as (H1 & H2 & H3 & H4) eqn:E.
  rewrite mpos_in by assumption. unfold entry, znth.
  rewrite (proj2 (Z.ltb_ge _ _)) by lia.
  destruct (nth_error (mdata m) (Z.to_nat (i + j * mrows m))) eqn:N; [eauto|].
  apply nth_error_None in N. unfold zlen in H4. lia.
Qed.

(** C30.  Reading. *)
Theorem C30_read : forall A (m : mat A) i j, mat_ok m ->
  0 <= i < mrows m -> 0 <= j < mcols m ->
  exists a, entry m i j = Some a /\ mat_get m i j = Ok a.
Proof.
  intros A m i j Hm Hi Hj. destruct (entry_in m i j Hm Hi Hj) as (a & E & N).
  exists a. split; [assumption|]. unfold mat_get, vat. now rewrite N.
Qed.

(** Writing changes exactly that entry. *)
Theorem C30_write : forall A (m : mat A) i j x, mat_ok m ->
  0 <= i < mrows m -> 0 <= j < mcols m ->
  exists m', mat_set m i j x = (Ok tt, m') /\ mat_ok m' /\
    mrows m' = mrows m /\ mcols m' = mcols m /\ entry m' i j = Some x /\
    forall i' j', 0 <= i' < mrows m -> 0 <= j' < mcols m -> (i', j') <> (i, j) ->
      entry m' i' j' = entry m i' j'.
Proof.
  intros A m i j x Hm Hi Hj. destruct (entry_in m i j Hm Hi Hj) as (a & E & N).
  unfold mat_set. rewrite N. eexists. split; [reflexivity|].
  rewrite mpos_in by assumption. pose proof (pos_in _ _ _ _ Hi Hj) as P.
  pose proof Hm as (H1 & H2 & H3 & H4).
  split; [|split; [|split; [|split]]]; try reflexivity.
  - unfold mat_ok. cbn [mrows mcols mdata]. unfold zlen. rewrite lset_length. tauto.
  - unfold entry. cbn [mrows mdata]. apply lset_nth_same. unfold zlen in H4. lia.
  - intros i' j' Hi' Hj' Ne. unfold entry. cbn [mrows mdata]. apply lset_nth_other.
    pose proof (pos_in _ _ _ _ Hi' Hj') as P'. intros C. apply Ne.
    destruct (pos_inj (mrows m) i j i' j' Hi Hi') as [-> ->]; [lia|reflexivity].
Qed.

(** Distinct index pairs denote distinct entries. *)
Theorem C30_distinct : forall A (m : mat A) i j i' j', mat_ok m ->
  0 <= i < mrows m -> 0 <= j < mcols m -> 0 <= i' < mrows m -> 0 <= j' < mcols m ->
  mpos m i j = mpos m i' j' -> i = i' /\ j = j'.
Proof.
  intros A m i j i' j' Hm Hi Hj Hi' Hj'. rewrite !mpos_in by assumption.
  now apply pos_inj.
Qed.

Lemma zseq_nth n k : (k < Z.to_nat n)%nat -> nth_error (zseq n) k = Some (Z.of_nat k).
Proof.
  intros H. unfold zseq. rewrite nth_error_map, nth_error_nth' with (d := O) by (now rewrite seq_length).
  rewrite seq_nth by assumption. reflexivity.
Qed.
Lemma zseq_length n : length (zseq n) = Z.to_nat n.
Proof. unfold zseq. now rewrite map_length, seq_length. Qed.

Lemma omapM_zseq {A} (f : Z -> out A) n (spec : Z -> option A) : 0 <= n ->
  (forall k, 0 <= k < n -> exists a, spec k = Some a /\ f k = Ok a) ->
  exists l, omapM f (zseq n) = Ok l /\ zlen l = n /\
    forall k, 0 <= k < n -> nth_error l (Z.to_nat k) = spec k.
Proof.
  intros Hn Hf.
  assert (K : forall ks, (forall k, In k ks -> 0 <= k < n) ->
    exists l, omapM f ks = Ok l /\ map spec ks = map Some l).
  { induction ks as [|k ks IH]; intros Hk; [exists []; auto|].
    destruct (Hf k) as (a & S & F); [apply Hk; now left|].
    destruct IH as (l & L & M); [intros; apply Hk; now right|].
    exists (a :: l). cbn [omapM map]. now rewrite F, L, S, M. }
  destruct (K (zseq n)) as (l & L & M).
  { intros k Hk. apply In_nth_error in Hk as [p Hp].
    assert (Hlt : (p < Z.to_nat n)%nat) by (rewrite <- zseq_length; apply nth_error_Some; congruence).
    rewrite zseq_nth in Hp by assumption. injection Hp as <-. lia. }
  exists l. split; [assumption|]. split.
  { unfold zlen. rewrite (omapM_length f (zseq n) l L), zseq_length. lia. }
  intros k Hk. apply (f_equal (fun x => nth_error x (Z.to_nat k))) in M.
  rewrite !nth_error_map, zseq_nth in M by lia. cbn in M. rewrite Z2Nat.id in M by lia.
  destruct (nth_error l (Z.to_nat k)); cbn in M; congruence.
Qed.

(** Rows and columns. *)
Theorem C30_column : forall A (m : mat A) c, mat_ok m -> 0 <= c ->
  (c < mcols m -> exists l, get_column m c = Ok l /\ zlen l = mrows m /\
     forall i, 0 <= i < mrows m -> nth_error l (Z.to_nat i) = entry m i c) /\
  (mcols m <= c -> get_column m c = Throw).
Proof.
  intros A m c Hm Hc. unfold get_column. split; intros H.
  - rewrite (proj2 (Z.ltb_lt _ _)) by assumption. apply omapM_zseq; [apply Hm|].
    intros k Hk. now apply C30_read.
  - now rewrite (proj2 (Z.ltb_ge _ _)) by assumption.
Qed.

Theorem C30_row : forall A (m : mat A) r, mat_ok m -> 0 <= r ->
  (r < mrows m -> exists l, get_row m r = Ok l /\ zlen l = mcols m /\
     forall j, 0 <= j < mcols m -> nth_error l (Z.to_nat j) = entry m r j) /\
  (mrows m <= r -> get_row m r = Throw).
Proof.
  intros A m r Hm Hr. unfold get_row. split; intros H.
  - rewrite (proj2 (Z.ltb_lt _ _)) by assumption. apply omapM_zseq; [apply Hm|].
    intros k Hk. now apply C30_read.
  - now rewrite (proj2 (Z.ltb_ge _ _)) by assumption.
Qed.

Example C30_example :
  let m := Mat 2 3 [1; 2; 3; 4; 5; 6] in
  mat_ok m /\ mat_get m 1 2 = Ok 6 /\ get_column m 1 = Ok [3; 4] /\ get_row m 0 = Ok [1; 3; 5] /\
  get_column m 3 = Throw.
Proof. cbv zeta. split; [unfold mat_ok; vmc|]. repeat split. Qed.

(** C31.  Row index out of range reads an entry of another column. *)
Theorem C31_out_of_range_refuted : exists (m : mat Z) i j, mat_ok m /\ mrows m <= i /\
  j < mcols m /\ mat_get m i j = Ok 3 /\ get_real_at2 i j (GMReal m) = Ok 3 /\
  get_complex_at2 i j (GMComplex (Mat 2 2 [(1, 0); (2, 0); (3, 0); (4, 0)])) = Ok (3, 0).
Proof. exists (Mat 2 2 [1; 2; 3; 4]), 2, 0. split; [unfold mat_ok; vmc|]. repeat split; vm_compute; congruence. Qed.

(** With huge indices the 32-bit position wraps around to an existing entry. *)
Theorem C31_wraps_refuted : exists (m : mat Z) i j, mat_ok m /\ uint32 i /\ uint32 j /\
  mrows m <= i /\ mcols m <= j /\ mat_get m i j = Ok 1.
Proof. exists (Mat 2 2 [1; 2; 3; 4]), (2^32 - 8), 4. split; [unfold mat_ok; vmc|]. repeat split; vm_compute; congruence. Qed.

(** What holds: the access throws exactly when the flat position is outside the storage; and
    the const get_int_at(i,j) and get_long_at(i,j) do check both indices. *)
Theorem C31_throws_iff_partial : forall A (m : mat A) i j, mat_ok m ->
  0 <= i -> 0 <= j -> i + j * mrows m < 2^32 ->
  (mat_get m i j = Throw <-> mrows m * mcols m <= i + j * mrows m).
Proof.
  intros A m i j (H1 & H2 & H3 & H4) Hi Hj Hb. unfold mat_get, vat, mpos.
  rewrite to_u32_id by (unfold uint32; nia).
  destruct (znth (i + j * mrows m) (mdata m)) as [a|] eqn:E.
  - split; [discriminate|]. intros H.
    assert (exists a, znth (i + j * mrows m) (mdata m) = Some a) as X by eauto.
    apply znth_some in X. lia.
  - split; [|reflexivity]. intros _. apply znth_none in E. nia.
Qed.

Theorem C31_checked_getters_partial : forall m i j, mat_ok m -> 0 <= i -> 0 <= j ->
  (forall x, get_int_at2 i j (GMInt m) = Ok x <->
     i < mrows m /\ j < mcols m /\ entry m i j = Some x) /\
  (forall x, get_long_at2 i j (GMLong m) = Ok x <->
     i < mrows m /\ j < mcols m /\ entry m i j = Some x) /\
  (mrows m <= i \/ mcols m <= j ->
     get_int_at2 i j (GMInt m) = Throw /\ get_long_at2 i j (GMLong m) = Throw).
Proof.
  intros m i j Hm Hi Hj. cbn [get_int_at2 get_long_at2]. unfold mat_at_checked.
  assert (K : forall x, gc_assert ((i <? mrows m) && (j <? mcols m)) (mat_get m i j) = Ok x <->
                        i < mrows m /\ j < mcols m /\ entry m i j = Some x).
  { intros x. destruct (Z.ltb_spec i (mrows m)) as [L|L]; [|cbn; split; [discriminate|lia]].
    destruct (Z.ltb_spec j (mcols m)) as [L'|L']; [|cbn; split; [discriminate|lia]].
    cbn [andb gc_assert]. destruct (C30_read _ m i j Hm) as (a & E & ->); [lia|lia|].
    rewrite E. split; [intros [= ->]; auto | intros (_ & _ & [= ->]); reflexivity]. }
  split; [exact K|]. split; [exact K|]. intros [H|H].
  - rewrite (proj2 (Z.ltb_ge i _)) by assumption. split; reflexivity.
  - rewrite (proj2 (Z.ltb_ge j _)) by assumption. rewrite andb_false_r. split; reflexivity.
Qed.

(** The const vector getters get_T_at(i) check the index. *)
Theorem C31_vector_getters : forall g i, 0 <= i ->
  (forall x, get_bool_at i g = Ok x <-> exists v, g = GVBool v /\ nth_error v (Z.to_nat i) = Some x) /\
  (forall x, get_int_at i g = Ok x <-> exists v, g = GVInt v /\ nth_error v (Z.to_nat i) = Some x) /\
  (forall x, get_long_at i g = Ok x <-> exists v, g = GVLong v /\ nth_error v (Z.to_nat i) = Some x) /\
  (forall x, get_real_at i g = Ok x <-> exists v, g = GVReal v /\ nth_error v (Z.to_nat i) = Some x) /\
  (forall x, get_complex_at i g = Ok x <-> exists v, g = GVComplex v /\ nth_error v (Z.to_nat i) = Some x) /\
  (forall x, get_string_at i g = Ok x <-> exists v, g = GVStr v /\ nth_error v (Z.to_nat i) = Some x) /\
  get_bool_at i g <> Undef /\ get_int_at i g <> Undef /\ get_long_at i g <> Undef /\
  get_real_at i g <> Undef /\ get_complex_at i g <> Undef /\ get_string_at i g <> Undef.
Proof.
  intros g i Hi.
  assert (K : forall A (v : list A) x, vec_at i v = Ok x <-> nth_error v (Z.to_nat i) = Some x).
  { intros A v x. unfold vec_at, raw_at, znth. rewrite (proj2 (Z.ltb_ge i 0)) by lia.
    destruct (Z.ltb_spec i (zlen v)) as [L|L]; cbn [gc_assert].
    - destruct (nth_error v (Z.to_nat i)); split; congruence.
    - rewrite (proj2 (nth_error_None _ _)) by (unfold zlen in L; lia). split; discriminate. }
  assert (U : forall A (v : list A), vec_at i v <> Undef).
  { intros A v. unfold vec_at, raw_at. destruct (Z.ltb_spec i (zlen v)) as [L|L]; cbn [gc_assert]; [|discriminate].
    destruct (znth i v) eqn:E; [discriminate|]. apply znth_none in E. lia. }
  repeat apply conj; destruct g; cbn [get_bool_at get_int_at get_long_at get_real_at get_complex_at get_string_at];
    try discriminate; try apply U;
    intros x; try rewrite K;
    try (split; [discriminate | intros (w & E & _); discriminate]);
    (split; [intros H; eauto | intros (w & [= <-] & H); exact H]).
Qed.

Print Assumptions C30_read.
Print Assumptions C30_write.
Print Assumptions C30_distinct.
Print Assumptions C30_column.
Print Assumptions C30_row.
Print Assumptions C31_throws_iff_partial.
Print Assumptions C31_checked_getters_partial.
Print Assumptions C31_vector_getters.
