(** Lemmas about the getters. *)
From Coq Require Import ZArith Bool Lia Ascii String List.
From Verif Require Import Base F64 StrMap Value MBasic MGet SGet.
Import ListNotations.
Local Open Scope Z_scope.

Lemma is_zero0_spec x : f64 x -> is_zero0 x = true <-> fis x 0 \/ tiny x.
Proof.
  intros Hx. unfold is_zero0, fis, tiny. rewrite Z.eqb_eq. split.
  - intros E. unfold fscaled, is_finite, fmag. rewrite E.
    change (negb (0 =? 2047)) with true. change (0 =? 0) with true. cbv iota.
    pose proof (fman_range x) as Hm. rewrite Z.mul_0_l.
    destruct (Z.eq_dec (fman x) 0) as [->|N].
    + left. destruct (fsign x); reflexivity.
    + right. eexists; split; [reflexivity|]. destruct (fsign x); lia.
  - assert (K : forall v, fscaled x = Some v -> Z.abs v < 2^52 -> fexp x = 0).
    { intros v Hv Hb. apply fscaled_abs in Hv. rewrite Hv in Hb. unfold fmag in Hb.
      destruct (fexp x =? 0) eqn:E; [now apply Z.eqb_eq|]. exfalso. apply Z.eqb_neq in E.
      pose proof (fexp_range x) as He. pose proof (fman_range x) as Hm.
      assert (0 < 2 ^ (fexp x - 1)) by (apply Z.pow_pos_nonneg; lia). nia. }
    intros [H|(v & H & _ & Hb)]; [|exact (K v H Hb)].
    apply (K _ H). rewrite Z.mul_0_l. reflexivity.
Qed.

Lemma is_integer_int x : ~ tiny x -> is_integer x = true <-> exists n, fis x n.
Proof. intros Ht. rewrite is_integer_spec. unfold tiny in Ht. tauto. Qed.

Lemma is_integer_of_fis x n : fis x n -> is_integer x = true.
Proof. intros H. apply is_integer_spec. left; eauto. Qed.

Lemma is_unsigned_of_fis x n : fis x n -> is_unsigned x = (0 <=? n).
Proof.
  intros H. unfold is_unsigned. rewrite (is_integer_of_fis x n H), (fge0_int x n H). reflexivity.
Qed.

Lemma fcast_ok lo hi x n m : fis x n -> fcast lo hi x = Ok m -> m = n /\ lo <= n <= hi.
Proof.
  intros H. rewrite (fcast_int lo hi x n H).
  destruct (Z.leb_spec lo n); cbn [andb]; [|discriminate].
  destruct (Z.leb_spec n hi); [|discriminate].
  intros E. apply Ok_inj in E. subst. lia.
Qed.

Lemma fcast_in lo hi x n : fis x n -> lo <= n <= hi -> fcast lo hi x = Ok n.
Proof.
  intros H R. rewrite (fcast_int lo hi x n H).
  rewrite (proj2 (Z.leb_le _ _)) by lia. rewrite (proj2 (Z.leb_le _ _)) by lia. reflexivity.
Qed.

(** Signed getters: a value in range is returned, a non-integer throws, and whatever is
    returned is the stored number unless a long was narrowed. *)
Lemma get_as_int_in g n : wf g -> denotes g n -> int32 n -> get_as_int g = Ok n.
Proof.
  unfold int32. intros Hw Hd Hr.
  destruct g as [| |b|i|l|r|[re im]| | | | | | | | | | | | | |]; try (exfalso; exact Hd);
    cbn [denotes get_as_int] in *; subst.
  - reflexivity.
  - reflexivity.
  - f_equal. apply to_i32_id. exact Hr.
  - rewrite (is_integer_of_fis _ _ Hd). apply fcast_in; [assumption|lia].
  - destruct Hd as [Hre Him]. rewrite (is_integer_of_fis _ _ Hre).
    destruct Hw as [_ Hw]. rewrite (proj2 (is_zero0_spec im Hw) (or_introl Him)).
    apply fcast_in; [assumption|lia].
Qed.

Lemma get_as_long_in g n : wf g -> denotes g n -> int64 n -> get_as_long g = Ok n.
Proof.
  unfold int64. intros Hw Hd Hr.
  destruct g as [| |b|i|l|r|[re im]| | | | | | | | | | | | | |]; try (exfalso; exact Hd);
    cbn [denotes get_as_long] in *; subst; try reflexivity.
  - rewrite (is_integer_of_fis _ _ Hd). apply fcast_in; [assumption|lia].
  - destruct Hd as [Hre Him]. rewrite (is_integer_of_fis _ _ Hre).
    destruct Hw as [_ Hw]. rewrite (proj2 (is_zero0_spec im Hw) (or_introl Him)).
    apply fcast_in; [assumption|lia].
Qed.

Lemma get_as_uint_in g n : wf g -> denotes g n -> uint32 n -> get_as_uint g = Ok n.
Proof.
  unfold uint32. intros Hw Hd Hr.
  destruct g as [| |b|i|l|r|[re im]| | | | | | | | | | | | | |]; try (exfalso; exact Hd);
    cbn [denotes get_as_uint] in *; subst.
  - reflexivity.
  - rewrite (proj2 (Z.leb_le _ _)) by lia. cbn [gc_assert]. f_equal. apply to_u32_id. exact Hr.
  - rewrite (proj2 (Z.leb_le _ _)) by lia. cbn [gc_assert]. f_equal. apply to_u32_id. exact Hr.
  - rewrite (is_unsigned_of_fis _ _ Hd), (fge0_int _ _ Hd), (proj2 (Z.leb_le _ _)) by lia.
    apply fcast_in; [assumption|lia].
  - destruct Hd as [Hre Him]. rewrite (is_unsigned_of_fis _ _ Hre).
    destruct Hw as [_ Hw]. rewrite (proj2 (is_zero0_spec im Hw) (or_introl Him)).
    rewrite (proj2 (Z.leb_le _ _)) by lia. apply fcast_in; [assumption|lia].
Qed.

Lemma get_as_ulong_in g n : wf g -> denotes g n -> uint64 n -> get_as_ulong g = Ok n.
Proof.
  unfold uint64. intros Hw Hd Hr.
  destruct g as [| |b|i|l|r|[re im]| | | | | | | | | | | | | |]; try (exfalso; exact Hd);
    cbn [denotes get_as_ulong] in *; subst.
  - reflexivity.
  - rewrite (proj2 (Z.leb_le _ _)) by lia. cbn [gc_assert]. f_equal. apply to_u64_id. exact Hr.
  - rewrite (proj2 (Z.leb_le _ _)) by lia. cbn [gc_assert]. f_equal. apply to_u64_id. exact Hr.
  - rewrite (is_unsigned_of_fis _ _ Hd), (fge0_int _ _ Hd), (proj2 (Z.leb_le _ _)) by lia.
    apply fcast_in; [assumption|lia].
  - destruct Hd as [Hre Him]. rewrite (is_unsigned_of_fis _ _ Hre).
    destruct Hw as [_ Hw]. rewrite (proj2 (is_zero0_spec im Hw) (or_introl Him)).
    rewrite (proj2 (Z.leb_le _ _)) by lia. apply fcast_in; [assumption|lia].
Qed.

Lemma not_integer_throws r : ~ tiny r -> (forall n, ~ fis r n) -> is_integer r = false.
Proof.
  intros Ht Hn. destruct (is_integer r) eqn:E; [|reflexivity].
  apply is_integer_int in E as [n E]; [|assumption]. now apply Hn in E.
Qed.

Lemma zero0_or im : f64 im -> ~ tiny im -> (fis im 0 /\ is_zero0 im = true) \/
  (~ fis im 0 /\ is_zero0 im = false).
Proof.
  intros Hf Ht. destruct (is_zero0 im) eqn:E.
  - apply (is_zero0_spec im Hf) in E as [E|E]; tauto.
  - right. split; [|reflexivity]. intros C.
    rewrite (proj2 (is_zero0_spec im Hf) (or_introl C)) in E. discriminate.
Qed.

Lemma get_as_int_none g : wf g -> no_tiny g -> (forall n, ~ denotes g n) -> get_as_int g = Throw.
Proof.
  intros Hw Ht Hn. destruct g as [| |b|i|l|r|[re im]| | | | | | | | | | | | | |]; try reflexivity.
  - exfalso. now apply (Hn (if b then 1 else 0)).
  - exfalso. now apply (Hn i).
  - exfalso. now apply (Hn l).
  - cbn [get_as_int]. rewrite not_integer_throws; auto.
  - cbn [get_as_int denotes] in *. destruct Hw as [_ Hw], Ht as [Ht1 Ht2]. cbn [snd] in Hw.
    destruct (zero0_or im Hw Ht2) as [[Hi ->]|[_ ->]]; [|reflexivity].
    rewrite not_integer_throws; [reflexivity|assumption|]. intros n C. now apply (Hn n).
Qed.

Lemma get_as_long_none g : wf g -> no_tiny g -> (forall n, ~ denotes g n) -> get_as_long g = Throw.
Proof.
  intros Hw Ht Hn. destruct g as [| |b|i|l|r|[re im]| | | | | | | | | | | | | |]; try reflexivity.
  - exfalso. now apply (Hn (if b then 1 else 0)).
  - exfalso. now apply (Hn i).
  - exfalso. now apply (Hn l).
  - cbn [get_as_long]. rewrite not_integer_throws; auto.
  - cbn [get_as_long denotes] in *. destruct Hw as [_ Hw], Ht as [Ht1 Ht2]. cbn [snd] in Hw.
    destruct (zero0_or im Hw Ht2) as [[Hi ->]|[_ ->]]; [|reflexivity].
    rewrite not_integer_throws; [reflexivity|assumption|]. intros n C. now apply (Hn n).
Qed.

Lemma not_unsigned r : ~ tiny r -> (forall n, fis r n -> n < 0) -> is_unsigned r = false.
Proof.
  intros Ht Hn. unfold is_unsigned. destruct (is_integer r) eqn:E; [|reflexivity].
  apply is_integer_int in E as [n E]; [|assumption]. rewrite (fge0_int r n E).
  apply Z.leb_gt. auto.
Qed.

Lemma get_as_uint_none g : wf g -> no_tiny g -> (forall n, denotes g n -> n < 0) -> get_as_uint g = Throw.
Proof.
  intros Hw Ht Hn. destruct g as [| |b|i|l|r|[re im]| | | | | | | | | | | | | |]; try reflexivity;
    cbn [get_as_uint denotes no_tiny] in *.
  - specialize (Hn _ eq_refl). destruct b; lia.
  - specialize (Hn _ eq_refl). now rewrite (proj2 (Z.leb_gt _ _)) by lia.
  - specialize (Hn _ eq_refl). now rewrite (proj2 (Z.leb_gt _ _)) by lia.
  - rewrite not_unsigned by assumption. now rewrite andb_false_r.
  - destruct Hw as [_ Hw], Ht as [Ht1 Ht2]. cbn [snd] in Hw.
    destruct (zero0_or im Hw Ht2) as [[Hi ->]|[_ ->]]; [|reflexivity].
    rewrite not_unsigned; [reflexivity|assumption|]. intros n C. now apply Hn.
Qed.

Lemma get_as_ulong_none g : wf g -> no_tiny g -> (forall n, denotes g n -> n < 0) -> get_as_ulong g = Throw.
Proof.
  intros Hw Ht Hn. destruct g as [| |b|i|l|r|[re im]| | | | | | | | | | | | | |]; try reflexivity;
    cbn [get_as_ulong denotes no_tiny] in *.
  - specialize (Hn _ eq_refl). destruct b; lia.
  - specialize (Hn _ eq_refl). now rewrite (proj2 (Z.leb_gt _ _)) by lia.
  - specialize (Hn _ eq_refl). now rewrite (proj2 (Z.leb_gt _ _)) by lia.
  - rewrite not_unsigned by assumption. now rewrite andb_false_r.
  - destruct Hw as [_ Hw], Ht as [Ht1 Ht2]. cbn [snd] in Hw.
    destruct (zero0_or im Hw Ht2) as [[Hi ->]|[_ ->]]; [|reflexivity].
    rewrite not_unsigned; [reflexivity|assumption|]. intros n C. now apply Hn.
Qed.

(** Values that exist but are out of the target range. *)
Lemma get_as_int_out g n : wf g -> denotes g n -> ~ int32 n ->
  get_as_int g = if tag_dec (tag_of g) TLong then Ok (to_i32 n) else Undef.
Proof.
  unfold int32. intros Hw Hd Hr.
  destruct g as [| |b|i|l|r|[re im]| | | | | | | | | | | | | |]; try (exfalso; exact Hd);
    cbn [denotes get_as_int tag_of] in *; subst.
  - destruct b; lia.
  - contradiction.
  - reflexivity.
  - rewrite (is_integer_of_fis _ _ Hd). cbn [gc_assert].
    unfold f_to_i32. rewrite (fcast_int _ _ _ _ Hd).
    destruct (Z.leb_spec (- 2^31) n), (Z.leb_spec n (2^31 - 1)); try reflexivity. lia.
  - destruct Hd as [Hre Him]. rewrite (is_integer_of_fis _ _ Hre).
    destruct Hw as [_ Hw]. rewrite (proj2 (is_zero0_spec im Hw) (or_introl Him)).
    cbn [gc_assert andb]. unfold f_to_i32. rewrite (fcast_int _ _ _ _ Hre).
    destruct (Z.leb_spec (- 2^31) n), (Z.leb_spec n (2^31 - 1)); try reflexivity. lia.
Qed.

Lemma get_as_long_out g n : wf g -> denotes g n -> ~ int64 n -> get_as_long g = Undef.
Proof.
  unfold int64. intros Hw Hd Hr.
  destruct g as [| |b|i|l|r|[re im]| | | | | | | | | | | | | |]; try (exfalso; exact Hd);
    cbn [denotes get_as_long] in *; subst.
  - destruct b; lia.
  - cbn [wf] in Hw. unfold int32 in Hw. lia.
  - contradiction.
  - rewrite (is_integer_of_fis _ _ Hd). cbn [gc_assert].
    unfold f_to_i64. rewrite (fcast_int _ _ _ _ Hd).
    destruct (Z.leb_spec (- 2^63) n), (Z.leb_spec n (2^63 - 1)); try reflexivity. lia.
  - destruct Hd as [Hre Him]. rewrite (is_integer_of_fis _ _ Hre).
    destruct Hw as [_ Hw]. rewrite (proj2 (is_zero0_spec im Hw) (or_introl Him)).
    cbn [gc_assert andb]. unfold f_to_i64. rewrite (fcast_int _ _ _ _ Hre).
    destruct (Z.leb_spec (- 2^63) n), (Z.leb_spec n (2^63 - 1)); try reflexivity. lia.
Qed.

Lemma get_as_uint_out g n : wf g -> denotes g n -> 2^32 <= n ->
  get_as_uint g = if tag_dec (tag_of g) TLong then Ok (to_u32 n) else Undef.
Proof.
  intros Hw Hd Hr.
  destruct g as [| |b|i|l|r|[re im]| | | | | | | | | | | | | |]; try (exfalso; exact Hd);
    cbn [denotes get_as_uint tag_of] in *; subst.
  - destruct b; lia.
  - cbn [wf] in Hw. unfold int32 in Hw. lia.
  - rewrite (proj2 (Z.leb_le _ _)) by lia. reflexivity.
  - rewrite (is_unsigned_of_fis _ _ Hd), (fge0_int _ _ Hd), (proj2 (Z.leb_le _ _)) by lia.
    cbn [gc_assert andb]. unfold f_to_u32. rewrite (fcast_int _ _ _ _ Hd).
    rewrite (proj2 (Z.leb_gt n _)) by lia. now rewrite andb_false_r.
  - destruct Hd as [Hre Him]. rewrite (is_unsigned_of_fis _ _ Hre).
    destruct Hw as [_ Hw]. rewrite (proj2 (is_zero0_spec im Hw) (or_introl Him)).
    rewrite (proj2 (Z.leb_le _ _)) by lia.
    cbn [gc_assert andb]. unfold f_to_u32. rewrite (fcast_int _ _ _ _ Hre).
    rewrite (proj2 (Z.leb_gt n _)) by lia. now rewrite andb_false_r.
Qed.

Lemma get_as_ulong_out g n : wf g -> denotes g n -> 2^64 <= n -> get_as_ulong g = Undef.
Proof.
  intros Hw Hd Hr.
  destruct g as [| |b|i|l|r|[re im]| | | | | | | | | | | | | |]; try (exfalso; exact Hd);
    cbn [denotes get_as_ulong] in *; subst.
  - destruct b; lia.
  - cbn [wf] in Hw. unfold int32 in Hw. lia.
  - cbn [wf] in Hw. unfold int64 in Hw. lia.
  - rewrite (is_unsigned_of_fis _ _ Hd), (fge0_int _ _ Hd), (proj2 (Z.leb_le _ _)) by lia.
    cbn [gc_assert andb]. unfold f_to_u64. rewrite (fcast_int _ _ _ _ Hd).
    rewrite (proj2 (Z.leb_gt n _)) by lia. now rewrite andb_false_r.
  - destruct Hd as [Hre Him]. rewrite (is_unsigned_of_fis _ _ Hre).
    destruct Hw as [_ Hw]. rewrite (proj2 (is_zero0_spec im Hw) (or_introl Him)).
    rewrite (proj2 (Z.leb_le _ _)) by lia.
    cbn [gc_assert andb]. unfold f_to_u64. rewrite (fcast_int _ _ _ _ Hre).
    rewrite (proj2 (Z.leb_gt n _)) by lia. now rewrite andb_false_r.
Qed.

Lemma int64_abs n : int64 n -> Z.abs n <= 2^64.
Proof. unfold int64. lia. Qed.

Lemma get_number_ok g x : wf g -> get_number g = Ok x -> real_of g x.
Proof.
  intros Hw. destruct g; cbn [get_number real_of wf] in *; try discriminate; intros H;
    apply Ok_inj in H; subst.
  - apply f_of_bool_is.
  - now apply int32_exact.
  - apply f_of_Z_nearest. now apply int64_abs.
  - reflexivity.
Qed.

Lemma get_number_cases g : (exists x, get_number g = Ok x) \/
  (get_number g = Throw /\ forall x, ~ real_of g x).
Proof. destruct g; cbn; eauto; right; split; auto. Qed.

Lemma get_complex_number_ok g c : wf g -> get_complex_number g = Ok c -> cplx_of g c.
Proof.
  intros Hw. destruct g; cbn [get_complex_number cplx_of real_of wf] in *; try discriminate;
    intros H; apply Ok_inj in H; subst; cbn [fst snd]; try (split; [|reflexivity]); auto.
  - apply f_of_bool_is.
  - now apply int32_exact.
  - apply f_of_Z_nearest. now apply int64_abs.
Qed.

Lemma get_complex_number_cases g : (exists x, get_complex_number g = Ok x) \/
  (get_complex_number g = Throw /\ forall x, ~ cplx_of g x).
Proof. destruct g; cbn; eauto; right; split; tauto. Qed.

Lemma raw_at_in {A} i (v : list A) a : znth i v = Some a -> raw_at i v = Ok a.
Proof. unfold raw_at. now intros ->. Qed.

(** Indexed access in range is the conversion of the element. *)
Lemma get_number_at_elem g i e : elem g i = Some e ->
  get_number_at i g = get_number e \/ (exists m, g = GVComplex m) \/ (exists m, g = GMComplex m).
Proof.
  destruct g; cbn [elem get_number_at]; try discriminate; unfold raw_at; intros H;
    try (destruct (znth i _) as [a|]; [|discriminate]; apply Some_inj in H; subst; eauto; fail).
Qed.

Lemma get_complex_number_at_elem g i e : elem g i = Some e ->
  get_complex_number_at i g = get_complex_number e.
Proof.
  destruct g; cbn [elem get_complex_number_at]; try discriminate; unfold raw_at; intros H;
    try (destruct (znth i _) as [a|]; [|discriminate]; apply Some_inj in H; subst; reflexivity).
Qed.

Lemma elem_wf g i e : wf g -> elem g i = Some e -> wf e.
Proof.
  assert (K : forall A (P : A -> Prop) (v : list A) a, Forall P v -> znth i v = Some a -> P a).
  { intros A P v a Hf H. unfold znth in H. destruct (i <? 0); [discriminate|].
    apply nth_error_In in H. rewrite Forall_forall in Hf. auto. }
  intros Hw.
  destruct g; cbn [elem]; try discriminate;
    try (intros H; destruct (znth i _) as [a|] eqn:E; [|discriminate];
         apply Some_inj in H; subst; cbn [wf] in *; try exact I;
         try (destruct Hw as (_ & _ & _ & Hw)); eapply K; eauto; fail).
  intros H. apply wf_vec in Hw. eapply K; eauto.
Qed.
