(** Numbers that agree up to a power of 1 + 2^-52. *)
From Coq Require Import ZArith Bool Lia List.
Local Open Scope Z_scope.

Definition ulps : Z := 2 ^ 52.
Definition rel (k A B : Z) : Prop := A * ulps ^ k <= B * (ulps + 1) ^ k /\ B * ulps ^ k <= A * (ulps + 1) ^ k.
Lemma ulps_pos : 0 < ulps. Proof. reflexivity. Qed.
Lemma ulps_val : ulps = 4503599627370496. Proof. reflexivity. Qed.
Global Opaque ulps.
Lemma up_pos k : 0 <= k -> 0 < ulps ^ k.
Proof. intros. apply Z.pow_pos_nonneg; [apply ulps_pos|assumption]. Qed.
Lemma up1_pos k : 0 <= k -> 0 < (ulps + 1) ^ k.
Proof. intros. apply Z.pow_pos_nonneg; [pose proof ulps_pos; lia|assumption]. Qed.
Lemma up_le k : 0 <= k -> ulps ^ k <= (ulps + 1) ^ k.
Proof. intros. apply Z.pow_le_mono_l. pose proof ulps_pos; lia. Qed.

Lemma rel_refl k A : 0 <= k -> 0 <= A -> rel k A A.
Proof. intros Hk HA. pose proof (up_le k Hk). split; nia. Qed.
Lemma rel_sym k A B : rel k A B -> rel k B A.
Proof. intros [H1 H2]. split; assumption. Qed.
Lemma rel_mul k1 k2 A B C D : 0 <= k1 -> 0 <= k2 -> 0 <= A -> 0 <= B -> 0 <= C -> 0 <= D ->
  rel k1 A B -> rel k2 C D -> rel (k1 + k2) (A * C) (B * D).
Proof.
  intros H1 H2 HA HB HC HD [R1 R2] [S1 S2]. unfold rel. rewrite !Z.pow_add_r by assumption.
  pose proof (up_pos k1 H1). pose proof (up_pos k2 H2). pose proof (up1_pos k1 H1). pose proof (up1_pos k2 H2).
  generalize dependent (ulps ^ k1). generalize dependent (ulps ^ k2). generalize dependent ((ulps + 1) ^ k1). generalize dependent ((ulps + 1) ^ k2).
  intros. split.
  - replace (A * C * (z2 * z1)) with (A * z2 * (C * z1)) by ring. replace (B * D * (z0 * z)) with (B * z0 * (D * z)) by ring.
    apply Z.mul_le_mono_nonneg; try assumption; nia.
  - replace (B * D * (z2 * z1)) with (B * z2 * (D * z1)) by ring. replace (A * C * (z0 * z)) with (A * z0 * (C * z)) by ring.
    apply Z.mul_le_mono_nonneg; try assumption; nia.
Qed.
Lemma rel_scale k A B c : 0 <= k -> 0 < c -> rel k (A * c) (B * c) <-> rel k A B.
Proof.
  intros Hk Hc. unfold rel. pose proof (up_pos k Hk). pose proof (up1_pos k Hk).
  generalize dependent (ulps ^ k). generalize dependent ((ulps + 1) ^ k). intros.
  replace (A * c * z0) with (A * z0 * c) by ring. replace (B * c * z0) with (B * z0 * c) by ring.
  replace (A * c * z) with (A * z * c) by ring. replace (B * c * z) with (B * z * c) by ring.
  rewrite <- !Z.mul_le_mono_pos_r by assumption. reflexivity.
Qed.
Lemma rel_trans k1 k2 A B C : 0 <= k1 -> 0 <= k2 -> 0 <= A -> 0 < B -> 0 <= C -> rel k1 A B -> rel k2 B C -> rel (k1 + k2) A C.
Proof.
  intros H1 H2 HA HB HC R S. pose proof (rel_mul k1 k2 A B B C H1 H2 HA ltac:(lia) ltac:(lia) HC R S) as H.
  rewrite (Z.mul_comm B C) in H. revert H. apply rel_scale; lia.
Qed.
Lemma rel_mono k k' A B : 0 <= k <= k' -> 0 <= A -> 0 <= B -> rel k A B -> rel k' A B.
Proof.
  intros Hk HA HB R. replace k' with (k + (k' - k)) by lia. apply (rel_scale _ _ _ 1); [lia..|].
  apply rel_mul; try lia; [assumption|]. apply rel_refl; lia.
Qed.
Lemma rel_add k A B C : 0 <= k -> 0 <= C -> rel k A B -> rel k (A + C) (B + C).
Proof. intros Hk HC [R1 R2]. pose proof (up_le k Hk). split; nia. Qed.

Lemma bernoulli k : 0 <= k -> (ulps + 1) ^ k * (ulps - k) <= ulps ^ k * ulps.
Proof.
  intros Hk. pattern k. apply natlike_ind; [rewrite !Z.pow_0_r; lia| |assumption]. clear k Hk. intros k Hk IH.
  rewrite !Z.pow_succ_r by assumption. pose proof (up1_pos k Hk) as P. pose proof (up_pos k Hk) as Q. pose proof ulps_pos as U.
  generalize dependent (ulps ^ k). generalize dependent ((ulps + 1) ^ k). generalize dependent ulps. intros u Hu a Ha b IH Hb.
  assert (a * ((u + 1) * (u - Z.succ k)) <= a * (u * (u - k))) by nia.
  assert (u * (a * (u - k)) <= u * (b * u)) by nia. nia.
Qed.
(** Up to half as much again. *)
Lemma rel_half k A B : 0 <= k <= 2 ^ 50 -> 0 <= A -> 0 <= B -> rel k A B -> 2 * A <= 3 * B /\ 2 * B <= 3 * A.
Proof.
  intros Hk HA HB [R1 R2]. pose proof (bernoulli k ltac:(lia)) as Be. pose proof (up_pos k ltac:(lia)) as P. pose proof (up1_pos k ltac:(lia)) as Q.
  assert (G : 2 * (ulps + 1) ^ k <= 3 * ulps ^ k).
  { rewrite ulps_val in *. generalize dependent (4503599627370496 ^ k). generalize dependent ((4503599627370496 + 1) ^ k). intros. nia. }
  generalize dependent (ulps ^ k). generalize dependent ((ulps + 1) ^ k). intros. split; nia.
Qed.
(** The relative error. *)
Lemma rel_error k A B : 0 <= k -> 0 <= A -> 0 <= B -> rel k A B -> Z.abs (A - B) * (ulps - k) <= k * B.
Proof.
  intros Hk HA HB [R1 R2]. pose proof (bernoulli k Hk) as Be. pose proof (up_pos k Hk) as P. pose proof (up1_pos k Hk) as Q. pose proof ulps_pos as U.
  generalize dependent (ulps ^ k). generalize dependent ((ulps + 1) ^ k). generalize dependent ulps. intros u Hu a Ha b R1 R2 Be Hb.
  destruct (Z.le_gt_cases u k) as [L|L]; [nia|].
  assert (A1 : A * (u - k) <= B * u).
  { assert (A * b * (u - k) <= B * u * b); [|nia]. assert (A * b * (u - k) <= B * a * (u - k)) by nia. nia. }
  assert (A2 : B * (u - k) <= A * u).
  { assert (B * b * (u - k) <= A * u * b); [|nia]. assert (B * b * (u - k) <= A * a * (u - k)) by nia. nia. }
  destruct (Z.le_gt_cases A B); [rewrite Z.abs_neq by lia|rewrite Z.abs_eq by lia]; nia.
Qed.
(** One rounding. *)
Lemma rel_round a b : 0 <= a -> 0 <= b -> 2 * ulps * Z.abs (a - b) <= b -> rel 1 a b.
Proof.
  intros Ha Hb H. unfold rel. rewrite !Z.pow_1_r. rewrite ulps_val in *. lia.
Qed.
(** Leaving off digits. *)
Lemma rel_trunc N T R : ulps <= N -> 0 < T -> 0 <= R < T -> rel 1 (N * T) (N * T + R).
Proof. intros HN HT HR. unfold rel. rewrite !Z.pow_1_r. pose proof ulps_pos. split; nia. Qed.
