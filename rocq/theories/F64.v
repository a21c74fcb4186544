(** IEEE-754 binary64 numbers (C++ double) as 64-bit patterns.

    A double is an integer in [0, 2^64).  The mathematical value of a finite double is
    [fscaled x / 2^1074]: every finite double is an integer multiple of the smallest
    subnormal 2^-1074, so values are exact integers in that unit and no real numbers are
    needed. *)
From Coq Require Import ZArith Bool Lia.
From Verif Require Import Base.
Local Open Scope Z_scope.

Definition fsign (x : Z) : bool := 2^63 <=? x.
Definition fexp (x : Z) : Z := (x / 2^52) mod 2^11.
Definition fman (x : Z) : Z := x mod 2^52.

(** 1.0 in units of 2^-1074. *)
Definition fone : Z := 2^1074.

Definition f64 (x : Z) : Prop := 0 <= x < 2^64.

Definition is_nan (x : Z) : bool := (fexp x =? 2047) && negb (fman x =? 0).
Definition is_inf (x : Z) : bool := (fexp x =? 2047) && (fman x =? 0).
Definition is_finite (x : Z) : bool := negb (fexp x =? 2047).

(** Magnitude of a finite double in units of 2^-1074. *)
Definition fmag (x : Z) : Z :=
  if fexp x =? 0 then fman x else (2^52 + fman x) * 2^(fexp x - 1).

Definition fscaled (x : Z) : option Z :=
  if is_finite x then Some (if fsign x then - fmag x else fmag x) else None.

(** The double [x] has the integer value [n]. *)
Definition fis (x n : Z) : Prop := fscaled x = Some (n * fone).

(** src/GenericContainer.cc:53-54 isZero0: std::fpclassify is FP_ZERO or FP_SUBNORMAL. *)
Definition is_zero0 (x : Z) : bool := fexp x =? 0.

(** std::round on values in units of 2^-1074: nearest integer, halves away from zero. *)
Definition fround (v : Z) : Z := Z.sgn v * ((Z.abs v + fone / 2) / fone * fone).

(** src/GenericContainer.cc:56-57 isInteger: isZero0(x - round(x)).  For a finite double
    the difference is exactly representable, so it is zero or subnormal iff its exact value
    is below 2^52 units; for infinities and NaN the difference is NaN. *)
Definition is_integer (x : Z) : bool :=
  match fscaled x with
  | Some v => Z.abs (v - fround v) <? 2^52
  | None => false
  end.

(** x >= 0 in C++: false for NaN, true for -0.0. *)
Definition fge0 (x : Z) : bool :=
  match fscaled x with
  | Some v => 0 <=? v
  | None => is_inf x && negb (fsign x)
  end.

(** src/GenericContainer.cc:59-60 isUnsigned: isInteger(x) && x >= 0. *)
Definition is_unsigned (x : Z) : bool := is_integer x && fge0 x.

(** static_cast from double to an integer type with range [lo, hi]: truncation, undefined
    when the truncated value is out of range (or NaN/infinite). *)
Definition fcast (lo hi x : Z) : out Z :=
  match fscaled x with
  | Some v => let t := Z.quot v fone in
              if (lo <=? t) && (t <=? hi) then Ok t else Undef
  | None => Undef
  end.
Definition f_to_i32 := fcast (- 2^31) (2^31 - 1).
Definition f_to_u32 := fcast 0 (2^32 - 1).
Definition f_to_i64 := fcast (- 2^63) (2^63 - 1).
Definition f_to_u64 := fcast 0 (2^64 - 1).

(** Conversion of a positive integer to the nearest double, ties to even (the default
    rounding mode); exponents above 1023 do not arise from 64-bit integers. *)
Definition f_of_pos (n : Z) : Z :=
  let d := Z.log2 n in
  if d <=? 52 then (d + 1023) * 2^52 + (n * 2^(52 - d) - 2^52)
  else
    let s := d - 52 in
    let q := n / 2^s in
    let r := n mod 2^s in
    let up := (2^(s-1) <? r) || ((2^(s-1) =? r) && Z.odd q) in
    (d + 1023) * 2^52 + (q + (if up then 1 else 0) - 2^52).

(** Implicit and explicit conversions from integer types to double. *)
Definition f_of_Z (n : Z) : Z :=
  if n =? 0 then 0 else if n <? 0 then 2^63 + f_of_pos (- n) else f_of_pos n.

Definition f_of_bool (b : bool) : Z := if b then f_of_Z 1 else f_of_Z 0.

(** Unary minus. *)
Definition fneg (x : Z) : Z := if fsign x then x - 2^63 else x + 2^63.

Lemma fone_pos : 0 < fone.
Proof. unfold fone. apply Z.pow_pos_nonneg; lia. Qed.

(** Building a double from its fields. *)
Definition fpack (s : bool) (e m : Z) : Z := (if s then 2^63 else 0) + e * 2^52 + m.

Lemma fpack_fields s e m : 0 <= e < 2^11 -> 0 <= m < 2^52 ->
  fsign (fpack s e m) = s /\ fexp (fpack s e m) = e /\ fman (fpack s e m) = m.
Proof.
  intros He Hm. unfold fpack, fsign, fexp, fman.
  set (h := if s then 1 else 0).
  assert (Hh : (if s then 2^63 else 0) = h * 2^11 * 2^52) by (subst h; destruct s; reflexivity).
  rewrite Hh.
  assert (Hx : h * 2^11 * 2^52 + e * 2^52 + m = (h * 2^11 + e) * 2^52 + m) by lia.
  rewrite Hx.
  repeat split.
  - subst h; destruct s; [apply Z.leb_le | apply Z.leb_gt]; lia.
  - rewrite Z.div_add_l by lia. rewrite (Z.div_small m) by lia. rewrite Z.add_0_r.
    rewrite Z.add_comm, Z.mod_add by lia. apply Z.mod_small; lia.
  - rewrite Z.add_comm, Z.mod_add by lia. apply Z.mod_small; lia.
Qed.

Lemma fpack_range s e m : 0 <= e < 2^11 -> 0 <= m < 2^52 -> f64 (fpack s e m).
Proof. unfold f64, fpack. intros. destruct s; lia. Qed.

Lemma fpack_eta x : f64 x -> x = fpack (fsign x) (fexp x) (fman x).
Proof.
  unfold f64, fpack, fsign, fexp, fman. intros H.
  pose proof (Z.div_mod x (2^52) ltac:(lia)) as D1.
  pose proof (Z.div_mod (x / 2^52) (2^11) ltac:(lia)) as D2.
  rewrite Z.div_div in D2 by lia. change (2^52 * 2^11) with (2^63) in D2.
  assert (Hq : x / 2^63 = if 2^63 <=? x then 1 else 0).
  { destruct (2^63 <=? x) eqn:E.
    - apply Z.leb_le in E. symmetry. apply (Z.div_unique x (2^63) 1 (x - 2^63)); lia.
    - apply Z.leb_gt in E. apply Z.div_small; lia. }
  rewrite Hq in D2. destruct (2^63 <=? x); lia.
Qed.

Lemma fexp_range x : 0 <= fexp x < 2^11.
Proof. unfold fexp. apply Z.mod_pos_bound; lia. Qed.
Lemma fman_range x : 0 <= fman x < 2^52.
Proof. unfold fman. apply Z.mod_pos_bound; lia. Qed.

Lemma fmag_nonneg x : 0 <= fmag x.
Proof.
  unfold fmag. pose proof (fexp_range x). pose proof (fman_range x).
  destruct (fexp x =? 0) eqn:E; [lia|]. apply Z.eqb_neq in E.
  apply Z.mul_nonneg_nonneg; [lia|]. apply Z.pow_nonneg; lia.
Qed.

Lemma fscaled_abs x v : fscaled x = Some v -> Z.abs v = fmag x.
Proof.
  unfold fscaled. destruct (is_finite x); [|discriminate].
  pose proof (fmag_nonneg x). intros [= <-]. destruct (fsign x); lia.
Qed.

Lemma fscaled_pack s e m : 0 <= e < 2047 -> 0 <= m < 2^52 ->
  fscaled (fpack s e m) =
  Some ((if s then -1 else 1) * (if e =? 0 then m else (2^52 + m) * 2^(e-1))).
Proof.
  intros He Hm. destruct (fpack_fields s e m) as (Hs & He' & Hm'); [lia|lia|].
  unfold fscaled, is_finite, fmag. rewrite Hs, He', Hm'.
  replace (e =? 2047) with false by (symmetry; apply Z.eqb_neq; lia). cbn [negb].
  f_equal. destruct s; destruct (e =? 0); lia.
Qed.

Lemma log2_bounds n : 0 < n -> 2 ^ Z.log2 n <= n < 2 * 2 ^ Z.log2 n.
Proof.
  intros H. pose proof (Z.log2_spec n H) as [H1 H2]. rewrite Z.pow_succ_r in H2 by apply Z.log2_nonneg.
  lia.
Qed.

(** The rounded significand produced by [f_of_pos] for large arguments. *)
Definition fq (n : Z) : Z :=
  let s := Z.log2 n - 52 in
  let q := n / 2^s in
  let r := n mod 2^s in
  q + (if (2^(s-1) <? r) || ((2^(s-1) =? r) && Z.odd q) then 1 else 0).

Lemma fq_range n : 52 < Z.log2 n -> 0 < n -> 2^52 <= fq n <= 2^53.
Proof.
  intros Hd Hn. unfold fq. set (d := Z.log2 n) in *. set (s := d - 52).
  pose proof (log2_bounds n Hn) as [H1 H2]. fold d in H1, H2.
  assert (Hs : 0 < 2^s) by (apply Z.pow_pos_nonneg; lia).
  assert (E : 2^d = 2^52 * 2^s) by (rewrite <- Z.pow_add_r by lia; f_equal; lia).
  assert (2^52 <= n / 2^s) by (apply Z.div_le_lower_bound; lia).
  assert (n / 2^s < 2^53) by (apply Z.div_lt_upper_bound; lia).
  destruct (_ || _); lia.
Qed.

Lemma f_of_pos_big n : 52 < Z.log2 n < 1023 -> 0 < n ->
  f64 (f_of_pos n) /\ fscaled (f_of_pos n) = Some (fq n * 2^(Z.log2 n - 52) * fone) /\
  fsign (f_of_pos n) = false.
Proof.
  intros Hd Hn. pose proof (fq_range n ltac:(lia) Hn) as Hq.
  unfold f_of_pos. rewrite (proj2 (Z.leb_gt _ _)) by lia.
  fold (fq n). set (d := Z.log2 n) in *.
  change (n / 2 ^ (d - 52) + (if (2 ^ (d - 52 - 1) <? n mod 2 ^ (d - 52)) || (2 ^ (d - 52 - 1) =? n mod 2 ^ (d - 52)) && Z.odd (n / 2 ^ (d - 52)) then 1 else 0))
    with (fq n).
  assert (Hf : fone = 2 ^ 1074) by reflexivity.
  destruct (Z.eq_dec (fq n) (2^53)) as [E|E].
  - rewrite E.
    assert (P : (d + 1023) * 2 ^ 52 + (2 ^ 53 - 2 ^ 52) = fpack false (d + 1024) 0)
      by (unfold fpack; lia).
    rewrite P. split; [apply fpack_range; lia|]. split; [|apply fpack_fields; lia].
    rewrite fscaled_pack by lia. rewrite (proj2 (Z.eqb_neq _ _)) by lia.
    f_equal. rewrite Hf, Z.add_0_r, Z.mul_1_l.
    rewrite <- !Z.pow_add_r by lia. f_equal. lia.
  - assert (P : (d + 1023) * 2 ^ 52 + (fq n - 2 ^ 52) = fpack false (d + 1023) (fq n - 2^52))
      by (unfold fpack; lia).
    rewrite P. split; [apply fpack_range; lia|]. split; [|apply fpack_fields; lia].
    rewrite fscaled_pack by lia. rewrite (proj2 (Z.eqb_neq _ _)) by lia.
    f_equal. rewrite Hf, Z.mul_1_l. replace (2^52 + (fq n - 2^52)) with (fq n) by lia.
    rewrite <- Z.mul_assoc. f_equal. rewrite <- !Z.pow_add_r by lia. f_equal. lia.
Qed.

Lemma f_of_pos_small n : Z.log2 n <= 52 -> 0 < n ->
  f64 (f_of_pos n) /\ fscaled (f_of_pos n) = Some (n * fone) /\ fsign (f_of_pos n) = false.
Proof.
  intros Hd Hn. unfold f_of_pos. rewrite (proj2 (Z.leb_le _ _)) by lia.
  pose proof (log2_bounds n Hn) as [H1 H2]. pose proof (Z.log2_nonneg n) as H0.
  set (d := Z.log2 n) in *.
  assert (Hp : 0 < 2^(52-d)) by (apply Z.pow_pos_nonneg; lia).
  assert (E : 2^52 = 2^d * 2^(52-d)) by (rewrite <- Z.pow_add_r by lia; f_equal; lia).
  set (m := n * 2^(52-d) - 2^52).
  assert (Hm : 0 <= m < 2^52) by (subst m; rewrite E; nia).
  assert (P : (d + 1023) * 2 ^ 52 + m = fpack false (d + 1023) m) by (unfold fpack; lia).
  rewrite P. split; [apply fpack_range; lia|]. split; [|apply fpack_fields; lia].
  rewrite fscaled_pack by lia. rewrite (proj2 (Z.eqb_neq _ _)) by lia.
  f_equal. rewrite Z.mul_1_l. replace (2^52 + m) with (n * 2^(52-d)) by (subst m; lia).
  rewrite <- Z.mul_assoc. f_equal. unfold fone. rewrite <- Z.pow_add_r by lia. f_equal. lia.
Qed.

Lemma log2_le_iff n k : 0 < n -> 0 <= k -> (Z.log2 n < k <-> n < 2^k).
Proof. intros Hn Hk. symmetry. apply Z.log2_lt_pow2; assumption. Qed.

(** fscaled under sign flip of a pattern with clear sign bit. *)
Lemma fscaled_neg x v : f64 x -> fsign x = false -> fscaled x = Some v ->
  f64 (2^63 + x) /\ fscaled (2^63 + x) = Some (- v).
Proof.
  intros Hx Hs Hv. pose proof (fpack_eta x Hx) as E. rewrite Hs in E.
  assert (P : 2^63 + x = fpack true (fexp x) (fman x)) by (rewrite E at 1; unfold fpack; lia).
  pose proof (fexp_range x) as He. pose proof (fman_range x) as Hm.
  assert (He' : fexp x <> 2047).
  { intros C. unfold fscaled, is_finite in Hv. rewrite C in Hv. discriminate. }
  rewrite P. split; [apply fpack_range; lia|].
  rewrite fscaled_pack by lia. rewrite E, fscaled_pack in Hv by lia.
  apply Some_inj in Hv. subst v. f_equal. lia.
Qed.

(** Conversion of integers up to 2^53 in magnitude is exact. *)
Lemma f_of_Z_exact n : Z.abs n <= 2^53 -> f64 (f_of_Z n) /\ fis (f_of_Z n) n.
Proof.
  intros Hn.
  assert (pos : forall p, 0 < p <= 2^53 ->
             f64 (f_of_pos p) /\ fscaled (f_of_pos p) = Some (p * fone) /\ fsign (f_of_pos p) = false).
  { intros p Hp. destruct (Z.eq_dec p (2^53)) as [->|].
    - repeat split; vm_compute; congruence.
    - apply f_of_pos_small; [|lia]. assert (Z.log2 p < 53) by (apply log2_le_iff; lia). lia. }
  unfold f_of_Z, fis. destruct (n =? 0) eqn:E0.
  { apply Z.eqb_eq in E0; subst. split; [unfold f64; lia|reflexivity]. }
  apply Z.eqb_neq in E0. destruct (n <? 0) eqn:E1.
  - apply Z.ltb_lt in E1. destruct (pos (-n)) as (H1 & H2 & H3); [lia|].
    destruct (fscaled_neg _ _ H1 H3 H2) as [H4 H5]. split; [exact H4|]. rewrite H5. f_equal. lia.
  - apply Z.ltb_ge in E1. destruct (pos n) as (H1 & H2 & H3); [lia|]. auto.
Qed.

Lemma f_of_Z_range n : Z.abs n <= 2^64 -> f64 (f_of_Z n).
Proof.
  intros Hn. destruct (Z_le_gt_dec (Z.abs n) (2^53)) as [H|H]; [apply f_of_Z_exact; lia|].
  assert (pos : forall p, 2^53 < p <= 2^64 -> f64 (f_of_pos p) /\ fsign (f_of_pos p) = false /\
            exists v, fscaled (f_of_pos p) = Some v).
  { intros p Hp. assert (52 < Z.log2 p < 1023).
    { split.
      - assert (~ Z.log2 p < 53); [|lia]. rewrite log2_le_iff by lia. lia.
      - apply log2_le_iff; [lia|lia|]. apply Z.le_lt_trans with (2^64); [lia|]. apply Z.pow_lt_mono_r; lia. }
    destruct (f_of_pos_big p) as (A & B & C); [lia|lia|]. eauto. }
  unfold f_of_Z. rewrite (proj2 (Z.eqb_neq _ _)) by lia.
  destruct (n <? 0) eqn:E1.
  - apply Z.ltb_lt in E1. destruct (pos (-n)) as (H1 & H2 & v & H3); [lia|].
    apply (fscaled_neg _ _ H1 H2 H3).
  - apply Z.ltb_ge in E1. apply pos. lia.
Qed.

Lemma int32_exact n : int32 n -> fis (f_of_Z n) n.
Proof. unfold int32. intros. apply f_of_Z_exact. lia. Qed.

Lemma f_of_bool_is b : fis (f_of_bool b) (if b then 1 else 0).
Proof. destruct b; apply f_of_Z_exact; lia. Qed.

Lemma fis_inj x a b : fis x a -> fis x b -> a = b.
Proof.
  unfold fis. intros -> H. apply Some_inj in H. pose proof fone_pos.
  apply Z.mul_cancel_r in H; lia.
Qed.

(** The integrality test (C11). *)
Lemma is_integer_spec x : is_integer x = true <->
  (exists n, fis x n) \/ (exists v, fscaled x = Some v /\ v <> 0 /\ Z.abs v < 2^52).
Proof.
  unfold is_integer, fis. destruct (fscaled x) as [v|] eqn:Ev.
  2:{ split; [discriminate|]. intros [[n H]|[v [H _]]]; discriminate. }
  pose proof fone_pos as Hf. rewrite Z.ltb_lt.
  assert (Hround_mul : forall n, fround (n * fone) = n * fone).
  { intros n. unfold fround. rewrite Z.abs_mul, (Z.abs_eq fone), Z.div_add_l by lia.
    rewrite (Z.div_small (fone/2)) by (split; [apply Z.div_pos; lia | apply Z.div_lt; lia]).
    rewrite Z.add_0_r. rewrite Z.sgn_mul, (Z.sgn_pos fone) by lia.
    pose proof (Z.sgn_abs n). nia. }
  assert (Hround_small : Z.abs v < fone / 2 -> fround v = 0).
  { intros Hv. unfold fround. rewrite (Z.div_small _ fone); [lia|].
    pose proof (Z.div_mod fone 2 ltac:(lia)). pose proof (Z.mod_pos_bound fone 2). lia. }
  assert (H52 : 2^104 < fone / 2) by reflexivity.
  split.
  - intros H. pose proof (fscaled_abs _ _ Ev) as Hmag. unfold fmag in Hmag.
    pose proof (fexp_range x) as He. pose proof (fman_range x) as Hm.
    destruct (fexp x =? 0) eqn:E.
    + destruct (Z.eq_dec v 0) as [->|]; [left; exists 0; f_equal; lia|right; exists v; split; [reflexivity|lia]].
    + apply Z.eqb_neq in E. left.
      destruct (Z_lt_le_dec (fexp x - 1) 52) as [L|L].
      * (* small: |v| < 2^104, round is zero, contradiction *)
        exfalso. assert (Hp : 2^(fexp x - 1) <= 2^51) by (apply Z.pow_le_mono_r; lia).
        assert (0 < 2^(fexp x - 1)) by (apply Z.pow_pos_nonneg; lia).
        assert (Z.abs v < 2^104).
        { rewrite Hmag. apply Z.lt_le_trans with (2^53 * 2^(fexp x - 1)); [nia|].
          replace (2^104) with (2^53 * 2^51) by reflexivity. nia. }
        rewrite Hround_small in H by lia. nia.
      * (* large: v is a multiple of 2^52 *)
        assert (Ep : 2^(fexp x - 1) = 2^(fexp x - 1 - 52) * 2^52)
          by (rewrite <- Z.pow_add_r by lia; f_equal; lia).
        assert (Hdv : (2^52 | v)).
        { apply Z.divide_abs_r. rewrite Hmag. exists ((2^52 + fman x) * 2^(fexp x - 1 - 52)).
          rewrite Ep. ring. }
        assert (Hdr : (fone | fround v)).
        { unfold fround. apply Z.divide_mul_r. apply Z.divide_factor_r. }
        assert (Hdf : (2^52 | fone)) by (exists (2^1022); reflexivity).
        assert (Hdd : (2^52 | v - fround v))
          by (apply Z.divide_sub_r; [assumption | eapply Z.divide_trans; eassumption]).
        destruct Hdd as [k Hk]. assert (k = 0) by lia. subst k.
        destruct Hdr as [n Hn]. exists n. f_equal. lia.
  - intros [[n Hn]|(v' & Hv' & Hnz & Hv)].
    + apply Some_inj in Hn. subst v. rewrite Hround_mul. lia.
    + apply Some_inj in Hv'. subst v'. rewrite Hround_small by lia. lia.
Qed.

(** Truncation of an integral double is exact; a subnormal truncates to zero. *)
Lemma fcast_int lo hi x n : fis x n -> fcast lo hi x = if (lo <=? n) && (n <=? hi) then Ok n else Undef.
Proof.
  unfold fis, fcast. intros ->. cbv zeta.
  rewrite Z.quot_mul by (pose proof fone_pos; lia). reflexivity.
Qed.

Lemma fcast_tiny lo hi x v : fscaled x = Some v -> Z.abs v < 2^52 ->
  fcast lo hi x = if (lo <=? 0) && (0 <=? hi) then Ok 0 else Undef.
Proof.
  intros H Hv. unfold fcast. rewrite H. cbv zeta.
  assert (2^52 < fone) by reflexivity.
  assert (E : Z.quot v fone = 0); [|rewrite E; reflexivity].
  apply Z.quot_small_iff; [pose proof fone_pos; lia|]. rewrite (Z.abs_eq fone) by (pose proof fone_pos; lia). lia.
Qed.

Lemma fge0_int x n : fis x n -> fge0 x = (0 <=? n).
Proof.
  unfold fis, fge0. intros ->. pose proof fone_pos.
  destruct (Z.leb_spec 0 n), (Z.leb_spec 0 (n * fone)); try reflexivity; nia.
Qed.

(** No finite double lies strictly between two consecutive multiples of 2^s whose quotient
    is at least 2^52. *)
Lemma no_double_between y w s q : 0 <= s -> 2^52 <= q -> fscaled y = Some w ->
  q * 2^s * fone < w < (q + 1) * 2^s * fone -> q + 1 <= 2^53 -> False.
Proof.
  intros Hs Hq Hw Hb Hq'. pose proof fone_pos as Hf.
  assert (Hp : 0 < 2^s) by (apply Z.pow_pos_nonneg; lia).
  assert (Hw0 : 0 < w).
  { apply Z.le_lt_trans with (q * 2^s * fone); [|lia].
    apply Z.mul_nonneg_nonneg; [apply Z.mul_nonneg_nonneg; lia | lia]. }
  assert (Hu : 2^s * fone = 2^(s+1074)) by (unfold fone; rewrite <- Z.pow_add_r by lia; reflexivity).
  rewrite <- !Z.mul_assoc, Hu in Hb.
  assert (Hup : 0 < 2^(s+1074)) by (apply Z.pow_pos_nonneg; lia).
  set (u := 2^(s+1074)) in *.
  pose proof (fscaled_abs _ _ Hw) as Hm. rewrite Z.abs_eq in Hm by lia. unfold fmag in Hm.
  pose proof (fexp_range y) as He. pose proof (fman_range y) as Hmm.
  destruct (fexp y =? 0) eqn:E.
  - assert (2^52 <= u); [|nia]. apply Z.pow_le_mono_r; lia.
  - apply Z.eqb_neq in E. destruct (Z_lt_le_dec (fexp y - 1) (s + 1074)) as [L|L].
    + assert (2^(fexp y - 1) * 2 <= u).
      { replace (2^(fexp y - 1) * 2) with (2^(fexp y - 1 + 1)) by (rewrite Z.pow_add_r by lia; lia).
        apply Z.pow_le_mono_r; lia. }
      assert (0 < 2^(fexp y - 1)) by (apply Z.pow_pos_nonneg; lia).
      nia.
    + assert (Ep : 2^(fexp y - 1) = 2^(fexp y - 1 - (s+1074)) * u)
        by (unfold u; rewrite <- Z.pow_add_r by lia; f_equal; lia).
      rewrite Ep, Z.mul_assoc in Hm. set (k := (2^52 + fman y) * 2^(fexp y - 1 - (s+1074))) in *.
      rewrite Hm in Hb. destruct Hb as [B1 B2].
      apply Z.mul_lt_mono_pos_r in B1; [|assumption]. apply Z.mul_lt_mono_pos_r in B2; [|assumption]. lia.
Qed.

Lemma f_of_pos_nearest n y v w : 0 < n <= 2^64 ->
  fscaled (f_of_pos n) = Some v -> fscaled y = Some w ->
  Z.abs (v - n * fone) <= Z.abs (w - n * fone).
Proof.
  intros Hn Hv Hw. destruct (Z_le_gt_dec (Z.log2 n) 52) as [L|L].
  { destruct (f_of_pos_small n L ltac:(lia)) as (_ & E & _). rewrite E in Hv.
    apply Some_inj in Hv. subst v. rewrite Z.sub_diag. apply Z.abs_nonneg. }
  assert (L' : Z.log2 n < 1023).
  { apply log2_le_iff; [lia|lia|]. apply Z.le_lt_trans with (2^64); [lia|]. apply Z.pow_lt_mono_r; lia. }
  destruct (f_of_pos_big n ltac:(lia) ltac:(lia)) as (_ & E & _). rewrite E in Hv.
  apply Some_inj in Hv. subst v. pose proof fone_pos as Hf.
  pose proof (log2_bounds n ltac:(lia)) as [B1 B2].
  unfold fq. set (d := Z.log2 n) in *. set (s := d - 52) in *.
  assert (Hp : 0 < 2^s) by (apply Z.pow_pos_nonneg; lia).
  assert (Ed : 2^d = 2^52 * 2^s) by (rewrite <- Z.pow_add_r by lia; f_equal; lia).
  assert (Q1 : 2^52 <= n / 2^s) by (apply Z.div_le_lower_bound; lia).
  assert (Q2 : n / 2^s < 2^53) by (apply Z.div_lt_upper_bound; lia).
  pose proof (Z.div_mod n (2^s) ltac:(lia)) as D. pose proof (Z.mod_pos_bound n (2^s) Hp) as R.
  set (q := n / 2^s) in *. set (r := n mod 2^s) in *.
  assert (Hh : 2 * 2^(s-1) = 2^s) by (rewrite <- Z.pow_succ_r by lia; f_equal; lia).
  assert (Hw' : w <= q * 2^s * fone \/ (q+1) * 2^s * fone <= w).
  { destruct (Z_le_gt_dec w (q * 2^s * fone)); [lia|].
    destruct (Z_le_gt_dec ((q+1) * 2^s * fone) w); [lia|].
    exfalso. apply (no_double_between y w s q); [lia|lia|assumption|lia|lia]. }
  set (p := 2^s) in *. set (h := 2^(s-1)) in *. set (f := fone) in *. clearbody p h f q r.
  assert (Hge : Z.min r (p - r) * f <= Z.abs (w - n * f)).
  { replace n with (q * p + r) by lia. destruct Hw' as [W|W].
    - assert (w - (q * p + r) * f <= - (r * f)) by lia.
      assert (Z.min r (p-r) * f <= r * f) by (apply Z.mul_le_mono_nonneg_r; lia). lia.
    - assert ((p - r) * f <= w - (q * p + r) * f) by lia.
      assert (Z.min r (p-r) * f <= (p-r) * f) by (apply Z.mul_le_mono_nonneg_r; lia). lia. }
  eapply Z.le_trans; [|exact Hge].
  destruct (h <? r) eqn:H1; cbn [orb].
  - apply Z.ltb_lt in H1. rewrite Z.min_r by lia.
    replace ((q + 1) * p * f - n * f) with ((p - r) * f) by (replace n with (q * p + r) by lia; ring).
    rewrite Z.abs_eq; [lia|]. apply Z.mul_nonneg_nonneg; lia.
  - apply Z.ltb_ge in H1. destruct (h =? r) eqn:H2; cbn [andb].
    + apply Z.eqb_eq in H2. rewrite Z.min_r by lia. destruct (Z.odd q).
      * replace ((q + 1) * p * f - n * f) with ((p - r) * f) by (replace n with (q * p + r) by lia; ring).
        rewrite Z.abs_eq; [lia|]. apply Z.mul_nonneg_nonneg; lia.
      * replace ((q + 0) * p * f - n * f) with (- ((p - r) * f))
          by (replace n with (q * p + r) by lia; replace (p - r) with r by lia; ring).
        rewrite Z.abs_opp, Z.abs_eq; [lia|]. apply Z.mul_nonneg_nonneg; lia.
    + apply Z.eqb_neq in H2. rewrite Z.min_l by lia.
      replace ((q + 0) * p * f - n * f) with (- (r * f)) by (replace n with (q * p + r) by lia; ring).
      rewrite Z.abs_opp, Z.abs_eq; [lia|]. apply Z.mul_nonneg_nonneg; lia.
Qed.

Lemma fscaled_fneg y w : f64 y -> fscaled y = Some w -> exists y', fscaled y' = Some (- w).
Proof.
  intros Hy Hw. exists (fneg y). pose proof (fpack_eta y Hy) as E.
  pose proof (fexp_range y) as He. pose proof (fman_range y) as Hm.
  assert (He' : fexp y <> 2047).
  { intros C. unfold fscaled, is_finite in Hw. rewrite C in Hw. discriminate. }
  assert (P : fneg y = fpack (negb (fsign y)) (fexp y) (fman y)).
  { unfold fneg. destruct (fsign y); cbn [negb]; rewrite E at 1; unfold fpack; lia. }
  rewrite P, fscaled_pack by lia. rewrite E, fscaled_pack in Hw by lia.
  apply Some_inj in Hw. subst w. f_equal. destruct (fsign y); cbn [negb]; lia.
Qed.

(** Conversion from any 64-bit integer gives a finite double and no double is closer. *)
Definition fnearest (x n : Z) : Prop :=
  exists v, fscaled x = Some v /\
    forall y w, f64 y -> fscaled y = Some w -> Z.abs (v - n * fone) <= Z.abs (w - n * fone).

Lemma f_of_Z_nearest n : Z.abs n <= 2^64 -> fnearest (f_of_Z n) n.
Proof.
  intros Hn. unfold fnearest. destruct (Z_le_gt_dec (Z.abs n) (2^53)) as [L|L].
  { destruct (f_of_Z_exact n L) as [_ H]. exists (n * fone). split; [exact H|].
    intros. rewrite Z.sub_diag. apply Z.abs_nonneg. }
  assert (pos : forall p, 2^53 < p <= 2^64 -> f64 (f_of_pos p) /\ fsign (f_of_pos p) = false /\
            exists v, fscaled (f_of_pos p) = Some v).
  { intros p Hp. assert (52 < Z.log2 p < 1023).
    { split.
      - assert (~ Z.log2 p < 53); [|lia]. rewrite log2_le_iff by lia. lia.
      - apply log2_le_iff; [lia|lia|]. apply Z.le_lt_trans with (2^64); [lia|]. apply Z.pow_lt_mono_r; lia. }
    destruct (f_of_pos_big p) as (A & B & C); [lia|lia|]. eauto. }
  unfold f_of_Z. rewrite (proj2 (Z.eqb_neq _ _)) by lia. destruct (n <? 0) eqn:E1.
  - apply Z.ltb_lt in E1. destruct (pos (-n)) as (H1 & H2 & v & H3); [lia|].
    destruct (fscaled_neg _ _ H1 H2 H3) as [_ H4]. exists (- v). split; [exact H4|].
    intros y w Hy Hw. destruct (fscaled_fneg y w Hy Hw) as [y' Hy'].
    pose proof (f_of_pos_nearest (-n) y' v (-w) ltac:(lia) H3 Hy') as G.
    replace (- v - n * fone) with (- (v - (-n) * fone)) by lia.
    replace (w - n * fone) with (- (- w - (-n) * fone)) by lia.
    rewrite !Z.abs_opp. exact G.
  - apply Z.ltb_ge in E1. destruct (pos n) as (H1 & H2 & v & H3); [lia|].
    exists v. split; [exact H3|]. intros y w Hy Hw. eapply f_of_pos_nearest; eauto. lia.
Qed.
