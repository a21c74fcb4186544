(** Lemmas about the text form of numbers. *)
From Coq Require Import ZArith Bool Lia Ascii String List.
From Verif Require Import Base F64 MNum.
Import ListNotations.
Local Open Scope Z_scope.

Definition is_digit (d : Z) : Prop := 0 <= d < 10.

Lemma digit_cases (P : Z -> Prop) : P 0 -> P 1 -> P 2 -> P 3 -> P 4 -> P 5 -> P 6 -> P 7 -> P 8 -> P 9 ->
  forall d, is_digit d -> P d.
Proof.
  intros P0 P1 P2 P3 P4 P5 P6 P7 P8 P9 d [H0 H9].
  assert (C : d = 0 \/ d = 1 \/ d = 2 \/ d = 3 \/ d = 4 \/ d = 5 \/ d = 6 \/ d = 7 \/ d = 8 \/ d = 9) by lia.
  destruct C as [->|[->|[->|[->|[->|[->|[->|[->|[->| ->]]]]]]]]]; assumption.
Qed.
Lemma digit_val_digit d : is_digit d -> digit_val (digit d) = Some d.
Proof. revert d. apply digit_cases; reflexivity. Qed.

(** A text that does not continue a number. *)
Definition no_digit (t : text) : Prop := match t with [] => True | c :: _ => digit_val c = None end.

Lemma read_digits_app l t : Forall is_digit l -> no_digit t -> read_digits (map digit l ++ t) = (l, t).
Proof.
  intros Hl Ht. induction Hl as [|d l Hd Hl IH]; cbn [map app read_digits].
  - destruct t as [|c t]; [reflexivity|]. cbn in *. now rewrite Ht.
  - rewrite digit_val_digit by assumption. now rewrite IH.
Qed.

Lemma digs_length k n : length (digs k n) = k.
Proof. revert n. induction k as [|k IH]; intros n; [reflexivity|]. cbn. rewrite app_length, IH. cbn. lia. Qed.
Lemma digs_digit k n : Forall is_digit (digs k n).
Proof.
  revert n. induction k as [|k IH]; intros n; [constructor|]. cbn. apply Forall_app. split; [apply IH|].
  constructor; [|constructor]. apply Z.mod_pos_bound. lia.
Qed.

Lemma dval_from l a : fold_left (fun a d => 10 * a + d) l a = a * 10 ^ zlen l + dval l.
Proof.
  unfold dval. revert a. induction l as [|d l IH]; intros a; cbn [fold_left].
  - rewrite zlen_nil. lia.
  - rewrite IH, (IH (10 * 0 + d)). rewrite zlen_cons, Z.pow_add_r by (try apply zlen_nonneg; lia). lia.
Qed.
Lemma dval_app a b : dval (a ++ b) = dval a * 10 ^ zlen b + dval b.
Proof. unfold dval at 1. rewrite fold_left_app. now rewrite dval_from. Qed.
Lemma dval_zeros n : dval (repeat 0 n) = 0.
Proof. induction n as [|n IH]; [reflexivity|]. change (repeat 0 (S n)) with ([0] ++ repeat 0 n). rewrite dval_app, IH. reflexivity. Qed.
Lemma dval_digs k n : 0 <= n < 10 ^ Z.of_nat k -> dval (digs k n) = n.
Proof.
  revert n. induction k as [|k IH]; intros n Hn.
  - cbn in *. lia.
  - cbn [digs]. rewrite dval_app, IH.
    + change (zlen [n mod 10]) with 1. change (dval [n mod 10]) with (10 * 0 + n mod 10).
      pose proof (Z.div_mod n 10 ltac:(lia)). lia.
    + split; [apply Z.div_pos; lia|]. apply Z.div_lt_upper_bound; [lia|].
      rewrite Nat2Z.inj_succ, Z.pow_succ_r in Hn by lia. lia.
Qed.

Lemma ndig_from_pos f n : (1 <= ndig_from f n)%nat.
Proof. destruct f; cbn; [lia|]. destruct (_ <? _); lia. Qed.
Lemma ndig_from_spec f n : 1 <= n < 10 * 10 ^ Z.of_nat f ->
  10 ^ (Z.of_nat (ndig_from f n) - 1) <= n < 10 ^ Z.of_nat (ndig_from f n).
Proof.
  revert n. induction f as [|f IH]; intros n Hn; cbn [ndig_from].
  - change (Z.of_nat 0) with 0 in Hn. change (10 ^ 0) with 1 in Hn. change (Z.of_nat 1) with 1. cbn. lia.
  - destruct (Z.ltb_spec n 10) as [L|L]; [cbn; lia|].
    rewrite Nat2Z.inj_succ. specialize (IH (n / 10)).
    assert (1 <= n / 10 < 10 * 10 ^ Z.of_nat f) as Hd.
    { rewrite Nat2Z.inj_succ, Z.pow_succ_r in Hn by lia. split; [apply Z.div_le_lower_bound; lia|].
      apply Z.div_lt_upper_bound; lia. }
    specialize (IH Hd). pose proof (ndig_from_pos f (n / 10)).
    replace (Z.succ (Z.of_nat (ndig_from f (n / 10))) - 1) with (Z.succ (Z.of_nat (ndig_from f (n / 10)) - 1)) by lia.
    rewrite !Z.pow_succ_r by lia. pose proof (Z.div_mod n 10 ltac:(lia)). pose proof (Z.mod_pos_bound n 10 ltac:(lia)). lia.
Qed.
Lemma pow2_lt_pow10 k : 0 <= k -> 2 * 2 ^ k <= 10 * 10 ^ k.
Proof. intros Hk. pose proof (Z.pow_le_mono_l 2 10 k ltac:(lia)). assert (0 < 2 ^ k) by (apply Z.pow_pos_nonneg; lia). lia. Qed.
Lemma ndig_spec n : 1 <= n -> 10 ^ (Z.of_nat (ndig n) - 1) <= n < 10 ^ Z.of_nat (ndig n).
Proof.
  intros Hn. apply ndig_from_spec. split; [assumption|]. pose proof (Z.log2_nonneg n).
  rewrite Z2Nat.id by assumption. pose proof (Z.log2_spec n ltac:(lia)) as [_ H2].
  rewrite Z.pow_succ_r in H2 by assumption. pose proof (pow2_lt_pow10 (Z.log2 n) ltac:(assumption)). lia.
Qed.
Lemma ndig_ub n : 0 <= n -> 0 <= n < 10 ^ Z.of_nat (ndig n).
Proof.
  intros Hn. destruct (Z.eq_dec n 0) as [->|N]; [cbn; lia|]. pose proof (ndig_spec n ltac:(lia)). lia.
Qed.

(** Integers are read back. *)
Lemma print_nat_val n : 0 <= n -> exists l, print_nat n = map digit l /\ Forall is_digit l /\ l <> [] /\ dval l = n.
Proof.
  intros Hn. exists (digs (ndig n) n). split; [reflexivity|]. split; [apply digs_digit|]. split.
  - intros E. apply (f_equal (@length Z)) in E. rewrite digs_length in E. pose proof (ndig_from_pos (Z.to_nat (Z.log2 n)) n).
    unfold ndig in E. cbn in E. lia.
  - apply dval_digs. now apply ndig_ub.
Qed.

(** ** Stripping zeros *)
Lemma strip_front_spec l : exists n, l = repeat 0 n ++ strip_front l.
Proof.
  induction l as [|d l [n IH]]; [now exists O|]. destruct d; cbn [strip_front]; try (now exists O).
  exists (S n). cbn. now f_equal.
Qed.
Lemma rev_repeat {A} (a : A) n : rev (repeat a n) = repeat a n.
Proof.
  induction n as [|n IH]; [reflexivity|]. cbn. rewrite IH. clear IH. induction n as [|n IH]; [reflexivity|]. cbn. now f_equal.
Qed.
Lemma strip0_spec l : exists n, l = strip0 l ++ repeat 0 n.
Proof.
  destruct (strip_front_spec (rev l)) as [n H]. exists n. unfold strip0.
  rewrite <- (rev_involutive l) at 1. rewrite H at 1. rewrite rev_app_distr, rev_repeat. reflexivity.
Qed.
Lemma strip0_digits l : Forall is_digit l -> Forall is_digit (strip0 l).
Proof. intros H. destruct (strip0_spec l) as [n E]. rewrite E in H. now apply Forall_app in H. Qed.

(** ** Decimal values: M * 10^k is v in units of 2^-1074 *)
Definition dec_is (M k v : Z) : Prop := exists B, 0 <= B /\ 0 <= k + B /\ M * 10 ^ (k + B) * fone = v * 10 ^ B.

Lemma pow10_pos k : 0 <= k -> 0 < 10 ^ k.
Proof. intros. apply Z.pow_pos_nonneg; lia. Qed.
Lemma dec_is_any M k v B : dec_is M k v -> 0 <= B -> 0 <= k + B -> M * 10 ^ (k + B) * fone = v * 10 ^ B.
Proof.
  intros (C & H1 & H2 & H3) HB HkB.
  assert (E : M * 10 ^ (k + B) * fone * 10 ^ C = v * 10 ^ B * 10 ^ C).
  { replace (M * 10 ^ (k + B) * fone * 10 ^ C) with (M * 10 ^ (k + C) * fone * 10 ^ B).
    - rewrite H3. lia.
    - transitivity (M * fone * (10 ^ (k + C) * 10 ^ B)); [lia|]. transitivity (M * fone * (10 ^ (k + B) * 10 ^ C)); [|lia].
      rewrite <- !Z.pow_add_r by lia. do 2 f_equal. lia. }
  apply Z.mul_reg_r in E; [assumption|]. pose proof (pow10_pos C H1). lia.
Qed.
Lemma dec_is_shift M k v z : 0 <= z -> dec_is M (k + z) v <-> dec_is (M * 10 ^ z) k v.
Proof.
  intros Hz. assert (G : forall B, 0 <= k + B -> M * 10 ^ z * 10 ^ (k + B) = M * 10 ^ (k + z + B)).
  { intros B HB. rewrite <- Z.mul_assoc, <- Z.pow_add_r by lia. do 2 f_equal. lia. }
  split; intros H.
  - exists (Z.max 0 (- k)). split; [lia|]. split; [lia|].
    rewrite G by lia. apply (dec_is_any _ _ _ _ H); lia.
  - exists (Z.max 0 (- k)). split; [lia|]. split; [lia|].
    rewrite <- G by lia. apply (dec_is_any _ _ _ _ H); lia.
Qed.

(** ** Rounding *)
Lemma rnd_even_exact a b : 0 < b -> rnd_even (a * b) b = a.
Proof.
  intros Hb. unfold rnd_even. rewrite Z.div_mul, Z.mod_mul by lia. rewrite (proj2 (Z.ltb_lt _ _)) by lia. reflexivity.
Qed.

(** The magnitude of a double: its bits without the sign. *)
Definition fabs (x : Z) : Z := fexp x * 2^52 + fman x.
Lemma fabs_sign x : f64 x -> x = (if fsign x then 2^63 else 0) + fabs x.
Proof. intros H. rewrite (fpack_eta x H) at 1. unfold fpack, fabs. lia. Qed.

Lemma log2_quot num den v : 0 < num -> 0 < den -> 0 < v -> num * fone = v * den ->
  let e0 := Z.log2 num - Z.log2 den in
  let below := if 0 <=? e0 then num <? den * 2^e0 else num * 2^(-e0) <? den in
  (if below then e0 - 1 else e0) = Z.log2 v - 1074.
Proof.
  intros Hn Hd Hv E e0 below.
  pose proof (Z.log2_spec num Hn) as [N1 N2]. pose proof (Z.log2_spec den Hd) as [D1 D2].
  pose proof (Z.log2_nonneg num) as Ln. pose proof (Z.log2_nonneg den) as Ld.
  rewrite Z.pow_succ_r in N2, D2 by assumption.
  set (ln := Z.log2 num) in *. set (ld := Z.log2 den) in *.
  assert (P2 : forall k, 0 <= k -> 0 < 2 ^ k) by (intros; apply Z.pow_pos_nonneg; lia).
  (* characterise below *)
  assert (B : below = (num * 2 ^ ld <? den * 2 ^ ln)).
  { subst below e0. destruct (Z.leb_spec 0 (ln - ld)) as [L|L].
    - replace (2 ^ ln) with (2 ^ (ln - ld) * 2 ^ ld) by (rewrite <- Z.pow_add_r by lia; f_equal; lia).
      pose proof (P2 ld Ld). destruct (Z.ltb_spec num (den * 2 ^ (ln - ld))), (Z.ltb_spec (num * 2 ^ ld) (den * (2 ^ (ln - ld) * 2 ^ ld))); auto; nia.
    - replace (2 ^ ld) with (2 ^ (- (ln - ld)) * 2 ^ ln) by (rewrite <- Z.pow_add_r by lia; f_equal; lia).
      pose proof (P2 ln Ln). destruct (Z.ltb_spec (num * 2 ^ (- (ln - ld))) den), (Z.ltb_spec (num * (2 ^ (- (ln - ld)) * 2 ^ ln)) (den * 2 ^ ln)); auto; nia. }
  assert (F : fone = 2 ^ 1074) by reflexivity.
  (* v * den = num * 2^1074 *)
  assert (U : forall e, 0 <= e + 1074 -> 2 ^ (e + 1074) <= v < 2 * 2 ^ (e + 1074) -> e = Z.log2 v - 1074).
  { intros e He [H1 H2]. enough (Z.log2 v = e + 1074) by lia. apply Z.log2_unique; [assumption|]. rewrite Z.pow_succ_r by assumption. lia. }
  rewrite B. clear B below.
  assert (Le : - 1074 <= e0).
  { destruct (Z.le_gt_cases (-1074) e0) as [?|G]; [assumption|]. exfalso. subst e0.
    assert (num * 2 ^ 1074 < den).
    { assert (2 * 2 ^ ln * 2 ^ 1074 <= 2 ^ ld).
      { replace (2 * 2 ^ ln * 2 ^ 1074) with (2 ^ (1 + ln + 1074)) by (rewrite !Z.pow_add_r by lia; reflexivity).
        apply Z.pow_le_mono_r; lia. }
      pose proof (P2 1074 ltac:(lia)). nia. }
    rewrite F in E. nia. }
  assert (Q : 2 ^ (e0 + 1074) * 2 ^ ld = 2 ^ ln * 2 ^ 1074).
  { subst e0. rewrite <- !Z.pow_add_r by lia. f_equal. lia. }
  rewrite F in E. clear F. pose proof (P2 1074 ltac:(lia)) as P1074.
  pose proof (P2 ln Ln) as Pln. pose proof (P2 ld Ld) as Pld. pose proof (P2 (e0 + 1074) ltac:(lia)) as Pe.
  generalize dependent (2 ^ 1074). intros T E Q PT.
  destruct (Z.ltb_spec (num * 2 ^ ld) (den * 2 ^ ln)) as [L|L].
  - destruct (Z.eq_dec e0 (-1074)) as [E0|E0].
    { exfalso. rewrite E0 in Q. change (2 ^ (-1074 + 1074)) with 1 in Q.
      (* 2^ld = 2^ln T; num T = v den *)
      assert (num * T < den) by nia. nia. }
    apply U; [lia|]. replace (e0 + 1074) with (Z.succ (e0 - 1 + 1074)) in Q, Pe by lia. rewrite Z.pow_succ_r in Q, Pe by lia.
    set (p := 2 ^ (e0 - 1 + 1074)) in *. split; [|].
    + (* p * den <= v * den = num*T; p*2*2^ld = 2^ln T ; den < 2 2^ld ; 2^ln <= num *)
      assert (p * den <= num * T).
      { assert (p * den * (2 ^ ld) <= num * T * 2 ^ ld); [|nia].
        assert (p * 2 ^ ld * 2 <= num * T) by nia. nia. }
      nia.
    + assert (num * T * 2 ^ ld < 2 * p * den * 2 ^ ld) by nia. assert (num * T < 2 * p * den) by nia. nia.
  - apply U; [lia|]. set (p := 2 ^ (e0 + 1074)) in *. split.
    + assert (p * den * 2 ^ ld <= num * T * 2 ^ ld) by nia. assert (p * den <= num * T) by nia. nia.
    + assert (num * T < 2 * p * den).
      { assert (num * T * 2 ^ ld < 2 * p * den * 2 ^ ld); [|nia].
        assert (num * T < 2 * (p * 2 ^ ld)) by nia. nia. }
      nia.
Qed.

(** Reading a decimal number that is exactly a double gives that double. *)
Lemma f_of_Q_exact num den x : f64 x -> is_finite x = true -> 0 < fmag x -> 0 < num -> 0 < den ->
  num * fone = fmag x * den -> f_of_Q num den = fabs x.
Proof.
  intros Hx Hf Hv Hn Hd E. unfold f_of_Q.
  pose proof (log2_quot num den (fmag x) Hn Hd Hv E) as L. cbv zeta in L. cbv zeta. rewrite L. clear L.
  pose proof (fman_range x) as Mr. pose proof (fexp_range x) as Er.
  set (k := Z.max (Z.log2 (fmag x) - 1074 - 52) (-1074)).
  assert (K : exists s, fmag x = s * 2 ^ (k + 1074) /\ (k + 1074) * 2 ^ 52 + s = fabs x /\ -1074 <= k).
  { unfold fabs. destruct (Z.eqb_spec (fexp x) 0) as [E0|E0].
    - assert (Em : fmag x = fman x) by (unfold fmag; now rewrite E0).
      assert (Z.log2 (fmag x) < 52) by (apply Z.log2_lt_pow2; lia).
      exists (fman x). replace k with (-1074) by lia. change (2 ^ (-1074 + 1074)) with 1. rewrite E0. lia.
    - assert (Em : fmag x = (2 ^ 52 + fman x) * 2 ^ (fexp x - 1)).
      { unfold fmag. now rewrite (proj2 (Z.eqb_neq _ _)) by assumption. }
      assert (Lg : Z.log2 (fmag x) = 52 + (fexp x - 1)).
      { rewrite Em. rewrite Z.log2_mul_pow2 by lia. rewrite (Z.log2_unique (2 ^ 52 + fman x) 52) by lia. lia. }
      exists (2 ^ 52 + fman x). replace (k + 1074) with (fexp x - 1) by lia. split; [assumption|]. lia. }
  destruct K as (s & K1 & K2 & K3).
  assert (S : (if 0 <=? k then rnd_even num (den * 2 ^ k) else rnd_even (num * 2 ^ (- k)) den) = s).
  { assert (F : fone = 2 ^ 1074) by reflexivity.
    destruct (Z.leb_spec 0 k) as [Lk|Lk].
    - assert (num = s * (den * 2 ^ k)) as ->.
      { rewrite F, K1, Z.pow_add_r in E by lia. assert (0 < 2 ^ 1074) by (apply Z.pow_pos_nonneg; lia).
        generalize dependent (2 ^ 1074). intros T E _ PT. nia. }
      apply rnd_even_exact. assert (0 < 2 ^ k) by (apply Z.pow_pos_nonneg; lia). nia.
    - assert (num * 2 ^ (- k) = s * den) as ->.
      { rewrite F, K1 in E. replace 1074 with (k + 1074 + - k) in E at 1 by lia. rewrite Z.pow_add_r in E by lia.
        assert (0 < 2 ^ (k + 1074)) by (apply Z.pow_pos_nonneg; lia).
        generalize dependent (2 ^ (k + 1074)). intros. generalize dependent (2 ^ (- k)). intros. nia. }
      now apply rnd_even_exact. }
  rewrite S, K2. rewrite (proj2 (Z.ltb_lt _ _)); [reflexivity|]. unfold fabs.
  assert (fexp x <> 2047). { unfold is_finite in Hf. intros C. rewrite C in Hf. discriminate. }
  lia.
Qed.
Lemma scale_exact M k x : f64 x -> is_finite x = true -> 0 < fmag x -> dec_is M k (fmag x) -> scale M k = fabs x.
Proof.
  intros Hx Hf Hv H. unfold scale.
  assert (HM : 0 < M).
  { destruct H as (B & H1 & H2 & H3). pose proof (pow10_pos (k + B) H2). pose proof (pow10_pos B H1). pose proof fone_pos.
    assert (0 < M * 10 ^ (k + B) * fone) by (rewrite H3; nia).
    destruct (Z.le_gt_cases M 0); [exfalso|assumption]. generalize dependent fone. intros. nia. }
  rewrite (proj2 (Z.eqb_neq _ _)) by lia. destruct (Z.leb_spec 0 k) as [L|L].
  - pose proof (dec_is_any _ _ _ 0 H ltac:(lia) ltac:(lia)) as E. rewrite Z.add_0_r in E. change (10 ^ 0) with 1 in E.
    apply f_of_Q_exact; auto; try lia.
  - pose proof (dec_is_any _ _ _ (- k) H ltac:(lia) ltac:(lia)) as E. replace (k + - k) with 0 in E by lia. change (10 ^ 0) with 1 in E.
    apply f_of_Q_exact; auto; try lia.
Qed.

(** ** The decimal exponent *)
(** 10^e <= num/den < 10^(e+1) *)
Definition dec_exp (num den e : Z) : Prop :=
  forall B, 0 <= B -> 0 <= e + B -> den * 10 ^ (e + B) <= num * 10 ^ B < den * 10 ^ (e + 1 + B).

Lemma dec_exp_one num den e B : 0 <= B -> 0 <= e + B ->
  den * 10 ^ (e + B) <= num * 10 ^ B < den * 10 ^ (e + 1 + B) -> dec_exp num den e.
Proof.
  intros HB HeB H C HC HeC.
  assert (E1 : forall X, X * 10 ^ (e + C) * 10 ^ B = X * 10 ^ (e + B) * 10 ^ C).
  { intros X. rewrite <- !Z.mul_assoc, <- !Z.pow_add_r by lia. do 2 f_equal. lia. }
  assert (E2 : forall X, X * 10 ^ (e + 1 + C) * 10 ^ B = X * 10 ^ (e + 1 + B) * 10 ^ C).
  { intros X. rewrite <- !Z.mul_assoc, <- !Z.pow_add_r by lia. do 2 f_equal. lia. }
  pose proof (pow10_pos B HB). pose proof (pow10_pos C HC). specialize (E1 den). specialize (E2 den).
  generalize dependent (10 ^ B). generalize dependent (10 ^ C). intros. split.
  - assert (den * 10 ^ (e + C) * z0 <= num * z * z0); [|nia]. rewrite E1. nia.
  - assert (num * z * z0 < den * 10 ^ (e + 1 + C) * z0); [|nia]. rewrite E2. nia.
Qed.
Lemma neg_exp_spec fuel num den : 0 < num < den -> den <= num * 10 ^ Z.of_nat fuel ->
  - Z.of_nat fuel <= neg_exp fuel num den < 0 /\ dec_exp num den (neg_exp fuel num den).
Proof.
  revert num. induction fuel as [|fuel IH]; intros num H1 H2.
  - change (10 ^ Z.of_nat 0) with 1 in H2. lia.
  - cbn [neg_exp]. rewrite (proj2 (Z.leb_gt _ _)) by lia. rewrite Nat2Z.inj_succ, Z.pow_succ_r in H2 by lia.
    destruct (Z.le_gt_cases den (num * 10)) as [L|L].
    + destruct fuel as [|fuel].
      * cbn [neg_exp]. split; [lia|]. apply (dec_exp_one _ _ _ 1); try lia.
      * cbn [neg_exp]. rewrite (proj2 (Z.leb_le _ _)) by lia. split; [lia|]. apply (dec_exp_one _ _ _ 1); try lia.
    + destruct (IH (num * 10)) as [I1 I2]; [lia|lia|]. split; [lia|].
      set (j := neg_exp fuel (num * 10) den) in *. apply (dec_exp_one _ _ _ (1 - j)); try lia.
      specialize (I2 (- j) ltac:(lia) ltac:(lia)).
      replace (j - 1 + (1 - j)) with (j + - j) by lia. replace (j - 1 + 1 + (1 - j)) with (j + 1 + - j) by lia.
      replace (1 - j) with (Z.succ (- j)) by lia. rewrite Z.pow_succ_r by lia. nia.
Qed.
Lemma dexp_spec num den : 0 < num -> 0 < den -> den <= num * 10 ^ 400 -> dec_exp num den (dexp num den).
Proof.
  intros Hn Hd H. unfold dexp. destruct (Z.leb_spec den num) as [L|L].
  - assert (Q : 1 <= num / den) by (apply Z.div_le_lower_bound; lia).
    pose proof (ndig_spec (num / den) Q) as S. pose proof (ndig_from_pos (Z.to_nat (Z.log2 (num / den))) (num / den)) as Np.
    fold (ndig (num / den)) in Np. set (n := Z.of_nat (ndig (num / den))) in *. apply (dec_exp_one _ _ _ 0); try lia.
    replace (n - 1 + 0) with (n - 1) by lia. replace (n - 1 + 1 + 0) with n by lia. change (10 ^ 0) with 1.
    pose proof (Z.div_mod num den ltac:(lia)) as D. pose proof (Z.mod_pos_bound num den Hd) as M.
    generalize dependent (num / den). intros. nia.
  - apply (neg_exp_spec 400); [lia|]. change (Z.of_nat 400) with 400. assumption.
Qed.

Lemma rg_arith m mB pe pp den : m * pe = mB * pp -> den * pe <= mB * den -> mB * den < den * (10 * pe) ->
  0 < pe -> 0 < pp -> 0 < den -> pp <= m < 10 * pp.
Proof. intros W E1 E2 P1 P2 P3. assert (pe <= mB) by nia. assert (mB < 10 * pe) by nia. split; nia. Qed.

(** ** Rounding to P digits *)
Lemma round_dec_exact P num den M t : (1 <= P)%nat -> 0 < num -> 0 < den -> den <= num * 10 ^ 400 ->
  0 < M < 10 ^ Z.of_nat P ->
  (forall B, 0 <= B -> 0 <= t + B -> M * 10 ^ (t + B) * den = num * 10 ^ B) ->
  exists m e, round_dec P num den = (m, e) /\ 10 ^ (Z.of_nat P - 1) <= m < 10 ^ Z.of_nat P /\
    (forall B, 0 <= B -> 0 <= e + 1 - Z.of_nat P + B -> m * 10 ^ (e + 1 - Z.of_nat P + B) * den = num * 10 ^ B).
Proof.
  intros HP Hn Hd Hr HM Hv. unfold round_dec. pose proof (dexp_spec num den Hn Hd Hr) as E. set (e := dexp num den) in *.
  set (p := Z.of_nat P) in *. assert (Hp : 1 <= p) by lia.
  set (k := p - 1 - e).
  assert (Lt : e < p + t).
  { (* 10^e den <= num = M 10^t den < 10^(p+t) den *)
    set (B := Z.max 0 (Z.max (- e) (- t))). specialize (Hv B ltac:(lia) ltac:(lia)). specialize (E B ltac:(lia) ltac:(lia)).
    destruct (Z.lt_ge_cases e (p + t)) as [?|G]; [assumption|exfalso].
    assert (10 ^ p * 10 ^ (t + B) <= 10 ^ (e + B)) by (rewrite <- Z.pow_add_r by lia; apply Z.pow_le_mono_r; lia).
    pose proof (pow10_pos (t + B) ltac:(lia)).
    assert (M * 10 ^ (t + B) < 10 ^ (e + B)) by nia. nia. }
  assert (Mk : 0 <= t + k) by lia.
  assert (X : (if 0 <=? k then rnd_even (num * 10 ^ k) den else rnd_even num (den * 10 ^ (- k))) = M * 10 ^ (t + k)).
  { destruct (Z.leb_spec 0 k) as [L|L].
    - specialize (Hv k ltac:(lia) ltac:(lia)). rewrite <- Hv. now apply rnd_even_exact.
    - specialize (Hv 0 ltac:(lia) ltac:(lia)). rewrite Z.add_0_r in Hv. change (10 ^ 0) with 1 in Hv.
      replace num with (M * 10 ^ (t + k) * (den * 10 ^ (- k))).
      + apply rnd_even_exact. pose proof (pow10_pos (- k) ltac:(lia)). nia.
      + rewrite Z.mul_1_r in Hv. rewrite <- Hv. transitivity (M * (10 ^ (t + k) * 10 ^ (- k)) * den); [lia|].
        rewrite <- Z.pow_add_r by lia. do 2 f_equal. f_equal. lia. }
  rewrite X.
  assert (Rg : 10 ^ (p - 1) <= M * 10 ^ (t + k) < 10 ^ p).
  { set (B := Z.max 0 (Z.max (- t) (Z.max (- e) (- k)))). pose proof (Hv B ltac:(lia) ltac:(lia)) as V. specialize (E B ltac:(lia) ltac:(lia)).
    rewrite <- V in E.
    assert (W : M * 10 ^ (t + k) * 10 ^ (e + B) = M * 10 ^ (t + B) * 10 ^ (p - 1)).
    { rewrite <- !Z.mul_assoc, <- !Z.pow_add_r by lia. do 2 f_equal. lia. }
    replace (e + 1 + B) with (Z.succ (e + B)) in E by lia. rewrite Z.pow_succ_r in E by lia.
    replace p with (Z.succ (p - 1)) at 2 by lia. rewrite Z.pow_succ_r by lia.
    pose proof (pow10_pos (e + B) ltac:(lia)) as P1. pose proof (pow10_pos (p - 1) ltac:(lia)) as P2.
    apply (rg_arith (M * 10 ^ (t + k)) (M * 10 ^ (t + B)) (10 ^ (e + B)) (10 ^ (p - 1)) den); auto; lia. }
  rewrite (proj2 (Z.eqb_neq _ _)) by lia. exists (M * 10 ^ (t + k)), e. split; [reflexivity|]. split; [assumption|].
  intros B HB HeB.
  set (C := Z.max B (- t)). specialize (Hv C ltac:(lia) ltac:(lia)).
  assert (Z1 : M * 10 ^ (t + k) * 10 ^ (e + 1 - p + B) = M * 10 ^ (t + B)  \/ t + B < 0).
  { destruct (Z.lt_ge_cases (t + B) 0) as [|G]; [now right|]. left. rewrite <- Z.mul_assoc, <- Z.pow_add_r by lia. do 2 f_equal. lia. }
  destruct Z1 as [Z1|Z1]; [|exfalso; lia]. rewrite Z1.
  assert (Ce : C = B) by lia. now rewrite Ce in Hv.
Qed.

(** ** Parsing what is printed *)
Lemma head_digit l : Forall is_digit l -> l <> [] -> exists d r, l = d :: r /\ is_digit d.
Proof. intros H N. destruct H as [|d r]; [congruence|]. eauto. Qed.

Lemma digit_char (P : ascii -> Prop) : P "0"%char -> P "1"%char -> P "2"%char -> P "3"%char -> P "4"%char ->
  P "5"%char -> P "6"%char -> P "7"%char -> P "8"%char -> P "9"%char -> forall d, is_digit d -> P (digit d).
Proof. intros; apply (digit_cases (fun d => P (digit d))); assumption. Qed.
Lemma starts_digit d t : is_digit d -> starts "inf" (digit d :: t) = false /\ starts "nan" (digit d :: t) = false.
Proof.
  revert d. apply (digit_char (fun c => starts "inf" (c :: t) = false /\ starts "nan" (c :: t) = false)); split;
    unfold starts; cbn [String.length firstn map untxt]; destruct t as [|a [|b t]]; reflexivity.
Qed.
Lemma sign_digit d t : is_digit d -> read_sign (skip_space (digit d :: t)) = (false, digit d :: t).
Proof. revert d. apply (digit_char (fun c => read_sign (skip_space (c :: t)) = (false, c :: t))); reflexivity. Qed.

Definition dotted (lf : list Z) : text := match lf with [] => [] | _ => "."%char :: map digit lf end.
(** What may follow the digits: nothing, or an exponent. *)
Definition tail_ok (te : text) : Prop := te = [] \/ exists t, te = "e"%char :: t.
Lemma tail_no_digit te : tail_ok te -> no_digit te.
Proof. intros [->|[t ->]]; reflexivity || exact I. Qed.

Lemma strtod_parts (neg : bool) li lf te : Forall is_digit li -> Forall is_digit lf -> li <> [] -> tail_ok te ->
  strtod ((if neg then ["-"%char] else []) ++ map digit li ++ dotted lf ++ te) =
  Some ((if neg then 2^63 else 0) + scale (dval (li ++ lf)) (fst (read_exp te) - zlen lf)).
Proof.
  intros Hi Hf Ni Ht. destruct (head_digit li Hi Ni) as (d & r & -> & Hd).
  set (T := map digit (d :: r) ++ dotted lf ++ te).
  assert (Tc : T = digit d :: (map digit r ++ dotted lf ++ te)) by reflexivity.
  assert (S : read_sign (skip_space ((if neg then ["-"%char] else []) ++ T)) = (neg, T)).
  { destruct neg; cbn [app]; [reflexivity|]. rewrite Tc. now apply sign_digit. }
  unfold strtod. rewrite S. cbv zeta. destruct (starts_digit d (map digit r ++ dotted lf ++ te) Hd) as [S1 S2].
  rewrite <- Tc in S1, S2. rewrite S1, S2.
  assert (R : read_digits T = (d :: r, dotted lf ++ te)).
  { apply read_digits_app; [assumption|]. destruct lf; [now apply tail_no_digit|reflexivity]. }
  rewrite R. clear S S1 S2 R Tc T.
  assert (F : read_frac (dotted lf ++ te) = (lf, te)).
  { destruct lf as [|x lf].
    - cbn [dotted app]. destruct Ht as [->|[t ->]]; reflexivity.
    - cbn [dotted app]. apply (read_digits_app (x :: lf) te Hf). now apply tail_no_digit. }
  rewrite F. cbn [app]. destruct (read_exp te) as [e rest]. reflexivity.
Qed.

Lemma read_print_exp e : fst (read_exp ("e"%char :: print_exp e)) = e.
Proof.
  unfold print_exp. set (l := digs _ _).
  assert (Hl : Forall is_digit l) by apply digs_digit.
  assert (Hv : dval l = Z.abs e).
  { apply dval_digs. pose proof (ndig_ub (Z.abs e) ltac:(lia)) as H. split; [lia|].
    eapply Z.lt_le_trans; [apply H|]. apply Z.pow_le_mono_r; lia. }
  assert (Hn : l <> []).
  { intros C. apply (f_equal (@length Z)) in C. unfold l in C. rewrite digs_length in C. cbn [length] in C. lia. }
  clearbody l. pose proof (read_digits_app l [] Hl I) as R. rewrite app_nil_r in R.
  destruct l as [|d l]; [congruence|].
  cbn [read_exp Ascii.eqb Bool.eqb orb]. destruct (Z.ltb_spec e 0) as [L|L]; cbn [read_sign]; rewrite R; cbn [fst]; lia.
Qed.

Lemma frac_dotted l : frac l = dotted (strip0 l).
Proof. unfold frac, dotted. now destruct (strip0 l). Qed.

(** The number described by the digits and the exponent. *)
Lemma print_pos_parts P m e : (1 <= P)%nat -> 10 ^ (Z.of_nat P - 1) <= m < 10 ^ Z.of_nat P ->
  forall num den, round_dec P num den = (m, e) ->
  exists li lf te, print_pos P num den = map digit li ++ dotted lf ++ te /\
    Forall is_digit li /\ Forall is_digit lf /\ li <> [] /\ tail_ok te /\
    forall v, dec_is m (e + 1 - Z.of_nat P) v -> dec_is (dval (li ++ lf)) (fst (read_exp te) - zlen lf) v.
Proof.
  intros HP Hm num den E. unfold print_pos. rewrite E. pose proof (digs_digit P m) as D. pose proof (digs_length P m) as L.
  assert (V : dval (digs P m) = m) by (apply dval_digs; pose proof (pow10_pos (Z.of_nat P - 1)); lia).
  set (d := digs P m) in *.
  assert (G : forall li lr te, dval (li ++ lr) = m -> Forall is_digit li -> Forall is_digit lr ->
    li <> [] -> tail_ok te -> fst (read_exp te) - zlen lr = e + 1 - Z.of_nat P ->
    exists li' lf te', map digit li ++ frac lr ++ te = map digit li' ++ dotted lf ++ te' /\
    Forall is_digit li' /\ Forall is_digit lf /\ li' <> [] /\ tail_ok te' /\
    forall v, dec_is m (e + 1 - Z.of_nat P) v -> dec_is (dval (li' ++ lf)) (fst (read_exp te') - zlen lf) v).
  { intros li lr te Hd Hi Hr Hn Ht He. exists li, (strip0 lr), te. split; [now rewrite frac_dotted|]. split; [assumption|].
    split; [now apply strip0_digits|]. split; [assumption|]. split; [assumption|]. intros v Hv.
    destruct (strip0_spec lr) as [n Hs].
    assert (Dm : m = dval (li ++ strip0 lr) * 10 ^ Z.of_nat n).
    { rewrite <- Hd, Hs at 1. rewrite app_assoc, dval_app, dval_zeros, zlen_repeat. lia. }
    assert (Hz : zlen lr = zlen (strip0 lr) + Z.of_nat n) by (rewrite Hs at 1; rewrite zlen_app, zlen_repeat; reflexivity).
    rewrite Dm in Hv. apply dec_is_shift in Hv; [|lia].
    replace (fst (read_exp te) - zlen (strip0 lr)) with (e + 1 - Z.of_nat P + Z.of_nat n) by lia. assumption. }
  assert (Cut : forall n, (1 <= n <= P)%nat -> dval (firstn n d ++ skipn n d) = m /\ Forall is_digit (firstn n d) /\
    Forall is_digit (skipn n d) /\ firstn n d <> [] /\ zlen (skipn n d) = Z.of_nat P - Z.of_nat n).
  { intros n Hn. rewrite firstn_skipn. split; [assumption|].
    assert (D' := D). rewrite <- (firstn_skipn n d) in D'. apply Forall_app in D' as [D1 D2]. split; [assumption|]. split; [assumption|].
    split.
    - intros C. apply (f_equal (@length Z)) in C. rewrite firstn_length, L in C. cbn in C. lia.
    - unfold zlen. rewrite skipn_length, L. lia. }
  destruct ((e <? -4) || (Z.of_nat P <=? e)) eqn:Es.
  - destruct (Cut 1%nat ltac:(lia)) as (C1 & C2 & C3 & C4 & C5).
    apply G; auto; [right; eauto|]. rewrite read_print_exp. rewrite C5. lia.
  - apply orb_false_iff in Es as [Es1 Es2]. apply Z.ltb_ge in Es1. apply Z.leb_gt in Es2.
    destruct (Z.leb_spec 0 e) as [Le|Le].
    + destruct (Cut (Z.to_nat (e + 1)) ltac:(lia)) as (C1 & C2 & C3 & C4 & C5).
      destruct (G (firstn (Z.to_nat (e + 1)) d) (skipn (Z.to_nat (e + 1)) d) []) as (li & lf & te & Q & R); auto; [now left|cbn [read_exp fst]; rewrite C5; lia|].
      rewrite app_nil_r in Q. rewrite Q. eauto.
    + destruct (G [0] (repeat 0 (Z.to_nat (- e - 1)) ++ d) []) as (li & lf & te & Q & R); auto.
      * rewrite dval_app. rewrite dval_app, dval_zeros, V. change (dval [0]) with 0. lia.
      * constructor; [unfold is_digit; lia|constructor].
      * apply Forall_app. split; [|assumption]. apply Forall_forall. intros x Hx. apply repeat_spec in Hx. subst x. unfold is_digit. lia.
      * discriminate.
      * now left.
      * cbn [read_exp fst]. rewrite zlen_app, zlen_repeat. unfold zlen. rewrite L. lia.
      * rewrite app_nil_r in Q. cbn [map app] in Q. change (digit 0) with "0"%char in Q. rewrite Q. eauto.
Qed.

(** ** Round trip *)

(** A finite double whose value has at most P significant decimal digits. *)
Definition dec_digits (P : nat) (x : Z) : Prop :=
  is_finite x = true /\ exists M t, 0 <= M < 10 ^ Z.of_nat P /\ dec_is M t (fmag x).

Lemma fone_small : fone <= 10 ^ 400.
Proof. unfold fone. apply Z.leb_le. vm_compute. reflexivity. Qed.

Theorem atof_print P x : (1 <= P)%nat -> f64 x -> dec_digits P x -> atof (print_g P x) = x.
Proof.
  intros HP Hx (Hf & M & t & HM & Hd). unfold print_g.
  assert (N : is_nan x = false /\ is_inf x = false).
  { unfold is_finite in Hf. unfold is_nan, is_inf. destruct (fexp x =? 2047); [discriminate|]. auto. }
  destruct N as [-> ->]. pose proof (fmag_nonneg x) as Nn.
  destruct (Z.eqb_spec (fmag x) 0) as [Z0|Z0].
  - assert (A : fabs x = 0).
    { unfold fabs. unfold fmag in Z0. pose proof (fman_range x). pose proof (fexp_range x).
      destruct (Z.eqb_spec (fexp x) 0) as [E|E]; [lia|]. assert (0 < 2 ^ (fexp x - 1)) by (apply Z.pow_pos_nonneg; lia). nia. }
    rewrite (fabs_sign x Hx) at 2. rewrite A, Z.add_0_r. destruct (fsign x); reflexivity.
  - assert (Pos : 0 < fmag x) by lia.
    assert (M0 : 0 < M).
    { destruct Hd as (B & H1 & H2 & H3). destruct (Z.eq_dec M 0) as [->|]; [|lia]. exfalso.
      pose proof (pow10_pos B H1). rewrite !Z.mul_0_l in H3. symmetry in H3. apply Z.mul_eq_0 in H3. lia. }
    destruct (round_dec_exact P (fmag x) fone M t) as (m & e & R & Rm & Rv); auto.
    + apply fone_pos.
    + pose proof fone_small. pose proof (pow10_pos 400 ltac:(lia)). generalize dependent (10 ^ 400). intros. nia.
    + lia.
    + intros B HB HtB. now apply dec_is_any.
    + destruct (print_pos_parts P m e HP Rm (fmag x) fone R) as (li & lf & te & Q & Hi & Hl & Hn & Ht & Hv).
      rewrite Q. unfold atof. rewrite strtod_parts by assumption.
      rewrite (scale_exact _ _ x Hx Hf Pos); [now rewrite <- fabs_sign|].
      apply Hv. exists (Z.max 0 (- (e + 1 - Z.of_nat P))). split; [lia|]. split; [lia|]. apply Rv; lia.
Qed.

(** Integers of at most P digits are such doubles. *)
Lemma dec_digits_int P n : Z.abs n < 10 ^ Z.of_nat P -> Z.abs n <= 2^53 -> dec_digits P (f_of_Z n).
Proof.
  intros H1 H2. destruct (f_of_Z_exact n H2) as [_ E]. unfold fis in E. split.
  - unfold fscaled in E. destruct (is_finite (f_of_Z n)); [reflexivity|discriminate].
  - exists (Z.abs n), 0. split; [lia|]. apply fscaled_abs in E. rewrite Z.abs_mul in E.
    rewrite (Z.abs_eq fone) in E by (pose proof fone_pos; lia). exists 0. split; [lia|]. split; [lia|]. rewrite <- E.
    change (10 ^ (0 + 0)) with 1. change (10 ^ 0) with 1. lia.
Qed.
