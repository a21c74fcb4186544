(** Seventeen significant decimal digits determine a double. *)
From Coq Require Import ZArith Bool Lia Ascii String List.
From Verif Require Import Base F64 MNum LNum.
Import ListNotations.
Local Open Scope Z_scope.

(** ** The binary exponent *)
Definition bexp (num den : Z) : Z :=
  let e0 := Z.log2 num - Z.log2 den in
  let below := if 0 <=? e0 then num <? den * 2^e0 else num * 2^(-e0) <? den in
  if below then e0 - 1 else e0.

Lemma pow2_pos k : 0 <= k -> 0 < 2 ^ k.
Proof. intros. apply Z.pow_pos_nonneg; lia. Qed.

Lemma bexp_spec num den B : 0 < num -> 0 < den -> 0 <= B -> 0 <= bexp num den + B ->
  den * 2 ^ (bexp num den + B) <= num * 2 ^ B < 2 * (den * 2 ^ (bexp num den + B)).
Proof.
  intros Hn Hd HB. unfold bexp.
  pose proof (Z.log2_spec num Hn) as [N1 N2]. pose proof (Z.log2_spec den Hd) as [D1 D2].
  pose proof (Z.log2_nonneg num) as Ln. pose proof (Z.log2_nonneg den) as Ld.
  rewrite Z.pow_succ_r in N2, D2 by assumption.
  set (ln := Z.log2 num) in *. set (ld := Z.log2 den) in *.
  assert (Bl : (if 0 <=? ln - ld then num <? den * 2 ^ (ln - ld) else num * 2 ^ (- (ln - ld)) <? den) = (num * 2 ^ ld <? den * 2 ^ ln)).
  { destruct (Z.leb_spec 0 (ln - ld)) as [L|L].
    - replace (2 ^ ln) with (2 ^ (ln - ld) * 2 ^ ld) by (rewrite <- Z.pow_add_r by lia; f_equal; lia).
      pose proof (pow2_pos ld Ld). destruct (Z.ltb_spec num (den * 2 ^ (ln - ld))), (Z.ltb_spec (num * 2 ^ ld) (den * (2 ^ (ln - ld) * 2 ^ ld))); auto; nia.
    - replace (2 ^ ld) with (2 ^ (- (ln - ld)) * 2 ^ ln) by (rewrite <- Z.pow_add_r by lia; f_equal; lia).
      pose proof (pow2_pos ln Ln). destruct (Z.ltb_spec (num * 2 ^ (- (ln - ld))) den), (Z.ltb_spec (num * (2 ^ (- (ln - ld)) * 2 ^ ln)) (den * 2 ^ ln)); auto; nia. }
  cbv zeta. rewrite Bl. clear Bl. pose proof (pow2_pos ld Ld) as Pd. pose proof (pow2_pos ln Ln) as Pn. pose proof (pow2_pos B HB) as PB.
  destruct (Z.ltb_spec (num * 2 ^ ld) (den * 2 ^ ln)) as [L|L]; intros He.
  - assert (W : 2 ^ (ln - ld - 1 + B) * 2 * 2 ^ ld = 2 ^ ln * 2 ^ B).
    { rewrite (Z.mul_comm _ 2), <- Z.pow_succ_r by lia. rewrite <- !Z.pow_add_r by lia. f_equal. lia. }
    pose proof (pow2_pos _ He) as Pe. generalize dependent (2 ^ (ln - ld - 1 + B)). intros p W Pp.
    generalize dependent (2 ^ ld). generalize dependent (2 ^ ln). generalize dependent (2 ^ B). clear. intros b PB n N1 N2 Pn d D1 D2 Pd L W. split.
    + assert (den * p * (2 * d) <= num * b * (2 * d)); [|nia].
      replace (den * p * (2 * d)) with (den * (n * b)) by (rewrite <- W; ring).
      assert (n * den <= num * (2 * d)) by nia. nia.
    + assert (num * b * d < 2 * (den * p) * d); [|nia].
      replace (2 * (den * p) * d) with (den * (n * b)) by (rewrite <- W; ring). nia.
  - assert (W : 2 ^ (ln - ld + B) * 2 ^ ld = 2 ^ ln * 2 ^ B).
    { rewrite <- !Z.pow_add_r by lia. f_equal. lia. }
    pose proof (pow2_pos _ He) as Pe. generalize dependent (2 ^ (ln - ld + B)). intros p W Pp.
    generalize dependent (2 ^ ld). generalize dependent (2 ^ ln). generalize dependent (2 ^ B). clear. intros b PB n N1 N2 Pn d D1 D2 Pd L W. split.
    + assert (den * p * d <= num * b * d); [|nia]. replace (den * p * d) with (den * (n * b)) by (rewrite <- W; ring). nia.
    + assert (num * b * d < 2 * (den * p) * d); [|nia]. replace (2 * (den * p) * d) with (2 * (den * (n * b))) by (rewrite <- W; ring).
      assert (num * d < 2 * n * den) by nia. nia.
Qed.

Lemma bexp_ge num den j : 0 < num -> 0 < den -> 0 <= j -> den * 2 ^ j <= num * fone -> j <= bexp num den + 1074.
Proof.
  intros Hn Hd Hj H. set (e := bexp num den) in *. destruct (Z.le_gt_cases j (e + 1074)) as [?|G]; [assumption|exfalso].
  set (c := Z.max 0 (- (e + 1074))).
  destruct (bexp_spec num den (1074 + c) Hn Hd ltac:(lia) ltac:(fold e; lia)) as [_ U]. fold e in U.
  assert (F : fone = 2 ^ 1074) by reflexivity. rewrite F in H. clear F.
  rewrite (Z.pow_add_r 2 1074 c) in U by lia.
  assert (M : 2 * 2 ^ (e + (1074 + c)) <= 2 ^ j * 2 ^ c).
  { rewrite <- Z.pow_succ_r by lia. rewrite <- Z.pow_add_r by lia. apply Z.pow_le_mono_r; lia. }
  pose proof (pow2_pos c ltac:(lia)). generalize dependent (2 ^ 1074). intros. nia.
Qed.
Lemma bexp_lt num den j : 0 < num -> 0 < den -> 0 <= j -> num * fone < den * 2 ^ j -> bexp num den + 1074 < j.
Proof.
  intros Hn Hd Hj H. set (e := bexp num den) in *. destruct (Z.lt_ge_cases (e + 1074) j) as [?|G]; [assumption|exfalso].
  destruct (bexp_spec num den 1074 Hn Hd ltac:(lia) ltac:(fold e; lia)) as [U _]. fold e in U.
  assert (F : fone = 2 ^ 1074) by reflexivity. rewrite F in H. clear F.
  assert (M : 2 ^ j <= 2 ^ (e + 1074)) by (apply Z.pow_le_mono_r; lia).
  generalize dependent (2 ^ 1074). intros. nia.
Qed.

(** ** Rounding *)
Lemma rnd_near a b n : 0 < b -> 2 * Z.abs (a - n * b) < b -> rnd_even a b = n.
Proof.
  intros Hb H. unfold rnd_even. pose proof (Z.div_mod a b ltac:(lia)) as D. pose proof (Z.mod_pos_bound a b Hb) as M.
  set (q := a / b) in *. set (r := a mod b) in *. rewrite D in H.
  assert (C : n = q /\ 2 * r < b \/ n = q + 1 /\ b < 2 * r).
  { assert (- b < 2 * ((q - n) * b + r) < b) by nia. assert (n = q \/ n = q + 1) by nia. nia. }
  destruct C as [[-> C]|[-> C]].
  - now rewrite (proj2 (Z.ltb_lt _ _)) by lia.
  - rewrite (proj2 (Z.ltb_ge _ _)) by lia. now rewrite (proj2 (Z.ltb_lt _ _)) by lia.
Qed.
Lemma rnd_bound a b : 0 < b -> 2 * Z.abs (rnd_even a b * b - a) <= b.
Proof.
  intros Hb. unfold rnd_even. pose proof (Z.div_mod a b ltac:(lia)) as D. pose proof (Z.mod_pos_bound a b Hb) as M.
  set (q := a / b) in *. set (r := a mod b) in *.
  destruct (Z.ltb_spec (2 * r) b); [nia|]. destruct (Z.ltb_spec b (2 * r)); [nia|]. destruct (Z.even q); nia.
Qed.

Lemma f_of_Q_parts num den n K : 0 < num -> 0 < den -> K = Z.max (bexp num den + 1074 - 52) 0 ->
  2 * Z.abs (num * fone - n * (den * 2 ^ K)) < den * 2 ^ K -> K * 2 ^ 52 + n < 2047 * 2 ^ 52 ->
  f_of_Q num den = K * 2 ^ 52 + n.
Proof.
  intros Hn Hd HK H Hb. unfold f_of_Q. cbv zeta. fold (bexp num den). set (k := Z.max (bexp num den - 52) (-1074)).
  assert (EK : K = k + 1074) by lia. assert (F : fone = 2 ^ 1074) by reflexivity.
  assert (S : (if 0 <=? k then rnd_even num (den * 2 ^ k) else rnd_even (num * 2 ^ (- k)) den) = n).
  { rewrite F in H. clear F Hb. destruct (Z.leb_spec 0 k) as [L|L].
    - apply rnd_near; [pose proof (pow2_pos k L); nia|].
      rewrite EK, Z.pow_add_r in H by lia. pose proof (pow2_pos 1074 ltac:(lia)) as P.
      generalize dependent (2 ^ 1074). intros T H P.
      assert (E : num * T - n * (den * (2 ^ k * T)) = (num - n * (den * 2 ^ k)) * T) by ring. rewrite E, Z.abs_mul in H.
      rewrite (Z.abs_eq T) in H by lia. nia.
    - apply rnd_near; [assumption|]. pose proof (pow2_pos K ltac:(lia)) as P.
      replace 1074 with (- k + K) in H by lia. rewrite Z.pow_add_r in H by lia.
      generalize dependent (2 ^ K). generalize (2 ^ (- k)). intros A T H P.
      assert (E : num * (A * T) - n * (den * T) = (num * A - n * den) * T) by ring. rewrite E, Z.abs_mul in H.
      rewrite (Z.abs_eq T) in H by lia. nia. }
  rewrite S. rewrite <- EK. now rewrite (proj2 (Z.ltb_lt _ _)) by lia.
Qed.

(** A ratio closer to the double than 2^-54 of its value is read as the double. *)
Lemma f_of_Q_near num den x : f64 x -> is_finite x = true -> 0 < fmag x -> 0 < num -> 0 < den ->
  Z.abs (num * fone - fmag x * den) * 2 ^ 54 < fmag x * den -> f_of_Q num den = fabs x.
Proof.
  intros Hx Hf Hv Hn Hd H.
  pose proof (fman_range x) as Mr. pose proof (fexp_range x) as Er.
  assert (Ne : fexp x <> 2047). { unfold is_finite in Hf. intros C. rewrite C in Hf. discriminate. }
  assert (D : exists q S, 0 <= q /\ fmag x = S * 2 ^ q /\ fabs x = q * 2 ^ 52 + S /\ 0 < S < 2 ^ 53 /\ (q = 0 \/ 2 ^ 52 <= S) /\ q < 2046).
  { unfold fabs. destruct (Z.eqb_spec (fexp x) 0) as [E0|E0].
    - assert (Em : fmag x = fman x) by (unfold fmag; now rewrite E0).
      exists 0, (fman x). rewrite E0. change (2 ^ 0) with 1. lia.
    - assert (Em : fmag x = (2 ^ 52 + fman x) * 2 ^ (fexp x - 1)).
      { unfold fmag. now rewrite (proj2 (Z.eqb_neq _ _)) by assumption. }
      exists (fexp x - 1), (2 ^ 52 + fman x). lia. }
  destruct D as (q & S & Hq & Ev & Ea & HS & HqS & Hq2). rewrite Ea. rewrite Ev in H. clear Ev Ea Mr Er Ne Hx Hf Hv x.
  pose proof (bexp_ge num den) as Ge. pose proof (bexp_lt num den) as Lt.
  assert (W0 : 0 < num * fone) by (pose proof fone_pos; nia).
  pose proof (f_of_Q_parts num den) as Pt.
  generalize dependent (num * fone). intros W Hw Ge Lt W0 Pt.
  pose proof (pow2_pos q Hq) as Pq.
  assert (U53 : W < den * 2 ^ (q + 53)).
  { rewrite Z.pow_add_r by lia. generalize dependent (2 ^ q). intros. nia. }
  destruct (Z.le_gt_cases (den * 2 ^ (q + 52)) W) as [L|L].
  - assert (E : bexp num den + 1074 = q + 52).
    { specialize (Ge (q + 52)). specialize (Lt (q + 53)). lia. }
    apply Pt; auto; try lia. generalize dependent (2 ^ q). intros. nia.
  - destruct (Z.eq_dec q 0) as [Q0|Q0].
    + subst q. specialize (Lt (0 + 52)). change (2 ^ 0) with 1 in *. apply Pt; auto; try lia.
    + destruct HqS as [?|HS2]; [lia|].
      assert (Eq : 2 ^ q = 2 * 2 ^ (q - 1)) by (rewrite <- Z.pow_succ_r by lia; f_equal; lia).
      rewrite (Z.pow_add_r 2 q 52) in L by lia.
      assert (S = 2 ^ 52) as ->. { generalize dependent (2 ^ q). intros. nia. }
      assert (E : bexp num den + 1074 = q + 51).
      { specialize (Ge (q + 51)). specialize (Lt (q + 52)). rewrite (Z.pow_add_r 2 q 52) in Lt by lia. rewrite (Z.pow_add_r 2 q 51) in Ge by lia.
        assert (den * (2 ^ q * 2 ^ 51) <= W). { clear Ge Lt Pt U53. generalize dependent (2 ^ q). intros. nia. } lia. }
      replace (q * 2 ^ 52 + 2 ^ 52) with ((q - 1) * 2 ^ 52 + 2 ^ 53) by lia.
      apply Pt; auto; lia.
Qed.

(** ** Decimal closeness *)
Definition near (M k v : Z) : Prop :=
  exists B, 0 <= B /\ 0 <= k + B /\ Z.abs (M * 10 ^ (k + B) * fone - v * 10 ^ B) * 2 ^ 54 < v * 10 ^ B.
Lemma near_any M k v B : near M k v -> 0 <= B -> 0 <= k + B ->
  Z.abs (M * 10 ^ (k + B) * fone - v * 10 ^ B) * 2 ^ 54 < v * 10 ^ B.
Proof.
  intros (C & H1 & H2 & H3) HB HkB.
  assert (E : (M * 10 ^ (k + B) * fone - v * 10 ^ B) * 10 ^ C = (M * 10 ^ (k + C) * fone - v * 10 ^ C) * 10 ^ B).
  { assert (P : 10 ^ (k + B) * 10 ^ C = 10 ^ (k + C) * 10 ^ B) by (rewrite <- !Z.pow_add_r by lia; f_equal; lia).
    generalize dependent fone. intros f _.
    transitivity (M * f * (10 ^ (k + B) * 10 ^ C) - v * 10 ^ B * 10 ^ C); [ring|]. rewrite P. ring. }
  apply (f_equal Z.abs) in E. rewrite !Z.abs_mul in E. pose proof (pow10_pos C H1) as PC. pose proof (pow10_pos B HB) as PB.
  rewrite (Z.abs_eq (10 ^ C)), (Z.abs_eq (10 ^ B)) in E by lia.
  generalize dependent (Z.abs (M * 10 ^ (k + B) * fone - v * 10 ^ B)). generalize dependent (Z.abs (M * 10 ^ (k + C) * fone - v * 10 ^ C)).
  generalize dependent (10 ^ C). generalize dependent (10 ^ B). generalize (2 ^ 54). clear. intros t b Hb c Hc a H a' E.
  assert (a' * t * c < v * b * c); [|nia]. replace (a' * t * c) with (a' * c * t) by ring. rewrite E. nia.
Qed.
Lemma near_shift M k v z : 0 <= z -> near (M * 10 ^ z) k v -> near M (k + z) v.
Proof.
  intros Hz H. exists (Z.max 0 (- k)). split; [lia|]. split; [lia|].
  assert (G : M * 10 ^ (k + z + Z.max 0 (- k)) = M * 10 ^ z * 10 ^ (k + Z.max 0 (- k))).
  { rewrite <- Z.mul_assoc, <- Z.pow_add_r by lia. do 2 f_equal. lia. }
  rewrite G. apply (near_any _ _ _ _ H); lia.
Qed.
Lemma scale_near M k x : f64 x -> is_finite x = true -> 0 < fmag x -> 0 < M -> near M k (fmag x) -> scale M k = fabs x.
Proof.
  intros Hx Hf Hv HM H. unfold scale.
  rewrite (proj2 (Z.eqb_neq _ _)) by lia. destruct (Z.leb_spec 0 k) as [L|L].
  - pose proof (near_any _ _ _ 0 H ltac:(lia) ltac:(lia)) as E. rewrite Z.add_0_r in E. change (10 ^ 0) with 1 in E.
    apply f_of_Q_near; auto; try lia.
  - pose proof (near_any _ _ _ (- k) H ltac:(lia) ltac:(lia)) as E. replace (k + - k) with 0 in E by lia. change (10 ^ 0) with 1 in E.
    rewrite Z.mul_1_r in E. apply f_of_Q_near; auto; try lia.
Qed.

(** ** Rounding to P digits *)
Lemma round_dec_near P num den : (1 <= P)%nat -> 0 < num -> 0 < den -> den <= num * 10 ^ 400 ->
  exists m e, round_dec P num den = (m, e) /\ 10 ^ (Z.of_nat P - 1) <= m < 10 ^ Z.of_nat P /\
    exists B, 0 <= B /\ 0 <= e + 1 - Z.of_nat P + B /\
      2 * Z.abs (m * 10 ^ (e + 1 - Z.of_nat P + B) * den - num * 10 ^ B) * 10 ^ (Z.of_nat P - 1) <= num * 10 ^ B.
Proof.
  intros HP Hn Hd Hr. unfold round_dec. pose proof (dexp_spec num den Hn Hd Hr) as E. set (e := dexp num den) in *.
  set (p := Z.of_nat P) in *. assert (Hp : 1 <= p) by lia. set (k := p - 1 - e).
  set (m := if 0 <=? k then rnd_even (num * 10 ^ k) den else rnd_even num (den * 10 ^ (- k))).
  assert (Pp : 10 ^ p = 10 * 10 ^ (p - 1)) by (rewrite <- Z.pow_succ_r by lia; f_equal; lia).
  pose proof (pow10_pos (p - 1) ltac:(lia)) as Pp1.
  (* bounds in a common scale *)
  assert (X : exists B, 0 <= B /\ 0 <= B - k /\ 2 * Z.abs (m * 10 ^ (B - k) * den - num * 10 ^ B) <= den * 10 ^ (B - k) /\
    10 ^ (p - 1) * (den * 10 ^ (B - k)) <= num * 10 ^ B < 10 * 10 ^ (p - 1) * (den * 10 ^ (B - k))).
  { subst m. destruct (Z.leb_spec 0 k) as [L|L].
    - set (c := Z.max 0 (- e)).
      exists (k + c). split; [lia|]. split; [lia|]. replace (k + c - k) with c by lia.
      assert (10 ^ (k + c) = 10 ^ k * 10 ^ c) as -> by (apply Z.pow_add_r; lia). pose proof (pow10_pos c ltac:(lia)) as Pc. split.
      + pose proof (rnd_bound (num * 10 ^ k) den Hd) as R. generalize dependent (10 ^ k). intros K R. generalize dependent (10 ^ c). intros C PC.
        replace (rnd_even (num * K) den * C * den - num * (K * C)) with ((rnd_even (num * K) den * den - num * K) * C) by ring.
        rewrite Z.abs_mul, (Z.abs_eq C) by lia. nia.
      + destruct (E (k + c) ltac:(lia) ltac:(lia)) as [E1 E2].
        replace (e + (k + c)) with (p - 1 + c) in E1 by lia. replace (e + 1 + (k + c)) with (1 + (p - 1 + c)) in E2 by lia.
        rewrite (Z.pow_add_r 10 1) in E2 by lia. rewrite (Z.pow_add_r 10 (p - 1)) in E1, E2 by lia. rewrite (Z.pow_add_r 10 k) in E1, E2 by lia.
        change (10 ^ 1) with 10 in E2. generalize dependent (10 ^ (p - 1)). generalize dependent (10 ^ c). generalize (10 ^ k). clear. intros. split; nia.
    - exists 0. split; [lia|]. split; [lia|]. replace (0 - k) with (- k) by lia. change (10 ^ 0) with 1. pose proof (pow10_pos (- k) ltac:(lia)) as Pk. split.
      + pose proof (rnd_bound num (den * 10 ^ (- k)) ltac:(nia)) as R.
        set (m := rnd_even num (den * 10 ^ (- k))) in *.
        replace (m * 10 ^ (- k) * den - num * 1) with (m * (den * 10 ^ (- k)) - num) by ring. lia.
      + destruct (E 0 ltac:(lia) ltac:(lia)) as [E1 E2]. change (10 ^ 0) with 1 in E1, E2.
        replace (e + 0) with (p - 1 + - k) in E1 by lia. replace (e + 1 + 0) with (1 + (p - 1 + - k)) in E2 by lia.
        rewrite (Z.pow_add_r 10 1) in E2 by lia. rewrite (Z.pow_add_r 10 (p - 1)) in E1, E2 by lia. change (10 ^ 1) with 10 in E2.
        generalize dependent (10 ^ (p - 1)). generalize dependent (10 ^ (- k)). clear. intros. split; nia. }
  destruct X as (B & HB & HBk & X1 & X2 & X3).
  pose proof (pow10_pos (B - k) HBk) as PBk.
  assert (Rm : 10 ^ (p - 1) <= m <= 10 ^ p).
  { rewrite Pp. clear Pp E. generalize dependent (num * 10 ^ B). intros N X1 X2 X3.
    replace (m * 10 ^ (B - k) * den) with (m * (den * 10 ^ (B - k))) in X1 by ring.
    assert (PD : 0 < den * 10 ^ (B - k)) by nia. generalize dependent (den * 10 ^ (B - k)). intros D X1 X2 X3 PD.
    generalize dependent (10 ^ (p - 1)). intros q Pq X2 X3.
    assert (- D <= 2 * (m * D - N) <= D) by lia. split; nia. }
  assert (X4 : 2 * Z.abs (m * 10 ^ (B - k) * den - num * 10 ^ B) * 10 ^ (p - 1) <= num * 10 ^ B) by nia.
  destruct (Z.eqb_spec m (10 ^ p)) as [Em|Em].
  - exists (10 ^ (p - 1)), (e + 1). split; [reflexivity|]. split; [nia|]. exists (B + 1). split; [lia|]. split; [lia|].
    replace (e + 1 + 1 - p + (B + 1)) with (1 + (1 + (B - k))) by lia. rewrite !(Z.pow_add_r 10 1) by lia. rewrite (Z.pow_add_r 10 B) by lia.
    change (10 ^ 1) with 10. rewrite Em, Pp in X4.
    replace (10 ^ (p - 1) * (10 * (10 * 10 ^ (B - k))) * den - num * (10 ^ B * 10)) with ((10 * 10 ^ (p - 1) * 10 ^ (B - k) * den - num * 10 ^ B) * 10) by ring.
    rewrite Z.abs_mul. change (Z.abs 10) with 10. nia.
  - exists m, e. split; [reflexivity|]. split; [lia|]. exists B. split; [assumption|]. split; [lia|].
    replace (e + 1 - p + B) with (B - k) by lia. exact X4.
Qed.

(** What is printed: digits whose value is that of [m] and [e]. *)
Lemma print_pos_value P m e : (1 <= P)%nat -> 10 ^ (Z.of_nat P - 1) <= m < 10 ^ Z.of_nat P ->
  forall num den, round_dec P num den = (m, e) ->
  exists li lf te z, print_pos P num den = map digit li ++ dotted lf ++ te /\
    Forall is_digit li /\ Forall is_digit lf /\ li <> [] /\ tail_ok te /\ 0 <= z /\
    m = dval (li ++ lf) * 10 ^ z /\ fst (read_exp te) - zlen lf = e + 1 - Z.of_nat P + z.
Proof.
  intros HP Hm num den E. unfold print_pos. rewrite E. pose proof (digs_digit P m) as D. pose proof (digs_length P m) as L.
  assert (V : dval (digs P m) = m) by (apply dval_digs; pose proof (pow10_pos (Z.of_nat P - 1)); lia).
  set (d := digs P m) in *.
  assert (G : forall li lr te, dval (li ++ lr) = m -> Forall is_digit li -> Forall is_digit lr ->
    li <> [] -> tail_ok te -> fst (read_exp te) - zlen lr = e + 1 - Z.of_nat P ->
    exists li' lf te' z, map digit li ++ frac lr ++ te = map digit li' ++ dotted lf ++ te' /\
    Forall is_digit li' /\ Forall is_digit lf /\ li' <> [] /\ tail_ok te' /\ 0 <= z /\
    m = dval (li' ++ lf) * 10 ^ z /\ fst (read_exp te') - zlen lf = e + 1 - Z.of_nat P + z).
  { intros li lr te Hd Hi Hr Hn Ht He. destruct (strip0_spec lr) as [n Hs].
    exists li, (strip0 lr), te, (Z.of_nat n). split; [now rewrite frac_dotted|]. split; [assumption|].
    split; [now apply strip0_digits|]. split; [assumption|]. split; [assumption|]. split; [lia|]. split.
    - rewrite <- Hd, Hs at 1. rewrite app_assoc, dval_app, dval_zeros, zlen_repeat. lia.
    - assert (Hz : zlen lr = zlen (strip0 lr) + Z.of_nat n) by (rewrite Hs at 1; rewrite zlen_app, zlen_repeat; reflexivity). lia. }
  assert (Cut : forall n, (1 <= n <= P)%nat -> dval (firstn n d ++ skipn n d) = m /\ Forall is_digit (firstn n d) /\
    Forall is_digit (skipn n d) /\ firstn n d <> [] /\ zlen (skipn n d) = Z.of_nat P - Z.of_nat n).
  { intros n Hn. rewrite firstn_skipn. split; [assumption|].
    assert (D' := D). rewrite <- (firstn_skipn n d) in D'. apply Forall_app in D' as [D1 D2]. split; [assumption|]. split; [assumption|].
    split.
    - intros C. apply (f_equal (@length Z)) in C. rewrite firstn_length, L in C. cbn in C. lia.
    - unfold zlen. rewrite skipn_length, L. lia. }
  destruct ((e <? -4) || (Z.of_nat P <=? e)) eqn:Es.
  - destruct (Cut 1%nat ltac:(lia)) as (C1 & C2 & C3 & C4 & C5).
    apply G; auto; [right; eauto|]. rewrite read_print_exp. rewrite C5. lia.
  - apply orb_false_iff in Es as [Es1 Es2]. apply Z.ltb_ge in Es1. apply Z.leb_gt in Es2.
    destruct (Z.leb_spec 0 e) as [Le|Le].
    + destruct (Cut (Z.to_nat (e + 1)) ltac:(lia)) as (C1 & C2 & C3 & C4 & C5).
      destruct (G (firstn (Z.to_nat (e + 1)) d) (skipn (Z.to_nat (e + 1)) d) []) as (li & lf & te & z & Q & R); auto; [now left|cbn [read_exp fst]; rewrite C5; lia|].
      rewrite app_nil_r in Q. rewrite Q. eauto 10.
    + destruct (G [0] (repeat 0 (Z.to_nat (- e - 1)) ++ d) []) as (li & lf & te & z & Q & R); auto.
      * rewrite dval_app. rewrite dval_app, dval_zeros, V. change (dval [0]) with 0. lia.
      * constructor; [unfold is_digit; lia|constructor].
      * apply Forall_app. split; [|assumption]. apply Forall_forall. intros x Hx. apply repeat_spec in Hx. subst x. unfold is_digit. lia.
      * discriminate.
      * now left.
      * cbn [read_exp fst]. rewrite zlen_app, zlen_repeat. unfold zlen. rewrite L. lia.
      * rewrite app_nil_r in Q. cbn [map app] in Q. change (digit 0) with "0"%char in Q. rewrite Q. eauto 10.
Qed.

(** Every finite double written with at least 17 digits is read back. *)
Theorem atof_print17 P x : (17 <= P)%nat -> f64 x -> is_finite x = true -> atof (print_g P x) = x.
Proof.
  intros HP Hx Hf. unfold print_g.
  assert (N : is_nan x = false /\ is_inf x = false).
  { unfold is_finite in Hf. unfold is_nan, is_inf. destruct (fexp x =? 2047); [discriminate|]. auto. }
  destruct N as [-> ->]. pose proof (fmag_nonneg x) as Nn.
  destruct (Z.eqb_spec (fmag x) 0) as [Z0|Z0].
  - assert (A : fabs x = 0).
    { unfold fabs. unfold fmag in Z0. pose proof (fman_range x). pose proof (fexp_range x).
      destruct (Z.eqb_spec (fexp x) 0) as [E|E]; [lia|]. assert (0 < 2 ^ (fexp x - 1)) by (apply Z.pow_pos_nonneg; lia). nia. }
    rewrite (fabs_sign x Hx) at 2. rewrite A, Z.add_0_r. destruct (fsign x); reflexivity.
  - assert (Pos : 0 < fmag x) by lia.
    destruct (round_dec_near P (fmag x) fone) as (m & e & R & Rm & B & B1 & B2 & B3); auto; try lia.
    + apply fone_pos.
    + pose proof fone_small. pose proof (pow10_pos 400 ltac:(lia)). generalize dependent (10 ^ 400). intros. nia.
    + destruct (print_pos_value P m e ltac:(lia) Rm (fmag x) fone R) as (li & lf & te & z & Q & Hi & Hl & Hn & Ht & Hz & Hm & He).
      rewrite Q. unfold atof. rewrite strtod_parts by assumption. rewrite He.
      rewrite (scale_near _ _ x Hx Hf Pos); [now rewrite <- fabs_sign| |].
      * pose proof (pow10_pos (Z.of_nat P - 1) ltac:(lia)). pose proof (pow10_pos z Hz). nia.
      * apply near_shift; [assumption|]. rewrite <- Hm. exists B. split; [assumption|]. split; [assumption|].
        assert (P16 : 10 ^ 16 <= 10 ^ (Z.of_nat P - 1)) by (apply Z.pow_le_mono_r; lia).
        pose proof (pow10_pos B B1) as PB. assert (T : 2 ^ 54 < 2 * 10 ^ 16) by reflexivity.
        assert (PV : 0 < fmag x * 10 ^ B) by nia.
        generalize dependent (fmag x * 10 ^ B). intros V B3 PV.
        generalize dependent (Z.abs (m * 10 ^ (e + 1 - Z.of_nat P + B) * fone - V)). intros A B3.
        assert (T0 : 0 < 2 ^ 54) by lia. clear - B3 P16 T T0 PV.
        revert B3 P16 T T0. generalize (10 ^ (Z.of_nat P - 1)) (10 ^ 16) (2 ^ 54). intros w u t B3 P16 T T0.
        destruct (Z.le_gt_cases A 0); [nia|]. assert (A * t < A * (2 * w)) by nia. lia.
Qed.
