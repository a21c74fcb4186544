(** Reals in the rapidjson reader. *)
From Coq Require Import ZArith Bool Lia Ascii String List.
From Verif Require Import Base F64 Value MNum LNum LNum2 LJson2Doc MJson SJsonText SRapid MRapid LRapidNum LRapidInt.
Import ListNotations.
Local Open Scope Z_scope.

(** * Rounding a ratio *)
Lemma rnd_even_scale a b c : 0 < b -> 0 < c -> rnd_even (a * c) (b * c) = rnd_even a b.
Proof.
  intros Hb Hc. unfold rnd_even. rewrite Z.div_mul_cancel_r by lia. rewrite Zmult_mod_distr_r.
  set (r := a mod b). set (q := a / b).
  assert (E1 : (2 * (r * c) <? b * c) = (2 * r <? b)).
  { destruct (Z.ltb_spec (2 * (r * c)) (b * c)), (Z.ltb_spec (2 * r) b); auto; nia. }
  assert (E2 : (b * c <? 2 * (r * c)) = (b <? 2 * r)).
  { destruct (Z.ltb_spec (b * c) (2 * (r * c))), (Z.ltb_spec b (2 * r)); auto; nia. }
  now rewrite E1, E2.
Qed.
Lemma bexp_scale n d c : 0 < n -> 0 < d -> 0 < c -> bexp (n * c) (d * c) = bexp n d.
Proof.
  intros Hn Hd Hc. set (b1 := bexp (n * c) (d * c)). set (b2 := bexp n d). set (B := Z.abs b1 + Z.abs b2).
  pose proof (bexp_spec (n * c) (d * c) B ltac:(nia) ltac:(nia) ltac:(lia) ltac:(fold b1; lia)) as [L1 U1].
  pose proof (bexp_spec n d B Hn Hd ltac:(lia) ltac:(fold b2; lia)) as [L2 U2]. fold b1 in L1, U1. fold b2 in L2, U2.
  assert (P : forall a b, 0 <= a -> 0 <= b -> 2 ^ a < 2 * 2 ^ b -> a <= b).
  { intros a b Ha Hb H. rewrite <- Z.pow_succ_r in H by assumption. apply Z.pow_lt_mono_r_iff in H; lia. }
  pose proof (pow2_pos (b1 + B) ltac:(lia)). pose proof (pow2_pos (b2 + B) ltac:(lia)).
  assert (b1 + B <= b2 + B).
  { apply P; [lia..|]. generalize dependent (2 ^ (b1 + B)). generalize dependent (2 ^ (b2 + B)). generalize (2 ^ B). intros.
    assert (d * c * z1 < d * c * (2 * z0)) by nia. nia. }
  assert (b2 + B <= b1 + B).
  { apply P; [lia..|]. generalize dependent (2 ^ (b1 + B)). generalize dependent (2 ^ (b2 + B)). generalize (2 ^ B). intros.
    assert (d * c * z0 < d * c * (2 * z1)) by nia. nia. }
  lia.
Qed.
Lemma f_of_Q_scale n d c : 0 < n -> 0 < d -> 0 < c -> f_of_Q (n * c) (d * c) = f_of_Q n d.
Proof.
  intros Hn Hd Hc. unfold f_of_Q. cbv zeta. fold (bexp (n * c) (d * c)). fold (bexp n d). rewrite bexp_scale by assumption.
  set (k := Z.max (bexp n d - 52) (-1074)).
  assert (E : (if 0 <=? k then rnd_even (n * c) (d * c * 2 ^ k) else rnd_even (n * c * 2 ^ (- k)) (d * c)) =
              (if 0 <=? k then rnd_even n (d * 2 ^ k) else rnd_even (n * 2 ^ (- k)) d)).
  { destruct (Z.leb_spec 0 k) as [L|L].
    - replace (d * c * 2 ^ k) with (d * 2 ^ k * c) by ring. apply rnd_even_scale; [|assumption]. pose proof (pow2_pos k L). nia.
    - replace (n * c * 2 ^ (- k)) with (n * 2 ^ (- k) * c) by ring. now apply rnd_even_scale. }
  now rewrite E.
Qed.

(** The bits of a double from its significand and exponent. *)
Lemma fmag_bits K n : 0 <= K -> 0 <= n <= 2 ^ 53 -> (K = 0 \/ 2 ^ 52 <= n) -> K * 2 ^ 52 + n < 2047 * 2 ^ 52 ->
  fmag (K * 2 ^ 52 + n) = n * 2 ^ K /\ 0 <= K * 2 ^ 52 + n /\ is_finite (K * 2 ^ 52 + n) = true.
Proof.
  intros HK Hn Hc Hb.
  assert (D : exists e m, K * 2 ^ 52 + n = fpack false e m /\ 0 <= e < 2047 /\ 0 <= m < 2 ^ 52 /\
    (if e =? 0 then m else (2 ^ 52 + m) * 2 ^ (e - 1)) = n * 2 ^ K).
  { unfold fpack. destruct (Z.lt_ge_cases n (2 ^ 52)) as [L|L].
    - assert (K = 0) as -> by lia. exists 0, n. change (0 =? 0) with true. cbv iota. rewrite Z.pow_0_r. lia.
    - destruct (Z.eq_dec n (2 ^ 53)) as [->|N].
      + exists (K + 2), 0. rewrite (proj2 (Z.eqb_neq _ _)) by lia. split; [lia|]. split; [lia|]. split; [lia|].
        replace (K + 2 - 1) with (K + 1) by lia. rewrite Z.pow_add_r by lia. rewrite Z.pow_1_r. lia.
      + exists (K + 1), (n - 2 ^ 52). rewrite (proj2 (Z.eqb_neq _ _)) by lia. split; [lia|]. split; [lia|]. split; [lia|].
        replace (K + 1 - 1) with K by lia. f_equal. lia. }
  destruct D as (e & m & E & He & Hm & V). split; [|split].
  - rewrite E. destruct (fpack_fields false e m ltac:(lia) Hm) as (_ & Fe & Fm). unfold fmag. rewrite Fe, Fm. exact V.
  - lia.
  - rewrite E. destruct (fpack_fields false e m ltac:(lia) Hm) as (_ & Fe & Fm). unfold is_finite. rewrite Fe. apply negb_true_iff.
    apply Z.eqb_neq. lia.
Qed.

(** The nearest double, in every case. *)
Lemma f_of_Q_value num den : 0 < num -> 0 < den ->
  (0 <= f_of_Q num den < inf /\ is_finite (f_of_Q num den) = true /\
   exists K, 0 <= K /\ 2 * Z.abs (fmag (f_of_Q num den) * den - num * fone) <= den * 2 ^ K /\
             (K = 0 \/ den * 2 ^ (K + 52) <= num * fone)) \/
  (f_of_Q num den = inf /\ den * (2 ^ 54 - 1) * 2 ^ 2044 <= num * fone).
Proof.
  intros Hn Hd. set (K := Z.max (bexp num den + 1074 - 52) 0).
  assert (Q : exists n, f_of_Q num den = (if K * 2 ^ 52 + n <? inf then K * 2 ^ 52 + n else inf) /\
     2 * Z.abs (n * (den * 2 ^ K) - num * fone) <= den * 2 ^ K).
  { unfold f_of_Q. cbv zeta. fold (bexp num den). set (k := Z.max (bexp num den - 52) (-1074)). assert (EK : K = k + 1074) by lia.
    eexists. split; [rewrite EK; reflexivity|]. assert (F : fone = 2 ^ 1074) by reflexivity. rewrite F. clear F.
    destruct (Z.leb_spec 0 k) as [L|L].
    - pose proof (pow2_pos k L) as Pk. pose proof (rnd_bound num (den * 2 ^ k) ltac:(nia)) as H. rewrite EK, Z.pow_add_r by lia.
      pose proof (pow2_pos 1074 ltac:(lia)) as P. generalize dependent (rnd_even num (den * 2 ^ k)). generalize dependent (2 ^ k).
      generalize dependent (2 ^ 1074). intros T PT k2 Pk n H.
      replace (n * (den * (k2 * T)) - num * T) with ((n * (den * k2) - num) * T) by ring. rewrite Z.abs_mul, (Z.abs_eq T) by lia. nia.
    - pose proof (rnd_bound (num * 2 ^ (- k)) den Hd) as H. pose proof (pow2_pos K ltac:(lia)) as P.
      replace 1074 with (- k + K) by lia. rewrite Z.pow_add_r by lia. generalize dependent (rnd_even (num * 2 ^ (- k)) den).
      generalize dependent (2 ^ K). generalize (2 ^ (- k)). intros A T PT n H.
      replace (n * (den * T) - num * (A * T)) with ((n * den - num * A) * T) by ring. rewrite Z.abs_mul, (Z.abs_eq T) by lia. nia. }
  destruct Q as (n & E & H). rewrite E. clear E.
  assert (LB : K = 0 \/ den * 2 ^ (K + 52) <= num * fone).
  { destruct (Z.eq_dec K 0) as [?|N]; [now left|right]. assert (EK : K + 52 = bexp num den + 1074) by lia.
    destruct (bexp_spec num den 1074 Hn Hd ltac:(lia) ltac:(lia)) as [L _]. rewrite EK. exact L. }
  assert (UB : num * fone < den * 2 ^ (K + 53)).
  { destruct (Z.lt_ge_cases (num * fone) (den * 2 ^ (K + 53))) as [?|G]; [assumption|].
    pose proof (bexp_ge num den (K + 53) Hn Hd ltac:(lia) G). lia. }
  assert (W0 : 0 < num * fone) by (pose proof fone_pos; nia). generalize dependent (num * fone). intros W H LB UB W0.
  assert (HK : 0 <= K) by lia. clearbody K. pose proof (pow2_pos K HK) as PK.
  rewrite Z.pow_add_r in UB by lia.
  assert (N1 : 0 <= n <= 2 ^ 53).
  { generalize dependent (2 ^ K). intros. split.
    - destruct (Z.lt_ge_cases n 0); [exfalso|assumption]. nia.
    - destruct (Z.le_gt_cases n (2 ^ 53)); [assumption|exfalso]. nia. }
  assert (N2 : K = 0 \/ 2 ^ 52 <= n).
  { destruct LB as [?|LB]; [now left|right]. rewrite Z.pow_add_r in LB by lia. generalize dependent (2 ^ K). intros.
    destruct (Z.le_gt_cases (2 ^ 52) n); [assumption|exfalso]. nia. }
  unfold inf. destruct (Z.ltb_spec (K * 2 ^ 52 + n) (2047 * 2 ^ 52)) as [L|L].
  - left. destruct (fmag_bits K n HK N1 N2 L) as (V & V0 & Vf). split; [lia|]. split; [assumption|]. exists K. split; [assumption|]. split; [|assumption].
    rewrite V. replace (n * 2 ^ K * den) with (n * (den * 2 ^ K)) by ring. exact H.
  - right. split; [reflexivity|]. destruct (Z.le_gt_cases 2046 K) as [G|G].
    + destruct LB as [?|LB]; [lia|]. assert (M : 2 ^ (2044 + 54) <= 2 ^ (K + 52)) by (apply Z.pow_le_mono_r; lia).
      rewrite Z.pow_add_r in M by lia. pose proof (pow2_pos 2044 ltac:(lia)). generalize dependent (2 ^ (K + 52)). generalize dependent (2 ^ 2044). intros. nia.
    + assert (K = 2045) as -> by lia. assert (n = 2 ^ 53) as -> by lia.
      replace (2 ^ 2045) with (2 * 2 ^ 2044) in H by (rewrite <- Z.pow_succ_r by lia; reflexivity).
      pose proof (pow2_pos 2044 ltac:(lia)). clear UB LB PK. generalize dependent (2 ^ 2044). intros. nia.
Qed.

(** * Few digits and small exponents *)
Lemma pos_finite_lt x : f64 x -> fsign x = false -> is_finite x = true -> 0 <= x < inf.
Proof.
  intros Hx Hs Hf. pose proof (fpack_eta x Hx) as E. rewrite Hs in E. unfold fpack in E. pose proof (fexp_range x) as R. pose proof (fman_range x) as M.
  unfold is_finite in Hf. apply negb_true_iff in Hf. apply Z.eqb_neq in Hf. unfold f64 in Hx. split; [lia|]. rewrite E. unfold inf.
  change (2 ^ 11) with 2048 in R. generalize dependent (fexp x). generalize dependent (fman x). intros. lia.
Qed.
Lemma f_of_Z_small m : 0 <= m <= 2 ^ 53 -> fmag (f_of_Z m) = m * fone /\ 0 <= f_of_Z m < inf.
Proof.
  intros Hm. destruct (f_of_Z_exact m ltac:(lia)) as [Hx Hf]. unfold fis in Hf. pose proof (fscaled_abs _ _ Hf) as A.
  assert (P : 0 <= m * fone) by (pose proof fone_pos; nia).
  split; [rewrite <- A; apply Z.abs_eq; exact P|].
  destruct (Z.eq_dec m 0) as [->|N]; [change (f_of_Z 0) with 0; unfold inf; lia|].
  unfold fscaled in Hf. destruct (is_finite (f_of_Z m)) eqn:F; [|discriminate].
  apply pos_finite_lt; [exact Hx| |exact F].
  destruct (fsign (f_of_Z m)); [|reflexivity]. exfalso. apply Some_inj in Hf. pose proof (fmag_nonneg (f_of_Z m)).
  assert (0 < m * fone) by (pose proof fone_pos; nia). lia.
Qed.
Lemma pow10_exact n : 0 <= n <= 22 -> fmag (pow10 n) = 10 ^ n * fone.
Proof.
  intros Hn. assert (C : forallb (fun n => fmag (pow10 n) =? 10 ^ n * fone) (map Z.of_nat (seq 0 23)) = true) by (vm_compute; reflexivity).
  rewrite forallb_forall in C. apply Z.eqb_eq. apply C. replace n with (Z.of_nat (Z.to_nat n)) by lia. apply in_map. apply in_seq. lia.
Qed.

Lemma rnd_scale m p : 0 <= m -> rnd (if 0 <=? p then m * 10 ^ p else m) (if 0 <=? p then 1 else 10 ^ (- p)) = scale m p.
Proof.
  intros Hm. unfold rnd, scale. destruct (Z.eqb_spec m 0) as [->|N].
  - destruct (0 <=? p); reflexivity.
  - destruct (Z.leb_spec 0 p) as [L|L].
    + rewrite (proj2 (Z.eqb_neq _ _)); [reflexivity|]. pose proof (pow10_pos p L). nia.
    + now rewrite (proj2 (Z.eqb_neq _ _)).
Qed.
Lemma rnd_times n d c : 0 <= n -> 0 < d -> 0 < c -> rnd (n * c) (d * c) = rnd n d.
Proof.
  intros Hn Hd Hc. unfold rnd. destruct (Z.eqb_spec n 0) as [->|N].
  - reflexivity.
  - rewrite (proj2 (Z.eqb_neq _ _)) by nia. now apply f_of_Q_scale; try lia.
Qed.
Lemma fast_path_exact m p : 0 <= m <= 2 ^ 53 -> -22 <= p <= 22 -> strtod_normal (f_of_Z m) p = scale m p.
Proof.
  intros Hm Hp. destruct (f_of_Z_small m Hm) as [Vm [_ Lm]]. unfold strtod_normal. rewrite (proj2 (Z.ltb_ge _ _)) by lia.
  unfold fast_path. rewrite (proj2 (Z.ltb_ge _ _)) by lia. rewrite <- rnd_scale by lia. pose proof fone_pos as F.
  destruct (Z.leb_spec 0 p) as [L|L].
  - unfold dmul. rewrite (proj2 (Z.leb_gt _ _)) by lia. rewrite Vm, pow10_exact by lia.
    replace (m * fone * (10 ^ p * fone)) with (m * 10 ^ p * (fone * fone)) by ring. rewrite <- (Z.mul_1_l (fone * fone)) at 2.
    pose proof (pow10_pos p L). apply rnd_times; nia.
  - unfold ddiv. rewrite (proj2 (Z.leb_gt _ _)) by lia. rewrite Vm, pow10_exact by lia.
    pose proof (pow10_pos (- p) ltac:(lia)). apply rnd_times; lia.
Qed.
Lemma scale_small m p : 0 <= m <= 2 ^ 53 -> p <= 22 -> scale m p < inf.
Proof.
  intros Hm Hp. rewrite <- rnd_scale by lia. unfold rnd. destruct (Z.eqb_spec (if 0 <=? p then m * 10 ^ p else m) 0) as [E|N]; [unfold inf; lia|].
  set (n := if 0 <=? p then m * 10 ^ p else m) in *. set (d := if 0 <=? p then 1 else 10 ^ (- p)).
  assert (Hn : 0 < n <= 2 ^ 53 * 10 ^ 22).
  { unfold n in *. destruct (Z.leb_spec 0 p) as [L|L]; [|lia]. pose proof (pow10_pos p L). pose proof (Z.pow_le_mono_r 10 p 22 ltac:(lia) Hp). nia. }
  assert (Hd : 1 <= d). { unfold d. destruct (Z.leb_spec 0 p) as [L|L]; [lia|]. pose proof (pow10_pos (- p) ltac:(lia)). lia. }
  destruct (f_of_Q_value n d ltac:(lia) ltac:(lia)) as [[H _]|[_ H]]; [lia|exfalso].
  assert (C : 2 ^ 53 * 10 ^ 22 * fone < (2 ^ 54 - 1) * 2 ^ 2044) by (vm_compute; reflexivity).
  pose proof fone_pos as F. pose proof (pow2_pos 2044 ltac:(lia)). generalize dependent (2 ^ 2044). generalize dependent fone. intros. nia.
Qed.

(** The digits of the exponent. *)
Lemma eneg_run_val lim l : Forall is_digit l -> forall e, 0 <= e -> e * 10 ^ zlen l + dval l <= lim -> eneg_run lim e l = e * 10 ^ zlen l + dval l.
Proof.
  induction 1 as [|d l Hd Hl IH]; intros e He H; cbn [eneg_run].
  - rewrite zlen_nil. change (dval []) with 0. rewrite Z.pow_0_r. lia.
  - pose proof (zlen_nonneg l) as Z0. rewrite dval_cons, zlen_cons, Z.pow_add_r in * by lia. pose proof (dval_range l Hl). pose proof (pow10_pos (zlen l) Z0).
    unfold is_digit in Hd. rewrite Z.pow_1_r in *.
    rewrite (proj2 (Z.ltb_ge _ _)) by nia. rewrite IH; [ring|lia|]. etransitivity; [|exact H]. apply Z.eq_le_incl. ring.
Qed.
Lemma epos_run_val lim l : Forall is_digit l -> forall e, 0 <= e -> e * 10 ^ zlen l + dval l <= lim -> epos_run lim e l = Some (e * 10 ^ zlen l + dval l).
Proof.
  induction 1 as [|d l Hd Hl IH]; intros e He H; cbn [epos_run].
  - rewrite zlen_nil. change (dval []) with 0. rewrite Z.pow_0_r. f_equal. lia.
  - pose proof (zlen_nonneg l) as Z0. rewrite dval_cons, zlen_cons, Z.pow_add_r in * by lia. pose proof (dval_range l Hl). pose proof (pow10_pos (zlen l) Z0).
    unfold is_digit in Hd. rewrite Z.pow_1_r in *.
    rewrite (proj2 (Z.ltb_ge _ _)) by nia. rewrite IH; [f_equal; ring|lia|]. etransitivity; [|exact H]. apply Z.eq_le_incl. ring.
Qed.
(** The digits of the fraction, while there are few. *)
Lemma fint_run_val l : Forall is_digit l -> forall i ef sd, 0 <= i -> i * 10 ^ zlen l + dval l < 2 ^ 53 ->
  exists sd', fint_run i ef sd l = (i * 10 ^ zlen l + dval l, ef - zlen l, sd', []).
Proof.
  induction 1 as [|d l Hd Hl IH]; intros i ef sd Hi H; cbn [fint_run].
  - rewrite zlen_nil. change (dval []) with 0. rewrite Z.pow_0_r. exists sd. repeat f_equal; lia.
  - pose proof (zlen_nonneg l) as Z0. rewrite dval_cons, zlen_cons, Z.pow_add_r in * by lia. pose proof (dval_range l Hl). pose proof (pow10_pos (zlen l) Z0).
    unfold is_digit in Hd. rewrite Z.pow_1_r in *. rewrite (proj2 (Z.ltb_ge _ _)) by nia.
    destruct (IH (i * 10 + d) (ef - 1) (if i * 10 + d =? 0 then sd else sd + 1)) as [sd' E]; [lia| |].
    + eapply Z.le_lt_trans; [|exact H]. apply Z.eq_le_incl. ring.
    + exists sd'. rewrite E. f_equal. f_equal. f_equal; [ring|lia].
Qed.

Definition ev (ex : option (bool * list Z)) : Z := match ex with Some (neg, l) => if neg then - dval l else dval l | None => 0 end.
Definition fd (lf : option (list Z)) : list Z := match lf with Some l => l | None => [] end.
Definition parts_ok (l : list Z) (lf : option (list Z)) (ex : option (bool * list Z)) : Prop :=
  Forall is_digit l /\ int_part l /\ Forall is_digit (fd lf) /\
  match ex with Some (_, le) => Forall is_digit le /\ le <> [] | None => True end.

Lemma signed_fneg (neg : bool) x : 0 <= x < inf -> (if neg then fneg x else x) = (if neg then 2^63 else 0) + x.
Proof.
  intros H. unfold inf in H. destruct neg; [|lia]. unfold fneg, fsign. rewrite (proj2 (Z.leb_gt _ _)) by lia. lia.
Qed.

Lemma num_res_exact neg l lf ex : parts_ok l lf ex -> (lf <> None \/ ex <> None) -> dval (l ++ fd lf) < 2 ^ 53 ->
  -22 <= ev ex - zlen (fd lf) <= 22 ->
  num_res neg l lf ex = Some (JDbl ((if neg then 2^63 else 0) + scale (dval (l ++ fd lf)) (ev ex - zlen (fd lf)))).
Proof.
  intros (Hl & Hi & Hf & He) Hr Hm Hp. set (m := dval (l ++ fd lf)) in *. set (p := ev ex - zlen (fd lf)) in *.
  assert (Dl : dval l <= m).
  { unfold m. rewrite dval_app. pose proof (dval_range l Hl). pose proof (dval_range _ Hf). pose proof (pow10_pos (zlen (fd lf)) (zlen_nonneg _)). nia. }
  assert (D0 : 0 <= m) by (pose proof (dval_range l Hl); lia).
  unfold num_res. destruct (int_res neg l) as [[[i sd] big] x] eqn:Ei.
  destruct (int_res_spec _ _ _ _ _ _ Hl Hi Ei) as [(-> & -> & _ & _ & _)|(_ & l1 & l2 & _ & _ & _ & _ & Hx & _)].
  2: { exfalso. assert (2 ^ 53 <= maxi neg) by (destruct neg; vm_compute; discriminate). lia. }
  assert (F : exists dbl x1, frac_res (dval l) sd false x lf = (dbl, x1, - zlen (fd lf)) /\ (dbl = true -> x1 = f_of_Z m) /\
     (dbl = false -> lf = None)).
  { destruct lf as [lf|]; cbn [frac_res fd] in *.
    - destruct (fint_run_val lf Hf (dval l) 0 sd) as [sd' E].
      + pose proof (dval_range l Hl). lia.
      + unfold m in Hm. rewrite dval_app in Hm. exact Hm.
      + rewrite E. cbn [fdbl_run]. exists true, (f_of_Z m). split; [|split; [reflexivity|discriminate]].
        unfold m. rewrite dval_app. reflexivity.
    - exists false, x. split; [reflexivity|]. split; [discriminate|reflexivity]. }
  destruct F as (dbl & x1 & F & Fx & Fn). rewrite F. clear F.
  assert (G : exp_res (dval l) dbl x1 (- zlen (fd lf)) ex = Some (true, f_of_Z m, ev ex)).
  { assert (X : (if dbl then x1 else f_of_Z (dval l)) = f_of_Z m).
    { destruct dbl; [now apply Fx|]. unfold m. rewrite Fn by reflexivity. cbn [fd]. now rewrite app_nil_r. }
    destruct ex as [[ne le]|]; cbn [exp_res ev] in *.
    - destruct He as [Hle Ne]. destruct Hle as [|d le Hd Hle]; [congruence|].
      pose proof (zlen_nonneg (fd lf)) as ZF. unfold p in Hp. unfold is_digit in Hd.
      destruct ne.
      + assert (B : dval (d :: le) <= (- zlen (fd lf) + 2147483639) ÷ 10).
        { assert (dval (d :: le) <= 22) by lia. assert (0 <= dval (d :: le)) by (apply dval_range; now constructor).
          assert (22 <= (- zlen (fd lf) + 2147483639) ÷ 10); [|lia]. apply Z.quot_le_lower_bound; lia. }
        rewrite X, eneg_run_val; [| assumption | lia | now rewrite dval_cons in B]. now rewrite dval_cons.
      + rewrite epos_run_val; [| assumption | lia |].
        * rewrite X, dval_cons. reflexivity.
        * rewrite dval_cons in Hp. lia.
    - destruct dbl; [now rewrite Fx|]. destruct Hr as [Hr|Hr]; [|congruence]. now rewrite Fn in Hr. }
  rewrite G. clear G. cbv zeta. replace (ev ex + - zlen (fd lf)) with p by (unfold p; lia).
  rewrite fast_path_exact by lia. pose proof (scale_small m p ltac:(lia) ltac:(lia)) as S. rewrite (proj2 (Z.leb_gt _ _)) by exact S.
  rewrite signed_fneg; [reflexivity|]. split; [apply scale_range; exact D0|exact S].
Qed.
