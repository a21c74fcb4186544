(** Lemmas for to_json: what is written for numbers and strings are JSON numbers and strings. *)
From Coq Require Import ZArith Bool Lia Ascii String List.
From Verif Require Import Base F64 StrMap Value MBasic SGet SPromote SCollapse MMat MNum LNum LNum2 MText MJson SJson LJson SJsonText SRapid SToJson MToJson LJson2Lex Props_mat.
Import ListNotations.
Local Open Scope Z_scope.

(** * Numbers *)
Lemma digits_of l : Forall is_digit l -> digits (map digit l) l.
Proof. induction 1 as [|d l [H0 H9] _ IH]; constructor; [split; [lia|reflexivity]|assumption]. Qed.
Lemma dval_bound l : Forall is_digit l -> 0 <= dval l < 10 ^ zlen l.
Proof.
  induction l as [|d l IH] using rev_ind; intros H.
  - cbn. lia.
  - apply Forall_app in H as [H1 H2]. inversion H2 as [|? ? Hd _]; subst. specialize (IH H1).
    rewrite dval_app, zlen_app. change (zlen [d]) with 1. change (dval [d]) with (10 * 0 + d). unfold is_digit in Hd.
    rewrite Z.pow_add_r by (pose proof (zlen_nonneg l); lia). lia.
Qed.
Lemma first_digit P m : (1 <= P)%nat -> 10 ^ (Z.of_nat P - 1) <= m < 10 ^ Z.of_nat P ->
  exists d r, digs P m = d :: r /\ d <> 0.
Proof.
  intros HP Hm. pose proof (digs_digit P m) as D. pose proof (digs_length P m) as L.
  assert (V : dval (digs P m) = m) by (apply dval_digs; pose proof (pow10_pos (Z.of_nat P - 1)); lia).
  destruct (digs P m) as [|d r]; [cbn in L; lia|]. exists d, r. split; [reflexivity|]. intros ->.
  apply Forall_inv_tail in D. pose proof (dval_bound r D) as B. change (0 :: r) with ([0] ++ r) in V. rewrite dval_app in V.
  change (dval [0]) with 0 in V. cbn [length] in L.
  assert (Z.of_nat P - 1 = zlen r) by (unfold zlen; lia). rewrite H in Hm. rewrite <- V in Hm. unfold zlen in *. lia.
Qed.
Lemma firstn_int_part n l d r : (1 <= n)%nat -> l = d :: r -> d <> 0 -> int_part (firstn n l).
Proof. intros Hn -> Hd. destruct n; [lia|]. right. cbn. eauto. Qed.

Lemma print_pos_shape P m e : (1 <= P)%nat -> 10 ^ (Z.of_nat P - 1) <= m < 10 ^ Z.of_nat P ->
  forall num den, round_dec P num den = (m, e) ->
  exists li lf te z x, print_pos P num den = map digit li ++ dotted lf ++ te /\
    Forall is_digit li /\ Forall is_digit lf /\ int_part li /\ (te = [] /\ x = 0 \/ te = "e"%char :: print_exp x) /\ 0 <= z /\
    m = dval (li ++ lf) * 10 ^ z /\ x - zlen lf = e + 1 - Z.of_nat P + z.
Proof.
  intros HP Hm num den E. unfold print_pos. rewrite E. pose proof (digs_digit P m) as D. pose proof (digs_length P m) as L.
  assert (V : dval (digs P m) = m) by (apply dval_digs; pose proof (pow10_pos (Z.of_nat P - 1)); lia).
  destruct (first_digit P m HP Hm) as (d0 & r0 & Ed & Nd).
  set (d := digs P m) in *.
  assert (G : forall li lr te x, dval (li ++ lr) = m -> Forall is_digit li -> Forall is_digit lr ->
    int_part li -> (te = [] /\ x = 0 \/ te = "e"%char :: print_exp x) -> x - zlen lr = e + 1 - Z.of_nat P ->
    exists li' lf te' z x, map digit li ++ frac lr ++ te = map digit li' ++ dotted lf ++ te' /\
    Forall is_digit li' /\ Forall is_digit lf /\ int_part li' /\ (te' = [] /\ x = 0 \/ te' = "e"%char :: print_exp x) /\ 0 <= z /\
    m = dval (li' ++ lf) * 10 ^ z /\ x - zlen lf = e + 1 - Z.of_nat P + z).
  { intros li lr te x Hd Hi Hr Hn Ht He. destruct (strip0_spec lr) as [n Hs].
    exists li, (strip0 lr), te, (Z.of_nat n), x. split; [now rewrite frac_dotted|]. split; [assumption|].
    split; [now apply strip0_digits|]. split; [assumption|]. split; [assumption|]. split; [lia|]. split.
    - rewrite <- Hd, Hs at 1. rewrite app_assoc, dval_app, dval_zeros, zlen_repeat. lia.
    - assert (Hz : zlen lr = zlen (strip0 lr) + Z.of_nat n) by (rewrite Hs at 1; rewrite zlen_app, zlen_repeat; reflexivity). lia. }
  assert (Cut : forall n, (1 <= n <= P)%nat -> dval (firstn n d ++ skipn n d) = m /\ Forall is_digit (firstn n d) /\
    Forall is_digit (skipn n d) /\ int_part (firstn n d) /\ zlen (skipn n d) = Z.of_nat P - Z.of_nat n).
  { intros n Hn. rewrite firstn_skipn. split; [assumption|].
    assert (D' := D). rewrite <- (firstn_skipn n d) in D'. apply Forall_app in D' as [D1 D2]. split; [assumption|]. split; [assumption|].
    split.
    - eapply firstn_int_part; [lia|eassumption|assumption].
    - unfold zlen. rewrite skipn_length, L. lia. }
  destruct ((e <? -4) || (Z.of_nat P <=? e)) eqn:Es.
  - destruct (Cut 1%nat ltac:(lia)) as (C1 & C2 & C3 & C4 & C5).
    apply (G _ _ _ e); auto. rewrite C5. lia.
  - apply orb_false_iff in Es as [Es1 Es2]. apply Z.ltb_ge in Es1. apply Z.leb_gt in Es2.
    destruct (Z.leb_spec 0 e) as [Le|Le].
    + destruct (Cut (Z.to_nat (e + 1)) ltac:(lia)) as (C1 & C2 & C3 & C4 & C5).
      destruct (G (firstn (Z.to_nat (e + 1)) d) (skipn (Z.to_nat (e + 1)) d) [] 0) as (li & lf & te & z & x & Q & R); auto; [rewrite C5; lia|].
      rewrite app_nil_r in Q. rewrite Q. eauto 12.
    + destruct (G [0] (repeat 0 (Z.to_nat (- e - 1)) ++ d) [] 0) as (li & lf & te & z & x & Q & R); auto.
      * rewrite dval_app. rewrite dval_app, dval_zeros, V. change (dval [0]) with 0. lia.
      * constructor; [unfold is_digit; lia|constructor].
      * apply Forall_app. split; [|assumption]. apply Forall_forall. intros x Hx. apply repeat_spec in Hx. subst x. unfold is_digit. lia.
      * now left.
      * rewrite zlen_app, zlen_repeat. unfold zlen. rewrite L. lia.
      * rewrite app_nil_r in Q. cbn [map app] in Q. change (digit 0) with "0"%char in Q. rewrite Q. eauto 12.
Qed.

Lemma print_exp_part e : exp_part ("e"%char :: print_exp e) e.
Proof.
  right. unfold print_exp. set (l := digs _ _).
  assert (Hl : Forall is_digit l) by apply digs_digit.
  assert (Hn : l <> []).
  { intros C. apply (f_equal (@length Z)) in C. unfold l in C. rewrite digs_length in C. change (length (@nil Z)) with O in C. lia. }
  assert (Hv : dval l = Z.abs e).
  { apply dval_digs. pose proof (ndig_ub (Z.abs e) ltac:(lia)) as U. split; [lia|].
    eapply Z.lt_le_trans; [apply U|]. apply Z.pow_le_mono_r; lia. }
  exists "e"%char, (map digit l), l, (e <? 0), [if e <? 0 then "-"%char else "+"%char].
  split; [reflexivity|]. split; [auto|]. split; [now apply digits_of|]. split; [assumption|]. split.
  - destruct (e <? 0); auto.
  - rewrite Hv. destruct (Z.ltb_spec e 0); lia.
Qed.
Lemma dotted_part lf : Forall is_digit lf -> frac_part (dotted lf) lf.
Proof.
  intros H. unfold dotted. destruct lf as [|d lf]; [left; auto|]. right. exists (map digit (d :: lf)).
  split; [reflexivity|]. split; [now apply digits_of|discriminate].
Qed.

(** Integral values are rounded to P digits exactly when no exponent is written. *)
Lemma round_dec_int P n den m e L z : (1 <= P)%nat -> 0 < n -> 0 < den -> round_dec P (n * den) den = (m, e) ->
  e + 1 - Z.of_nat P + z = 0 -> 0 <= z -> m = L * 10 ^ z -> L = n.
Proof.
  intros HP Hn Hd R Hz Hz0 Hm. unfold round_dec in R. cbv zeta in R. set (e0 := dexp (n * den) den) in *.
  destruct (Z.leb_spec 0 (Z.of_nat P - 1 - e0)) as [K|K].
  - replace (n * den * 10 ^ (Z.of_nat P - 1 - e0)) with (n * 10 ^ (Z.of_nat P - 1 - e0) * den) in R by ring.
    rewrite rnd_even_exact in R by assumption. pose proof (pow10_pos z Hz0) as Pz.
    destruct (Z.eqb_spec (n * 10 ^ (Z.of_nat P - 1 - e0)) (10 ^ Z.of_nat P)) as [E|E]; injection R as <- <-.
    + assert (E1 : 10 ^ Z.of_nat P = 10 * 10 ^ (Z.of_nat P - 1)) by (rewrite <- Z.pow_succ_r by lia; f_equal; lia).
      assert (E2 : 10 ^ (Z.of_nat P - 1 - e0) = 10 * 10 ^ z) by (rewrite <- Z.pow_succ_r by lia; f_equal; lia).
      rewrite E1, E2, Hm in E.
      assert (10 * (n * 10 ^ z) = 10 * (L * 10 ^ z)) by lia. assert (n * 10 ^ z = L * 10 ^ z) by lia.
      apply Z.mul_reg_r in H0; lia.
    + replace (Z.of_nat P - 1 - e0) with z in Hm by lia. apply Z.mul_reg_r in Hm; lia.
  - exfalso. destruct (_ =? _); injection R as <- <-; lia.
Qed.

Definition num_data (x : Z) (j : json) : Prop := json_data j = d_real x.
Lemma d_real_int (neg : bool) L x : is_finite x = true -> fsign x = neg -> L * fone = fmag x ->
  d_int (if neg then - L else L) = d_real x.
Proof.
  intros Hf <- E. unfold d_int, d_real, num_of_Z, num_of_f, fscaled. rewrite Hf. do 2 f_equal.
  destruct (fsign x); rewrite <- E; ring.
Qed.
Lemma fine_diff P x L : (17 <= P)%nat -> fexp x <= 1075 ->
  2 * Z.abs (L * fone - fmag x) * 10 ^ (Z.of_nat P - 1) <= fmag x -> L * fone = fmag x.
Proof.
  intros HP He H. set (k := if fexp x =? 0 then 0 else fexp x - 1).
  assert (Hk : 0 <= k <= 1074) by (unfold k; pose proof (fexp_range x); destruct (Z.eqb_spec (fexp x) 0); lia).
  assert (M : exists man, fmag x = man * 2 ^ k /\ 0 <= man < 2 ^ 53).
  { unfold fmag, k. pose proof (fman_range x). destruct (fexp x =? 0).
    - exists (fman x). rewrite Z.pow_0_r. lia.
    - exists (2 ^ 52 + fman x). split; [reflexivity|]. assert (2 ^ 53 = 2 * 2 ^ 52) by reflexivity. lia. }
  destruct M as (man & Em & Hman).
  assert (F : fone = 2 ^ (1074 - k) * 2 ^ k) by (rewrite <- Z.pow_add_r by lia; unfold fone; f_equal; lia).
  rewrite Em, F in *. replace (L * (2 ^ (1074 - k) * 2 ^ k) - man * 2 ^ k) with ((L * 2 ^ (1074 - k) - man) * 2 ^ k) in H by ring.
  pose proof (pow2_pos k ltac:(lia)) as Pk.
  rewrite Z.abs_mul, (Z.abs_eq (2 ^ k)) in H by lia.
  assert (P16 : 10 ^ 16 <= 10 ^ (Z.of_nat P - 1)) by (apply Z.pow_le_mono_r; lia).
  assert (T : 2 ^ 53 < 2 * 10 ^ 16) by reflexivity.
  replace (L * (2 ^ (1074 - k) * 2 ^ k)) with (L * 2 ^ (1074 - k) * 2 ^ k) by ring. f_equal.
  revert H Hman P16 T Pk. generalize (L * 2 ^ (1074 - k)) (2 ^ k) (10 ^ (Z.of_nat P - 1)) (10 ^ 16) (2 ^ 53).
  intros a u w t q H Hman P16 T Pk. destruct (Z.eq_dec a man) as [|N]; [assumption|exfalso].
  assert (D : 1 <= Z.abs (a - man)) by lia. generalize dependent (Z.abs (a - man)). intros b H D.
  assert (2 * b * w * u <= man * u) by nia. assert (2 * b * w <= man) by nia. nia.
Qed.
Lemma coarse_int x : 1075 < fexp x -> exists n, fmag x = n * fone.
Proof.
  intros He. unfold fmag. destruct (Z.eqb_spec (fexp x) 0); [lia|]. exists ((2 ^ 52 + fman x) * 2 ^ (fexp x - 1 - 1074)).
  unfold fone. rewrite <- Z.mul_assoc, <- Z.pow_add_r by lia. do 2 f_equal. lia.
Qed.

(** The digits [l], [lf] of a number written with P digits, and its exponent. *)
Lemma number_parts P x : (1 <= P)%nat -> f64 x -> is_finite x = true ->
  exists j, jnumber (print_g P x) j /\ real_doc P x j /\
  exists l lf e real, number (print_g P x) (fsign x) l lf e real /\ 0 <= dval (l ++ lf) < 10 ^ Z.of_nat P /\
    j = (if real then JDbl ((if fsign x then 2^63 else 0) + scale (dval (l ++ lf)) (e - zlen lf)) else JInt (if fsign x then - dval l else dval l)) /\
    (fmag x = 0 /\ real = false \/ exists m d B, d + 1 - Z.of_nat P <= e - zlen lf <= d /\ 10 ^ (Z.of_nat P - 1) <= m < 10 ^ Z.of_nat P /\
      0 <= B /\ 0 <= d + 1 - Z.of_nat P + B /\
      2 * Z.abs (m * 10 ^ (d + 1 - Z.of_nat P + B) * fone - fmag x * 10 ^ B) * 10 ^ (Z.of_nat P - 1) <= fmag x * 10 ^ B).
Proof.
  intros HP Hx Hf. unfold print_g.
  assert (N : is_nan x = false /\ is_inf x = false).
  { unfold is_finite in Hf. unfold is_nan, is_inf. destruct (fexp x =? 2047); [discriminate|]. auto. }
  destruct N as [-> ->]. pose proof (fmag_nonneg x) as Nn.
  change (if fsign x then ["-"%char] else []) with (minus (fsign x)).
  destruct (Z.eqb_spec (fmag x) 0) as [Z0|Z0].
  - exists (JInt (if fsign x then - dval [0] else dval [0])). split.
    + apply (jn_int (fsign x) ["0"%char] [0]); [|now left]. apply (digits_of [0]). constructor; [unfold is_digit; lia|constructor].
    + split.
      { left. eexists. split; [reflexivity|]. split; [|intros _; apply d_real_int; auto; rewrite Z0; reflexivity].
        pose proof (pow10_pos (Z.of_nat P) ltac:(lia)). destruct (fsign x); cbn [dval]; cbn; lia. }
      exists [0], [], 0, false. split; [|split; [|split; [reflexivity|now left]]].
      * exists ["0"%char], [], []. split; [reflexivity|]. split; [|split; [now left|]].
        -- apply (digits_of [0]). constructor; [unfold is_digit; lia|constructor].
        -- split; [now left|]. split; [now left|]. cbn. split; [discriminate|congruence].
      * pose proof (pow10_pos (Z.of_nat P) ltac:(lia)). cbn. lia.
  - assert (Pos : 0 < fmag x) by lia.
    assert (S : fone <= fmag x * 10 ^ 400).
    { pose proof fone_small. pose proof (pow10_pos 400 ltac:(lia)). generalize dependent (10 ^ 400). intros. nia. }
    destruct (round_dec_near P (fmag x) fone HP Pos fone_pos S) as (m & e & R & Rm & B & B1 & B2 & B3).
    destruct (print_pos_shape P m e HP Rm (fmag x) fone R) as (li & lf & te & z & y & Q & Hi & Hl & Hip & Ht & Hz & Hm & He).
    assert (C : (lf = [] /\ te = [] /\ y = 0) \/ dotted lf ++ te <> []).
    { destruct lf; [|right; discriminate]. destruct Ht as [[-> ->]| ->]; [left; auto|right; discriminate]. }
    assert (Zs : z <= Z.of_nat P - 1 /\ 0 <= dval (li ++ lf) < 10 ^ Z.of_nat P).
    { assert (Dn : 0 <= dval (li ++ lf)) by (apply dval_bound; apply Forall_app; now split). pose proof (pow10_pos z Hz) as Pz. split; [|nia].
      destruct (Z.le_gt_cases z (Z.of_nat P - 1)) as [?|G]; [assumption|exfalso].
      assert (10 ^ Z.of_nat P <= 10 ^ z) by (apply Z.pow_le_mono_r; lia). pose proof (pow10_pos (Z.of_nat P - 1) ltac:(lia)) as Pp.
      revert Hm Dn Pz H Pp Rm. generalize (dval (li ++ lf)) (10 ^ z) (10 ^ Z.of_nat P) (10 ^ (Z.of_nat P - 1)). clear. intros d w q v Hm Dn Pz H Pp Rm.
      assert (1 <= d) by (destruct (Z.eq_dec d 0) as [->|]; lia). nia. }
    destruct Zs as [Zs Db].
    rewrite Q. destruct C as [(-> & -> & ->)|Ne].
    + (* an integer *)
      exists (JInt (if fsign x then - dval li else dval li)). cbn [dotted]. rewrite !app_nil_r. split.
      { apply jn_int; [now apply digits_of|assumption]. }
      split.
      2: { exists li, [], 0, false. split; [|split; [exact Db|split; [reflexivity|]]].
           - exists (map digit li), [], []. split; [now rewrite app_nil_r|]. split; [now apply digits_of|]. split; [assumption|]. split; [now left|].
             split; [now left|]. cbn. split; [discriminate|congruence].
           - right. exists m, e, B. split; [lia|]. split; [assumption|]. split; [assumption|]. split; [assumption|]. exact B3. }
      left. eexists. split; [reflexivity|]. rewrite app_nil_r in Hm. change (zlen (@nil Z)) with 0 in He.
      pose proof (pow10_pos z Hz) as Pz. pose proof (dval_bound li Hi) as Bi. split.
      { assert (dval li <= m) by nia. destruct (fsign x); lia. }
      intros W. apply d_real_int; auto.
      destruct W as [(_ & M & t & HM & Hd)|W].
      * assert (M0 : 0 < M).
        { destruct Hd as (C & H1 & H2 & H3). destruct (Z.eq_dec M 0) as [->|]; [|lia]. exfalso.
          pose proof (pow10_pos C H1). rewrite !Z.mul_0_l in H3. symmetry in H3. apply Z.mul_eq_0 in H3. lia. }
        destruct (round_dec_exact P (fmag x) fone M t HP Pos fone_pos S ltac:(lia)) as (m' & e' & R' & _ & Rv).
        { intros C HC HtC. now apply dec_is_any. }
        rewrite R in R'. injection R' as <- <-. specialize (Rv z Hz ltac:(lia)). replace (e + 1 - Z.of_nat P + z) with 0 in Rv by lia.
        rewrite Z.pow_0_r, Z.mul_1_r, Hm in Rv. generalize dependent (10 ^ z). intros w Hw Pz Rv.
        assert (Ew : dval li * fone * w = fmag x * w) by (rewrite <- Rv; ring). apply Z.mul_reg_r in Ew; lia.
      * destruct (Z.le_gt_cases (fexp x) 1075) as [C|C].
        -- apply (fine_diff P x _ W C). assert (EB : m * 10 ^ (e + 1 - Z.of_nat P + B) = dval li * 10 ^ B).
           { rewrite Hm, <- Z.mul_assoc, <- Z.pow_add_r by lia. do 2 f_equal. lia. }
           rewrite EB in B3. pose proof (pow10_pos B B1) as PB.
           replace (dval li * 10 ^ B * fone - fmag x * 10 ^ B) with ((dval li * fone - fmag x) * 10 ^ B) in B3 by ring.
           rewrite Z.abs_mul, (Z.abs_eq (10 ^ B)) in B3 by lia.
           revert B3 PB. generalize (Z.abs (dval li * fone - fmag x)). intros a. generalize (10 ^ B) (10 ^ (Z.of_nat P - 1)) (fmag x). intros w v f B3 PB.
           apply (Z.mul_le_mono_pos_r _ _ w PB). replace (2 * a * v * w) with (2 * (a * w) * v) by ring. exact B3.
        -- destruct (coarse_int x C) as (n & En). rewrite En in *. f_equal.
           apply (round_dec_int P n fone m e (dval li) z); auto; try lia; [|apply fone_pos].
           pose proof fone_pos. nia.
    + exists (JDbl ((if fsign x then 2 ^ 63 else 0) + scale (dval (li ++ lf)) (y - zlen lf))). split.
      { apply jn_real; [now apply digits_of|assumption|now apply dotted_part| |assumption].
        destruct Ht as [[-> ->]| ->]; [left; auto|apply print_exp_part]. }
      split.
      2: { exists li, lf, y, true. split; [|split; [exact Db|split; [reflexivity|]]].
           - exists (map digit li), (dotted lf), te. split; [reflexivity|]. split; [now apply digits_of|]. split; [assumption|]. split; [now apply dotted_part|].
             split; [|tauto]. destruct Ht as [[-> ->]| ->]; [left; auto|apply print_exp_part].
           - right. exists m, e, B. split; [lia|]. split; [assumption|]. split; [assumption|]. split; [assumption|]. exact B3. }
      right. eexists. split; [reflexivity|]. intros W. cbn [json_data].
      transitivity (atof (print_g P x)); [|destruct W as [W|W]; [now apply atof_print|now apply atof_print17]].
      unfold print_g. rewrite (proj2 (Z.eqb_neq _ _) Z0).
      assert (N : is_nan x = false /\ is_inf x = false).
      { unfold is_finite in Hf. unfold is_nan, is_inf. destruct (fexp x =? 2047); [discriminate|]. auto. }
      destruct N as [-> ->]. rewrite Q. unfold atof.
      rewrite strtod_parts; [|assumption|assumption|apply int_part_nonempty; assumption|destruct Ht as [[-> _]| ->]; [now left|right; eauto]].
      destruct Ht as [[-> ->]| ->]; [reflexivity|now rewrite read_print_exp].
Qed.

Lemma number_json P x : (1 <= P)%nat -> f64 x -> is_finite x = true ->
  exists j, jnumber (print_g P x) j /\ real_doc P x j.
Proof. intros HP Hx Hf. destruct (number_parts P x HP Hx Hf) as (j & H1 & H2 & _). eauto. Qed.

Lemma int_json n : jnumber (print_int n) (JInt n).
Proof.
  assert (G : forall n, 0 <= n -> exists l, print_nat n = map digit l /\ Forall is_digit l /\ int_part l /\ dval l = n).
  { intros k Hk. exists (digs (ndig k) k). split; [reflexivity|]. split; [apply digs_digit|].
    destruct (Z.eq_dec k 0) as [->|Nk]; [split; [now left|reflexivity]|].
    pose proof (ndig_spec k ltac:(lia)) as S. split.
    - destruct (first_digit (ndig k) k) as (d & r & E & Nd); [apply ndig_from_pos|assumption|]. rewrite E. right. eauto.
    - apply dval_digs. lia. }
  unfold print_int. destruct (Z.ltb_spec n 0).
  - destruct (G (- n) ltac:(lia)) as (l & -> & Hl & Hi & Hv).
    replace (JInt n) with (JInt (if true then - dval l else dval l)) by (f_equal; lia).
    apply (jn_int true); [now apply digits_of|assumption].
  - destruct (G n ltac:(lia)) as (l & -> & Hl & Hi & Hv).
    replace (JInt n) with (JInt (if false then - dval l else dval l)) by (f_equal; lia).
    apply (jn_int false); [now apply digits_of|assumption].
Qed.

(** * Strings *)
Lemma plain_json t : plain_text t -> jchars false t t.
Proof. induction 1 as [|c t (H1 & H2 & H3) _ IH|n t H1 H2 _ IH]; [constructor|now apply jc_plain|now apply jc_utf8]. Qed.
Lemma plain_forall t : Forall plain_char t -> plain_text t.
Proof. induction 1; now constructor. Qed.
Lemma byte_ch n : (n < 256)%N -> byte (ch n) = n.
Proof. apply N_ascii_embedding. Qed.
Lemma utf8_high n : 128 <= n < 1114112 -> Forall (fun c => (128 <= byte c)%N) (utf8 n).
Proof.
  intros Hn. unfold utf8. rewrite (proj2 (Z.ltb_ge n 128)) by lia.
  assert (M : forall z, 0 <= z mod 64 < 64) by (intros; apply Z.mod_pos_bound; lia).
  assert (B : forall z, 128 <= z < 256 -> (128 <= byte (ch (Z.to_N z)))%N) by (intros z Hz; rewrite byte_ch; lia).
  pose proof (M n). pose proof (M (n / 64)). pose proof (M (n / 4096)).
  destruct (Z.ltb_spec n 2048) as [H2|H2].
  { assert (A : 2 <= n / 64 < 32) by (split; [apply Z.div_le_lower_bound|apply Z.div_lt_upper_bound]; lia).
    cbn [map]. repeat (apply Forall_cons; [apply B; lia|]). constructor. }
  destruct (Z.ltb_spec n 65536) as [H3|H3].
  { assert (A : 0 <= n / 4096 < 16) by (split; [apply Z.div_le_lower_bound|apply Z.div_lt_upper_bound]; lia).
    cbn [map]. repeat (apply Forall_cons; [apply B; lia|]). constructor. }
  assert (A : 0 <= n / 262144 < 5) by (split; [apply Z.div_le_lower_bound|apply Z.div_lt_upper_bound]; lia).
  cbn [map]. repeat (apply Forall_cons; [apply B; lia|]). constructor.
Qed.
Lemma escape_high t : Forall (fun c => (128 <= byte c)%N) t -> flat_map escape_char t = t.
Proof.
  induction 1 as [|c t H _ IH]; [reflexivity|]. cbn [flat_map]. rewrite IH.
  assert (E : forall n, (n < 128)%nat -> Ascii.eqb c (chr n) = false).
  { intros n Hn. apply Ascii.eqb_neq. intros ->. unfold byte, chr in H. unfold ascii_of_nat in H. rewrite N_ascii_embedding in H by lia. lia. }
  unfold escape_char, quote, nl, cr, bslash. rewrite !E by lia. reflexivity.
Qed.
Lemma escape_json t : clean_text t -> jchars false (flat_map escape_char t) t.
Proof.
  induction 1 as [|c t H _ IH|n t H1 H2 _ IH]; [constructor| |].
  - assert (N : c <> chr 11 /\ c <> chr 7).
    { split; intros ->; vm_compute in H; destruct H as [[H _]|H]; intuition (try discriminate; congruence). }
    destruct N as [N1 N2]. apply Ascii.eqb_neq in N1, N2. cbn [flat_map]. unfold escape_char at 1. rewrite N1, N2.
    repeat match goal with
    | |- context [Ascii.eqb c ?x] => destruct (Ascii.eqb_spec c x) as [->|?];
        [apply jc_escape; [left; cbn [In]; tauto|exact IH]|]
    end.
    destruct H as [H|H].
    + cbn [app]. now apply jc_plain.
    + exfalso. assert (E : c = ch (byte c)) by (symmetry; apply ascii_N_embedding).
      destruct H as [H|[H|[H|[H|[]]]]]; rewrite <- H in E; subst c; contradiction.
  - rewrite flat_map_app, escape_high by now apply utf8_high. now apply jc_utf8.
Qed.

Ltac plain := split; [split; vm_compute; congruence|split; discriminate].
Lemma plain_digit d : is_digit d -> plain_char (digit d).
Proof. revert d. apply digit_cases; plain. Qed.
Lemma plain_digits l : Forall is_digit l -> Forall plain_char (map digit l).
Proof. intros H. apply Forall_map. eapply Forall_impl; [|exact H]. exact plain_digit. Qed.
Lemma forall_firstn {A} (P : A -> Prop) n l : Forall P l -> Forall P (firstn n l).
Proof. intros H. rewrite <- (firstn_skipn n l) in H. now apply Forall_app in H. Qed.
Lemma forall_skipn {A} (P : A -> Prop) n l : Forall P l -> Forall P (skipn n l).
Proof. intros H. rewrite <- (firstn_skipn n l) in H. now apply Forall_app in H. Qed.
Lemma plain_frac l : Forall is_digit l -> Forall plain_char (frac l).
Proof.
  intros H. apply strip0_digits in H. rewrite frac_dotted. unfold dotted. destruct (strip0 l) as [|a r]; [constructor|].
  apply Forall_cons; [plain|]. now apply plain_digits.
Qed.
Lemma print_g_plain P x : Forall plain_char (print_g P x).
Proof.
  unfold print_g. apply Forall_app. split.
  { destruct (fsign x); repeat constructor; discriminate || (vm_compute; congruence). }
  destruct (is_nan x); [repeat (apply Forall_cons; [plain|]); constructor|].
  destruct (is_inf x); [repeat (apply Forall_cons; [plain|]); constructor|].
  destruct (_ =? 0); [repeat (apply Forall_cons; [plain|]); constructor|].
  unfold print_pos. destruct (round_dec P (fmag x) fone) as [m e]. pose proof (digs_digit P m) as D.
  destruct (_ || _).
  - apply Forall_app. split; [apply plain_digits; now apply forall_firstn|]. apply Forall_app. split; [apply plain_frac; now apply forall_skipn|].
    apply Forall_cons; [plain|]. unfold print_exp. apply Forall_cons; [destruct (e <? 0); plain|]. apply plain_digits. apply digs_digit.
  - destruct (_ <=? _).
    + apply Forall_app. split; [apply plain_digits; now apply forall_firstn|apply plain_frac; now apply forall_skipn].
    + apply Forall_cons; [plain|]. apply plain_frac. apply Forall_app. split; [|assumption].
      apply Forall_forall. intros y Hy. apply repeat_spec in Hy. subst y. unfold is_digit. lia.
Qed.
Lemma cplx_plain SP c : plain_text (cplx_text SP c).
Proof.
  apply plain_forall. unfold cplx_text.
  apply Forall_app. split; [apply print_g_plain|]. apply Forall_app. split.
  - destruct (gt0 _); [|constructor]. apply Forall_cons; [plain|]. apply Forall_app. split; [apply print_g_plain|]. apply Forall_cons; [plain|constructor].
  - destruct (lt0 _); [|constructor]. apply Forall_cons; [plain|]. apply Forall_app. split; [apply print_g_plain|]. apply Forall_cons; [plain|constructor].
Qed.

(** * Vectors *)
Lemma ws_space : ws [" "%char]. Proof. constructor; [cbn; auto|constructor]. Qed.
Lemma ws_nil : ws []. Proof. constructor. Qed.
(** Each element is written as a value related to it by [R]. *)
Definition elem_json {A} (f : A -> text) (R : A -> json -> Prop) (a : A) : Prop :=
  exists j, jval false (f a) j /\ R a j.
Lemma put_list_json {A} (f : A -> text) R a v : Forall (elem_json f R) (a :: v) ->
  exists l, jelems false ([" "%char] ++ f a ++ put_list f (txt ", ") v ++ [" "%char]) l /\ Forall2 R (a :: v) l.
Proof.
  revert a. induction v as [|b v IH]; intros a H; inversion H as [|? ? (j & Hj & Ej) Hv]; subst.
  - exists [j]. split; [apply je_one; auto using ws_space|]. auto.
  - destruct (IH b Hv) as (l & Hl & El). exists (j :: l). split; [|auto].
    cbn [put_list]. rewrite <- !app_assoc. change (txt ", ") with ([","%char] ++ [" "%char]) at 1. rewrite <- app_assoc.
    change ([" "%char] ++ f a ++ [] ++ ","%char :: ([" "%char] ++ f b ++ put_list f (txt ", ") v ++ [" "%char])) with
      ([" "%char] ++ f a ++ [","%char] ++ [" "%char] ++ f b ++ put_list f (txt ", ") v ++ [" "%char]).
    apply (je_more false [" "%char] (f a) j []); auto using ws_space, ws_nil.
Qed.
Lemma put_vec_json {A} (f : A -> text) R v : v <> [] -> Forall (elem_json f R) v ->
  exists j, jval false (put_vec f v) j /\ list_doc R v j.
Proof.
  intros Hv H. destruct v as [|a v]; [easy|]. destruct (put_list_json f R a v H) as (l & Hl & El). exists (JArr l).
  split; [|exists l; auto].
  replace (put_vec f (a :: v)) with ("["%char :: ([" "%char] ++ f a ++ put_list f (txt ", ") v ++ [" "%char]) ++ ["]"%char]); [now apply jv_arr|].
  unfold put_vec. cbn [put_list]. change (txt "[ ") with ["["%char; " "%char]. change (txt " ]") with ([" "%char] ++ ["]"%char]).
  cbn [app]. rewrite <- !app_assoc. reflexivity.
Qed.

(** * Matrices *)
Lemma skipn_add {A} n m (l : list A) : skipn (n + m) l = skipn m (skipn n l).
Proof. revert l. induction n as [|n IH]; intros l; [reflexivity|]. destruct l as [|a l]; [now rewrite !skipn_nil|]. apply IH. Qed.
Lemma nth_columns {A} nr nc (l : list A) j : (j < nc)%nat -> nth_error (columns nr nc l) j = Some (firstn nr (skipn (nr * j) l)).
Proof.
  revert l j. induction nc as [|nc IH]; intros l j H; [lia|]. destruct j as [|j].
  - rewrite Nat.mul_0_r. reflexivity.
  - cbn [columns nth_error]. rewrite IH by lia. do 2 f_equal. rewrite <- skipn_add. f_equal. lia.
Qed.
Lemma columns_length {A} nr nc (l : list A) : length (columns nr nc l) = nc.
Proof. revert l. induction nc as [|nc IH]; intros l; [reflexivity|]. cbn. now rewrite IH. Qed.
Lemma nth_skipn {A} n i (l : list A) : nth_error (skipn n l) i = nth_error l (n + i).
Proof. revert l. induction n as [|n IH]; intros l; [reflexivity|]. destruct l; [now destruct i|]. apply IH. Qed.
Lemma nth_firstn {A} n i (l : list A) : (i < n)%nat -> nth_error (firstn n l) i = nth_error l i.
Proof. revert i l. induction n as [|n IH]; intros i l H; [lia|]. destruct l; [now destruct i|]. destruct i; [reflexivity|]. cbn [firstn nth_error]. apply IH. lia. Qed.
Lemma mat_columns {A} (m : mat A) : mat_ok m ->
  omapM (fun j => omapM (fun i => mat_get m i j) (zseq (mrows m))) (zseq (mcols m)) =
  Ok (columns (Z.to_nat (mrows m)) (Z.to_nat (mcols m)) (mdata m)).
Proof.
  intros Hm. pose proof Hm as (H1 & H2 & H3 & H4).
  destruct (omapM_zseq (fun j => omapM (fun i => mat_get m i j) (zseq (mrows m))) (mcols m)
    (fun j => Some (firstn (Z.to_nat (mrows m)) (skipn (Z.to_nat (mrows m) * Z.to_nat j) (mdata m))))) as (L & E & EL & N); [assumption| |].
  - intros j Hj. eexists. split; [reflexivity|].
    destruct (proj1 (C30_column A m j Hm ltac:(lia)) ltac:(lia)) as (l & El & Ll & Nl). unfold get_column in El.
    rewrite (proj2 (Z.ltb_lt _ _)) in El by lia. cbn [gc_assert] in El. rewrite El. f_equal. apply nth_error_ext. intros i.
    assert (LL : length l = Z.to_nat (mrows m)) by (unfold zlen in Ll; lia).
    destruct (Nat.lt_ge_cases i (Z.to_nat (mrows m))) as [Hi|Hi].
    + specialize (Nl (Z.of_nat i) ltac:(lia)). rewrite Nat2Z.id in Nl. rewrite Nl. unfold entry.
      rewrite nth_firstn by assumption. rewrite nth_skipn. f_equal. nia.
    + rewrite (proj2 (nth_error_None l i)) by lia. symmetry. apply nth_error_None. rewrite firstn_length. lia.
  - rewrite E. f_equal. apply nth_error_ext. intros j. destruct (Nat.lt_ge_cases j (Z.to_nat (mcols m))) as [Hj|Hj].
    + rewrite nth_columns by assumption. specialize (N (Z.of_nat j) ltac:(lia)). rewrite Nat2Z.id in N. exact N.
    + rewrite (proj2 (nth_error_None L j)) by (unfold zlen in EL; lia). symmetry. apply nth_error_None. now rewrite columns_length.
Qed.
Definition put_columns {A} (f : A -> text) (prefix1 : text) : text -> list (list A) -> text :=
  fix go (pre : text) (cs : list (list A)) : text :=
    match cs with [] => [] | c :: cs' => put_list f pre c ++ go (txt " ]," ++ nl :: prefix1 ++ txt "[ ") cs' end.
Lemma put_cols_ok {A} (f : A -> text) (m : mat A) prefix1 pre0 js cs :
  omapM (fun j => omapM (fun i => mat_get m i j) (zseq (mrows m))) js = Ok cs ->
  put_cols f m prefix1 pre0 js = Ok (put_columns f prefix1 pre0 cs).
Proof.
  revert pre0 cs. induction js as [|j js IH]; intros pre0 cs E; cbn [omapM put_cols] in *.
  - injection E as <-. reflexivity.
  - apply bind_ok in E as (c & Ec & E). apply bind_ok in E as (cs' & Ecs & E). injection E as <-. rewrite Ec. cbn [bind].
    rewrite (IH _ _ Ecs). reflexivity.
Qed.
Lemma put_list_pre {A} (f : A -> text) w c : c <> [] -> put_list f (w ++ txt "[ ") c = w ++ put_list f (txt "[ ") c.
Proof. intros H. destruct c; [easy|]. cbn [put_list]. now rewrite <- app_assoc. Qed.
Lemma ws_app a b : ws a -> ws b -> ws (a ++ b).
Proof. intros. apply Forall_app. now split. Qed.
Lemma ws_nl p : ws p -> ws (nl :: p).
Proof. intros. constructor; [cbn; auto|assumption]. Qed.
Lemma ws_indent p : ws p -> ws (p ++ txt "  ").
Proof. intros. apply ws_app; [assumption|]. repeat (constructor; [cbn; auto|]). constructor. Qed.

Lemma put_columns_json {A} (f : A -> text) R prefix prefix1 c cs : ws prefix -> ws prefix1 ->
  Forall (fun c => c <> [] /\ Forall (elem_json f R) c) (c :: cs) ->
  exists l, jelems false (nl :: put_columns f prefix1 (prefix1 ++ txt "[ ") (c :: cs) ++ txt " ]" ++ nl :: prefix) l /\
    Forall2 (list_doc R) (c :: cs) l.
Proof.
  intros Hp Hp1. revert c. induction cs as [|c' cs IH]; intros c H; inversion H as [|? ? [Hc Hf] Hcs]; subst;
    destruct (put_vec_json f R c Hc Hf) as (jc & Hv & Ev).
  - exists [jc]. split; [|auto].
    + replace (nl :: put_columns f prefix1 (prefix1 ++ txt "[ ") [c] ++ txt " ]" ++ nl :: prefix) with ((nl :: prefix1) ++ put_vec f c ++ (nl :: prefix)).
      * apply je_one; auto using ws_nl.
      * cbn [put_columns]. rewrite put_list_pre by assumption. unfold put_vec. rewrite app_nil_r. cbn [app]. rewrite <- !app_assoc. reflexivity.
  - destruct (IH c' Hcs) as (l & Hl & El). exists (jc :: l). split; [|auto].
    + replace (nl :: put_columns f prefix1 (prefix1 ++ txt "[ ") (c :: c' :: cs) ++ txt " ]" ++ nl :: prefix) with
        ((nl :: prefix1) ++ put_vec f c ++ [] ++ ","%char :: nl :: put_columns f prefix1 (prefix1 ++ txt "[ ") (c' :: cs) ++ txt " ]" ++ nl :: prefix).
      * apply je_more; auto using ws_nl, ws_nil.
      * inversion Hcs as [|? ? [Hc' _] _]; subst.
        cbn [put_columns]. rewrite put_list_pre by assumption.
        replace (txt " ]," ++ nl :: prefix1 ++ txt "[ ") with ((txt " ]," ++ nl :: prefix1) ++ txt "[ ") by now rewrite <- app_assoc.
        rewrite !put_list_pre by assumption. unfold put_vec. change (txt " ],") with (txt " ]" ++ [","%char]). cbn [app]. rewrite <- !app_assoc. reflexivity.
Qed.

Lemma columns_forall {A} (P : A -> Prop) nr nc l : (0 < nr)%nat -> length l = (nr * nc)%nat -> Forall P l ->
  Forall (fun c => c <> [] /\ Forall P c) (columns nr nc l).
Proof.
  intros Hr. revert l. induction nc as [|nc IH]; intros l Hl H; [constructor|]. cbn [columns]. constructor.
  - split; [|now apply forall_firstn]. intros E. apply (f_equal (@length A)) in E. rewrite firstn_length in E. cbn in E. nia.
  - apply IH; [rewrite skipn_length; lia|now apply forall_skipn].
Qed.
Lemma put_mat_json {A} (f : A -> text) (Q : A -> Prop) R prefix (m : mat A) : ws prefix ->
  wf_mat Q m -> 0 < mrows m -> 0 < mcols m -> mrows m * mcols m < 2^32 ->
  Forall (elem_json f R) (mdata m) ->
  exists t j, put_mat f prefix (prefix ++ txt "  ") m = Ok t /\ jval false t j /\ mat_doc R m j.
Proof.
  intros Hp Wm Hr Hc Hs He. pose proof (wf_mat_ok Q m Wm Hs) as Hm. pose proof Hm as (_ & _ & _ & Hz).
  assert (Hl : length (mdata m) = (Z.to_nat (mrows m) * Z.to_nat (mcols m))%nat) by (unfold zlen in Hz; nia).
  assert (Hr0 : (0 < Z.to_nat (mrows m))%nat) by lia.
  pose proof (columns_forall _ _ _ _ Hr0 Hl He) as Hcs. unfold mat_doc.
  destruct (columns (Z.to_nat (mrows m)) (Z.to_nat (mcols m)) (mdata m)) as [|c cs] eqn:Ec.
  { apply (f_equal (@length _)) in Ec. rewrite columns_length in Ec. cbn in Ec. lia. }
  destruct (put_columns_json f R prefix (prefix ++ txt "  ") c cs Hp (ws_indent _ Hp) Hcs) as (l & Hj & Ej).
  unfold put_mat. rewrite (put_cols_ok f m _ _ _ _ (mat_columns m Hm)). rewrite Ec. cbn [bind]. eexists. exists (JArr l).
  split; [reflexivity|]. split; [|exists l; auto].
  apply (jv_arr false) in Hj. revert Hj. generalize (txt " ]"). intros e Hj.
  change (txt "[") with ["["%char]. cbn [put_columns app] in Hj |- *. rewrite <- !app_assoc in Hj. rewrite <- !app_assoc. cbn [app] in Hj |- *.
  rewrite <- ?app_assoc in Hj. exact Hj.
Qed.

(** * Containers *)
Ltac flat_text := change (txt ": ") with [":"%char; " "%char]; repeat (progress (cbn [app]; rewrite <- ?app_assoc)); reflexivity.
Definition put_elems (P SP : nat) (prefix1 : text) : list gc -> text -> bool -> out (text * bool) :=
  fix elems (v : list gc) (pre : text) (hx : bool) : out (text * bool) :=
    match v with
    | [] => Ok ([], hx)
    | a :: v' =>
        do (t, h1) <- to_json P SP a prefix1 hx ;
        do (r, h2) <- elems v' ("," :: [nl])%char h1 ;
        Ok (pre ++ prefix1 ++ t ++ r, h2)
    end.
Definition put_members (P SP : nat) (prefix : text) : list (string * gc) -> text -> bool -> out (text * bool) :=
  fix members (m : list (string * gc)) (pre : text) (hx : bool) : out (text * bool) :=
    match m with
    | [] => Ok ([], hx)
    | (k, a) :: m' =>
        do (t, h1) <- to_json P SP a (prefix ++ txt "  ") hx ;
        do (r, h2) <- members m' ("," :: [nl])%char h1 ;
        Ok (pre ++ prefix ++ txt "  " ++ quote :: txt k ++ quote :: txt ": " ++ t ++ r, h2)
    end.
Lemma to_json_vec P SP v prefix hx : v <> [] -> to_json P SP (GVec v) prefix hx =
  do (b, h) <- put_elems P SP (prefix ++ txt "  ") v ("[" :: [nl])%char hx ; Ok (nl :: prefix ++ b ++ nl :: prefix ++ txt "]", h).
Proof. destruct v; [easy|reflexivity]. Qed.
Lemma to_json_map P SP m prefix hx : m <> [] -> to_json P SP (GMap m) prefix hx =
  do (b, h) <- put_members P SP prefix m ("{" :: [nl])%char hx ; Ok (nl :: prefix ++ b ++ nl :: prefix ++ txt "}", h).
Proof. destruct m; [easy|reflexivity]. Qed.

Definition written (P SP : nat) (g : gc) : Prop := forall prefix, ws prefix ->
  exists w u j, to_json P SP g prefix false = Ok (w ++ u, false) /\ ws w /\ jval false u j /\ doc P g j.

Lemma put_elems_json P SP prefix prefix1 a v c : ws prefix -> ws prefix1 -> Forall (written P SP) (a :: v) ->
  exists b l, put_elems P SP prefix1 (a :: v) [c; nl] false = Ok (c :: b, false) /\
    jelems false (b ++ nl :: prefix) l /\ Forall2 (doc P) (a :: v) l.
Proof.
  intros Hp Hp1. revert a c. induction v as [|a' v IH]; intros a c H; inversion H as [|? ? Ha Hv]; subst;
    destruct (Ha prefix1 Hp1) as (w & u & j & E & Hw & Hj & Ej).
  - exists (nl :: prefix1 ++ w ++ u), [j]. cbn [put_elems]. rewrite E. cbn [bind]. split; [now rewrite !app_nil_r|]. split.
    + replace ((nl :: prefix1 ++ w ++ u) ++ nl :: prefix) with (((nl :: prefix1) ++ w) ++ u ++ (nl :: prefix)) by flat_text.
      apply je_one; auto using ws_nl, ws_app.
    + auto.
  - destruct (IH a' ","%char Hv) as (b & l & Eb & Hl & El).
    exists (nl :: prefix1 ++ (w ++ u) ++ ","%char :: b), (j :: l). split; [|split].
    + change (put_elems P SP prefix1 (a :: a' :: v) [c; nl] false) with
        (do (t, h1) <- to_json P SP a prefix1 false ; do (r, h2) <- put_elems P SP prefix1 (a' :: v) [","%char; nl] h1 ; Ok ([c; nl] ++ prefix1 ++ t ++ r, h2)).
      rewrite E. cbn [bind]. rewrite Eb. reflexivity.
    + replace ((nl :: prefix1 ++ (w ++ u) ++ ","%char :: b) ++ nl :: prefix) with (((nl :: prefix1) ++ w) ++ u ++ [] ++ ","%char :: (b ++ nl :: prefix))
        by flat_text.
      apply je_more; auto using ws_nl, ws_app, ws_nil.
    + auto.
Qed.
Lemma plain_key k : plain_text (txt k) -> jstring false (ch 34 :: txt k ++ [ch 34]) k.
Proof. intros H. rewrite <- (string_of_list_ascii_of_string k) at 2. constructor. now apply plain_json. Qed.
Lemma put_members_json P SP prefix kv m c : ws prefix -> Forall (fun kv => written P SP (snd kv)) (kv :: m) ->
  Forall (fun kv => plain_text (txt (fst kv))) (kv :: m) ->
  exists b l, put_members P SP prefix (kv :: m) [c; nl] false = Ok (c :: b, false) /\
    jmembers false (b ++ nl :: prefix) l /\ Forall2 (fun a b => fst a = fst b /\ doc P (snd a) (snd b)) (kv :: m) l.
Proof.
  intros Hp. revert kv c. induction m as [|kv' m IH]; intros [k a] c H HK; inversion H as [|? ? Ha Hv]; inversion HK as [|? ? Hk Hks]; subst;
    cbn [snd fst] in Ha, Hk; destruct (Ha (prefix ++ txt "  ") (ws_indent _ Hp)) as (w & u & j & E & Hw & Hj & Ej); apply plain_key in Hk.
  - exists (nl :: prefix ++ txt "  " ++ quote :: txt k ++ quote :: txt ": " ++ (w ++ u)), [(k, j)]. cbn [put_members]. rewrite E. cbn [bind].
    split; [now rewrite !app_nil_r|]. split.
    + replace ((nl :: prefix ++ txt "  " ++ quote :: txt k ++ quote :: txt ": " ++ (w ++ u)) ++ nl :: prefix) with
        ((nl :: prefix ++ txt "  ") ++ (ch 34 :: txt k ++ [ch 34]) ++ [] ++ ":"%char :: ([" "%char] ++ w) ++ u ++ (nl :: prefix))
        by flat_text.
      apply jm_one; auto using ws_nl, ws_app, ws_nil, ws_indent, ws_space.
    + auto.
  - destruct (IH kv' ","%char Hv Hks) as (b & l & Eb & Hl & El).
    exists (nl :: prefix ++ txt "  " ++ quote :: txt k ++ quote :: txt ": " ++ (w ++ u) ++ ","%char :: b), ((k, j) :: l). split; [|split].
    + change (put_members P SP prefix ((k, a) :: kv' :: m) [c; nl] false) with
        (do (t, h1) <- to_json P SP a (prefix ++ txt "  ") false ; do (r, h2) <- put_members P SP prefix (kv' :: m) [","%char; nl] h1 ;
         Ok ([c; nl] ++ prefix ++ txt "  " ++ quote :: txt k ++ quote :: txt ": " ++ t ++ r, h2)).
      rewrite E. cbn [bind]. rewrite Eb. reflexivity.
    + replace ((nl :: prefix ++ txt "  " ++ quote :: txt k ++ quote :: txt ": " ++ (w ++ u) ++ ","%char :: b) ++ nl :: prefix) with
        ((nl :: prefix ++ txt "  ") ++ (ch 34 :: txt k ++ [ch 34]) ++ [] ++ ":"%char :: ([" "%char] ++ w) ++ u ++ [] ++ ","%char :: (b ++ nl :: prefix))
        by flat_text.
      apply jm_more; auto using ws_nl, ws_app, ws_nil, ws_indent, ws_space.
    + auto.
Qed.
Lemma mset_last {A} k (a : A) acc m : msorted (acc ++ (k, a) :: m) -> mset k a acc = acc ++ [(k, a)].
Proof.
  induction acc as [|[k' b] acc IH]; intros H; [reflexivity|]. cbn [app] in H. apply msorted_inv in H as [H1 H2].
  cbn [mset app]. rewrite map_app in H2. apply Forall_app in H2 as [_ H2]. cbn [map fst] in H2. apply Forall_inv in H2.
  rewrite (compare_gt k k') by assumption. f_equal. auto.
Qed.
Lemma by_key_id {A} (m : list (string * A)) : msorted m -> by_key m = m.
Proof.
  unfold by_key. enough (G : forall acc, msorted (acc ++ m) -> fold_left (fun acc kv => mset (fst kv) (snd kv) acc) m acc = acc ++ m) by apply (G []).
  induction m as [|[k a] m IH]; intros acc H; cbn [fold_left].
  - now rewrite app_nil_r.
  - cbn [fst snd]. rewrite (mset_last k a acc m H), IH; rewrite <- app_assoc; [reflexivity|exact H].
Qed.

Lemma bool_json b : jval false (put_bool b) (JBool b).
Proof. destruct b; constructor. Qed.
Lemma escape_string s : clean_text (txt s) -> jstring false (string_escape s) s.
Proof.
  intros H. rewrite <- (string_of_list_ascii_of_string s) at 2. unfold string_escape. change quote with (ch 34).
  constructor. now apply escape_json.
Qed.
Lemma quoted_json SP c : jval false (quote :: cplx_text SP c ++ [quote]) (JStr (untxt (cplx_text SP c))).
Proof. apply jv_string. change quote with (ch 34). constructor. apply plain_json. apply cplx_plain. Qed.

Lemma bool_elems v : Forall (elem_json put_bool (fun b j => j = JBool b)) v.
Proof. apply Forall_forall. intros b _. exists (JBool b). split; [apply bool_json|reflexivity]. Qed.
Lemma int_elems v : Forall (elem_json print_int (fun i j => j = JInt i)) v.
Proof. apply Forall_forall. intros b _. exists (JInt b). split; [apply jv_number; apply int_json|reflexivity]. Qed.
Lemma real_elems P v : (1 <= P)%nat -> Forall f64 v -> Forall (fun x => is_finite x = true) v -> Forall (elem_json (print_g P) (real_doc P)) v.
Proof.
  intros HP W F. apply Forall_forall. intros x Hx. rewrite Forall_forall in W, F.
  destruct (number_json P x HP (W x Hx) (F x Hx)) as (j & Hj & Ej). exists j. split; [now apply jv_number|assumption].
Qed.

Theorem to_json_written P SP : (1 <= P)%nat -> forall g, wf g -> everywhere json_node g -> written P SP g.
Proof.
  intros HP.
  assert (One : forall g t, (forall prefix, to_json P SP g prefix false = Ok (t, false)) ->
    (exists j, jval false t j /\ doc P g j) -> written P SP g).
  { intros g t E (j & Hj & Ej) prefix Hp. exists [], t, j. rewrite E. auto using ws_nil. }
  induction g as [g Hv Hm | v IH | m IH] using gc_nest_ind; intros W N.
  - apply everywhere_here in N. destruct g; try nested_contra Hv Hm; cbn [json_node wf] in N, W; try contradiction.
    + apply (One _ (txt "null")); [reflexivity|]. exists JNull. split; constructor.
    + apply (One _ (put_bool b)); [reflexivity|]. exists (JBool b). split; [apply bool_json|constructor].
    + apply (One _ (print_int i)); [reflexivity|]. exists (JInt i). split; [apply jv_number; apply int_json|constructor].
    + apply (One _ (print_int l)); [reflexivity|]. exists (JInt l). split; [apply jv_number; apply int_json|constructor].
    + apply (One _ (print_g P r)); [reflexivity|]. destruct (number_json P r HP W N) as (j & Hj & Ej). exists j.
      split; [now apply jv_number|now constructor].
    + apply (One _ (quote :: cplx_text SP c ++ [quote])); [reflexivity|]. exists (JStr (untxt (cplx_text SP c))).
      split; [apply quoted_json|constructor; eexists; reflexivity].
    + apply (One _ (string_escape s)); [reflexivity|]. exists (JStr s). split; [apply jv_string; now apply escape_string|constructor].
    + apply (One _ (put_vec put_bool v)); [reflexivity|]. destruct (put_vec_json _ _ v N (bool_elems v)) as (j & Hj & Ej). eexists. split; [eassumption|now constructor].
    + apply (One _ (put_vec print_int v)); [reflexivity|]. destruct (put_vec_json _ _ v N (int_elems v)) as (j & Hj & Ej). eexists. split; [eassumption|now constructor].
    + apply (One _ (put_vec print_int v)); [reflexivity|]. destruct (put_vec_json _ _ v N (int_elems v)) as (j & Hj & Ej). eexists. split; [eassumption|now constructor].
    + destruct N as [N F]. apply (One _ (put_vec (print_g P) v)); [reflexivity|].
      destruct (put_vec_json _ _ v N (real_elems P v HP W F)) as (j & Hj & Ej). eexists. split; [eassumption|now constructor].
    + apply (One _ (put_vec (fun c => quote :: cplx_text SP c ++ [quote]) v)); [reflexivity|].
      destruct (put_vec_json (fun c => quote :: cplx_text SP c ++ [quote]) (fun _ => is_str) v N) as (j & Hj & Ej).
      { apply Forall_forall. intros c _. eexists. split; [apply quoted_json|eexists; reflexivity]. }
      eexists. split; [eassumption|now constructor].
    + destruct N as [N F]. apply (One _ (put_vec string_escape v)); [reflexivity|].
      destruct (put_vec_json string_escape (fun s j => j = JStr s) v N) as (j & Hj & Ej).
      { apply Forall_forall. intros s Hs. rewrite Forall_forall in F. exists (JStr s). split; [apply jv_string; apply escape_string; auto|reflexivity]. }
      eexists. split; [eassumption|now constructor].
    + destruct N as (N1 & N2 & N3). intros prefix Hp.
      destruct (put_mat_json print_int int32 _ prefix m Hp W N1 N2 N3 (int_elems _)) as (t & j & Et & Hj & Ej).
      exists [], t, j. cbn [to_json]. change (put_int false) with print_int. rewrite Et. split; [reflexivity|]. split; [apply ws_nil|].
      split; [assumption|now constructor].
    + destruct N as (N1 & N2 & N3). intros prefix Hp.
      destruct (put_mat_json print_int int64 _ prefix m Hp W N1 N2 N3 (int_elems _)) as (t & j & Et & Hj & Ej).
      exists [], t, j. cbn [to_json]. change (put_long false) with print_int. rewrite Et. split; [reflexivity|]. split; [apply ws_nil|].
      split; [assumption|now constructor].
    + destruct N as (N1 & N2 & N3 & F). intros prefix Hp. pose proof W as (_ & _ & _ & Wd).
      destruct (put_mat_json (print_g P) f64 _ prefix m Hp W N1 N2 N3 (real_elems P _ HP Wd F)) as (t & j & Et & Hj & Ej).
      exists [], t, j. cbn [to_json]. rewrite Et. split; [reflexivity|]. split; [apply ws_nil|].
      split; [assumption|now constructor].
  - apply wf_vec in W. apply everywhere_vec in N as [Nv N]. cbn [json_node] in Nv. intros prefix Hp.
    destruct v as [|a v]; [easy|]. rewrite to_json_vec by assumption.
    destruct (put_elems_json P SP prefix (prefix ++ txt "  ") a v "["%char Hp (ws_indent _ Hp)) as (b & l & Eb & Hl & El).
    { rewrite Forall_forall in *. auto. }
    rewrite Eb. cbn [bind]. exists (nl :: prefix), ("["%char :: (b ++ nl :: prefix) ++ ["]"%char]), (JArr l).
    split; [f_equal; f_equal; flat_text|]. split; [now apply ws_nl|]. split; [now apply jv_arr|now constructor].
  - apply wf_map in W as [Ws W]. apply everywhere_map in N as [[Nv Nk] N]. intros prefix Hp.
    destruct m as [|a m]; [easy|]. rewrite to_json_map by assumption.
    destruct (put_members_json P SP prefix a m "{"%char Hp) as (b & l & Eb & Hl & El); [rewrite Forall_forall in *; auto|assumption|].
    rewrite Eb. cbn [bind]. exists (nl :: prefix), ("{"%char :: (b ++ nl :: prefix) ++ ["}"%char]), (JObj l).
    split; [f_equal; f_equal; flat_text|]. split; [now apply ws_nl|]. split; [now apply jv_obj|now constructor].
Qed.

(** * The JSON form has the data of the container *)
Lemma list_doc_data {A} (R : A -> json -> Prop) (D : A -> dat) v j : list_doc R v j ->
  (forall a i, In a v -> R a i -> json_data i = D a) -> json_data j = DList (map D v).
Proof.
  intros (l & -> & H) E. cbn [json_data]. f_equal. induction H as [|a i v l Ha _ IH]; [reflexivity|]. cbn [map]. f_equal.
  - apply E; [now left|assumption].
  - apply IH. intros b k Hb. apply E. now right.
Qed.
Lemma in_columns {A} nr nc (l c : list A) a : In c (columns nr nc l) -> In a c -> In a l.
Proof.
  revert l. induction nc as [|nc IH]; intros l [] Ha; [subst; rewrite <- (firstn_skipn nr l); apply in_app_iff; now left|].
  rewrite <- (firstn_skipn nr l). apply in_app_iff. right. eauto.
Qed.
Lemma mat_doc_data {A} (R : A -> json -> Prop) (D : A -> dat) m j : mat_doc R m j ->
  (forall a i, In a (mdata m) -> R a i -> json_data i = D a) -> json_data j = d_mat D m.
Proof.
  intros H E. refine (list_doc_data (list_doc R) _ _ _ H _). intros c i Hc Hi. apply (list_doc_data R D c i Hi).
  intros a k Ha. apply E. eauto using in_columns.
Qed.
Lemma real_doc_data P x j : real_doc P x j -> exact_real P x -> json_data j = d_real x.
Proof. intros [(n & -> & _ & H)|(y & -> & H)] E; cbn [json_data]; [auto|now rewrite H]. Qed.

Theorem doc_data P g j : wf g -> everywhere (exact_node P) g -> doc P g j -> json_data j = data_of g.
Proof.
  revert j. induction g as [g Hv Hm | v IH | m IH] using gc_nest_ind; intros j W E H.
  - apply everywhere_here in E. inversion H; subst; cbn [data_of exact_node] in *; try reflexivity; try contradiction;
      try nested_contra Hv Hm.
    all: try match goal with
      | H : list_doc _ _ _ |- _ => eapply list_doc_data; [eassumption|]; cbn beta; intros a i Ha Hi; subst; try reflexivity
      | H : mat_doc _ _ _ |- _ => eapply mat_doc_data; [eassumption|]; cbn beta; intros a i Ha Hi; subst; try reflexivity
      end.
    all: try (rewrite Forall_forall in E); eauto using real_doc_data.
  - apply everywhere_vec in E as [_ E]. apply wf_vec in W. inversion H as [| | | | | | | | | | | | | | | |? l Hl|]; subst.
    cbn [json_data data_of]. f_equal. clear H. induction Hl as [|a b v l Hab _ IHl]; [reflexivity|].
    inversion IH; inversion E; inversion W; subst. cbn [map]. f_equal; auto.
  - apply everywhere_map in E as [_ E]. apply wf_map in W as [Ws W]. inversion H as [| | | | | | | | | | | | | | | | |? l Hl]; subst.
    cbn [json_data data_of]. f_equal.
    assert (Em : map (fun kv => (fst kv, json_data (snd kv))) l = map (fun kv => (fst kv, data_of (snd kv))) m).
    { clear H Ws. induction Hl as [|a b v l [Hk Hab] _ IHl]; [reflexivity|].
      inversion IH; inversion E; inversion W; subst. cbn [map]. rewrite Hk. f_equal; [f_equal; auto|auto]. }
    rewrite Em. apply by_key_id. unfold msorted in *. rewrite map_map. exact Ws.
Qed.
