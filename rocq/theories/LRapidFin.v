(** The reals read by rapidjson: the power of ten and the whole number. *)
From Coq Require Import ZArith Bool Lia Ascii String List.
From Verif Require Import Base F64 Value MNum LNum LNum2 LJson2Doc MJson SJsonText SRapid MRapid LRapidNum LRapidInt LRapidReal LRapidRel LRapidAcc.
Import ListNotations.
Local Open Scope Z_scope.

Lemma fmag_max x : 0 <= x < inf -> fmag x < huge.
Proof.
  intros H. assert (C : (2 ^ 53 - 1) * 2 ^ 2045 < huge).
  { unfold huge. change 2045 with (Z.succ 2044). rewrite Z.pow_succ_r by lia. pose proof (pow2_pos 2044 ltac:(lia)) as P. generalize dependent (2 ^ 2044). intros. lia. }
  eapply Z.le_lt_trans; [|exact C]. clear C.
  pose proof (fman_range x) as M. unfold fmag. destruct (Z.eqb_spec (fexp x) 0) as [E|E].
  - pose proof (pow2_pos 2045 ltac:(lia)) as P. generalize dependent (2 ^ 2045). intros. nia.
  - assert (B : fexp x <= 2046).
    { assert (D : x / 2 ^ 52 <= 2046).
      { assert (x / 2 ^ 52 < 2047); [|lia]. apply Z.div_lt_upper_bound; [lia|]. unfold inf in H. lia. }
      assert (D0 : 0 <= x / 2 ^ 52) by (apply Z.div_pos; lia). unfold fexp. rewrite Z.mod_small; [exact D|]. change (2 ^ 11) with 2048. lia. }
    pose proof (fexp_range x) as [F0 _]. assert (P : 2 ^ (fexp x - 1) <= 2 ^ 2045) by (apply Z.pow_le_mono_r; lia).
    pose proof (pow2_pos (fexp x - 1) ltac:(lia)) as Q. clear E B F0. generalize dependent (2 ^ (fexp x - 1)). generalize (2 ^ 2045). intros. nia.
Qed.
Local Opaque fone top low huge.

Lemma vden_pos p : 0 < vden p.
Proof. unfold vden. destruct (Z.leb_spec 0 p); [lia|]. apply pow10_pos. lia. Qed.

Lemma ddiv_lt x q : 0 <= x < inf -> 1 <= q <= 308 -> 0 <= ddiv x (pow10 q) < inf.
Proof.
  intros Hx Hq. unfold ddiv. rewrite (proj2 (Z.leb_gt _ _)) by lia. unfold rnd. destruct (Z.eqb_spec (fmag x) 0) as [E|N]; [unfold inf; lia|].
  pose proof (fmag_nonneg x). destruct (pow10_about q ltac:(lia)) as [_ A]. rewrite Z.mul_1_r in A. pose proof fone_pos as F. pose proof (fmag_nonneg (pow10 q)) as Mp.
  pose proof (Z.pow_le_mono_r 10 1 q ltac:(lia) ltac:(lia)) as P.
  assert (PB : 0 <= 10 ^ q * fone) by pos. destruct (rel_half 1 _ _ ltac:(lia) Mp PB A) as [_ B].
  assert (C : fone <= fmag (pow10 q)).
  { assert (10 ^ 1 * fone <= 10 ^ q * fone) by (apply Z.mul_le_mono_nonneg_r; lia). lia. }
  destruct (f_of_Q_value (fmag x) (fmag (pow10 q)) ltac:(lia) ltac:(lia)) as [[R _]|[_ H0]]; [exact R|exfalso].
  rewrite huge_eq in H0. pose proof (fmag_max x Hx). generalize dependent huge. generalize dependent fone. intros. nia.
Qed.
Lemma strtod_lt x p : 0 <= x < inf -> p < 0 -> 0 <= strtod_normal x p < inf.
Proof.
  intros Hx Hp. assert (Z0 : 0 <= 0 < inf) by (unfold inf; lia).
  assert (G : forall x e, 0 <= x < inf -> e < 0 -> 0 <= fast_path x e < inf).
  { intros y e Hy He. unfold fast_path. destruct (Z.ltb_spec e (-308)); [exact Z0|]. rewrite (proj2 (Z.leb_gt _ _)) by lia. apply ddiv_lt; [exact Hy|lia]. }
  unfold strtod_normal. destruct (Z.ltb_spec p (-308)); auto. apply G; [|lia]. apply G; [exact Hx|lia].
Qed.
Lemma strtod_zero p : strtod_normal 0 p = 0.
Proof.
  assert (G : forall e, fast_path 0 e = 0).
  { intros e. unfold fast_path. destruct (e <? -308); [reflexivity|]. destruct (0 <=? e); [unfold dmul|unfold ddiv]; rewrite (proj2 (Z.leb_gt _ _)) by (unfold inf; lia); reflexivity. }
  unfold strtod_normal. destruct (p <? -308); now rewrite ?G.
Qed.

(** The power of ten. *)
Lemma strtod_about k x N P : 0 <= k -> k + 4 <= 2 ^ 50 -> 0 < N <= top -> about k x N 1 ->
  vnum N P <= top * vden P -> 10 * vden P <= 11 * low * vnum N P ->
  about (k + 4) (strtod_normal x P) (vnum N P) (vden P).
Proof.
  intros Hk Hk2 HN A Hhi Hlo. pose proof fone_pos as F. unfold vnum, vden in *.
  assert (Mono : forall j y a b, 0 <= j <= k + 4 -> 0 < a -> 0 < b -> about j y a b -> about (k + 4) y a b).
  { intros j y a b Hj Ha Hb [R S]. split; [exact R|]. revert S. pose proof (fmag_nonneg y). apply rel_mono; pos. }
  destruct (Z.leb_spec 0 P) as [L|L].
  - pose proof (pow10_pos P L) as P10.
    assert (P308 : P <= 308).
    { destruct (Z.le_gt_cases P 308) as [?|G]; [assumption|exfalso].
      pose proof (top_next P ltac:(lia)) as T.
      pose proof top_pos. nia. }
    unfold strtod_normal. rewrite (proj2 (Z.ltb_ge _ _)) by lia. unfold fast_path. rewrite (proj2 (Z.ltb_ge _ _)) by lia. rewrite (proj2 (Z.leb_le _ _)) by lia.
    apply (Mono (k + 1 + 1)); try lia. apply dmul_about; try lia; [exact A|apply pow10_about; lia].
  - pose proof (pow10_pos (- P) ltac:(lia)) as P10.
    unfold strtod_normal. destruct (Z.ltb_spec P (-308)) as [L2|L2].
    + set (q := - P - 308). assert (Eq : 10 ^ (- P) = top * 10 ^ q) by (unfold q; rewrite top_eq; rewrite <- Z.pow_add_r by lia; f_equal; lia).
      assert (Hq : 1 <= q) by (unfold q; lia). pose proof (pow10_pos q ltac:(lia)) as Pq.
      pose proof low_top as T10. pose proof low_pos as P307.
      assert (Q308 : q <= 308).
      { destruct (Z.le_gt_cases q 308) as [?|G]; [assumption|exfalso].
        pose proof (top_next q ltac:(lia)) as T.
        rewrite Eq, <- T10 in Hlo. clear - Hlo T HN P307. generalize dependent (low). generalize dependent (10 ^ q). generalize dependent top. intros. nia. }
      assert (Q10 : 10 <= 10 ^ q) by (apply (Z.pow_le_mono_r 10 1 q); lia).
      assert (N9 : 10 * top <= 11 * low * N).
      { rewrite Eq in Hlo. etransitivity; [|exact Hlo]. clear - Q10 P307 T10. generalize dependent top. generalize dependent (10 ^ q). generalize dependent (low). intros. nia. }
      assert (B : about (k + 1 + 1) (fast_path x (-308)) N (1 * top)).
      { unfold fast_path. rewrite (proj2 (Z.ltb_ge _ _)) by lia. rewrite (proj2 (Z.leb_gt _ _)) by lia. change (- (-308)) with 308.
        pose proof top_pos.
        apply ddiv_about; try lia; [exact A|apply (pow10_about 308); lia]. }
      rewrite Z.mul_1_l in B. rewrite Eq. replace (k + 4) with (k + 1 + 1 + 1 + 1) by lia.
      unfold fast_path at 1. rewrite (proj2 (Z.ltb_ge _ _)) by lia. rewrite (proj2 (Z.leb_gt _ _)) by lia. replace (- (P + 308)) with q by (unfold q; lia).
      apply ddiv_about; [lia|lia|lia|lia|lia|clear - T10 P307; lia|lia| | |exact B|apply pow10_about; lia].
      * pose proof top_pos. nia.
      * rewrite Eq in Hlo. rewrite (Z.mul_comm (10 ^ q)). exact Hlo.
    + unfold fast_path. rewrite (proj2 (Z.ltb_ge _ _)) by lia. rewrite (proj2 (Z.leb_gt _ _)) by lia.
      rewrite <- (Z.mul_1_l (10 ^ (- P))). assert (1 < 10 ^ (- P)) by (apply (Z.pow_lt_mono_r 10 0 (- P)); lia).
      apply (Mono (k + 1 + 1)); try lia. apply ddiv_about; try lia; [exact A|apply pow10_about; lia].
Qed.

(** ** The whole number *)
Lemma eneg_run_nonneg lim l : Forall is_digit l -> forall e, 0 <= e -> 0 <= eneg_run lim e l.
Proof.
  induction 1 as [|d l Hd Hl IH]; intros e He; cbn [eneg_run]; [assumption|]. unfold is_digit in Hd. destruct (lim <? _); [lia|]. apply IH. lia.
Qed.
Lemma sig_value l lf X ef N c e : sig l lf X ef N c -> 0 < N ->
  let m := dval (l ++ fd lf) in let p := e - zlen (fd lf) in
  rel 1 (vnum N (e - c) * vden p) (vnum m p * vden (e - c)) /\
  vnum N (e - c) * vden p <= vnum m p * vden (e - c) /\ 10 * (vnum m p * vden (e - c)) <= 11 * (vnum N (e - c) * vden p).
Proof.
  intros S HN m p. destruct S as [_ Hc Hlo Hhi Hall _ _ _]. fold m in Hlo, Hhi. set (r := zlen (fd lf) - c) in *.
  assert (Hr : 0 <= r) by (unfold r; lia). pose proof (pow10_pos r Hr) as Pr.
  assert (R : rel 1 (N * 10 ^ r) m /\ 10 * m <= 11 * (N * 10 ^ r)).
  { destruct Hall as [E|G].
    - assert (Er : r = 0) by (unfold r; lia). rewrite Er, Z.pow_0_r, Z.mul_1_r in *. assert (m = N) as -> by lia. split; [apply rel_refl; lia|lia].
    - split.
      + replace m with (N * 10 ^ r + (m - N * 10 ^ r)) by ring. apply rel_trunc; lia.
      + rewrite ulps_val in G. nia. }
  assert (T : exists t, 0 < t /\ vnum N (e - c) * vden p = N * 10 ^ r * t /\ vnum m p * vden (e - c) = m * t).
  { unfold vnum, vden. destruct (Z.leb_spec 0 p) as [L|L].
    - rewrite (proj2 (Z.leb_le _ _)) by (unfold p, r in *; lia). exists (10 ^ p). split; [now apply pow10_pos|]. split; [|ring].
      replace (e - c) with (r + p) by (unfold p, r; lia). rewrite Z.pow_add_r by lia. ring.
    - assert (E : e - c = r + p) by (unfold p, r; lia). destruct (Z.leb_spec 0 (e - c)) as [L2|L2].
      + exists 1. split; [lia|]. split; [|ring]. replace r with ((e - c) + - p) by lia. rewrite Z.pow_add_r by lia. ring.
      + exists (10 ^ (- (e - c))). split; [apply pow10_pos; lia|]. split; [|ring]. replace (- p) with (r + - (e - c)) by lia. rewrite Z.pow_add_r by lia. ring. }
  destruct T as (t & Ht & -> & ->). destruct R as [R1 R2]. split; [now apply rel_scale|]. split; nia.
Qed.

Lemma eneg_run_big lim l : forall e, lim < e * 10 ^ zlen l + dval l -> lim < eneg_run lim e l.
Proof.
  induction l as [|d l IH]; intros e H; cbn [eneg_run].
  - rewrite zlen_nil, Z.pow_0_r in H. change (dval []) with 0 in H. lia.
  - destruct (Z.ltb_spec lim (e * 10 + d)); [assumption|]. apply IH. pose proof (zlen_nonneg l). rewrite dval_cons, zlen_cons, Z.pow_add_r, Z.pow_1_r in H by lia.
    eapply Z.lt_le_trans; [exact H|]. apply Z.eq_le_incl. ring.
Qed.
Lemma vnum_top N a : 0 < N -> vnum N a <= top * vden a -> a <= 308.
Proof.
  intros HN H. destruct (Z.le_gt_cases a 308) as [?|G]; [assumption|exfalso]. unfold vnum, vden in H. rewrite (proj2 (Z.leb_le _ _)) in H by lia.
  pose proof (top_next a ltac:(lia)) as T.
  pose proof top_pos. nia.
Qed.
Lemma vnum_pos m p : 0 < m -> 0 < vnum m p.
Proof. intros H. unfold vnum. destruct (Z.leb_spec 0 p) as [L|L]; [|assumption]. pose proof (pow10_pos p L). nia. Qed.

(** The error bound and what is refused. *)
Definition slack (l : list Z) : Z := Z.max 10 (2 * zlen l).
Theorem num_res_about neg l lf ex : parts_ok l lf ex -> (lf <> None \/ ex <> None \/ maxi neg < dval l) ->
  zlen l <= 308 -> zlen (fd lf) <= 2 * 10 ^ 9 ->
  let m := dval (l ++ fd lf) in let p := ev ex - zlen (fd lf) in
  vnum m p <= top * vden p -> (m = 0 -> ev ex <= 308 + zlen (fd lf)) ->
  exists x, num_res neg l lf ex = Some (JDbl ((if neg then 2^63 else 0) + x)) /\ 0 <= x < inf /\
    (m = 0 -> x = 0) /\
    (0 < m -> vden p <= low * vnum m p -> about (slack l) x (vnum m p) (vden p)).
Proof.
  intros (Hl & Hi & Hf & He) Hr Hz Hzf m p Hhi H0. unfold num_res.
  destruct (int_res neg l) as [[[i sd] big] x] eqn:Ei. destruct (frac_res i sd big x lf) as [[dbl x1] ef] eqn:Ef.
  destruct (sig_res _ _ _ _ _ _ _ _ _ _ Hl Hi Hf Hz Ei Ef) as (N & c & S).
  set (X := if dbl then x1 else f_of_Z i) in *.
  pose proof S as [Ec Hc Hlo Hhi2 Hall Htop Hzero Habout]. fold m in Hlo, Hhi2.
  pose proof (zlen_nonneg (fd lf)) as Zf. pose proof (zlen_nonneg l) as Zl.
  set (r := zlen (fd lf) - c) in *. assert (Hr0 : 0 <= r) by (unfold r; lia). pose proof (pow10_pos r Hr0) as Pr.
  assert (XR : 0 <= X < inf).
  { destruct (Z.eq_dec N 0) as [E|E]; [rewrite Hzero by exact E; unfold inf; lia|]. apply Habout. lia. }
  assert (M0 : N = 0 <-> m = 0).
  { split; intros E.
    - destruct Hall as [E2|G]; [|rewrite ulps_val in G; lia]. unfold r in *. rewrite E2, Z.sub_diag, Z.pow_0_r in *. lia.
    - nia. }
  (* what the exponent does *)
  assert (E : exists e, exp_res i dbl x1 ef ex = Some (true, X, e) /\
     (e = ev ex \/ (e - c < 0 /\ (0 < m -> low * vnum m p < vden p)))).
  { destruct ex as [[ne le]|]; cbn [exp_res ev] in *.
    - destruct He as [Hle Ne]. destruct Hle as [|d le Hd Hle]; [congruence|]. fold X. pose proof Hd as Hd'. unfold is_digit in Hd'.
      destruct ne.
      + set (lim := (ef + 2147483639) ÷ 10).
        assert (B : 10000000 <= lim) by (unfold lim; apply Z.quot_le_lower_bound; lia).
        eexists. split; [reflexivity|]. destruct (Z.le_gt_cases (d * 10 ^ zlen le + dval le) lim) as [L|L].
        * left. rewrite eneg_run_val by (try assumption; lia). now rewrite dval_cons.
        * right. pose proof (eneg_run_big _ _ _ L). split; [lia|]. intros Hm. assert (Pn : p = - (dval (d :: le)) - zlen (fd lf)) by reflexivity. rewrite dval_cons in Pn.
          unfold vnum, vden. rewrite (proj2 (Z.leb_gt _ _)) by lia.
          assert (Um : m < 10 ^ (zlen l + zlen (fd lf))).
          { unfold m. rewrite <- zlen_app. apply dval_range. apply Forall_app. now split. }
          assert (10 ^ (307 + (zlen l + zlen (fd lf))) <= 10 ^ (- p)) by (apply Z.pow_le_mono_r; lia).
          rewrite Z.pow_add_r, <- low_eq in H1 by lia. pose proof low_pos. nia.
      + assert (B : d * 10 ^ zlen le + dval le <= 308 - ef).
        { rewrite <- dval_cons. destruct (Z.eq_dec m 0) as [E|E].
          - specialize (H0 E). apply M0 in E. destruct Hall as [E2|G]; [lia|rewrite ulps_val in G; lia].
          - assert (HN : 0 < N) by lia. pose proof (sig_value _ _ _ _ _ _ (dval (d :: le)) S HN) as (_ & V & _). fold m p in V.
            assert (dval (d :: le) - c <= 308); [|lia]. apply (vnum_top N); [assumption|].
            pose proof (vden_pos p). pose proof (vden_pos (dval (d :: le) - c)). generalize dependent (vnum N (dval (d :: le) - c)). generalize dependent (vden (dval (d :: le) - c)).
            intros. assert (z0 * vden p <= top * z * vden p); [|nia]. nia. }
        rewrite epos_run_val by (try assumption; lia). eexists. split; [reflexivity|]. left. now rewrite dval_cons.
    - exists 0. split; [|now left]. assert (D : dbl = true).
      { destruct (int_res_spec _ _ _ _ _ _ Hl Hi Ei) as [(-> & -> & -> & _ & Hm)|(-> & _)].
        - destruct lf as [lf|]; cbn [frac_res] in Ef; [destruct (fint_run _ _ _ _) as [[[? ?] ?] ?]; destruct (fdbl_run _ _ _ _); congruence|].
          exfalso. destruct Hr as [?|[?|?]]; [congruence|congruence|lia].
        - destruct lf as [lf|]; cbn [frac_res] in Ef; [destruct (fdbl_run _ _ _ _); congruence|congruence]. }
      unfold X. now rewrite D. }
  destruct E as (e & E & Hev). rewrite E. clear E. cbv zeta. replace (e + ef) with (e - c) by lia.
  assert (G : 0 <= strtod_normal X (e - c) < inf /\ (m = 0 -> strtod_normal X (e - c) = 0) /\
    (0 < m -> vden p <= low * vnum m p -> about (slack l) (strtod_normal X (e - c)) (vnum m p) (vden p))).
  { destruct (Z.eq_dec m 0) as [Em|Em].
    { rewrite Hzero by (now apply M0). rewrite strtod_zero. split; [unfold inf; lia|]. split; [reflexivity|lia]. }
    destruct Hev as [->|[Hneg Htiny]].
    2: { split; [now apply strtod_lt|]. split; [congruence|]. intros Hm Hc2. specialize (Htiny Hm). lia. }
    assert (HN : 0 < N) by lia. pose proof (sig_value _ _ _ _ _ _ (ev ex) S HN) as (V1 & V2 & V3). fold m p in V1, V2, V3.
    specialize (Habout HN). set (a := ev ex - c) in *. pose proof (vden_pos p) as Dp. pose proof (vden_pos a) as Da.
    pose proof (vnum_pos N a HN) as Na. assert (Mp : 0 < m) by lia. pose proof (vnum_pos m p Mp) as Np.
    assert (Hhi' : vnum N a <= top * vden a).
    { clear - V2 Hhi Dp Da. generalize dependent (vnum N a). generalize dependent (vden a). intros.
      assert (z0 * vden p <= top * z * vden p); [|nia]. nia. }
    assert (A : vden p <= low * vnum m p -> about (Z.max 5 (2 * zlen l - 35) + 4) (strtod_normal X a) (vnum N a) (vden a)).
    { intros Hb. apply strtod_about; try lia; [exact Habout|]. clear - V3 Hb Dp Da. pose proof low_pos.
      generalize dependent (low). generalize dependent (vnum N a). generalize dependent (vden a). generalize dependent (vnum m p). generalize dependent (vden p). intros u Hu v v0 Hv w V3 t Hb Ht.
      assert (10 * v0 * u <= 11 * t * w * u); [|nia]. assert (10 * v0 * u <= 10 * v0 * (t * v)) by nia. nia. }
    split; [|split; [congruence|]].
    - destruct (Z.le_gt_cases (vden p) (low * vnum m p)) as [L|L]; [now apply A|].
      destruct (Z.lt_ge_cases a 0) as [La|La]; [now apply strtod_lt|exfalso].
      assert (vden a = 1) as Va by (unfold vden; now rewrite (proj2 (Z.leb_le _ _)) by lia). rewrite Va in *. pose proof low_pos. nia.
    - intros _ Hb. specialize (A Hb).
      pose proof (about_trans (Z.max 5 (2 * zlen l - 35) + 4) 1 _ _ _ _ _ ltac:(lia) ltac:(lia) Na Da Np Dp A V1) as [B1 B2]. split; [exact B1|]. revert B2.
      pose proof fone_pos. pose proof (fmag_nonneg (strtod_normal X a)). apply rel_mono; [unfold slack; lia|pos|pos]. }
  destruct G as (G1 & G2 & G3). exists (strtod_normal X (e - c)). rewrite (proj2 (Z.leb_gt _ _)) by lia. rewrite signed_fneg by exact G1.
  split; [reflexivity|]. split; [exact G1|]. split; [exact G2|exact G3].
Qed.
