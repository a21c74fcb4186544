(** How far the reals read by rapidjson are from what the text says. *)
From Coq Require Import ZArith Bool Lia Ascii String List.
From Verif Require Import Base F64 Value MNum LNum LNum2 LJson2Doc MJson SJsonText SRapid MRapid LRapidNum LRapidInt LRapidReal LRapidRel.
Import ListNotations.
Local Open Scope Z_scope.

Definition top : Z := 10 ^ 308.
Definition low : Z := 10 ^ 307.
Lemma top_eq : top = 10 ^ 308.
Proof. reflexivity. Qed.
Lemma low_eq : low = 10 ^ 307.
Proof. reflexivity. Qed.
Lemma low_top : 10 * low = top.
Proof. unfold low, top. now rewrite <- Z.pow_succ_r by lia. Qed.
Lemma low_pos : 0 < low.
Proof. unfold low. apply Z.pow_pos_nonneg; lia. Qed.
Lemma top_next q : 309 <= q -> 10 * top <= 10 ^ q.
Proof. intros H. unfold top. rewrite <- Z.pow_succ_r by lia. apply Z.pow_le_mono_r; lia. Qed.
Definition huge : Z := (2 ^ 54 - 1) * 2 ^ 2044.
Lemma huge_eq d : d * (2 ^ 54 - 1) * 2 ^ 2044 = d * huge.
Proof. unfold huge. generalize (2 ^ 2044). intros. ring. Qed.
Lemma top_huge : 3 * top * fone < 2 * huge.
Proof. vm_compute. reflexivity. Qed.
Lemma top_pos : 2 ^ 80 < top.
Proof. vm_compute. reflexivity. Qed.
Lemma fone_big : 2 ^ 60 < fone.
Proof. vm_compute. reflexivity. Qed.
Lemma fone_tiny : 3 * (3 * (11 * ulps * low)) <= 2 * (2 * (10 * fone)).
Proof. rewrite ulps_val. vm_compute. discriminate. Qed.
Lemma pow10_top n : 0 <= n <= 308 -> 10 ^ n <= top.
Proof. intros H. apply Z.pow_le_mono_r; lia. Qed.
Local Opaque fone top huge.
Ltac pos := repeat first [lia | apply Z.mul_nonneg_nonneg | apply Z.mul_pos_pos].

Lemma rnd_rel n d : 0 < n -> 0 < d -> d * ulps <= n * fone -> 2 * n <= 3 * top * d ->
  0 <= rnd n d < inf /\ rel 1 (fmag (rnd n d) * d) (n * fone).
Proof.
  intros Hn Hd Hlo Hhi. unfold rnd. rewrite (proj2 (Z.eqb_neq _ _)) by lia. pose proof fone_pos as F.
  destruct (f_of_Q_value n d Hn Hd) as [(R & _ & K & HK & He & HB)|[_ H]].
  - split; [exact R|]. pose proof (fmag_nonneg (f_of_Q n d)) as M. apply rel_round; [nia|nia|].
    assert (D : d * 2 ^ K * ulps <= n * fone).
    { destruct HB as [->|HB]; [rewrite Z.pow_0_r; lia|]. rewrite Z.pow_add_r in HB by lia. change (2 ^ 52) with ulps in HB. nia. }
    pose proof ulps_pos. nia.
  - exfalso. pose proof top_huge as T. rewrite huge_eq in H.
    generalize dependent huge. generalize dependent top. generalize dependent fone. intros. nia.
Qed.

(** [x] is about N / D. *)
Definition about (k x N D : Z) : Prop := 0 <= x < inf /\ rel k (fmag x * D) (N * fone).
Lemma about_trans k1 k2 x N D N' D' : 0 <= k1 -> 0 <= k2 -> 0 < N -> 0 < D -> 0 < N' -> 0 < D' ->
  about k1 x N D -> rel k2 (N * D') (N' * D) -> about (k1 + k2) x N' D'.
Proof.
  intros Hk1 Hk2 HN HD HN' HD' [R A] B. split; [exact R|]. pose proof fone_pos as F. pose proof (fmag_nonneg x) as M.
  apply (rel_scale _ _ _ D); [lia..|].
  replace (fmag x * D' * D) with (fmag x * D * D') by ring. replace (N' * fone * D) with (N' * D * fone) by ring.
  apply (rel_trans k1 k2 _ (N * fone * D')); [lia|lia|pos|pos|pos| |].
  - apply rel_scale; [lia..|]. exact A.
  - replace (N * fone * D') with (N * D' * fone) by ring. apply rel_scale; [lia..|]. exact B.
Qed.

Lemma dmul_about k1 k2 x y N1 N2 : 0 <= k1 -> 0 <= k2 -> k1 + k2 <= 2 ^ 50 -> 0 < N1 -> 0 < N2 -> N1 * N2 <= top ->
  about k1 x N1 1 -> about k2 y N2 1 -> about (k1 + k2 + 1) (dmul x y) (N1 * N2) 1.
Proof.
  intros Hk1 Hk2 Hk H1 H2 Ht [[Hx0 Hx] A] [_ B]. unfold dmul. rewrite (proj2 (Z.leb_gt _ _)) by lia. rewrite !Z.mul_1_r in A, B.
  pose proof fone_pos as F. pose proof fone_big as FB. pose proof (fmag_nonneg x) as Mx. pose proof (fmag_nonneg y) as My.
  assert (P1 : 0 < N1 * fone) by nia. assert (P2 : 0 < N2 * fone) by nia.
  pose proof (rel_mul k1 k2 _ _ _ _ Hk1 Hk2 Mx (Z.lt_le_incl _ _ P1) My (Z.lt_le_incl _ _ P2) A B) as C.
  assert (P : 0 <= fmag x * fmag y) by nia. assert (Q : 0 < N1 * fone * (N2 * fone)) by nia.
  destruct (rel_half _ _ _ (conj (Z.add_nonneg_nonneg _ _ Hk1 Hk2) Hk) P (Z.lt_le_incl _ _ Q) C) as [C1 C2].
  destruct (rnd_rel (fmag x * fmag y) (fone * fone)) as [R S].
  - lia.
  - nia.
  - assert (1 <= N1 * N2) by nia. assert (2 * (fone * fone) <= 3 * (fmag x * fmag y)) by nia. rewrite ulps_val. nia.
  - replace (N1 * fone * (N2 * fone)) with (N1 * N2 * (fone * fone)) in * by ring. assert (0 < fone * fone) by nia. nia.
  - split; [exact R|]. rewrite Z.mul_1_r. apply (rel_scale _ _ _ (fone * fone)); [lia|nia|].
    pose proof (fmag_nonneg (rnd (fmag x * fmag y) (fone * fone))) as Mz. rewrite (Z.add_comm (k1 + k2) 1).
    apply (rel_trans 1 (k1 + k2) _ (fmag x * fmag y * fone)); [lia|lia|pos|pos|pos|exact S|].
    replace (N1 * N2 * fone * (fone * fone)) with (N1 * fone * (N2 * fone) * fone) by ring. apply rel_scale; [lia..|]. exact C.
Qed.
Lemma dadd_about k x N d : 0 <= k <= 2 ^ 50 -> 0 < N -> 0 <= d <= 9 -> N + d <= top ->
  about k x N 1 -> about (k + 1) (dadd x (f_of_Z d)) (N + d) 1.
Proof.
  intros Hk HN Hd Ht [[Hx0 Hx] A]. unfold dadd. rewrite (proj2 (Z.leb_gt _ _)) by lia. rewrite Z.mul_1_r in A.
  destruct (f_of_Z_small d ltac:(lia)) as [-> _]. pose proof fone_pos as F. pose proof fone_big as FB. pose proof (fmag_nonneg x) as Mx.
  assert (P : 0 <= d * fone) by nia.
  pose proof (rel_add k _ _ (d * fone) ltac:(lia) P A) as C. rewrite <- Z.mul_add_distr_r in C.
  assert (Q : 0 < (N + d) * fone) by nia.
  assert (P3 : 0 <= fmag x + d * fone) by lia.
  destruct (rel_half _ _ _ Hk P3 (Z.lt_le_incl _ _ Q) C) as [C1 C2].
  destruct (rnd_rel (fmag x + d * fone) fone) as [R S].
  - lia.
  - lia.
  - rewrite ulps_val. nia.
  - nia.
  - split; [exact R|]. rewrite Z.mul_1_r. apply (rel_scale _ _ _ fone); [lia..|].
    pose proof (fmag_nonneg (rnd (fmag x + d * fone) fone)) as Mz. rewrite (Z.add_comm k 1).
    apply (rel_trans 1 k _ ((fmag x + d * fone) * fone)); [lia|lia|pos|pos|pos|exact S|]. apply rel_scale; [lia..|]. exact C.
Qed.
Lemma ddiv_about k1 k2 x y N D q : 0 <= k1 -> 0 <= k2 -> k1 <= 2 ^ 50 -> k2 <= 2 ^ 50 -> 0 < N -> 0 < D -> 1 < q -> N <= top * D ->
  10 * (q * D) <= 11 * low * N ->
  about k1 x N D -> about k2 y q 1 -> about (k1 + k2 + 1) (ddiv x y) N (D * q).
Proof.
  intros Hk1 Hk2 Hl1 Hl2 HN HD Hq Ht Hb [[Hx0 Hx] A] [_ B]. unfold ddiv. rewrite (proj2 (Z.leb_gt _ _)) by lia. rewrite Z.mul_1_r in B.
  pose proof fone_pos as F. pose proof fone_big as FB. pose proof (fmag_nonneg x) as Mx. pose proof (fmag_nonneg y) as My.
  assert (PA : 0 < N * fone) by nia. assert (PB : 0 < q * fone) by nia.
  assert (PX : 0 <= fmag x * D) by nia.
  destruct (rel_half _ _ _ (conj Hk1 Hl1) PX (Z.lt_le_incl _ _ PA) A) as [A1 A2].
  destruct (rel_half _ _ _ (conj Hk2 Hl2) My (Z.lt_le_incl _ _ PB) B) as [B1 B2].
  assert (Px : 0 < fmag x) by nia. assert (Py : 0 < fmag y) by lia.
  destruct (rnd_rel (fmag x) (fmag y)) as [R S]; [assumption..| | |].
  - assert (L1 : 2 * (10 * (fmag y * D)) <= 3 * (11 * low * (N * fone))).
    { assert (2 * (fmag y * D) <= 3 * (q * D) * fone) by nia. nia. }
    assert (L2 : 2 * (2 * (10 * (fmag y * D))) <= 3 * (3 * (11 * low * (fmag x * D)))).
    { assert (0 < 11 * low) by (apply Z.mul_pos_pos; [lia|exact low_pos]).
      generalize dependent (11 * low). intros c Hb L1 Hc. assert (3 * (c * (2 * (N * fone))) <= 3 * (c * (3 * (fmag x * D)))) by nia. nia. }
    assert (L3 : 2 * (2 * (10 * fmag y)) <= 3 * (3 * (11 * low * fmag x))).
    { generalize dependent (low). intros c Hb L1 L2. nia. }
    pose proof fone_tiny as T. pose proof ulps_pos as U. generalize dependent (low). intros c Hb L1 L2 L3 T.
    assert (2 * (2 * (10 * (fmag y * ulps))) <= 2 * (2 * (10 * (fmag x * fone)))); [|lia].
    assert (2 * (2 * (10 * fmag y)) * ulps <= 3 * (3 * (11 * c * fmag x)) * ulps) by nia.
    assert (3 * (3 * (11 * ulps * c)) * fmag x <= 2 * (2 * (10 * fone)) * fmag x) by nia. nia.
  - assert (2 * fmag x * D <= 3 * (top * D) * fone) by nia. assert (2 * fmag x <= 3 * top * fone) by nia.
    assert (2 * fone <= q * fone) by (apply Z.mul_le_mono_nonneg_r; lia). assert (fone <= fmag y) by lia.
    assert (0 < top) by (pose proof top_pos; lia). assert (3 * top * fone <= 3 * top * fmag y) by (apply Z.mul_le_mono_nonneg_l; lia). lia.
  - split; [exact R|]. pose proof (fmag_nonneg (rnd (fmag x) (fmag y))) as Mz. set (z := rnd (fmag x) (fmag y)) in *.
    apply (rel_scale _ _ _ (fone * fmag y)); [lia|nia|].
    replace (fmag z * (D * q) * (fone * fmag y)) with (fmag z * fmag y * D * (q * fone)) by ring.
    replace (N * fone * (fone * fmag y)) with (N * fone * fone * fmag y) by ring.
    apply rel_sym in B.
    assert (E : rel (1 + k1) (fmag z * fmag y * D) (N * fone * fone)).
    { assert (0 < fmag x * fone * D) by pos.
      apply (rel_trans 1 k1 _ (fmag x * fone * D)); [lia|lia|pos|pos|pos| |].
      - apply rel_scale; [lia..|]. exact S.
      - replace (fmag x * fone * D) with (fmag x * D * fone) by ring. apply rel_scale; [lia..|]. exact A. }
    replace (k1 + k2 + 1) with (1 + k1 + k2) by ring. apply rel_mul; [lia|lia|pos|pos|pos|pos|assumption|assumption].
Qed.

(** ** The steps of the reader *)
Lemma f_of_Z_about i : 0 < i <= 2 ^ 64 -> about 1 (f_of_Z i) i 1.
Proof.
  intros Hi. destruct (f_of_Z_nearest i ltac:(lia)) as (v & Hv & Hn). pose proof (f_of_Z_range i ltac:(lia)) as Hr.
  pose proof fone_pos as F. pose proof fone_big as FB.
  assert (P : 0 < i * fone) by nia.
  destruct (f_of_Q_value i 1 ltac:(lia) ltac:(lia)) as [(R & Fi & K & HK & He & HB)|[_ H]].
  2: { exfalso. pose proof top_huge as T. pose proof top_pos as TP. rewrite huge_eq in H.
       generalize dependent huge. generalize dependent top. generalize dependent fone. intros. nia. }
  assert (Q64 : f64 (f_of_Q i 1)) by (unfold f64, inf in *; lia).
  assert (S : fscaled (f_of_Q i 1) = Some (fmag (f_of_Q i 1))).
  { unfold fscaled. rewrite Fi. unfold fsign. rewrite (proj2 (Z.leb_gt _ _)) by (unfold inf in R; lia). reflexivity. }
  specialize (Hn _ _ Q64 S). rewrite Z.mul_1_r in He.
  assert (D : 1 * 2 ^ K * ulps <= i * fone).
  { destruct HB as [->|HB]; [rewrite Z.pow_0_r, ulps_val; nia|]. rewrite Z.pow_add_r in HB by lia. change (2 ^ 52) with ulps in HB. nia. }
  assert (C : 2 * ulps * Z.abs (v - i * fone) <= i * fone) by (pose proof ulps_pos; nia).
  assert (V0 : 0 < v). { rewrite ulps_val in C. lia. }
  unfold fscaled in Hv. destruct (is_finite (f_of_Z i)) eqn:Fz; [|discriminate]. pose proof (fmag_nonneg (f_of_Z i)) as M.
  destruct (fsign (f_of_Z i)) eqn:Sg; apply Some_inj in Hv; [lia|]. subst v. split; [now apply pos_finite_lt|].
  rewrite Z.mul_1_r. apply rel_round; [lia..|exact C].
Qed.
Lemma pow10_about n : 0 <= n <= 308 -> about 1 (pow10 n) (10 ^ n) 1.
Proof.
  intros Hn. pose proof (pow10_pos n ltac:(lia)) as P. pose proof (pow10_top n Hn). pose proof fone_big. pose proof fone_pos.
  destruct (rnd_rel (10 ^ n) 1) as [R S]; [lia..|rewrite ulps_val; nia|lia|].
  unfold rnd in R, S. rewrite (proj2 (Z.eqb_neq _ _)) in R, S by lia. split; assumption.
Qed.
Lemma ften_about : about 0 ften 10 1.
Proof.
  unfold ften. destruct (f_of_Z_small 10 ltac:(lia)) as [V R]. split; [exact R|]. rewrite V, Z.mul_1_r. apply rel_refl; [lia|]. pose proof fone_pos. lia.
Qed.
Lemma next_digit_about k x N d : 0 <= k -> k + 2 <= 2 ^ 50 -> 0 < N -> 0 <= d <= 9 -> N * 10 + d <= top ->
  about k x N 1 -> about (k + 2) (next_digit x d) (N * 10 + d) 1.
Proof.
  intros Hk Hk2 HN Hd Ht A. unfold next_digit. replace (k + 2) with (k + 0 + 1 + 1) by lia.
  apply dadd_about; try lia. apply dmul_about; try lia; [exact A|exact ften_about].
Qed.
Lemma digits_about l : Forall is_digit l -> forall k x N, 0 <= k -> k + 2 * zlen l <= 2 ^ 50 -> 0 < N -> N * 10 ^ zlen l + dval l <= top ->
  about k x N 1 -> about (k + 2 * zlen l) (fold_left next_digit l x) (N * 10 ^ zlen l + dval l) 1.
Proof.
  induction 1 as [|d l Hd Hl IH]; intros k x N Hk Hk2 HN Ht A; cbn [fold_left].
  - rewrite zlen_nil in *. change (dval []) with 0. rewrite Z.pow_0_r. now rewrite Z.mul_1_r, !Z.add_0_r.
  - pose proof (zlen_nonneg l) as Z0. rewrite zlen_cons in *. rewrite dval_cons in *. rewrite Z.pow_add_r in * by lia. rewrite Z.pow_1_r in *.
    unfold is_digit in Hd. pose proof (dval_range l Hl). pose proof (pow10_pos (zlen l) Z0).
    replace (N * (10 * 10 ^ zlen l) + (d * 10 ^ zlen l + dval l)) with ((N * 10 + d) * 10 ^ zlen l + dval l) in * by ring.
    replace (N * (10 ^ zlen l * 10) + (d * 10 ^ zlen l + dval l)) with ((N * 10 + d) * 10 ^ zlen l + dval l) in * by ring.
    replace (k + 2 * (1 + zlen l)) with (k + 2 + 2 * zlen l) in * by ring. replace (k + 2 * (zlen l + 1)) with (k + 2 + 2 * zlen l) in * by ring.
    apply IH; try lia. apply next_digit_about; try lia; [|exact A]. nia.
Qed.

(** ** The digits of a number *)
Lemma about_pos k x N D : 0 <= k -> 0 < N -> about k x N D -> 0 < x.
Proof.
  intros Hk HN [[H _] [_ A]]. destruct (Z.eq_dec x 0) as [->|]; [exfalso|lia]. change (fmag 0) with 0 in A. rewrite !Z.mul_0_l in A.
  pose proof fone_pos. pose proof (up_pos k Hk). assert (0 < N * fone * ulps ^ k) by pos. lia.
Qed.
Lemma fint_run_spec l : Forall is_digit l -> forall i ef sd i' ef' sd' l', fint_run i ef sd l = (i', ef', sd', l') ->
  0 <= i < 2 ^ 64 -> i < 10 ^ (sd + 1) -> 0 <= sd ->
  exists l1, l = l1 ++ l' /\ i' = i * 10 ^ zlen l1 + dval l1 /\ ef' = ef - zlen l1 /\ (l' = [] \/ 2 ^ 53 <= i') /\
    0 <= i' < 2 ^ 64 /\ i' < 10 ^ (sd' + 1) /\ 0 <= sd'.
Proof.
  induction 1 as [|d l Hd Hl IH]; cbn [fint_run]; intros i ef sd i' ef' sd' l' E Hi Hs H0.
  - injection E as <- <- <- <-. exists []. rewrite zlen_nil. change (dval []) with 0. rewrite Z.pow_0_r. split; [reflexivity|]. split; [lia|]. split; [lia|].
    split; [now left|]. auto.
  - destruct (Z.ltb_spec 0x1FFFFFFFFFFFFF i) as [L|L].
    + injection E as <- <- <- <-. exists []. rewrite zlen_nil. change (dval []) with 0. rewrite Z.pow_0_r. split; [reflexivity|]. split; [lia|]. split; [lia|].
      split; [right; lia|]. auto.
    + unfold is_digit in Hd. apply IH in E; [|lia| |].
      * destruct E as (l1 & -> & -> & -> & Hl' & R & S & T). exists (d :: l1). pose proof (zlen_nonneg l1).
        rewrite zlen_cons, dval_cons, Z.pow_add_r by lia. rewrite Z.pow_1_r. split; [reflexivity|]. split; [ring|]. split; [lia|]. auto.
      * destruct (Z.eqb_spec (i * 10 + d) 0) as [->|N]; [apply pow10_pos; lia|].
        replace (sd + 1 + 1) with (Z.succ (sd + 1)) by lia. rewrite Z.pow_succ_r by lia. lia.
      * destruct (i * 10 + d =? 0); lia.
Qed.
Lemma fdbl_run_stop l x ef sd : 17 <= sd -> fdbl_run l x ef sd = (x, ef).
Proof. intros H. induction l as [|d l IH]; [reflexivity|]. cbn [fdbl_run]. now rewrite (proj2 (Z.ltb_ge _ _)) by lia. Qed.
Lemma fdbl_run_about l : Forall is_digit l -> forall k x ef sd N x' ef', fdbl_run l x ef sd = (x', ef') ->
  0 <= k -> 0 <= sd -> k + 2 * Z.max 0 (17 - sd) <= 2 ^ 50 -> 0 < N -> (N + 1) * 10 ^ Z.max 0 (17 - sd) <= top -> about k x N 1 ->
  exists l1 l2, l = l1 ++ l2 /\ ef' = ef - zlen l1 /\ zlen l1 <= Z.max 0 (17 - sd) /\
    about (k + 2 * zlen l1) x' (N * 10 ^ zlen l1 + dval l1) 1.
Proof.
  induction 1 as [|d l Hd Hl IH]; cbn [fdbl_run]; intros k x ef sd N x' ef' E Hk Hs Hk2 HN Ht A.
  - injection E as <- <-. exists [], []. rewrite zlen_nil. change (dval []) with 0. rewrite Z.pow_0_r. split; [reflexivity|]. split; [lia|]. split; [lia|].
    now rewrite Z.mul_1_r, Z.mul_0_r, !Z.add_0_r.
  - destruct (Z.ltb_spec sd 17) as [L|L].
    + unfold is_digit in Hd. assert (P : 0 < 10 ^ Z.max 0 (17 - (sd + 1))) by (apply pow10_pos; lia).
      assert (T : (N * 10 + d + 1) * 10 ^ Z.max 0 (17 - (sd + 1)) <= top).
      { replace (Z.max 0 (17 - sd)) with (Z.succ (Z.max 0 (17 - (sd + 1)))) in Ht by lia. rewrite Z.pow_succ_r in Ht by lia. nia. }
      assert (B : about (k + 2) (next_digit x d) (N * 10 + d) 1) by (apply next_digit_about; try lia; [nia|exact A]).
      pose proof (about_pos (k + 2) _ (N * 10 + d) 1 ltac:(lia) ltac:(lia) B) as XP. rewrite (proj2 (Z.ltb_lt _ _)) in E by exact XP.
      destruct (IH (k + 2) _ _ _ (N * 10 + d) _ _ E) as (l1 & l2 & -> & -> & Hl1 & C); try lia; [exact B|].
      exists (d :: l1), l2. pose proof (zlen_nonneg l1). rewrite zlen_cons, dval_cons, Z.pow_add_r by lia. rewrite Z.pow_1_r. split; [reflexivity|]. split; [lia|]. split; [lia|].
      replace (k + 2 * (1 + zlen l1)) with (k + 2 + 2 * zlen l1) by ring. replace (k + 2 * (zlen l1 + 1)) with (k + 2 + 2 * zlen l1) by ring.
      replace (N * (10 * 10 ^ zlen l1) + (d * 10 ^ zlen l1 + dval l1)) with ((N * 10 + d) * 10 ^ zlen l1 + dval l1) by ring.
      replace (N * (10 ^ zlen l1 * 10) + (d * 10 ^ zlen l1 + dval l1)) with ((N * 10 + d) * 10 ^ zlen l1 + dval l1) by ring. exact C.
    + rewrite fdbl_run_stop in E by assumption. injection E as <- <-. exists [], (d :: l). rewrite zlen_nil. change (dval []) with 0. rewrite Z.pow_0_r.
      split; [reflexivity|]. split; [lia|]. split; [lia|]. now rewrite Z.mul_1_r, Z.mul_0_r, !Z.add_0_r.
Qed.

Lemma int_part_pos l : int_part l -> 0 < zlen l.
Proof. intros [->|(d & r & -> & _)]; rewrite zlen_cons; [pose proof (zlen_nonneg (@nil Z))|pose proof (zlen_nonneg r)]; lia. Qed.

(** The number read before the power of ten: [c] digits of the fraction are used. *)
Record sig (l : list Z) (lf : option (list Z)) (X ef N c : Z) : Prop := Sig {
  sig_ef : ef = - c;
  sig_c : 0 <= c <= zlen (fd lf);
  sig_lo : N * 10 ^ (zlen (fd lf) - c) <= dval (l ++ fd lf);
  sig_hi : dval (l ++ fd lf) < (N + 1) * 10 ^ (zlen (fd lf) - c);
  sig_all : c = zlen (fd lf) \/ ulps <= N;
  sig_top : 0 <= N <= top;
  sig_zero : N = 0 -> X = 0;
  sig_about : 0 < N -> about (Z.max 5 (2 * zlen l - 35)) X N 1 }.

Lemma sig_res neg l lf i sd big x dbl x1 ef : Forall is_digit l -> int_part l -> Forall is_digit (fd lf) -> zlen l <= 308 ->
  int_res neg l = (i, sd, big, x) -> frac_res i sd big x lf = (dbl, x1, ef) ->
  exists N c, sig l lf (if dbl then x1 else f_of_Z i) ef N c.
Proof.
  intros Hl Hi Hf Hz Ei Ef. pose proof (dval_range l Hl) as Rl. pose proof (pow10_top (zlen l) ltac:(pose proof (zlen_nonneg l); lia)) as Tl.
  assert (Ml : maxi neg < 2 ^ 64) by (destruct neg; reflexivity). assert (Mg : 2 ^ 63 <= maxi neg) by (destruct neg; vm_compute; discriminate).
  pose proof top_pos as TP. pose proof ulps_val as UV.
  assert (Ex : forall N, N = dval l -> lf = None -> N * 10 ^ (zlen (fd lf) - 0) = N /\ dval (l ++ fd lf) = N).
  { intros N -> ->. cbn [fd]. rewrite (@zlen_nil Z), app_nil_r. change (0 - 0) with 0. rewrite Z.pow_0_r. lia. }
  destruct (int_res_spec _ _ _ _ _ _ Hl Hi Ei) as [(-> & -> & -> & _ & Hm)|(-> & l1 & l2 & El & -> & -> & -> & Hm & Hi2)].
  - destruct lf as [lf|]; cbn [frac_res fd] in *.
    + destruct (fint_run (dval l) 0 (zlen l - 1) lf) as [[[i' ef1] sd'] l'] eqn:E1.
      pose proof (int_part_pos l Hi) as Zl.
      destruct (fint_run_spec _ Hf _ _ _ _ _ _ _ E1) as (p1 & -> & Ei' & -> & Hl' & Ri & Si & S0); [lia|replace (zlen l - 1 + 1) with (zlen l) by lia; lia|lia|].
      apply Forall_app in Hf. destruct Hf as [Hp1 Hfl'].
      destruct (fdbl_run l' (f_of_Z i') (0 - zlen p1) sd') as [x2 ef2] eqn:E2. injection Ef as <- <- <-.
      destruct Hl' as [->|Hbig].
      * cbn [fdbl_run] in E2. injection E2 as <- <-. rewrite app_nil_r in *. exists i', (zlen p1). pose proof (zlen_nonneg p1).
        assert (Em : dval (l ++ p1) = i') by (rewrite dval_app; lia).
        constructor; cbn [fd]; rewrite ?Em, ?Z.sub_diag, ?Z.pow_0_r; try lia.
        -- intros ->. reflexivity.
        -- intros HN. pose proof (f_of_Z_about i' ltac:(lia)) as [A B]. split; [exact A|]. revert B. pose proof fone_pos. pose proof (fmag_nonneg (f_of_Z i')).
           apply rel_mono; pos.
      * assert (S15 : 15 <= sd').
        { destruct (Z.le_gt_cases 15 sd') as [?|G]; [assumption|exfalso]. pose proof (Z.pow_le_mono_r 10 (sd' + 1) 15 ltac:(lia) ltac:(lia)). lia. }
        assert (Pw : 10 ^ Z.max 0 (17 - sd') <= 10 ^ 2) by (apply Z.pow_le_mono_r; lia).
        assert (Pw0 : 0 < 10 ^ Z.max 0 (17 - sd')) by (apply pow10_pos; lia).
        destruct (fdbl_run_about _ Hfl' 1 _ _ _ i' _ _ E2) as (q1 & q2 & -> & -> & Hq & A); try lia; [nia|apply f_of_Z_about; lia|].
        pose proof (zlen_nonneg p1). pose proof (zlen_nonneg q1). pose proof (zlen_nonneg q2). apply Forall_app in Hfl'. destruct Hfl' as [Hq1 Hq2].
        pose proof (dval_range q1 Hq1) as Rq1. pose proof (dval_range q2 Hq2) as Rq2. pose proof (pow10_pos (zlen q1) ltac:(lia)) as Pq1. pose proof (pow10_pos (zlen q2) ltac:(lia)) as Pq2.
        set (N := i' * 10 ^ zlen q1 + dval q1) in *.
        exists N, (zlen p1 + zlen q1).
        assert (Em : dval (l ++ p1 ++ q1 ++ q2) = N * 10 ^ zlen q2 + dval q2).
        { rewrite !dval_app, !zlen_app, !Z.pow_add_r by lia. unfold N. rewrite Ei'. ring. }
        assert (Pq2' : 10 ^ zlen q1 <= 10 ^ 2) by (apply Z.pow_le_mono_r; lia).
        assert (NB : i' <= N <= (2 ^ 64 + 1) * 10 ^ 2).
        { unfold N. clear - Rq1 Pq1 Pq2' Ri. generalize dependent (10 ^ zlen q1). intros z. change (10 ^ 2) with 100. intros. split; nia. }
        constructor; cbn [fd]; rewrite ?zlen_app; replace (zlen p1 + (zlen q1 + zlen q2) - (zlen p1 + zlen q1)) with (zlen q2) by lia; rewrite ?Em; try lia.
        -- intros _. destruct A as [A B]. split; [exact A|]. revert B. pose proof fone_pos. pose proof (fmag_nonneg x2). apply rel_mono; pos.
    + injection Ef as <- <- <-. exists (dval l), 0. destruct (Ex (dval l) eq_refl eq_refl) as [E1 E2]. cbn [fd] in E1, E2.
      constructor; cbn [fd]; rewrite ?(@zlen_nil Z), ?E2; change (0 - 0) with 0; rewrite ?Z.pow_0_r; try lia.
      * intros ->. reflexivity.
      * intros HN. pose proof (f_of_Z_about (dval l) ltac:(lia)) as [A B]. split; [exact A|]. revert B. pose proof fone_pos. pose proof (fmag_nonneg (f_of_Z (dval l))).
        apply rel_mono; pos.
  - assert (El2 : l = l1 ++ l2) by exact El. rewrite El2 in Hl. apply Forall_app in Hl. destruct Hl as [Hl1 Hl2].
    pose proof (dval_range l1 Hl1) as R1. pose proof (dval_range l2 Hl2) as R2. pose proof (zlen_nonneg l1). pose proof (zlen_nonneg l2).
    assert (Z18 : 18 <= zlen l1).
    { destruct (Z.le_gt_cases 18 (zlen l1)) as [?|G]; [assumption|exfalso]. pose proof (Z.pow_le_mono_r 10 (zlen l1) 17 ltac:(lia) ltac:(lia)). lia. }
    assert (Zs : zlen l = zlen l1 + zlen l2) by (rewrite El2; apply zlen_app).
    assert (Ev : dval l = dval l1 * 10 ^ zlen l2 + dval l2) by (rewrite El2; apply dval_app).
    assert (A : about (1 + 2 * zlen l2) (fold_left next_digit l2 (f_of_Z (dval l1))) (dval l) 1).
    { rewrite Ev. apply digits_about; try assumption; try lia. apply f_of_Z_about. lia. }
    assert (A' : about (Z.max 5 (2 * zlen l - 35)) (fold_left next_digit l2 (f_of_Z (dval l1))) (dval l) 1).
    { destruct A as [A B]. split; [exact A|]. revert B. pose proof fone_pos. pose proof (fmag_nonneg (fold_left next_digit l2 (f_of_Z (dval l1)))). apply rel_mono; pos. }
    destruct lf as [lf|]; cbn [frac_res fd] in *.
    + rewrite fdbl_run_stop in Ef by lia. injection Ef as <- <- <-. exists (dval l), 0. pose proof (zlen_nonneg lf).
      pose proof (dval_range lf Hf) as Rf. pose proof (pow10_pos (zlen lf) ltac:(lia)).
      constructor; cbn [fd]; rewrite ?Z.sub_0_r, ?dval_app; try lia. intros _. exact A'.
    + injection Ef as <- <- <-. exists (dval l), 0. destruct (Ex (dval l) eq_refl eq_refl) as [E1 E2]. cbn [fd] in E1, E2.
      constructor; cbn [fd]; rewrite ?(@zlen_nil Z), ?E2; change (0 - 0) with 0; rewrite ?Z.pow_0_r; try lia. intros _. exact A'.
Qed.
