(** Property C40: compare_content. *)
From Coq Require Import ZArith Bool Lia Ascii String List.
From Verif Require Import Base F64 StrMap Value WfDec MBasic MMat Props_mat SCollapse MCompare SCompare.
Import ListNotations.
Local Open Scope Z_scope.

Lemma feq_iff x y : feq x y = true <-> same_real x y.
Proof.
  unfold feq, same_real. destruct (fscaled x) as [a|] eqn:Ex, (fscaled y) as [b|] eqn:Ey.
  - rewrite Z.eqb_eq. split.
    + intros ->. left. eauto.
    + intros [(v & H1 & H2)|[H _]].
      * congruence.
      * unfold is_inf in H. unfold fscaled, is_finite in Ex. apply andb_true_iff in H as [H _]. rewrite H in Ex. discriminate.
  - split; [discriminate|]. intros [(v & H1 & H2)|[H1 H2]]; congruence.
  - split; [discriminate|]. intros [(v & H1 & H2)|[H1 H2]]; congruence.
  - rewrite andb_true_iff, Z.eqb_eq. split; [tauto|]. intros [(v & H1 & H2)|H]; [discriminate|assumption].
Qed.
Lemma ceq_iff x y : ceq x y = true <-> same_cplx x y.
Proof. unfold ceq, same_cplx. now rewrite andb_true_iff, !feq_iff. Qed.

Lemma fmag_zero x : f64 x -> fmag x = 0 -> x = 0 \/ x = 2^63.
Proof.
  intros Hx H. pose proof (fman_range x). pose proof (fexp_range x). rewrite (fpack_eta x Hx).
  unfold fmag in H. destruct (Z.eqb_spec (fexp x) 0) as [E|E].
  - rewrite E, H. unfold fpack. destruct (fsign x); auto.
  - exfalso. assert (0 < 2^(fexp x - 1)) by (apply Z.pow_pos_nonneg; lia). nia.
Qed.
Lemma fmag_log x : fexp x <> 0 -> 2^52 * 2^(fexp x - 1) <= fmag x < 2^53 * 2^(fexp x - 1).
Proof.
  intros E. pose proof (fman_range x). pose proof (fexp_range x). unfold fmag.
  destruct (Z.eqb_spec (fexp x) 0) as [E'|E']; [lia|].
  assert (0 < 2^(fexp x - 1)) by (apply Z.pow_pos_nonneg; lia). nia.
Qed.
Lemma fmag_inj x y : fmag x = fmag y -> fexp x = fexp y /\ fman x = fman y.
Proof.
  intros H. pose proof (fman_range x). pose proof (fexp_range x). pose proof (fman_range y). pose proof (fexp_range y).
  destruct (Z.eq_dec (fexp x) 0) as [Ex|Ex], (Z.eq_dec (fexp y) 0) as [Ey|Ey].
  - unfold fmag in H. rewrite Ex, Ey in H. cbn in H. lia.
  - pose proof (fmag_log y Ey). unfold fmag in H at 1. rewrite Ex in H. cbn [Z.eqb] in H.
    assert (0 < 2^(fexp y - 1)) by (apply Z.pow_pos_nonneg; lia). nia.
  - pose proof (fmag_log x Ex). unfold fmag in H at 2. rewrite Ey in H. cbn [Z.eqb] in H.
    assert (0 < 2^(fexp x - 1)) by (apply Z.pow_pos_nonneg; lia). nia.
  - assert (E : fexp x = fexp y).
    { pose proof (fmag_log x Ex). pose proof (fmag_log y Ey). rewrite H in *.
      assert (0 < 2^(fexp y - 1)) by (apply Z.pow_pos_nonneg; lia).
      assert (0 < 2^(fexp x - 1)) by (apply Z.pow_pos_nonneg; lia).
      destruct (Z.lt_trichotomy (fexp x) (fexp y)) as [L|[L|L]]; [|assumption|]; exfalso.
      - assert (2 * 2^(fexp x - 1) <= 2^(fexp y - 1)).
        { rewrite <- (Z.pow_succ_r 2 (fexp x - 1)) by lia. apply Z.pow_le_mono_r; lia. } lia.
      - assert (2 * 2^(fexp y - 1) <= 2^(fexp x - 1)).
        { rewrite <- (Z.pow_succ_r 2 (fexp y - 1)) by lia. apply Z.pow_le_mono_r; lia. } lia. }
    split; [assumption|]. unfold fmag in H. rewrite <- E in H.
    destruct (Z.eqb_spec (fexp x) 0); [lia|].
    assert (0 < 2^(fexp x - 1)) by (apply Z.pow_pos_nonneg; lia). nia.
Qed.
(** Equal numbers have equal bits, except the two zeros. *)
Lemma same_real_bits x y : f64 x -> f64 y -> same_real x y -> x <> 2^63 -> y <> 2^63 -> x = y.
Proof.
  intros Hx Hy [(v & H1 & H2)|[_ H]]; [|intros; assumption]. intros Nx Ny.
  pose proof (fscaled_abs _ _ H1). pose proof (fscaled_abs _ _ H2).
  destruct (fmag_inj x y ltac:(congruence)) as [Ee Em].
  destruct (Z.eq_dec (fmag x) 0) as [Z0|Z0].
  - destruct (fmag_zero x Hx Z0), (fmag_zero y Hy ltac:(congruence)); congruence.
  - rewrite (fpack_eta x Hx), (fpack_eta y Hy), Ee, Em. f_equal.
    unfold fscaled in H1, H2. destruct (is_finite x), (is_finite y); try discriminate.
    apply Some_inj in H1. apply Some_inj in H2. pose proof (fmag_nonneg x).
    destruct (fsign x), (fsign y); auto; lia.
Qed.
Lemma same_real_refl x : is_nan x = false -> same_real x x.
Proof.
  intros H. unfold same_real. destruct (fscaled x) eqn:E; [left; eauto|]. right. split; [|reflexivity].
  unfold fscaled, is_finite in E. unfold is_nan in H. unfold is_inf.
  destruct (fexp x =? 2047); [|discriminate]. cbn in *. now destruct (fman x =? 0).
Qed.

(** ** Vectors and matrices *)
Section Elems.
Context {A : Type} (eqb : A -> A -> bool) (P : A -> A -> Prop).
Hypothesis Heq : forall a b, eqb a b = true <-> P a b.

Lemma cmp_vec_sound a b : compare_vector eqb a b = Ok [] -> Forall2 P a b.
Proof.
  unfold compare_vector. destruct (Z.eqb_spec (zlen a) (zlen b)) as [E|E]; [|discriminate].
  destruct a, b; cbn in *; try (now intros; constructor).
  - unfold zlen in E. discriminate.
  - unfold zlen in E. discriminate.
  - destruct (eqb _ _); discriminate.
Qed.
Lemma cmp_vec_complete a b : Forall2 P a b -> compare_vector eqb a b = Ok [] \/ compare_vector eqb a b = Diverge.
Proof.
  intros H. unfold compare_vector. assert (E : zlen a = zlen b) by (induction H; rewrite ?zlen_cons; lia).
  rewrite E, Z.eqb_refl. destruct H as [|x y ? ? Hx]; [now left|]. right. apply Heq in Hx. now rewrite Hx.
Qed.
Lemma cmp_vec_throw a b : compare_vector eqb a b <> Throw /\ compare_vector eqb a b <> Undef.
Proof.
  unfold compare_vector. destruct (_ =? _); [|split; discriminate]. destruct a, b; try (split; discriminate).
  destruct (eqb _ _); split; discriminate.
Qed.

Lemma cmp_row_ok (a b : mat A) i js : mat_ok a -> mat_ok b -> mrows a = mrows b -> mcols a = mcols b ->
  0 <= i < mrows a -> Forall (fun j => 0 <= j < mcols a) js ->
  exists r, cmp_row eqb a b i js = Ok r /\
    (r = [] <-> forall j, In j js -> exists x y, entry a i j = Some x /\ entry b i j = Some y /\ P x y).
Proof.
  intros Ha Hb Er Ec Hi. induction js as [|j js IH]; intros Hj.
  - exists []. split; [reflexivity|]. split; [now intros _ j [] | reflexivity].
  - inversion Hj as [|? ? Hj1 Hj2]; subst. cbn [cmp_row].
    destruct (C30_read A a i j Ha Hi Hj1) as (x & Ex & ->).
    destruct (C30_read A b i j Hb ltac:(lia) ltac:(lia)) as (y & Ey & ->). cbn [bind].
    destruct (eqb x y) eqn:Exy; cbn [negb].
    + destruct (IH Hj2) as (r & -> & Hr). exists r. split; [reflexivity|]. rewrite Hr. split.
      * intros H j' [<-|Hin]; [|auto]. exists x, y. rewrite Heq in Exy. auto.
      * intros H j' Hin. apply H. now right.
    + exists [RAtM i j]. split; [reflexivity|]. split; [discriminate|]. intros H. exfalso.
      destruct (H j (or_introl eq_refl)) as (x' & y' & E1 & E2 & Hp).
      rewrite Ex in E1. rewrite Ey in E2. injection E1 as <-. injection E2 as <-. apply Heq in Hp. congruence.
Qed.
Lemma cmp_rows_ok (a b : mat A) is_ : mat_ok a -> mat_ok b -> mrows a = mrows b -> mcols a = mcols b ->
  Forall (fun i => 0 <= i < mrows a) is_ ->
  exists r, cmp_rows eqb a b is_ = Ok r /\
    (r = [] <-> forall i j, In i is_ -> In j (zseq (mcols a)) -> exists x y, entry a i j = Some x /\ entry b i j = Some y /\ P x y).
Proof.
  intros Ha Hb Er Ec. induction is_ as [|i is_ IH]; intros Hi.
  - exists []. split; [reflexivity|]. split; [now intros _ i j [] | reflexivity].
  - inversion Hi as [|? ? Hi1 Hi2]; subst. cbn [cmp_rows].
    destruct (cmp_row_ok a b i (zseq (mcols a)) Ha Hb Er Ec Hi1) as (r & -> & Hr).
    { apply Forall_forall. intros j Hj. unfold zseq in Hj. apply in_map_iff in Hj as (n & <- & Hn). apply in_seq in Hn. lia. }
    destruct (IH Hi2) as (rs & -> & Hrs). cbn [bind]. exists (r ++ rs). split; [reflexivity|]. split.
    + intros E. apply app_eq_nil in E as [-> ->]. intros i' j [<-|Hin] Hj; [apply Hr; auto|apply Hrs; auto].
    + intros H. assert (r = []) as -> by (apply Hr; intros j Hj; apply H; [now left|assumption]).
      apply Hrs. intros i' j Hin Hj. apply H; [now right|assumption].
Qed.
Lemma in_zseq n k : In k (zseq n) <-> 0 <= k < n.
Proof.
  unfold zseq. rewrite in_map_iff. split.
  - intros (x & <- & Hx). apply in_seq in Hx. lia.
  - intros H. exists (Z.to_nat k). split; [lia|]. apply in_seq. lia.
Qed.
Lemma entries_all (a b : mat A) : mat_ok a -> mat_ok b -> mrows a = mrows b -> mcols a = mcols b ->
  (Forall2 P (mdata a) (mdata b) <->
   forall i j, 0 <= i < mrows a -> 0 <= j < mcols a -> exists x y, entry a i j = Some x /\ entry b i j = Some y /\ P x y).
Proof.
  intros Ha Hb Er Ec. split.
  - intros H i j Hi Hj. destruct (C30_read A a i j Ha Hi Hj) as (x & Ex & _).
    destruct (C30_read A b i j Hb ltac:(lia) ltac:(lia)) as (y & Ey & _). exists x, y. split; [assumption|]. split; [assumption|].
    unfold entry in *. rewrite Er in Ex. revert Ex Ey. generalize (Z.to_nat (i + j * mrows b)).
    clear -H. induction H as [|p q l l' Hpq H IH]; intros [|n]; cbn; intros E1 E2; try discriminate; [congruence|eauto].
  - intros H. destruct Ha as (A1 & A2 & A3 & A4), Hb as (B1 & B2 & B3 & B4).
    assert (L : length (mdata a) = length (mdata b)) by (unfold zlen in *; rewrite Er, Ec in A4; lia).
    assert (G : forall n x y, nth_error (mdata a) n = Some x -> nth_error (mdata b) n = Some y -> P x y).
    { intros n x y Ex Ey. assert (Hn : Z.of_nat n < mrows a * mcols a).
      { assert (n < length (mdata a))%nat by (apply nth_error_Some; congruence). unfold zlen in A4. lia. }
      assert (R : 0 < mrows a) by nia.
      pose proof (Z.div_mod (Z.of_nat n) (mrows a) ltac:(lia)) as D. pose proof (Z.mod_pos_bound (Z.of_nat n) (mrows a) R) as M.
      assert (Q : 0 <= Z.of_nat n / mrows a < mcols a) by nia.
      destruct (H (Z.of_nat n mod mrows a) (Z.of_nat n / mrows a) M Q) as (x' & y' & E1 & E2 & Hp).
      unfold entry in E1, E2. rewrite <- Er in E2.
      replace (Z.to_nat (Z.of_nat n mod mrows a + Z.of_nat n / mrows a * mrows a)) with n in E1, E2 by nia. congruence. }
    clear -L G. revert L G. generalize (mdata b). induction (mdata a) as [|x l IH]; intros [|y l'] L G; try discriminate; [constructor|].
    constructor; [apply (G O); reflexivity|]. apply IH; [now injection L|]. intros n. apply (G (S n)).
Qed.
Lemma cmp_mat_ok (a b : mat A) : mat_ok a -> mat_ok b ->
  exists r, compare_matrix eqb a b = Ok r /\ (r = [] <-> same_mat P a b).
Proof.
  intros Ha Hb. unfold compare_matrix, same_mat.
  destruct (Z.eqb_spec (mrows a) (mrows b)) as [Er|Er]; cbn [andb];
    [destruct (Z.eqb_spec (mcols a) (mcols b)) as [Ec|Ec]|].
  - destruct (cmp_rows_ok a b (zseq (mrows a)) Ha Hb Er Ec) as (r & -> & Hr).
    { apply Forall_forall. intros i. now rewrite in_zseq. }
    exists r. split; [reflexivity|]. rewrite Hr, (entries_all a b Ha Hb Er Ec).
    split; [intros H; split; [assumption|]; split; [assumption|]|intros (_ & _ & H)]; intros i j Hi Hj; apply H;
      rewrite ?in_zseq in *; assumption.
  - eexists. split; [reflexivity|]. split; [discriminate|]. intros (_ & H & _). contradiction.
  - eexists. split; [reflexivity|]. split; [discriminate|]. intros (H & _). contradiction.
Qed.
End Elems.

Lemma zeq_iff a b : (a =? b) = true <-> a = b.
Proof. apply Z.eqb_eq. Qed.
Lemma Forall2_eq_iff {A} (l l' : list A) : Forall2 eq l l' <-> l = l'.
Proof. split; [induction 1; congruence|]. intros <-. induction l; constructor; auto. Qed.
Lemma same_mat_eq {A} (a b : mat A) : same_mat eq a b <-> a = b.
Proof.
  unfold same_mat. rewrite Forall2_eq_iff. destruct a, b; cbn. split; [intros (-> & -> & ->); reflexivity|].
  intros H; injection H; auto.
Qed.
Lemma say_nil c r : say c r = [] <-> c = true.
Proof. unfold say. destruct c; split; congruence. Qed.
Lemma Ok_nil_say c r : Ok (say c r) = Ok [] <-> c = true.
Proof. rewrite <- (say_nil c r). split; [apply Ok_inj|congruence]. Qed.

Lemma tag_eqb_refl t : tag_eqb t t = true.
Proof. unfold tag_eqb. destruct (tag_dec t t); congruence. Qed.

(** The two loops over children. *)
Definition cmp_list (hard : bool) := fix go (i : Z) (v w : list gc) {struct v} : out (list report) :=
  match v, w with
  | x :: v', y :: w' =>
      do r <- compare_content hard x y ;
      match r with [] => go (i + 1) v' w' | _ => Ok [RPos i r] end
  | _, _ => Ok []
  end.
Definition cmp_entries (hard : bool) := fix go (m n : list (string * gc)) {struct m} : out (list report) :=
  match m, n with
  | (k, x) :: m', (k', y) :: n' =>
      if String.eqb k k' then
        do r <- compare_content hard x y ;
        match r with [] => go m' n' | _ => Ok [RKey k r] end
      else Ok [RKeys k k']
  | _, _ => Ok []
  end.
Lemma compare_vec hard v w : compare_content hard (GVec v) (GVec w) =
  if zlen v =? zlen w then cmp_list hard 0 v w else Ok [RSize (zlen v) (zlen w)].
Proof. reflexivity. Qed.
Lemma compare_map hard m n : compare_content hard (GMap m) (GMap n) =
  if zlen m =? zlen n then cmp_entries hard m n else Ok [RSize (zlen m) (zlen n)].
Proof. reflexivity. Qed.

Lemma mats_here {A} (Q : A -> Prop) (m : mat A) : wf_mat Q m -> mrows m * mcols m < 2^32 -> mat_ok m.
Proof. apply wf_mat_ok. Qed.

(** What one comparison can do. *)
Definition right (g h : gc) (o : out (list report)) : Prop :=
  match o with
  | Ok r => (r = [] -> same g h) /\ (no_neg_zero g -> no_neg_zero h -> same g h -> r = [])
  | Throw => False
  | Undef => False
  | Diverge => ~ no_typed_vector g
  end.

Lemma Forall2_zlen {A B} (P : A -> B -> Prop) l l' : Forall2 P l l' -> zlen l = zlen l'.
Proof. induction 1; [reflexivity|]; rewrite ?zlen_cons; lia. Qed.

Lemma vec_right {A} (eqb : A -> A -> bool) (P : A -> A -> Prop) (mk : list A -> gc) a b :
  (forall a b, eqb a b = true <-> P a b) -> (forall a b, same (mk a) (mk b) <-> Forall2 P a b) ->
  (a <> [] -> ~ no_typed_vector (mk a)) ->
  right (mk a) (mk b) (compare_vector eqb a b).
Proof.
  intros Heq Hs Ht. unfold right. pose proof (cmp_vec_sound eqb P a b) as S.
  pose proof (cmp_vec_complete eqb P Heq a b) as C.
  assert (E : compare_vector eqb a b = Diverge -> a <> []).
  { intros E ->. unfold compare_vector in E. destruct (zlen (@nil A) =? zlen b); [destruct b|]; discriminate. }
  destruct (cmp_vec_throw eqb a b) as [N1 N2].
  destruct (compare_vector eqb a b) as [r| | |]; [|congruence|congruence|auto].
  rewrite Hs. split.
  - intros ->. now apply S.
  - intros _ _ H. destruct (C H) as [K|K]; [now apply Ok_inj in K|discriminate].
Qed.
Lemma mat_right {A} (eqb : A -> A -> bool) (P : A -> A -> Prop) (mk : mat A -> gc) a b :
  (forall a b, eqb a b = true <-> P a b) -> (forall a b, same (mk a) (mk b) <-> same_mat P a b) ->
  mat_ok a -> mat_ok b -> right (mk a) (mk b) (compare_matrix eqb a b).
Proof.
  intros Heq Hs Ha Hb. destruct (cmp_mat_ok eqb P Heq a b Ha Hb) as (r & -> & Hr). cbn. rewrite Hs. tauto.
Qed.

Lemma compare_right g : forall h, wf g -> wf h -> small_mats g -> small_mats h ->
  right g h (compare_content false g h).
Proof.
  induction g as [g Hv Hm | v IH | m IH] using gc_nest_ind; intros h Wg Wh Mg Mh.
  - destruct (tag_dec (tag_of g) (tag_of h)) as [E|E].
    2:{ assert (Q : compare_content false g h = Ok [RType (tag_of g) (tag_of h)]).
        { destruct g; cbn [compare_content]; unfold tag_eqb; destruct (tag_dec _ _); try contradiction; reflexivity. }
        rewrite Q. cbn [right]. split; [discriminate|]. intros _ _ S. exfalso. apply E. destruct S; reflexivity. }
    destruct g, h; try discriminate E; try nested_contra Hv Hm; clear E; cbn [compare_content tag_of]; rewrite tag_eqb_refl; cbn [negb];
      apply everywhere_here in Mg; apply everywhere_here in Mh.
    + cbn. split; [intros _; constructor|reflexivity].
    + cbn [right]. rewrite say_nil, zeq_iff. split; [intros ->; constructor|]. intros _ _ S. inversion S; reflexivity.
    + cbn [right]. rewrite say_nil, Bool.eqb_true_iff. split; [intros ->; constructor|]. intros _ _ S. inversion S; reflexivity.
    + cbn [right]. rewrite say_nil, zeq_iff. split; [intros ->; constructor|]. intros _ _ S. inversion S; reflexivity.
    + cbn [right]. rewrite say_nil, zeq_iff. split; [intros ->; constructor|]. intros _ _ S. inversion S; reflexivity.
    + cbn [right]. split.
      * intros E. apply app_eq_nil in E as [E1 E2]. rewrite say_nil, feq_iff in E1. now constructor.
      * intros N1 N2 S.
        match type of S with same (GReal ?x) (GReal ?y) => rename x into p, y into q end.
        assert (Hxy : same_real p q) by (inversion S; assumption).
        assert (p = q) as ->.
        { apply everywhere_here in N1. apply everywhere_here in N2. apply same_real_bits; auto; congruence. }
        apply feq_iff in Hxy. rewrite Hxy, Z.eqb_refl. reflexivity.
    + cbn [right]. rewrite say_nil, ceq_iff. split; [now constructor|]. intros _ _ S. inversion S; assumption.
    + cbn [right]. rewrite say_nil, String.eqb_eq. split; [intros ->; constructor|]. intros _ _ S. inversion S; reflexivity.
    + apply (vec_right Z.eqb eq GVPtr); [apply Z.eqb_eq| |].
      * intros a b. rewrite Forall2_eq_iff. split; [intros S; now inversion S|intros ->; constructor].
      * intros N T. apply everywhere_here in T. contradiction.
    + apply (vec_right Bool.eqb eq GVBool); [apply Bool.eqb_true_iff| |].
      * intros a b. rewrite Forall2_eq_iff. split; [intros S; now inversion S|intros ->; constructor].
      * intros N T. apply everywhere_here in T. contradiction.
    + apply (vec_right Z.eqb eq GVInt); [apply Z.eqb_eq| |].
      * intros a b. rewrite Forall2_eq_iff. split; [intros S; now inversion S|intros ->; constructor].
      * intros N T. apply everywhere_here in T. contradiction.
    + apply (vec_right Z.eqb eq GVLong); [apply Z.eqb_eq| |].
      * intros a b. rewrite Forall2_eq_iff. split; [intros S; now inversion S|intros ->; constructor].
      * intros N T. apply everywhere_here in T. contradiction.
    + apply (vec_right feq same_real GVReal); [apply feq_iff| |].
      * intros a b. split; [intros S; now inversion S|intros; now constructor].
      * intros N T. apply everywhere_here in T. contradiction.
    + apply (vec_right ceq same_cplx GVComplex); [apply ceq_iff| |].
      * intros a b. split; [intros S; now inversion S|intros; now constructor].
      * intros N T. apply everywhere_here in T. contradiction.
    + apply (vec_right String.eqb eq GVStr); [apply String.eqb_eq| |].
      * intros a b. rewrite Forall2_eq_iff. split; [intros S; now inversion S|intros ->; constructor].
      * intros N T. apply everywhere_here in T. contradiction.
    + apply (mat_right Z.eqb eq GMInt); [apply Z.eqb_eq| |now apply (mats_here int32)|now apply (mats_here int32)].
      intros a b. rewrite same_mat_eq. split; [intros S; now inversion S|intros ->; constructor].
    + apply (mat_right Z.eqb eq GMLong); [apply Z.eqb_eq| |now apply (mats_here int64)|now apply (mats_here int64)].
      intros a b. rewrite same_mat_eq. split; [intros S; now inversion S|intros ->; constructor].
    + apply (mat_right feq same_real GMReal); [apply feq_iff| |now apply (mats_here f64)|now apply (mats_here f64)].
      intros a b. split; [intros S; now inversion S|intros; now constructor].
    + apply (mat_right ceq same_cplx GMComplex); [apply ceq_iff| |now apply (mats_here fc)|now apply (mats_here fc)].
      intros a b. split; [intros S; now inversion S|intros; now constructor].
  - destruct h as [ | | | | | | | | | | | | | | | | | | |w| ];
      try (cbn; split; [discriminate|]; intros _ _ S; inversion S).
    rewrite compare_vec. destruct (Z.eqb_spec (zlen v) (zlen w)) as [E|E].
    2:{ cbn [right]. split; [discriminate|]. intros _ _ S. inversion S; subst. exfalso. apply E. eapply Forall2_zlen. eassumption. }
    apply wf_vec in Wg. apply wf_vec in Wh. apply everywhere_vec in Mg as [_ Mg]. apply everywhere_vec in Mh as [_ Mh].
    assert (G : forall i, match cmp_list false i v w with
      | Ok r => (r = [] -> Forall2 same v w) /\ (Forall no_neg_zero v -> Forall no_neg_zero w -> Forall2 same v w -> r = [])
      | Throw => False | Undef => False
      | Diverge => ~ Forall no_typed_vector v
      end).
    { revert w E Wh Mh. induction v as [|x v IHv]; intros w E Wh Mh i; destruct w as [|y w];
        try (exfalso; unfold zlen in E; cbn [length] in E; lia).
      - cbn. split; [constructor|reflexivity].
      - pose proof (Forall_inv IH) as K. pose proof (Forall_inv Wg) as Kw. pose proof (Forall_inv Wh) as Kh.
        pose proof (Forall_inv Mg) as Kg. pose proof (Forall_inv Mh) as Km.
        apply Forall_inv_tail in IH. apply Forall_inv_tail in Wg. apply Forall_inv_tail in Wh.
        apply Forall_inv_tail in Mg. apply Forall_inv_tail in Mh. cbn [cmp_list].
        specialize (K y Kw Kh Kg Km).
        destruct (compare_content false x y) as [r| | |]; cbn [right bind] in *; try contradiction.
        + destruct K as [K1 K2]. destruct r as [|r0 r].
          * assert (El : zlen v = zlen w) by (rewrite !zlen_cons in E; lia).
            specialize (IHv IH Wg Mg w El Wh Mh (i + 1)).
            destruct (cmp_list false (i + 1) v w) as [r| | |]; try assumption.
            -- destruct IHv as [I1 I2]. split; [intros Hr; constructor; auto|].
               intros N1 N2 F. inversion N1; inversion N2; inversion F; subst. auto.
            -- intros N. inversion N; subst. contradiction.
          * split; [discriminate|]. intros N1 N2 F. inversion N1; inversion N2; inversion F; subst.
            assert (r0 :: r = []) by auto. discriminate.
        + intros N. inversion N; subst. contradiction. }
    specialize (G 0). destruct (cmp_list false 0 v w) as [r| | |]; cbn [right]; try assumption.
    + destruct G as [G1 G2]. split; [intros Hr; constructor; auto|]. intros N1 N2 S. inversion S; subst.
      apply everywhere_vec in N1 as [_ N1]. apply everywhere_vec in N2 as [_ N2]. auto.
    + intros N. apply G. now apply everywhere_vec in N.
  - destruct h as [ | | | | | | | | | | | | | | | | | | | |n];
      try (cbn; split; [discriminate|]; intros _ _ S; inversion S).
    rewrite compare_map. destruct (Z.eqb_spec (zlen m) (zlen n)) as [E|E].
    2:{ cbn [right]. split; [discriminate|]. intros _ _ S. inversion S; subst. exfalso. apply E. eapply Forall2_zlen. eassumption. }
    apply wf_map in Wg as [_ Wg]. apply wf_map in Wh as [_ Wh]. apply everywhere_map in Mg as [_ Mg]. apply everywhere_map in Mh as [_ Mh].
    assert (G : match cmp_entries false m n with
      | Ok r => (r = [] -> Forall2 (fun a b => fst a = fst b /\ same (snd a) (snd b)) m n) /\
                (Forall (fun kv => no_neg_zero (snd kv)) m -> Forall (fun kv => no_neg_zero (snd kv)) n ->
                 Forall2 (fun a b => fst a = fst b /\ same (snd a) (snd b)) m n -> r = [])
      | Throw => False | Undef => False
      | Diverge => ~ Forall (fun kv => no_typed_vector (snd kv)) m
      end).
    { revert n E Wh Mh. induction m as [|[k x] m IHm]; intros n E Wh Mh; destruct n as [|[k' y] n];
        try (exfalso; unfold zlen in E; cbn [length] in E; lia).
      - cbn. split; [constructor|reflexivity].
      - pose proof (Forall_inv IH) as K. pose proof (Forall_inv Wg) as Kw. pose proof (Forall_inv Wh) as Kh.
        pose proof (Forall_inv Mg) as Kg. pose proof (Forall_inv Mh) as Km.
        apply Forall_inv_tail in IH. apply Forall_inv_tail in Wg. apply Forall_inv_tail in Wh.
        apply Forall_inv_tail in Mg. apply Forall_inv_tail in Mh. cbn [cmp_entries]. cbn [fst snd] in *.
        destruct (String.eqb_spec k k') as [->|Nk].
        2:{ split; [discriminate|]. intros _ _ F. inversion F as [|? ? ? ? [Hk _]]; subst. contradiction. }
        specialize (K y Kw Kh Kg Km).
        destruct (compare_content false x y) as [r| | |]; cbn [right bind] in *; try contradiction.
        + destruct K as [K1 K2]. destruct r as [|r0 r].
          * assert (El : zlen m = zlen n) by (rewrite !zlen_cons in E; lia).
            specialize (IHm IH Wg Mg n El Wh Mh).
            destruct (cmp_entries false m n) as [r| | |]; try assumption.
            -- destruct IHm as [I1 I2]. split; [intros Hr; constructor; auto|].
               intros N1 N2 F. inversion N1; inversion N2; inversion F; subst. auto.
            -- intros N. inversion N; subst. contradiction.
          * split; [discriminate|]. intros N1 N2 F. inversion N1; inversion N2; inversion F as [|? ? ? ? [_ Hs]]; subst.
            cbn [snd] in *. assert (r0 :: r = []) by auto. discriminate.
        + intros N. inversion N; subst. contradiction. }
    destruct (cmp_entries false m n) as [r| | |]; cbn [right]; try assumption.
    + destruct G as [G1 G2]. split; [intros Hr; constructor; auto|]. intros N1 N2 S. inversion S; subst.
      apply everywhere_map in N1 as [_ N1]. apply everywhere_map in N2 as [_ N2]. auto.
    + intros N. apply G. now apply everywhere_map in N.
Qed.

(** * C40: compare_content is a faithful equality test.

    Full statement: compare_content returns on every pair of values, and the report is empty
    exactly when the contents are equal.  False in the code, see [C40_refuted].  What holds:
    whenever it returns, an empty report means equal content and (without negative zeros)
    equal content gives an empty report; it returns whenever the left operand holds no
    non-empty typed vector.  [compare_content false]: the comparison of the bytes of a real
    as a pointer is taken as the compilers do it. *)
Theorem C40_report_partial : forall g h r, wf g -> wf h -> small_mats g -> small_mats h ->
  compare_content false g h = Ok r ->
  (r = [] -> same g h) /\ (no_neg_zero g -> no_neg_zero h -> same g h -> r = []).
Proof. intros g h r Wg Wh Mg Mh E. pose proof (compare_right g h Wg Wh Mg Mh) as K. rewrite E in K. exact K. Qed.
Theorem C40_terminates_partial : forall g h, wf g -> wf h -> small_mats g -> small_mats h ->
  no_typed_vector g -> exists r, compare_content false g h = Ok r.
Proof.
  intros g h Wg Wh Mg Mh T. pose proof (compare_right g h Wg Wh Mg Mh) as K.
  destruct (compare_content false g h) as [r| | |]; cbn in K; try contradiction. eauto.
Qed.
(** Equal non-empty vectors, and vectors of equal length that differ only after the first
    element, are compared for ever; two zeros of different sign are reported as different;
    by the letter of the standard every comparison of two reals is undefined. *)
Theorem C40_refuted :
  (forall hard i v, compare_content hard (GVInt (i :: v)) (GVInt (i :: v)) = Diverge) /\
  (forall hard i v w, zlen v = zlen w -> compare_content hard (GVInt (i :: v)) (GVInt (i :: w)) = Diverge) /\
  (forall hard v, v <> [] -> compare_content hard (GVStr v) (GVStr v) = Diverge) /\
  (same (GReal 0) (GReal (2^63)) /\ exists r, compare_content false (GReal 0) (GReal (2^63)) = Ok r /\ r <> []) /\
  (forall x y, compare_content true (GReal x) (GReal y) = Undef).
Proof.
  split; [|split; [|split; [|split]]].
  - intros hard i v. cbn [compare_content tag_of]. rewrite tag_eqb_refl. cbn [negb]. unfold compare_vector.
    now rewrite !Z.eqb_refl.
  - intros hard i v w E. cbn [compare_content tag_of]. rewrite tag_eqb_refl. cbn [negb]. unfold compare_vector.
    rewrite !zlen_cons, E. now rewrite !Z.eqb_refl.
  - intros hard v Hv. destruct v as [|s v]; [congruence|]. cbn [compare_content tag_of]. rewrite tag_eqb_refl. cbn [negb]. unfold compare_vector.
    now rewrite Z.eqb_refl, String.eqb_refl.
  - split.
    + constructor. left. exists 0. split; reflexivity.
    + eexists. split; [vm_compute; reflexivity|discriminate].
  - reflexivity.
Qed.

Definition left_ex : gc := GMap [("a"%string, GVec [GInt 1; GStr "x"]); ("b"%string, GMReal (Mat 1 2 [f_of_Z 1; f_of_Z 2])); ("c"%string, GReal (f_of_Z 3))].
Definition right_ex : gc := GMap [("a"%string, GVec [GInt 1; GStr "x"]); ("b"%string, GMReal (Mat 1 2 [f_of_Z 1; f_of_Z 5])); ("c"%string, GReal (f_of_Z 3))].
Example C40_example : wf left_ex /\ wf right_ex /\ compare_content false left_ex left_ex = Ok [] /\
  compare_content false left_ex right_ex = Ok [RKey "b" [RAtM 0 1]].
Proof. split; [wfd|]. split; [wfd|]. split; vm_compute; reflexivity. Qed.
Example C40_example2 : no_typed_vector left_ex /\ small_mats left_ex /\ no_neg_zero left_ex.
Proof.
  unfold no_typed_vector, small_mats, no_neg_zero, left_ex. cbn [everywhere snd mrows mcols].
  repeat match goal with
  | |- _ /\ _ => split
  | |- True => exact I
  | |- _ <> _ => intros K; vm_compute in K; congruence
  | |- _ < _ => reflexivity
  end.
Qed.

Print Assumptions C40_report_partial.
Print Assumptions C40_terminates_partial.
Print Assumptions C40_refuted.
