(** Proofs about the failures of collapse. *)
From Coq Require Import ZArith Bool Lia Ascii String List.
From Verif Require Import Base F64 StrMap Value MBasic MCopy SCopy LCopy LBasic MGet SGet LGet MMat SMap
  MPromote SPromote LPromote LCopyto MCollapse SCollapse LCollapse LCollapse2 SClash.
From Verif Require LOps.
Import ListNotations.
Local Open Scope Z_scope.

(** Typed vectors. *)
Definition row0 (g : gc) : option kind :=
  match g with GVBool _ => Some KBool | GVInt _ => Some KInt | GVLong _ => Some KLong | GVReal _ => Some KReal | _ => None end.
Definition ktag (k : kind) : tag := match k with KBool => TVBool | KInt => TVInt | KLong => TVLong | KReal => TVReal end.
Definition cpk (k : kind) : gc -> list Z -> out unit * list Z :=
  match k with KLong => copyto_vec_long | KReal => copyto_vec_real | _ => copyto_vec_int end.

Lemma cast_iff lo hi r : lo <= 0 <= hi ->
  ((exists n, gc_assert (is_integer r) (fcast lo hi r) = Ok n) <-> whole (fun n => lo <= n <= hi) r).
Proof.
  intros B. unfold whole. split.
  - intros [n E]. destruct (is_integer r) eqn:I; [|discriminate]. cbn [gc_assert] in E.
    apply is_integer_spec in I as [[m Hm]|T].
    + left. exists m. split; [exact Hm|]. now destruct (fcast_ok _ _ _ _ _ Hm E).
    + right. exact T.
  - intros [(n & F & R)|T].
    + exists n. rewrite (is_integer_of_fis r n F). cbn [gc_assert]. rewrite (fcast_int lo hi r n F).
      destruct (Z.leb_spec lo n); [|lia]. destruct (Z.leb_spec n hi); [reflexivity|lia].
    + exists 0. replace (is_integer r) with true by (symmetry; apply is_integer_spec; right; exact T). cbn [gc_assert].
      destruct T as (v & Ev & Nz & L). unfold fcast. rewrite Ev.
      replace (Z.quot v fone) with 0.
      * cbv zeta. destruct (Z.leb_spec lo 0); [|lia]. destruct (Z.leb_spec 0 hi); [reflexivity|lia].
      * symmetry. apply Z.quot_small_iff; [unfold fone; apply Z.pow_nonzero; lia|].
        rewrite (Z.abs_eq fone) by (unfold fone; apply Z.pow_nonneg; lia).
        eapply Z.lt_trans; [exact L|]. unfold fone. apply Z.pow_lt_mono_r; lia.
Qed.

Lemma one_iff {A B} (cv : A -> out B) x : (exists l, push_all cv [x] [] = (Ok tt, l)) <-> exists y, cv x = Ok y.
Proof. cbn. destruct (cv x); split; intros [? E]; try discriminate; eauto. Qed.

(** One basic value converts exactly when its copy to a vector succeeds. *)
Lemma cpk_basic k c : k <> KBool -> wf c -> basic c ->
  ((exists l, cpk k c [] = (Ok tt, l)) <-> converts k c).
Proof.
  intros K W B.
  assert (F : forall (v : list Z) r, r <> Ok tt -> ((exists l, (r, v) = (Ok tt, l)) <-> False)).
  { intros v r N. split; [intros [l E]; injection E; intros; contradiction|tauto]. }
  destruct k; [now contradiction K| | |]; destruct c; try contradiction; cbn [cpk copyto_vec_int copyto_vec_long copyto_vec_real converts];
    try (apply F; cbn; discriminate); try (rewrite one_iff; split; [tauto|intros _; eexists; reflexivity]); rewrite one_iff.
  - unfold cl_int. split.
    + intros [y E]. destruct (Z.eqb_spec (to_i32 l) l) as [E'|]; [|discriminate]. rewrite <- E'. apply to_i32_range.
    + intros R. exists l. rewrite (to_i32_id l R), Z.eqb_refl. reflexivity.
  - unfold cr_int, f_to_i32. rewrite cast_iff by lia. unfold whole, int32. apply or_iff_compat_r.
    split; intros (n & Fn & R); exists n; (split; [exact Fn|lia]).
  - unfold cr_long, f_to_i64. rewrite cast_iff by lia. unfold whole, int64. apply or_iff_compat_r.
    split; intros (n & Fn & R); exists n; (split; [exact Fn|lia]).
Qed.

Lemma row0_cpk k c l : k <> KBool -> weight c < 2^31 -> row0 c = Some l -> rank l <= rank k ->
  exists col, cpk k c [] = (Ok tt, col).
Proof.
  intros K S R L. pose proof (small_sized c S) as Z.
  assert (forall A B (cv : A -> out B) v, (forall a, exists b, cv a = Ok b) -> exists r, push_all cv v [] = (Ok tt, r)) as P.
  { intros A B cv v H. destruct (push_all_in cv (fun _ _ => True) v) as (r & E & _); [|now exists r].
    intros a _. destruct (H a) as [b E]. now exists b. }
  destruct k; [now contradiction K| | |]; destruct c; cbn [row0] in R; try discriminate; injection R as <-; cbn [rank] in L; try lia;
    cbn [cpk copyto_vec_int copyto_vec_long copyto_vec_real]; apply P; intros; eexists; reflexivity.
Qed.

Lemma cooked_below k c : cooked c -> tag_num (tag_of c) <= tag_num (ktag k) ->
  c = GNone \/ basic c \/ exists l, row0 c = Some l /\ rank l <= rank k.
Proof.
  intros C T. unfold cooked in C.
  destruct c; cbn in C; try (exfalso; intuition discriminate); try (now left); right; try (left; exact I); right; destruct k; cbn in T; try lia;
    eexists; (split; [reflexivity|cbn; lia]).
Qed.
Lemma cpk_len k c col : k <> KBool -> weight c < 2^31 -> tag_of c <> TMap -> cpk k c [] = (Ok tt, col) -> length col = length (elems c).
Proof.
  intros K S T E. pose proof (small_sized c S) as Z.
  destruct k; [now contradiction K| | |]; cbn [cpk] in E;
    [rewrite copyto_vec_int_as in E by assumption|rewrite copyto_vec_long_as in E by assumption|rewrite copyto_vec_real_as in E by assumption];
    apply push_all_ok in E as (r & -> & F); cbn [app]; clear -F; induction F; cbn; congruence.
Qed.

(** * The scan when all elements have the same number of values *)
Lemma scan_same v n : 0 <= n -> (forall e, In e v -> ne32 e = n) -> forall s, can_collapse s = true ->
  (last_nelem s = n \/ last_nelem s = -1) -> can_collapse (fold_left scan_step v s) = true.
Proof.
  intros P. induction v as [|a v IH]; intros H s C L; cbn [fold_left]; [exact C|].
  pose proof (H a (or_introl eq_refl)) as Na. unfold ne32 in Na. apply IH; [intros; apply H; now right| |].
  - cbn [scan_step can_collapse]. rewrite Na, C. destruct L as [->| ->]; [|reflexivity].
    destruct (Z.leb_spec 0 n); [|lia]. cbn. apply Z.eqb_refl.
  - cbn [scan_step last_nelem]. now left.
Qed.

Section One.
  Variable v : list gc.
  Hypothesis Hne : v <> [].
  Hypothesis Hw : Forall wf v.
  Hypothesis Hsm : weight (GVec v) < 2^31.
  Hypothesis Hck : Forall cooked v.
  Let s := fold_left scan_step v scan0.

  Local Lemma child_weight c : In c v -> weight c < 2^31.
  Proof. intros Hc. rewrite weight_vec in Hsm. pose proof (sumw_in v c Hc). lia. Qed.
  Local Lemma child_wf c : In c v -> wf c.
  Proof. apply (proj1 (Forall_forall wf v)). exact Hw. Qed.
  Local Lemma child_cooked c : In c v -> cooked c.
  Proof. apply (proj1 (Forall_forall cooked v)). exact Hck. Qed.

  (** A matrix of a number type: either a clash, or all columns are there. *)
  Local Lemma max_row k : can_collapse s = true -> max_sub s = ktag k ->
    (forall e, In e v -> zlen (elems e) = last_nelem s /\ (e = GNone \/ basic e \/ exists l, row0 e = Some l /\ rank l <= rank k)) /\
    (exists e, In e v /\ row0 e = Some k).
  Proof.
    intros Hcan Hmx.
    destruct (scan_max v scan0) as (_ & M2 & M3). fold s in M2, M3. cbv zeta in M2, M3. rewrite Hmx in M2, M3.
    destruct (scan_ne v scan0) as (_ & N2 & _); [intros e He; apply ne32_nonneg, child_weight; auto|exact Hcan|].
    fold s in N2. specialize (N2 Hne). split.
    - intros e He. pose proof (cooked_below k e (child_cooked e He) (M2 e He)) as B. split; [|exact B].
      rewrite <- (N2 e He). symmetry. apply ne32_elems; [|now apply child_weight].
      intros T. destruct e; try discriminate. destruct B as [B|[B|(l & B & _)]]; [discriminate|exact B|discriminate].
    - destruct M3 as [M3|(b & Hb & M3)]; [destruct k; discriminate|]. exists b. split; [exact Hb|].
      destruct k, b; cbn in M3; try discriminate; reflexivity.
  Qed.

  Lemma columns k : k <> KBool -> can_collapse s = true -> max_sub s = ktag k -> ~ clash row0 v ->
    exists cs, Forall2 (fun c col => cpk k c [] = (Ok tt, col) /\ zlen col = last_nelem s) v cs.
  Proof.
    intros K Hcan Hmx NC. destruct (max_row k Hcan Hmx) as [Hall Hex].
    assert (H : forall c, In c v -> exists col, cpk k c [] = (Ok tt, col) /\ zlen col = last_nelem s).
    { intros c Hc. destruct (Hall c Hc) as [L B].
      assert (exists col, cpk k c [] = (Ok tt, col)) as [col E].
      { destruct B as [->|[B|(l & R & Le)]]; [exists []; now destruct k| |exact (row0_cpk k c l K (child_weight c Hc) R Le)].
        destruct (cpk k c []) as [[[]| | |] col] eqn:E; [now exists col| | |].
        all: exfalso; apply NC; exists k; split; [exact K|]; split; [|split; [exact Hex|]].
        1,3,5: intros e He; destruct (Hall e He) as [L' B']; rewrite L', <- L; split; [destruct c; try contradiction; reflexivity|].
        1-3: destruct B' as [->|B']; [exfalso; rewrite <- L in L'; destruct c; try contradiction; discriminate|exact B'].
        all: exists c; split; [exact Hc|]; split; [exact B|]; intros Cv.
        all: apply (cpk_basic k c K (child_wf c Hc) B) in Cv as [l El]; rewrite E in El; discriminate. }
      exists col. split; [exact E|]. rewrite <- L. unfold zlen. f_equal.
      apply (cpk_len k c col K (child_weight c Hc)); [|exact E].
      intros T. destruct c; try discriminate. destruct B as [B|[B|(l & B & _)]]; [discriminate|exact B|discriminate]. }
    clearbody s. clear -H. induction v as [|c w IH]; [exists []; constructor|].
    destruct IH as [cs F]; [intros; apply H; now right|].
    destruct (H c (or_introl eq_refl)) as [col Hc]. exists (col :: cs). now constructor.
  Qed.

  Lemma matrix k d : k <> KBool -> can_collapse s = true -> max_sub s = ktag k -> ~ clash row0 v ->
    exists m, mat_of d (cpk k) (last_nelem s) v = Ok m /\ wf_mat (fun _ => True) m /\ zlen (mdata m) <= sumw v.
  Proof.
    intros K Hcan Hmx NC. destruct (max_row k Hcan Hmx) as [Hall _]. destruct (columns k K Hcan Hmx NC) as [cs F].
    pose proof Hsm as Hs. rewrite weight_vec in Hs. pose proof (sumw_len v) as Hl. pose proof (zlen_nonneg v).
    assert (Hnr : 0 <= last_nelem s /\ last_nelem s * zlen v <= sumw v /\ last_nelem s < 2^31).
    { destruct v as [|c0 v0] eqn:Ev; [congruence|]. rewrite <- Ev in *.
      assert (Hc0 : In c0 v) by (rewrite Ev; now left).
      destruct (Hall c0 Hc0) as (E0 & _). pose proof (zlen_nonneg (elems c0)).
      split; [lia|]. split.
      - assert (Kk : forall c, In c v -> last_nelem s <= weight c).
        { intros c Hc. destruct (Hall c Hc) as (E & _). pose proof (elems_weight c). lia. }
        clear -Kk. induction v as [|c w IH]; [unfold zlen; cbn; lia|].
        rewrite zlen_cons. cbn [sumw fold_right]. fold (sumw w).
        assert (last_nelem s * zlen w <= sumw w) by (apply IH; intros; apply Kk; now right).
        specialize (Kk c (or_introl eq_refl)). nia.
      - pose proof (elems_weight c0). pose proof (sumw_in v c0 Hc0). lia. }
    assert (Len : zlen (concat cs) = last_nelem s * zlen v).
    { clearbody s. clear -F. induction F as [|c col w cs [_ L] F IH]; [unfold zlen; cbn [length concat Z.of_nat]; now rewrite Z.mul_0_r|].
      cbn [concat]. rewrite zlen_app, zlen_cons, IH, L. lia. }
    exists (Mat (last_nelem s) (zlen v) (concat cs)). split.
    - unfold mat_of. rewrite visit_all by lia.
      rewrite (to_u32_id (last_nelem s)) by (unfold uint32; lia).
      rewrite (to_u32_id (zlen v)) by (unfold uint32; lia). unfold mresize.
      rewrite to_u32_id by (unfold uint32; nia).
      change (resize d (Z.to_nat (last_nelem s * zlen v)) []) with ([] ++ resize d (Z.to_nat (last_nelem s * zlen v)) []).
      rewrite (fill_cols_ok (cpk k) (last_nelem s) (zlen v) (proj1 Hnr) v cs 0); try assumption; try lia.
      + reflexivity.
      + rewrite zlen_nil. lia.
      + unfold zlen at 1. rewrite resize_length, Z2Nat.id; [reflexivity|nia].
      + cbn [app]. unfold zlen at 1. rewrite resize_length, Z2Nat.id; [lia|nia].
    - split; [|cbn [mdata]; lia]. unfold wf_mat. cbn [mrows mcols mdata].
      split; [unfold uint32; lia|]. split; [unfold uint32; lia|]. split; [|apply Forall_forall; auto].
      rewrite Len. symmetry. apply to_u32_id. unfold uint32. nia.
  Qed.

  Lemma mat_fails k d m : k <> KBool -> mat_of d (cpk k) (last_nelem s) v = Ok m ->
    forall c, In c v -> exists col, cpk k c [] = (Ok tt, col).
  Proof.
    intros K E c Hc. unfold mat_of in E. rewrite visit_all in E.
    2:{ rewrite weight_vec in Hsm. pose proof (sumw_len v). lia. }
    apply fill_cols_inv in E as [cs F]. clear -F Hc. induction F as [|a col w cs E F IH]; [destruct Hc|].
    destruct Hc as [<-|Hc]; [now exists col|auto].
  Qed.

  Definition stag (k : kind) : tag := match k with KBool => TBool | KInt => TInt | KLong => TLong | KReal => TReal end.
  (** What collapse of a vector of collapsed children yields. *)
  Definition result (g' : gc) : Prop :=
    cooked g' /\ weight g' <= weight (GVec v) /\ ~ basic g' /\ g' <> GNone /\
    (forall k, row0 g' = Some k -> max_sub s = stag k /\ zlen (elems g') = zlen v).

  Theorem collapse_vec_calm : ~ clash row0 v -> exists g', collapse_vec v = (Ok tt, g') /\ result g'.
  Proof.
    intros NC.
    assert (Same : exists g', (Ok tt, GVec v) = (Ok tt, g') /\ result g').
    { exists (GVec v). split; [reflexivity|]. split; [cbn; tauto|]. split; [lia|]. split; [exact (fun H => H)|]. split; [discriminate|]. intros k E. discriminate. }
    assert (Fin : forall r g', r = Ok g' -> result g' -> exists g'', overwrite r (GVec v) = (Ok tt, g'') /\ result g'')
      by (intros r g' -> C; now exists g').
    assert (Hsz : sized (GVec v)).
    { unfold sized. cbn [elems]. rewrite weight_vec in Hsm. pose proof (sumw_len v). lia. }
    assert (Few : forall A (t : list A), length t = length v -> few t /\ t <> []).
    { intros A t E. rewrite weight_vec in Hsm. pose proof (sumw_len v). split; [unfold few, zlen in *; lia|].
      intros ->. apply Hne. apply length_zero_iff_nil. now rewrite <- E. }
    assert (RStr : forall t, length t = length v -> result (GVStr t)).
    { intros t L. split; [cbn; tauto|]. split; [rewrite weight_vec; cbn [weight]; pose proof (sumw_len v); unfold zlen in *; lia|].
      split; [exact (fun H => H)|]. split; [discriminate|]. intros k E. discriminate. }
    assert (RVec : forall k (g' : gc), row0 g' = Some k -> weight g' = 1 + zlen v -> zlen (elems g') = zlen v -> max_sub s = stag k -> result g').
    { intros k g' R W L M. split; [destruct g'; try discriminate; cbn; tauto|]. split; [rewrite weight_vec, W; pose proof (sumw_len v); lia|].
      split; [destruct g'; try discriminate; exact (fun H => H)|]. split; [destruct g'; discriminate|]. intros k' R'. rewrite R in R'. injection R' as <-. split; assumption. }
    assert (RMat : forall g' m, (g' = GMInt m \/ g' = GMLong m \/ g' = GMReal m) -> zlen (mdata m) <= sumw v -> result g').
    { intros g' m R L. split; [destruct R as [-> |[-> | ->]]; cbn; tauto|].
      split; [rewrite weight_vec; destruct R as [-> |[-> | ->]]; cbn [weight]; lia|].
      split; [destruct R as [-> |[-> | ->]]; exact (fun H => H)|]. split; [destruct R as [-> |[-> | ->]]; discriminate|].
      intros k E. destruct R as [-> |[-> | ->]]; discriminate. }
    assert (Hsc : forall mx, can_collapse s = true -> max_sub s = mx -> In mx [TBool; TInt; TLong; TReal; TComplex; TStr] ->
      (forall c, In c v -> tag_num (tag_of c) <= tag_num mx /\ tag_of c <> TNone) /\ exists c, In c v /\ tag_of c = mx).
    { intros mx. exact (LCollapse2.ok_scalars v Hne Hsm mx). }
    pose proof child_cooked as Hck'.
    assert (Scal : forall A (cv : gc -> out A) t, push_all cv v [] = (Ok tt, t) -> length t = length v).
    { intros A cv t E. apply push_all_ok in E as (r & -> & F). cbn [app]. clear -F. induction F; cbn; congruence. }
    unfold collapse_vec. fold s. destruct (can_collapse s) eqn:Hcan; cbn [negb]; [|exact Same].
    destruct (all_string s) eqn:Hstr.
    { apply scan_str in Hstr as [_ Hstr].
      assert (E : exists t, strings_of v = Ok t /\ length t = length v).
      { clear -Hstr. induction v as [|e w IH]; [now exists []|].
        destruct IH as (t & E & L); [intros; apply Hstr; now right|].
        pose proof (Hstr e (or_introl eq_refl)) as T. destruct e as [| | | | | | |str| | | | | | | | | | | | |]; try discriminate. exists (str :: t).
        cbn. rewrite E. split; [reflexivity|]. cbn. congruence. }
      destruct E as (t & E & L). destruct (Few _ t L) as [F N].
      apply Fin with (GVStr t); [|now apply RStr]. rewrite E. cbn [bind]. now apply set_vstr_exact. }
    destruct (max_sub s) eqn:Hmx; try exact Same.
    - destruct (Hsc _ eq_refl eq_refl) as [Hb _]; [cbn; tauto|].
      assert (E : exists t, bools_of v = Ok t /\ length t = length v).
      { clear -Hb Hck'. induction v as [|e w IH]; [now exists []|].
        destruct IH as (t & E & L); [intros; apply Hck'; now right|intros; apply Hb; now right|].
        destruct (Hb e (or_introl eq_refl)) as [T T']. specialize (Hck' e (or_introl eq_refl)).
        destruct e as [| |b| | | | | | | | | | | | | | | | | |]; cbn in T; try lia; [now destruct T'|exfalso; cbn in Hck'; intuition discriminate|].
        exists (b :: t). cbn. rewrite E. split; [reflexivity|]. cbn. congruence. }
      destruct E as (t & E & L). destruct (Few _ t L) as [F N].
      apply Fin with (GVBool t).
      + rewrite E. cbn [bind]. now apply set_vbool_exact.
      + apply (RVec KBool); [reflexivity|cbn [weight]; unfold zlen; rewrite L; lia| |reflexivity]. cbn [elems]. unfold zlen. rewrite map_length, L. reflexivity.
    - destruct (Hsc _ eq_refl eq_refl) as [Hb _]; [cbn; tauto|].
      destruct (push_all_some (conv_int true) v) as [t E].
      { intros e He. destruct (Hb e He) as [T T']. specialize (Hck' e He).
        destruct e; cbn in T; try lia; try (now destruct T'); try (now eexists). exfalso; cbn in Hck'; intuition discriminate. }
      pose proof (Scal _ _ _ E) as L. destruct (Few _ t L) as [F N].
      apply Fin with (GVInt t).
      + rewrite copyto_vec_int_as by (assumption || discriminate). cbn [is_vec elems]. rewrite E. cbn [copied bind].
        exact (proj1 (set_vec_exact t (GVec v) F N)).
      + apply (RVec KInt); [reflexivity|cbn [weight]; unfold zlen; rewrite L; lia| |reflexivity]. cbn [elems]. unfold zlen. rewrite map_length, L. reflexivity.
    - destruct (Hsc _ eq_refl eq_refl) as [Hb _]; [cbn; tauto|].
      destruct (push_all_some get_as_long v) as [t E].
      { intros e He. destruct (Hb e He) as [T T']. specialize (Hck' e He).
        destruct e; cbn in T; try lia; try (now destruct T'); try (now eexists). exfalso; cbn in Hck'; intuition discriminate. }
      pose proof (Scal _ _ _ E) as L. destruct (Few _ t L) as [F N].
      apply Fin with (GVLong t).
      + rewrite copyto_vec_long_as by (assumption || discriminate). cbn [is_vec elems]. rewrite E. cbn [copied bind].
        exact (proj1 (proj2 (set_vec_exact t (GVec v) F N))).
      + apply (RVec KLong); [reflexivity|cbn [weight]; unfold zlen; rewrite L; lia| |reflexivity]. cbn [elems]. unfold zlen. rewrite map_length, L. reflexivity.
    - destruct (Hsc _ eq_refl eq_refl) as [Hb _]; [cbn; tauto|].
      destruct (push_all_some (conv_real true) v) as [t E].
      { intros e He. destruct (Hb e He) as [T T']. specialize (Hck' e He).
        destruct e; cbn in T; try lia; try (now destruct T'); try (now eexists). exfalso; cbn in Hck'; intuition discriminate. }
      pose proof (Scal _ _ _ E) as L. destruct (Few _ t L) as [F N].
      apply Fin with (GVReal t).
      + rewrite copyto_vec_real_as by (assumption || discriminate). cbn [is_vec elems]. rewrite E. cbn [copied bind].
        exact (proj1 (proj2 (proj2 (set_vec_exact t (GVec v) F N)))).
      + apply (RVec KReal); [reflexivity|cbn [weight]; unfold zlen; rewrite L; lia| |reflexivity]. cbn [elems]. unfold zlen. rewrite map_length, L. reflexivity.
    - destruct (Hsc _ eq_refl eq_refl) as [_ (c & Hc & T)]; [cbn; tauto|].
      specialize (Hck' c Hc). unfold cooked in Hck'. rewrite T in Hck'. exfalso. cbn in Hck'. intuition discriminate.
    - destruct (matrix KInt 0 ltac:(discriminate) Hcan Hmx NC) as (m & Em & Wm & Lm). cbn [cpk] in Em.
      apply Fin with (GMInt m); [|apply (RMat _ m); tauto]. rewrite Em. cbn [bind]. unfold set_mint. rewrite (mcopy_exact _ _ _ _ Wm). reflexivity.
    - destruct (matrix KLong 0 ltac:(discriminate) Hcan Hmx NC) as (m & Em & Wm & Lm). cbn [cpk] in Em.
      apply Fin with (GMLong m); [|apply (RMat _ m); tauto]. rewrite Em. cbn [bind]. unfold set_mlong. rewrite (mcopy_exact _ _ _ _ Wm). reflexivity.
    - destruct (matrix KReal f_zero ltac:(discriminate) Hcan Hmx NC) as (m & Em & Wm & Lm). cbn [cpk] in Em.
      apply Fin with (GMReal m); [|apply (RMat _ m); tauto]. rewrite Em. cbn [bind]. unfold set_mreal. rewrite (mcopy_exact _ _ _ _ Wm). reflexivity.
    - exfalso. destruct (scan_max v scan0) as (_ & _ & M3). fold s in M3. cbv zeta in M3. rewrite Hmx in M3.
      destruct M3 as [M3|(b & Hb & M3)]; [discriminate|]. specialize (Hck' b Hb). unfold cooked in Hck'.
      rewrite <- M3 in Hck'. cbn in Hck'. intuition discriminate.
  Qed.

  Theorem collapse_vec_clash g' : clash row0 v -> collapse_vec v <> (Ok tt, g').
  Proof.
    intros (k & K & Hall & (b & Hb & Rb) & (c & Hc & Bc & Cc)) E.
    assert (Hcan : can_collapse s = true).
    { unfold s. apply (scan_same v 1); [lia| |reflexivity|now right].
      intros e He. destruct (Hall e He) as [L R]. rewrite <- L. apply ne32_elems; [|now apply child_weight].
      intros T. destruct e; try discriminate. }
    assert (Hstr : all_string s = false).
    { destruct (all_string s) eqn:A; [|reflexivity]. apply scan_str in A as [_ A]. specialize (A b Hb). destruct b; discriminate. }
    assert (Hmx : max_sub s = ktag k).
    { destruct (scan_max v scan0) as (_ & M2 & M3). fold s in M2, M3. cbv zeta in M2, M3.
      destruct M3 as [M3|(a & Ha & M3)].
      - exfalso. specialize (M2 b Hb). rewrite M3 in M2. destruct b; cbn in Rb, M2; try discriminate; lia.
      - specialize (M2 b Hb). rewrite M3 in M2 |- *. destruct (Hall a Ha) as [_ [R|(l & R & Le)]].
        + exfalso. destruct b; cbn in Rb; try discriminate; destruct a; try contradiction; cbn in M2; lia.
        + destruct b; cbn in Rb; try discriminate; injection Rb as <-; destruct a; cbn in R; try discriminate; injection R as <-; cbn in Le, M2; try lia; reflexivity. }
    assert (NoMat : forall d m, mat_of d (cpk k) (last_nelem s) v <> Ok m).
    { intros d m Em. destruct (mat_fails k d m K Em c Hc) as [col Ec]. apply Cc. apply (cpk_basic k c K (child_wf c Hc) Bc). now exists col. }
    unfold collapse_vec in E. fold s in E. rewrite Hcan, Hstr, Hmx in E. cbn [negb] in E.
    destruct k; cbn [ktag cpk] in *; [now contradiction K| | |];
      (match type of E with context [mat_of ?d ?f ?n ?w] => destruct (mat_of d f n w) as [m| | |] eqn:Em; [now apply (NoMat d m) in Em|discriminate E|discriminate E|discriminate E] end).
  Qed.
End One.

(** * Whole containers *)
Record seen (e e' : gc) : Prop := {
  s_cooked : cooked e';
  s_weight : weight e' <= weight e;
  s_wf : wf e';
  s_same : basic e \/ e = GNone -> e' = e;
  s_back : basic e' \/ e' = GNone -> e = e';
  s_row : forall k, zlen (elems e) = 1 /\ row_kind e = Some k <-> zlen (elems e') = 1 /\ row0 e' = Some k
}.

Lemma F2_in {A B} (R : A -> B -> Prop) v w : Forall2 R v w -> forall a, In a v -> exists b, In b w /\ R a b.
Proof.
  induction 1 as [|a b v w H F IH]; intros c Hc; [destruct Hc|]. destruct Hc as [<-|Hc]; [exists b; split; [now left|exact H]|].
  destruct (IH c Hc) as (d & Hd & Rd). exists d. split; [now right|exact Rd].
Qed.
Lemma F2_in_r {A B} (R : A -> B -> Prop) v w : Forall2 R v w -> forall b, In b w -> exists a, In a v /\ R a b.
Proof.
  induction 1 as [|a b v w H F IH]; intros c Hc; [destruct Hc|]. destruct Hc as [<-|Hc]; [exists a; split; [now left|exact H]|].
  destruct (IH c Hc) as (d & Hd & Rd). exists d. split; [now right|exact Rd].
Qed.
Lemma basic_one e : basic e -> zlen (elems e) = 1.
Proof. destruct e; intros H; try contradiction; reflexivity. Qed.
Lemma clash_seen v w : Forall2 seen v w -> (clash row_kind v <-> clash row0 w).
Proof.
  intros F. split; intros (k & K & Hall & (b & Hb & Rb) & (c & Hc & Bc & Cc)); exists k; (split; [exact K|]); (split; [|split]).
  - intros e' He'. destruct (F2_in_r _ _ _ F e' He') as (e & He & S). destruct (Hall e He) as [L [B|(l & R & Le)]].
    + rewrite (s_same _ _ S (or_introl B)). split; [exact L|now left].
    + destruct (proj1 (s_row _ _ S l) (conj L R)) as [L' R']. split; [exact L'|right; now exists l].
  - destruct (F2_in _ _ _ F b Hb) as (b' & Hb' & S). exists b'. split; [exact Hb'|]. exact (proj2 (proj1 (s_row _ _ S k) (conj (proj1 (Hall b Hb)) Rb))).
  - destruct (F2_in _ _ _ F c Hc) as (c' & Hc' & S). exists c'. rewrite (s_same _ _ S (or_introl Bc)) in *. auto.
  - intros e He. destruct (F2_in _ _ _ F e He) as (e' & He' & S). destruct (Hall e' He') as [L [B|(l & R & Le)]].
    + rewrite (s_back _ _ S (or_introl B)). split; [exact L|now left].
    + destruct (proj2 (s_row _ _ S l) (conj L R)) as [L' R']. split; [exact L'|right; now exists l].
  - destruct (F2_in_r _ _ _ F b Hb) as (b' & Hb' & S). exists b'. split; [exact Hb'|]. exact (proj2 (proj2 (s_row _ _ S k) (conj (proj1 (Hall b Hb)) Rb))).
  - destruct (F2_in_r _ _ _ F c Hc) as (c' & Hc' & S). exists c'. rewrite (s_back _ _ S (or_introl Bc)) in *. auto.
Qed.

Lemma seen_self g : parsed_node g -> wf g -> (forall v, g <> GVec v) -> seen g g.
Proof.
  intros P W N. constructor; auto; [lia|]. intros k. destruct g; try reflexivity. now contradiction (N v).
Qed.
Lemma single_value x k : value_kind x = Some k -> exists g', collapse_vec [x] = (Ok tt, g') /\ row0 g' = Some k /\ zlen (elems g') = 1.
Proof. intros H. destruct x; cbn in H; try discriminate; injection H as <-; (eexists; split; [reflexivity|split; reflexivity]). Qed.

Lemma seen_vec v w g' : Forall2 seen v w -> wf g' -> v <> [] -> weight (GVec w) <= weight (GVec v) ->
  collapse_vec w = (Ok tt, g') -> result w g' -> seen (GVec v) g'.
Proof.
  intros F W Nv Lw E (C & Lg & NB & NN & R). constructor; auto.
  - lia.
  - intros [B|B]; [destruct B|discriminate].
  - tauto.
  - intros k. cbn [elems]. split.
    + intros [L Rk]. destruct v as [|x [|y v]]; cbn [row_kind] in Rk; try discriminate.
      inversion F as [|? x' ? w' Sx F' E1 E2]; subst. inversion F'; subst.
      assert (x' = x) by (apply (s_same _ _ Sx); left; destruct x; cbn in Rk |- *; try discriminate; exact I). subst x'.
      destruct (single_value x k Rk) as (g2 & E2 & R2 & L2). rewrite E in E2. injection E2 as <-. split; assumption.
    + intros [L Rk]. destruct (R k Rk) as [M Lv]. rewrite Lv in L.
      destruct w as [|x' [|y w]]; [discriminate| |exfalso; rewrite !zlen_cons in L; pose proof (zlen_nonneg w); lia].
      inversion F as [|x ? v' ? Sx F' E1 E2]; subst. inversion F'; subst. split; [reflexivity|]. cbn [row_kind].
      assert (T : tag_of x' = stag k).
      { destruct (scan_max [x'] scan0) as (_ & _ & M3). cbv zeta in M3. rewrite M in M3. destruct M3 as [M3|(b & [<-|[]] & M3)]; [destruct k; discriminate|now symmetry]. }
      assert (x = x') by (apply (s_back _ _ Sx); left; destruct k, x'; cbn in T |- *; try discriminate; exact I). subst x.
      destruct k, x'; cbn in T; try discriminate; reflexivity.
Qed.

Lemma sumw_F2 v w : Forall2 seen v w -> sumw w <= sumw v.
Proof. induction 1 as [|a b v w H F IH]; [lia|]; cbn [sumw fold_right]; fold (sumw v) (sumw w). pose proof (s_weight _ _ H). lia. Qed.
Lemma sumwm_F2 m n : Forall2 (fun a b => seen (snd a) (snd b)) m n -> sumwm n <= sumwm m.
Proof. induction 1 as [|a b v w H F IH]; [lia|]; cbn [sumwm fold_right]; fold (sumwm v) (sumwm w). pose proof (s_weight _ _ H). lia. Qed.

Definition bounded (g : gc) : Prop := wf g /\ weight g < 2^31 /\ parsed g.
Lemma bounded_vec v : bounded (GVec v) -> Forall bounded v.
Proof.
  intros (W & S & P). apply wf_vec in W. rewrite weight_vec in S. apply everywhere_vec in P as [_ P]. rewrite Forall_forall in *.
  intros e He. split; [auto|]. split; [pose proof (sumw_in v e He); lia|apply P, He].
Qed.
Lemma bounded_map m : bounded (GMap m) -> Forall (fun kv => bounded (snd kv)) m.
Proof.
  intros (W & S & P). apply wf_map in W as [_ W]. rewrite weight_map in S. apply everywhere_map in P as [_ P]. rewrite Forall_forall in *.
  intros e He. split; [exact (W e He)|]. split; [pose proof (sumwm_in m e He); lia|exact (P e He)].
Qed.
Lemma F2_len {A B} (R : A -> B -> Prop) v w : Forall2 R v w -> length v = length w.
Proof. induction 1; cbn; congruence. Qed.
Lemma seen_bounds v w : bounded (GVec v) -> v <> [] -> Forall2 seen v w ->
  w <> [] /\ Forall wf w /\ weight (GVec w) < 2^31 /\ Forall cooked w /\ weight (GVec w) <= weight (GVec v).
Proof.
  intros (W & S & P) N F. rewrite !weight_vec in *. pose proof (sumw_F2 v w F).
  split; [intros ->; apply F2_len in F; destruct v; [congruence|discriminate]|].
  split; [clear -F; induction F as [|a b v w H F IH]; constructor; auto; apply (s_wf _ _ H)|]. split; [lia|].
  split; [clear -F; induction F as [|a b v w H F IH]; constructor; auto; apply (s_cooked _ _ H)|lia].
Qed.

Lemma collapse_all_seen v w : collapse_all v = (Ok tt, w) ->
  Forall (fun e => forall e', collapse e = (Ok tt, e') -> seen e e') v -> Forall2 seen v w.
Proof.
  revert w. induction v as [|e v IH]; intros w E H; cbn [collapse_all] in E; [injection E as <-; constructor|].
  inversion H as [|? ? He Hv]; subst. destruct (collapse e) as [[[]| | |] e'] eqn:Ee; try discriminate.
  destruct (collapse_all v) as [r v'] eqn:Ev. injection E as -> <-. constructor; [now apply He|now apply IH].
Qed.

(** If collapse succeeds, there is no clash. *)
Lemma collapse_seen g : bounded g -> forall g', collapse g = (Ok tt, g') -> everywhere no_clash g /\ seen g g'.
Proof.
  induction g as [g Hv Hm | v IH | m IH] using gc_nest_ind; intros B g' E.
  - rewrite flat_collapse in E by assumption. injection E as <-. destruct B as (W & S & P). apply everywhere_here in P.
    split; [apply everywhere_flat; auto; destruct g; try exact I; now contradiction (Hv v)|now apply seen_self].
  - destruct v as [|e0 v0].
    { cbn in E. injection E as <-. split; [split; [|exact I]|].
      - intros (k & _ & _ & (e & He & _) & _). destruct He.
      - constructor; try exact I; try (cbn; tauto); try lia. }
    rewrite collapse_vec_eq in E. remember (e0 :: v0) as v eqn:Ev. assert (Nv : v <> []) by (subst; discriminate). clear Ev e0 v0.
    destruct (collapse_all v) as [[[]| | |] w] eqn:Ea; try discriminate.
    pose proof (bounded_vec v B) as Bv.
    assert (Hs : Forall (fun e => forall e', collapse e = (Ok tt, e') -> everywhere no_clash e /\ seen e e') v).
    { rewrite Forall_forall in *. intros e He. apply IH; auto. }
    assert (F : Forall2 seen v w).
    { apply collapse_all_seen; [exact Ea|]. rewrite Forall_forall in *. intros e He e' Ee. now apply (Hs e He). }
    destruct (seen_bounds v w B Nv F) as (Nw & Ww & Sw & Cw & Lw).
    assert (NC : ~ clash row0 w) by (intros Cl; exact (collapse_vec_clash w Ww Sw g' Cl E)).
    split.
    + apply everywhere_vec. split; [cbn; rewrite (clash_seen v w F); exact NC|].
      clear -Hs Ea. revert w Ea. induction v as [|e v IHv]; intros w Ea; [constructor|]. inversion Hs as [|? ? He Hv]; subst.
      cbn [collapse_all] in Ea. destruct (collapse e) as [[[]| | |] e'] eqn:Ee; try discriminate.
      destruct (collapse_all v) as [r v'] eqn:Ev. injection Ea as -> <-. constructor; [now apply (He e')|now apply (IHv Hv v')].
    + destruct (collapse_vec_calm w Nw Ww Sw Cw NC) as (g2 & E2 & R). rewrite E in E2. injection E2 as <-.
      apply (seen_vec v w); auto. pose proof (LOps.collapse_vec_wf w Ww) as Wg. now rewrite E in Wg.
  - rewrite collapse_map_eq in E. destruct (collapse_entries m) as [r m'] eqn:Em. injection E as -> <-.
    pose proof (bounded_map m B) as Bm.
    assert (H : Forall (fun kv => everywhere no_clash (snd kv)) m /\ Forall2 (fun a b => seen (snd a) (snd b)) m m').
    { clear B. revert m' Em. induction m as [|[k e] m IHm]; intros m' Em; cbn [collapse_entries] in Em; [injection Em as <-; split; constructor|].
      inversion IH as [|? ? Ie Im]; inversion Bm as [|? ? Be Bm']; subst.
      destruct (collapse e) as [[[]| | |] e'] eqn:Ee; try discriminate.
      destruct (collapse_entries m) as [r n] eqn:En. injection Em as -> <-.
      destruct (IHm Im Bm' n eq_refl) as [H1 H2]. destruct (Ie Be e' Ee) as [H3 H4]. split; constructor; auto. }
    destruct H as [H1 H2]. split; [apply everywhere_map; split; [exact I|exact H1]|].
    destruct B as (W & S & P). pose proof (LOps.collapse_wf (GMap m) W) as Wg. rewrite collapse_map_eq, Em in Wg. cbn [snd] in Wg.
    constructor; auto.
    + cbn; tauto.
    + rewrite !weight_map. pose proof (sumwm_F2 m m' H2). lia.
    + intros [X|X]; [destruct X|discriminate].
    + intros [X|X]; [destruct X|discriminate].
    + intros k. cbn. split; intros [_ X]; discriminate.
Qed.

(** Without a clash collapse succeeds. *)
Lemma collapse_calm g : bounded g -> everywhere no_clash g -> exists g', collapse g = (Ok tt, g').
Proof.
  induction g as [g Hv Hm | v IH | m IH] using gc_nest_ind; intros B N.
  - exists g. now apply flat_collapse.
  - destruct v as [|e0 v0]; [now exists (GVec [])|].
    rewrite collapse_vec_eq. remember (e0 :: v0) as v eqn:Ev. assert (Nv : v <> []) by (subst; discriminate). clear Ev e0 v0.
    pose proof (bounded_vec v B) as Bv. apply everywhere_vec in N as [N0 N].
    assert (exists w, collapse_all v = (Ok tt, w)) as [w Ea].
    { clear -IH Bv N. induction v as [|e v IHv]; [now exists []|].
      inversion IH as [|? ? Ie Iv]; inversion Bv as [|? ? Be Bv']; inversion N as [|? ? Ne Nv']; subst.
      destruct IHv as [w E]; [assumption..|]. destruct (Ie Be Ne) as [e' Ee]. exists (e' :: w). cbn [collapse_all]. now rewrite Ee, E. }
    rewrite Ea.
    assert (F : Forall2 seen v w).
    { apply collapse_all_seen; [exact Ea|]. rewrite Forall_forall in *. intros e He e' Ee. now apply (collapse_seen e (Bv e He)). }
    destruct (seen_bounds v w B Nv F) as (Nw & Ww & Sw & Cw & Lw).
    destruct (collapse_vec_calm w Nw Ww Sw Cw) as (g' & E & _); [|now exists g'].
    rewrite <- (clash_seen v w F). exact N0.
  - rewrite collapse_map_eq. pose proof (bounded_map m B) as Bm. apply everywhere_map in N as [_ N].
    assert (exists m', collapse_entries m = (Ok tt, m')) as [m' Em].
    { clear -IH Bm N. induction m as [|[k e] v IHv]; [now exists []|].
      inversion IH as [|? ? Ie Iv]; inversion Bm as [|? ? Be Bv']; inversion N as [|? ? Ne Nv']; subst.
      destruct IHv as [w E]; [assumption..|]. destruct (Ie Be Ne) as [e' Ee]. exists ((k, e') :: w). cbn [collapse_entries]. cbn [snd] in Ee. now rewrite Ee, E. }
    exists (GMap m'). now rewrite Em.
Qed.

(** * Undefined behaviour *)
Definition wild {A} (r : out A) : Prop := r = Undef \/ r = Diverge.
Lemma fill_col_soft {A} j (vj : list A) is : (forall i, In i is -> 0 <= i < zlen vj) -> forall m, ~ wild (fill_col j vj is m).
Proof.
  induction is as [|i is IH]; intros H m; cbn [fill_col]; [intros [E|E]; discriminate|].
  unfold raw_at. destruct (znth i vj) as [x|] eqn:E.
  - cbn [bind]. destruct (mat_set m i j x) as [[[]| | |] m'];
      [apply IH; intros; apply H; now right|intros [X|X]; discriminate..].
  - exfalso. pose proof (H i (or_introl eq_refl)) as B. unfold znth in E. destruct (Z.ltb_spec i 0); [lia|].
    apply nth_error_None in E. unfold zlen in B. lia.
Qed.
Lemma fill_cols_soft {A} (cv : gc -> list A -> out unit * list A) nr cols :
  (forall c, In c cols -> (exists col, cv c [] = (Ok tt, col) /\ zlen col = nr) \/ exists col, cv c [] = (Throw, col)) ->
  forall j m, ~ wild (fill_cols cv nr cols j m).
Proof.
  induction cols as [|c cols IH]; intros H j m; cbn [fill_cols]; [intros [E|E]; discriminate|].
  destruct (H c (or_introl eq_refl)) as [(col & -> & L)|(col & ->)]; [|intros [E|E]; discriminate].
  assert (S : ~ wild (fill_col j col (zseq nr) m)).
  { apply fill_col_soft. intros i Hi. unfold zseq in Hi. apply in_map_iff in Hi as (k & <- & Hk). apply in_seq in Hk. pose proof (zlen_nonneg col). lia. }
  destruct (fill_col j col (zseq nr) m) as [m'| | |]; cbn [bind].
  - apply IH. intros; apply H; now right.
  - intros [E|E]; discriminate.
  - exfalso. apply S. now left.
  - exfalso. apply S. now right.
Qed.

Lemma cast_soft lo hi r : lo <= 0 <= hi -> (forall n, fis r n -> lo <= n <= hi) -> ~ wild (gc_assert (is_integer r) (fcast lo hi r)).
Proof.
  intros B H [E|E]; destruct (is_integer r) eqn:I; cbn [gc_assert] in E; try discriminate E.
  all: destruct (proj2 (cast_iff lo hi r B)) as [n X];
    [apply is_integer_spec in I as [[n F]|T]; [left; exists n; auto|right; exact T]|rewrite I in X; cbn [gc_assert] in X; congruence].
Qed.
Lemma one_soft {A B} (cv : A -> out B) x : ~ wild (cv x) ->
  (exists col, push_all cv [x] [] = (Ok tt, col) /\ zlen col = 1) \/ exists col, push_all cv [x] [] = (Throw, col).
Proof.
  intros S. cbn. destruct (cv x) as [y| | |].
  - left. eexists. split; reflexivity.
  - right. eexists. reflexivity.
  - exfalso. apply S. now left.
  - exfalso. apply S. now right.
Qed.
Lemma cpk_soft k c : k <> KBool -> basic c -> (forall x n, c = GReal x -> fis x n -> ~ too_large k n) ->
  (exists col, cpk k c [] = (Ok tt, col) /\ zlen col = 1) \/ exists col, cpk k c [] = (Throw, col).
Proof.
  intros K B H. destruct k; [now contradiction K| | |]; destruct c; try contradiction; cbn [cpk copyto_vec_int copyto_vec_long copyto_vec_real];
    try (right; eexists; reflexivity); apply one_soft; try (intros [X|X]; discriminate X).
  - unfold cl_int. destruct (to_i32 l =? l); intros [X|X]; discriminate X.
  - apply cast_soft; [lia|]. intros n F. specialize (H r n eq_refl F). cbn [too_large] in H. unfold int32 in H. lia.
  - apply cast_soft; [lia|]. intros n F. specialize (H r n eq_refl F). cbn [too_large] in H. unfold int64 in H. lia.
Qed.

Lemma overwrite_wild r g : wild (fst (overwrite r g)) -> wild r.
Proof. destruct r; cbn; intros [E|E]; try discriminate E; [now left|now right]. Qed.
Lemma collapse_vec_soft v : v <> [] -> Forall wf v -> weight (GVec v) < 2^31 -> Forall cooked v -> ~ overflow row0 v ->
  ~ wild (fst (collapse_vec v)).
Proof.
  intros Hne Hw Hsm Hck NO U.
  assert (NC : ~ clash row0 v).
  { intros (k & K & Hall & (b & Hb & Rb) & _).
    assert (Wc : forall c, In c v -> weight c < 2^31) by (intros c Hc; rewrite weight_vec in Hsm; pose proof (sumw_in v c Hc); lia).
    unfold collapse_vec in U. set (s := fold_left scan_step v scan0) in U.
    assert (NE : forall e, In e v -> ne32 e = 1).
    { intros e He. destruct (Hall e He) as [L R]. rewrite <- L. apply ne32_elems; [|now apply Wc].
      intros T. destruct e; discriminate. }
    assert (Hcan : can_collapse s = true).
    { unfold s. apply (scan_same v 1); [lia|exact NE|reflexivity|now right]. }
    assert (Hlast : last_nelem s = 1).
    { destruct (scan_ne v scan0) as (_ & N2 & _); [intros e He; apply ne32_nonneg; auto|exact Hcan|].
      fold s in N2. rewrite <- (N2 Hne b Hb). now apply NE. }
    assert (Hstr : all_string s = false).
    { destruct (all_string s) eqn:A; [|reflexivity]. apply scan_str in A as [_ A]. specialize (A b Hb). destruct b; discriminate. }
    assert (Hmx : max_sub s = ktag k).
    { destruct (scan_max v scan0) as (_ & M2 & M3). fold s in M2, M3. cbv zeta in M2, M3.
      destruct M3 as [M3|(a & Ha & M3)].
      - exfalso. specialize (M2 b Hb). rewrite M3 in M2. destruct b; cbn in Rb, M2; try discriminate; lia.
      - specialize (M2 b Hb). rewrite M3 in M2 |- *. destruct (Hall a Ha) as [_ [R|(l & R & Le)]].
        + exfalso. destruct b; cbn in Rb; try discriminate; destruct a; try contradiction; cbn in M2; lia.
        + destruct b; cbn in Rb; try discriminate; injection Rb as <-; destruct a; cbn in R; try discriminate; injection R as <-; cbn in Le, M2; try lia; reflexivity. }
    assert (Soft : forall d, ~ wild (mat_of d (cpk k) (last_nelem s) v)).
    { intros d. rewrite Hlast. unfold mat_of. apply fill_cols_soft. change (to_u32 1) with 1. rewrite visit_all.
      2:{ rewrite weight_vec in Hsm. pose proof (sumw_len v). lia. }
      intros c Hc. destruct (Hall c Hc) as [L [B|(l & R & Le)]].
      - apply cpk_soft; [exact K|exact B|]. intros x n -> F T. apply NO. exists k. split; [exact K|]. split; [exact Hall|].
        split; [now exists b|]. now exists x, n.
      - left. destruct (row0_cpk k c l K (Wc c Hc) R Le) as [col E]. exists col. split; [exact E|].
        rewrite <- L. unfold zlen. f_equal. apply (cpk_len k c col K (Wc c Hc)); [|exact E]. intros T. destruct c; discriminate. }
    rewrite Hcan, Hstr, Hmx in U. cbn [negb] in U.
    destruct k; cbn [ktag cpk] in *; [now contradiction K| | |]; apply overwrite_wild in U;
      (match type of U with context [mat_of ?d ?f ?n ?w] => specialize (Soft d); destruct (mat_of d f n w) as [m| | |] eqn:Em; cbn [bind] in U end).
    all: try (apply Soft; exact U); try (destruct U as [U|U]; discriminate U).
    all: try (apply Soft; now left); try (apply Soft; now right).
    all: eapply (LOps.mat_of_ok (fun _ => True)) in Em; [|intros; apply Forall_forall; auto|exact I|exact Hw].
    all: unfold set_mint, set_mlong, set_mreal in U; rewrite (mcopy_exact _ _ _ _ Em) in U; destruct U as [U|U]; discriminate U. }
  destruct (collapse_vec_calm v Hne Hw Hsm Hck NC) as (g' & E & _). rewrite E in U. destruct U as [U|U]; discriminate U.
Qed.

Lemma overflow_seen v w : Forall2 seen v w -> overflow row0 w -> overflow row_kind v.
Proof.
  intros F (k & K & Hall & (b & Hb & Rb) & (x & n & Hx & Fx & Tx)); exists k; (split; [exact K|]); (split; [|split]).
  - intros e He. destruct (F2_in _ _ _ F e He) as (e' & He' & S). destruct (Hall e' He') as [L [B|(l & R & Le)]].
    + rewrite (s_back _ _ S (or_introl B)). split; [exact L|now left].
    + destruct (proj2 (s_row _ _ S l) (conj L R)) as [L' R']. split; [exact L'|right; now exists l].
  - destruct (F2_in_r _ _ _ F b Hb) as (b' & Hb' & S). exists b'. split; [exact Hb'|]. exact (proj2 (proj2 (s_row _ _ S k) (conj (proj1 (Hall b Hb)) Rb))).
  - destruct (F2_in_r _ _ _ F _ Hx) as (c' & Hc' & S). exists x, n. rewrite (s_back _ _ S (or_introl I)) in Hc'. auto.
Qed.

Lemma collapse_soft g : bounded g -> everywhere no_overflow g -> ~ wild (fst (collapse g)).
Proof.
  induction g as [g Hv Hm | v IH | m IH] using gc_nest_ind; intros B N.
  - rewrite flat_collapse by assumption. intros [X|X]; discriminate X.
  - destruct v as [|e0 v0]; [intros [X|X]; discriminate X|].
    rewrite collapse_vec_eq. remember (e0 :: v0) as v eqn:Ev. assert (Nv : v <> []) by (subst; discriminate). clear Ev e0 v0.
    pose proof (bounded_vec v B) as Bv. apply everywhere_vec in N as [N0 N].
    assert (NA : ~ wild (fst (collapse_all v))).
    { clear -IH Bv N. induction v as [|e v IHv]; [intros [X|X]; discriminate X|].
      inversion IH as [|? ? Ie Iv]; inversion Bv as [|? ? Be Bv']; inversion N as [|? ? Ne Nv']; subst.
      assert (NV : ~ wild (fst (collapse_all v))) by (apply IHv; assumption). specialize (Ie Be Ne).
      cbn [collapse_all]. destruct (collapse e) as [[[]| | |] e']; cbn [fst] in *; try exact Ie.
      destruct (collapse_all v) as [r v']. exact NV. }
    destruct (collapse_all v) as [[[]| | |] w] eqn:Ea; cbn [fst] in NA |- *; try exact NA.
    assert (F : Forall2 seen v w).
    { apply collapse_all_seen; [exact Ea|]. rewrite Forall_forall in *. intros e He e' Ee. now apply (collapse_seen e (Bv e He)). }
    destruct (seen_bounds v w B Nv F) as (Nw & Ww & Sw & Cw & Lw).
    apply collapse_vec_soft; auto. intros O. apply N0. exact (overflow_seen v w F O).
  - rewrite collapse_map_eq. pose proof (bounded_map m B) as Bm. apply everywhere_map in N as [_ N].
    assert (NA : ~ wild (fst (collapse_entries m))).
    { clear -IH Bm N. induction m as [|[k e] v IHv]; [intros [X|X]; discriminate X|].
      inversion IH as [|? ? Ie Iv]; inversion Bm as [|? ? Be Bv']; inversion N as [|? ? Ne Nv']; subst. cbn [snd] in *.
      assert (NV : ~ wild (fst (collapse_entries v))) by (apply IHv; assumption). specialize (Ie Be Ne).
      cbn [collapse_entries]. destruct (collapse e) as [[[]| | |] e']; cbn [fst] in *; try exact Ie.
      destruct (collapse_entries v) as [r v']. exact NV. }
    destruct (collapse_entries m) as [r m']. exact NA.
Qed.
