(** collapse succeeds on data without mixed vectors, pointers and complex numbers. *)
From Coq Require Import ZArith Bool Lia Ascii String List.
From Verif Require Import Base F64 StrMap Value MBasic MCopy SCopy LCopy LBasic MGet SGet LGet MMat SMap
  MPromote SPromote LPromote LCopyto MCollapse SCollapse LCollapse.
Import ListNotations.
Local Open Scope Z_scope.

(** The types that occur after collapsing parsed data. *)
Definition cooked (g : gc) : Prop :=
  In (tag_of g) [TNone; TBool; TInt; TLong; TReal; TStr; TVBool; TVInt; TVLong; TVReal; TVStr;
                 TMInt; TMLong; TMReal; TVec; TMap].

Lemma push_all_some {A} (cv : gc -> out A) l : (forall e, In e l -> exists x, cv e = Ok x) ->
  exists r, push_all cv l [] = (Ok tt, r).
Proof.
  intros H. destruct (push_all_in cv (fun _ _ => True) l) as (r & E & _); [|now exists r].
  intros e He. destruct (H e He) as [x Ex]. now exists x.
Qed.

Section Ok.
  Variable v : list gc.
  Hypothesis Hne : v <> [].
  Hypothesis Hw : Forall wf v.
  Hypothesis Hsm : weight (GVec v) < 2^31.
  Hypothesis Hck : Forall cooked v.
  Hypothesis Hmix : forall a b, In a v -> In b v -> scalar a -> vec_tag (tag_of b) ->
    zlen (elems a) <> zlen (elems b).
  Let s := fold_left scan_step v scan0.

  Local Lemma ok_few {A} (t : list A) : length t = length v -> few t /\ t <> [].
  Proof.
    intros E. rewrite weight_vec in Hsm. pose proof (sumw_len v). split; [unfold few, zlen in *; lia|].
    intros ->. destruct v; [now apply Hne|discriminate].
  Qed.

  (** When the largest type is a number type, no child is null. *)
  Local Lemma ok_scalars mx : can_collapse s = true -> max_sub s = mx ->
    In mx [TBool; TInt; TLong; TReal; TComplex; TStr] ->
    (forall c, In c v -> tag_num (tag_of c) <= tag_num mx /\ tag_of c <> TNone) /\
    exists c, In c v /\ tag_of c = mx.
  Proof.
    intros Hcan Hmx Hin.
    destruct (scan_max v scan0) as (_ & M2 & M3). fold s in M2, M3. cbv zeta in M2, M3. rewrite Hmx in M2, M3.
    assert (Wc : forall c, In c v -> weight c < 2^31)
      by (intros c Hc; rewrite weight_vec in Hsm; pose proof (sumw_in v c Hc); lia).
    destruct (scan_ne v scan0) as (_ & N2 & _); [intros e He; apply ne32_nonneg; auto|exact Hcan|].
    fold s in N2. specialize (N2 Hne).
    destruct M3 as [M3|(b & Hb & M3)]; [exfalso; rewrite M3 in Hin; cbn in Hin; intuition discriminate|].
    assert (Nb : ne32 b = 1) by (rewrite M3 in Hin; destruct b; cbn in Hin; try (exfalso; intuition discriminate); reflexivity).
    split; [|now exists b]. intros c Hc. split; [auto|]. intros T.
    assert (Nc : ne32 c = 0) by (destruct c; try discriminate; reflexivity).
    pose proof (N2 c Hc). pose proof (N2 b Hb). lia.
  Qed.

  (** When the largest type is a typed vector, no child is a scalar. *)
  Local Lemma ok_vectors mx : can_collapse s = true -> max_sub s = mx -> vec_tag mx ->
    tag_num mx <= tag_num TVComplex ->
    forall c, In c v -> tag_num (tag_of c) <= tag_num mx /\ ~ scalar c /\ zlen (elems c) = last_nelem s.
  Proof.
    intros Hcan Hmx Hvt Hle.
    destruct (scan_max v scan0) as (_ & M2 & M3). fold s in M2, M3. cbv zeta in M2, M3. rewrite Hmx in M2, M3.
    assert (Wc : forall c, In c v -> weight c < 2^31)
      by (intros c Hc; rewrite weight_vec in Hsm; pose proof (sumw_in v c Hc); lia).
    destruct (scan_ne v scan0) as (_ & N2 & _); [intros e He; apply ne32_nonneg; auto|exact Hcan|].
    fold s in N2. specialize (N2 Hne).
    destruct M3 as [M3|(b & Hb & M3)]; [exfalso; rewrite M3 in Hvt; cbn in Hvt; intuition discriminate|].
    assert (NM : forall c, In c v -> tag_of c <> TMap).
    { intros c Hc T. specialize (M2 c Hc). rewrite T in M2. cbn in M2, Hle. lia. }
    intros c Hc. split; [auto|].
    assert (E : zlen (elems c) = last_nelem s) by (rewrite <- (N2 c Hc); symmetry; apply ne32_elems; auto).
    split; [|assumption]. intros Sc. rewrite M3 in Hvt. apply (Hmix c b Hc Hb Sc Hvt).
    rewrite E, <- (N2 b Hb). apply ne32_elems; auto.
  Qed.

  Local Lemma ok_mat {A} (d : A) cp mx : can_collapse s = true -> max_sub s = mx -> vec_tag mx ->
    tag_num mx <= tag_num TVComplex ->
    (forall c, In c v -> exists col, cp c [] = (Ok tt, col) /\ length col = length (elems c)) ->
    exists m, mat_of d cp (last_nelem s) v = Ok m.
  Proof.
    intros Hcan Hmx Hvt Hle Hcp.
    pose proof (ok_vectors mx Hcan Hmx Hvt Hle) as Hvec.
    rewrite weight_vec in Hsm. pose proof (sumw_len v) as Hl. pose proof (zlen_nonneg v).
    assert (Hnr : 0 <= last_nelem s /\ last_nelem s * zlen v <= sumw v /\ last_nelem s < 2^31).
    { destruct v as [|c0 v0] eqn:Ev; [congruence|]. rewrite <- Ev in *.
      assert (Hc0 : In c0 v) by (rewrite Ev; now left).
      destruct (Hvec c0 Hc0) as (_ & _ & E0). pose proof (zlen_nonneg (elems c0)).
      split; [lia|]. split.
      - assert (K : forall c, In c v -> last_nelem s <= weight c).
        { intros c Hc. destruct (Hvec c Hc) as (_ & _ & E). pose proof (elems_weight c). lia. }
        clear -K. induction v as [|c w IH]; [unfold zlen; cbn; lia|].
        rewrite zlen_cons. cbn [sumw fold_right]. fold (sumw w).
        assert (last_nelem s * zlen w <= sumw w) by (apply IH; intros; apply K; now right).
        specialize (K c (or_introl eq_refl)). nia.
      - pose proof (elems_weight c0). pose proof (sumw_in v c0 Hc0). lia. }
    assert (F : exists cs, Forall2 (fun c col => cp c [] = (Ok tt, col) /\ zlen col = last_nelem s) v cs).
    { clear -Hcp Hvec. assert (H : forall c, In c v -> exists col, cp c [] = (Ok tt, col) /\ zlen col = last_nelem s).
      { intros c Hc. destruct (Hcp c Hc) as (col & E & L). exists col. split; [assumption|].
        destruct (Hvec c Hc) as (_ & _ & E'). unfold zlen in *. now rewrite L. }
      clearbody s. clear -H. induction v as [|c w IH]; [exists []; constructor|].
      destruct IH as [cs F]; [intros; apply H; now right|].
      destruct (H c (or_introl eq_refl)) as [col Hc]. exists (col :: cs). now constructor. }
    destruct F as [cs F]. unfold mat_of. rewrite visit_all by lia.
    rewrite (to_u32_id (last_nelem s)) by (unfold uint32; lia).
    rewrite (to_u32_id (zlen v)) by (unfold uint32; lia). unfold mresize.
    rewrite to_u32_id by (unfold uint32; nia).
    change (resize d (Z.to_nat (last_nelem s * zlen v)) []) with ([] ++ resize d (Z.to_nat (last_nelem s * zlen v)) []).
    rewrite (fill_cols_ok cp (last_nelem s) (zlen v) (proj1 Hnr) v cs 0); try assumption; try lia.
    - now eexists.
    - rewrite zlen_nil. lia.
    - unfold zlen at 1. rewrite resize_length, Z2Nat.id; [reflexivity|nia].
    - cbn [app]. unfold zlen at 1. rewrite resize_length, Z2Nat.id; [lia|nia].
  Qed.

  Local Lemma ok_mixed : false = false -> forall a b, In a v -> In b v -> scalar a -> vec_tag (tag_of b) ->
    zlen (elems a) <> zlen (elems b).
  Proof. intros _. exact Hmix. Qed.

  Theorem collapse_vec_ok : exists g', collapse_vec v = (Ok tt, g') /\ cooked g'.
  Proof.
    assert (Same : exists g', (Ok tt, GVec v) = (Ok tt, g') /\ cooked g')
      by (exists (GVec v); split; [reflexivity|cbn; tauto]).
    assert (Fin : forall r g', r = Ok g' -> cooked g' ->
      exists g'', overwrite r (GVec v) = (Ok tt, g'') /\ cooked g'')
      by (intros r g' -> C; now exists g').
    assert (Hck' : forall c, In c v -> cooked c) by (now apply Forall_forall).
    assert (Hsz : sized (GVec v)).
    { unfold sized. cbn [elems]. rewrite weight_vec in Hsm. pose proof (sumw_len v). lia. }
    unfold collapse_vec. fold s. destruct (can_collapse s) eqn:Hcan; cbn [negb]; [|exact Same].
    destruct (all_string s) eqn:Hstr.
    { apply scan_str in Hstr as [_ Hstr].
      assert (E : exists t, strings_of v = Ok t /\ length t = length v).
      { clear -Hstr. induction v as [|e w IH]; [now exists []|].
        destruct IH as (t & E & L); [intros; apply Hstr; now right|].
        pose proof (Hstr e (or_introl eq_refl)) as T. destruct e as [| | | | | | |str| | | | | | | | | | | | |]; try discriminate. exists (str :: t).
        cbn. rewrite E. split; [reflexivity|]. cbn. congruence. }
      destruct E as (t & E & L). destruct (ok_few t L) as [F N].
      apply Fin with (GVStr t); [|cbn; tauto]. rewrite E. cbn [bind]. now apply set_vstr_exact. }
    assert (Scal : forall A (cv : gc -> out A) t, push_all cv v [] = (Ok tt, t) -> few t /\ t <> []).
    { intros A cv t E. apply ok_few. apply push_all_ok in E as (r & -> & F). cbn [app].
      clear -F. induction F; cbn; congruence. }
    assert (NoStr : forall c, max_sub s <> TStr -> In c v -> scalar c -> vec_tag (max_sub s) \/ True) by auto.
    clear NoStr.
    destruct (max_sub s) eqn:Hmx; try exact Same.
    - destruct (ok_scalars _ Hcan Hmx) as [Hb _]; [cbn; tauto|].
      assert (E : exists t, bools_of v = Ok t /\ length t = length v).
      { clear -Hb Hck'. induction v as [|e w IH]; [now exists []|].
        destruct IH as (t & E & L); [intros; apply Hck'; now right|intros; apply Hb; now right|].
        destruct (Hb e (or_introl eq_refl)) as [T T']. specialize (Hck' e (or_introl eq_refl)).
        destruct e as [| |b| | | | | | | | | | | | | | | | | |]; cbn in T; try lia; [now destruct T'|exfalso; cbn in Hck'; intuition discriminate|].
        exists (b :: t). cbn. rewrite E. split; [reflexivity|]. cbn. congruence. }
      destruct E as (t & E & L). destruct (ok_few t L) as [F N].
      apply Fin with (GVBool t); [|cbn; tauto]. rewrite E. cbn [bind]. now apply set_vbool_exact.
    - destruct (ok_scalars _ Hcan Hmx) as [Hb _]; [cbn; tauto|].
      destruct (push_all_some (conv_int true) v) as [t E].
      { intros e He. destruct (Hb e He) as [T T']. specialize (Hck' e He).
        destruct e; cbn in T; try lia; try (now destruct T'); try (now eexists). exfalso; cbn in Hck'; intuition discriminate. }
      destruct (Scal _ _ _ E) as [F N].
      apply Fin with (GVInt t); [|cbn; tauto].
      rewrite copyto_vec_int_as by (assumption || discriminate). cbn [is_vec elems]. rewrite E. cbn [copied bind].
      exact (proj1 (set_vec_exact t (GVec v) F N)).
    - destruct (ok_scalars _ Hcan Hmx) as [Hb _]; [cbn; tauto|].
      destruct (push_all_some get_as_long v) as [t E].
      { intros e He. destruct (Hb e He) as [T T']. specialize (Hck' e He).
        destruct e; cbn in T; try lia; try (now destruct T'); try (now eexists). exfalso; cbn in Hck'; intuition discriminate. }
      destruct (Scal _ _ _ E) as [F N].
      apply Fin with (GVLong t); [|cbn; tauto].
      rewrite copyto_vec_long_as by (assumption || discriminate). cbn [is_vec elems]. rewrite E. cbn [copied bind].
      exact (proj1 (proj2 (set_vec_exact t (GVec v) F N))).
    - destruct (ok_scalars _ Hcan Hmx) as [Hb _]; [cbn; tauto|].
      destruct (push_all_some (conv_real true) v) as [t E].
      { intros e He. destruct (Hb e He) as [T T']. specialize (Hck' e He).
        destruct e; cbn in T; try lia; try (now destruct T'); try (now eexists). exfalso; cbn in Hck'; intuition discriminate. }
      destruct (Scal _ _ _ E) as [F N].
      apply Fin with (GVReal t); [|cbn; tauto].
      rewrite copyto_vec_real_as by (assumption || discriminate). cbn [is_vec elems]. rewrite E. cbn [copied bind].
      exact (proj1 (proj2 (proj2 (set_vec_exact t (GVec v) F N)))).
    - destruct (ok_scalars _ Hcan Hmx) as [_ (c & Hc & T)]; [cbn; tauto|].
      specialize (Hck' c Hc). unfold cooked in Hck'. rewrite T in Hck'. exfalso. cbn in Hck'. intuition discriminate.
    - pose proof (ok_vectors _ Hcan Hmx ltac:(cbn; tauto) ltac:(cbn; lia)) as Hb.
      destruct (ok_mat 0 copyto_vec_int _ Hcan Hmx ltac:(cbn; tauto) ltac:(cbn; lia)) as [m Em].
      { intros c Hc. destruct (Hb c Hc) as (T & NS & _). specialize (Hck' c Hc).
        assert (Wc : sized c).
        { apply small_sized. rewrite weight_vec in Hsm. pose proof (sumw_in v c Hc). lia. }
        destruct (push_all_some (conv_int false) (elems c)) as [t E].
        { intros e He. destruct c; cbn in T; try lia; try (exfalso; apply NS; cbn; tauto);
            try (exfalso; cbn in Hck'; intuition discriminate);
            cbn [elems] in He; apply in_map_iff in He as (y & <- & _); now eexists. }
        exists t. rewrite copyto_vec_int_as; [|assumption|intros T'; rewrite T' in T; cbn in T; lia].
        replace (is_vec c) with false by (destruct c; cbn in T; try reflexivity; lia).
        split; [assumption|]. apply push_all_ok in E as (r & -> & F). cbn [app]. clear -F. induction F; cbn; congruence. }
      assert (R : wf_mat int32 m).
      { apply (LCollapse.mats_post true false v Hne Hw Hsm ltac:(discriminate) ok_mixed
          no_tiny 0 copyto_vec_int (conv_int false) GMInt d_int int32 TVInt m); auto.
        - apply conv_int_ok.
        - intros c Hsz' Hfl. rewrite copyto_vec_int_as; [|assumption|].
          + destruct c; try reflexivity. unfold flat in Hfl. cbn in Hfl. lia.
          + intros T. unfold flat in Hfl. rewrite T in Hfl. cbn in Hfl. lia.
        - cbn. tauto.
        - cbn. lia.
        - intros c Hc Sc. destruct (Hb c Hc) as (T & _). apply Forall_forall. intros e He.
          destruct c; cbn in T; try lia; cbn [elems] in He;
            try (exfalso; cbn in Sc; intuition discriminate); apply in_map_iff in He as (y & <- & _); exact I.
        - intros. cbn. tauto. }
      apply Fin with (GMInt m); [|cbn; tauto]. rewrite Em. cbn [bind]. exact (proj1 (set_mat_exact _) m R).
    - pose proof (ok_vectors _ Hcan Hmx ltac:(cbn; tauto) ltac:(cbn; lia)) as Hb.
      destruct (ok_mat 0 copyto_vec_long _ Hcan Hmx ltac:(cbn; tauto) ltac:(cbn; lia)) as [m Em].
      { intros c Hc. destruct (Hb c Hc) as (T & NS & _). specialize (Hck' c Hc).
        assert (Wc : sized c).
        { apply small_sized. rewrite weight_vec in Hsm. pose proof (sumw_in v c Hc). lia. }
        destruct (push_all_some get_as_long (elems c)) as [t E].
        { intros e He. destruct c; cbn in T; try lia; try (exfalso; apply NS; cbn; tauto);
            try (exfalso; cbn in Hck'; intuition discriminate);
            cbn [elems] in He; apply in_map_iff in He as (y & <- & _); now eexists. }
        exists t. rewrite copyto_vec_long_as; [|assumption|intros T'; rewrite T' in T; cbn in T; lia].
        split; [assumption|]. apply push_all_ok in E as (r & -> & F). cbn [app]. clear -F. induction F; cbn; congruence. }
      assert (R : wf_mat int64 m).
      { apply (LCollapse.mats_post true false v Hne Hw Hsm ltac:(discriminate) ok_mixed
          no_tiny 0 copyto_vec_long get_as_long GMLong d_int int64 TVLong m); auto.
        - apply conv_long_ok.
        - intros c Hsz' Hfl. apply copyto_vec_long_as; [assumption|].
          intros T. unfold flat in Hfl. rewrite T in Hfl. cbn in Hfl. lia.
        - cbn. tauto.
        - cbn. lia.
        - intros c Hc Sc. destruct (Hb c Hc) as (T & _). apply Forall_forall. intros e He.
          destruct c; cbn in T; try lia; cbn [elems] in He;
            try (exfalso; cbn in Sc; intuition discriminate); apply in_map_iff in He as (y & <- & _); exact I.
        - intros. cbn. tauto. }
      apply Fin with (GMLong m); [|cbn; tauto]. rewrite Em. cbn [bind]. exact (proj1 (proj2 (set_mat_exact _)) m R).
    - pose proof (ok_vectors _ Hcan Hmx ltac:(cbn; tauto) ltac:(cbn; lia)) as Hb.
      destruct (ok_mat f_zero copyto_vec_real _ Hcan Hmx ltac:(cbn; tauto) ltac:(cbn; lia)) as [m Em].
      { intros c Hc. destruct (Hb c Hc) as (T & NS & _). specialize (Hck' c Hc).
        assert (Wc : sized c).
        { apply small_sized. rewrite weight_vec in Hsm. pose proof (sumw_in v c Hc). lia. }
        destruct (push_all_some (conv_real false) (elems c)) as [t E].
        { intros e He. destruct c; cbn in T; try lia; try (exfalso; apply NS; cbn; tauto);
            try (exfalso; cbn in Hck'; intuition discriminate);
            cbn [elems] in He; apply in_map_iff in He as (y & <- & _); now eexists. }
        exists t. rewrite copyto_vec_real_as; [|assumption|intros T'; rewrite T' in T; cbn in T; lia].
        replace (is_vec c) with false by (destruct c; cbn in T; try reflexivity; lia).
        split; [assumption|]. apply push_all_ok in E as (r & -> & F). cbn [app]. clear -F. induction F; cbn; congruence. }
      assert (R : wf_mat f64 m).
      { apply (LCollapse.mats_post true false v Hne Hw Hsm ltac:(discriminate) ok_mixed
          (fun e => (tag_of e = TReal \/ no_tiny e) /\ keeps true e) f_zero copyto_vec_real (conv_real false) GMReal d_real f64 TVReal m); auto.
        - intros e x [[T|T] K] Hwe Ee; [|now apply (conv_real_ok true false e x)].
          destruct e; try discriminate. cbn in Ee. apply Ok_inj in Ee. subst.
          split; [apply sim_refl|exact Hwe].
        - intros c Hsz' Hfl. rewrite copyto_vec_real_as; [|assumption|].
          + destruct c; try reflexivity. unfold flat in Hfl. cbn in Hfl. lia.
          + intros T. unfold flat in Hfl. rewrite T in Hfl. cbn in Hfl. lia.
        - cbn. tauto.
        - cbn. lia.
        - intros c Hc Sc. now destruct (Hb c Hc) as (_ & NS & _).
        - intros c Hc Sc. destruct (Hb c Hc) as (T & _). apply Forall_forall. intros e He.
          destruct c; cbn in T; try lia; cbn [elems] in He;
            try (exfalso; cbn in Sc; intuition discriminate); apply in_map_iff in He as (y & <- & _);
            (split; [first [now left | (right; exact I)]|discriminate]).
        - intros. cbn. tauto. }
      apply Fin with (GMReal m); [|cbn; tauto]. rewrite Em. cbn [bind]. exact (proj1 (proj2 (proj2 (set_mat_exact _))) m R).
    - exfalso. destruct (scan_max v scan0) as (_ & _ & M3). fold s in M3. cbv zeta in M3. rewrite Hmx in M3.
      destruct M3 as [M3|(b & Hb & M3)]; [discriminate|]. specialize (Hck' b Hb). unfold cooked in Hck'.
      rewrite <- M3 in Hck'. cbn in Hck'. intuition discriminate.
  Qed.
End Ok.

Theorem collapse_parsed_ok g : wf g -> weight g < 2^31 -> unmixed g -> parsed g ->
  exists g', collapse g = (Ok tt, g') /\ cooked g'.
Proof.
  induction g as [g Hv Hm | v IH | m IH] using gc_nest_ind; intros Hw Hs HM HP.
  - exists g. split; [now apply flat_collapse|]. apply everywhere_here in HP.
    unfold parsed_node in HP. unfold cooked. cbn [In] in *. intuition.
  - destruct v as [|e0 v0]; [exists (GVec []); split; [reflexivity|cbn; tauto]|].
    rewrite collapse_vec_eq. remember (e0 :: v0) as v eqn:Ev.
    assert (Hnv : v <> []) by (subst; discriminate). clear Ev e0 v0.
    pose proof Hs as Hs'. rewrite weight_vec in Hs'. pose proof Hw as Hw'. apply wf_vec in Hw'.
    pose proof HM as HM'. apply everywhere_vec in HM' as [HM1 HM2]. apply everywhere_vec in HP as [_ HP].
    assert (Hc : exists v', collapse_all v = (Ok tt, v') /\ Forall cooked v').
    { clear -IH Hw' Hs' HM2 HP. induction v as [|e v IHv]; [exists []; split; [reflexivity|constructor]|].
      inversion IH as [|? ? Ie Iv]; inversion Hw' as [|? ? We Wv']; inversion HM2 as [|? ? Me Mv]; inversion HP as [|? ? Pe Pv]; subst.
      cbn [sumw fold_right] in Hs'. fold (sumw v) in Hs'. pose proof (weight_pos e).
      pose proof (sumw_len v). pose proof (zlen_nonneg v).
      destruct IHv as (v' & E & C); auto; [lia|].
      destruct Ie as (e' & Ee & Ce); auto; [lia|].
      exists (e' :: v'). cbn [collapse_all]. rewrite Ee, E. split; [reflexivity|now constructor]. }
    destruct Hc as (v' & Ec & Cc). rewrite Ec.
    assert (HS : Forall (step_ok true false) v).
    { apply Forall_forall. intros c Hc. rewrite Forall_forall in Hw', HM2. apply collapse_post; auto; try discriminate.
      - pose proof (sumw_in v c Hc). lia.
      - intros _. now apply HM2. }
    pose proof (collapse_all_post true false v HS Hw' _ _ Ec (or_introl eq_refl)) as F.
    destruct (F2_post true false v v' F) as (I1 & I2 & I3 & _ & I6).
    apply collapse_vec_ok; auto.
    + intros ->. rewrite zlen_nil in I3. symmetry in I3. apply zlen_zero in I3. congruence.
    + rewrite weight_vec. lia.
    + intros a' b' Ha' Hb' Sa' Tb'.
      destruct (I6 a' Ha') as (a & Ha & Pa), (I6 b' Hb') as (b & Hb & Pb).
      destruct (scalar_dec a) as [Sa|Sa]; [|exfalso; now apply (p_nonscalar _ _ _ _ Pa)].
      rewrite (p_scalar _ _ _ _ Pa Sa). destruct (p_len _ _ _ _ Pb Tb') as [Sb ->]. now apply HM1.
  - rewrite collapse_map_eq. rewrite weight_map in Hs. apply wf_map in Hw as [_ Hw].
    apply everywhere_map in HM as [_ HM]. apply everywhere_map in HP as [_ HP].
    assert (Hc : exists m', collapse_entries m = (Ok tt, m')).
    { induction m as [|[k e] v IHv]; [now exists []|].
      inversion IH as [|? ? Ie Iv]; inversion Hw as [|? ? We Wv']; inversion HM as [|? ? Me Mv]; inversion HP as [|? ? Pe Pv]; subst.
      cbn [sumwm fold_right snd] in *. fold (sumwm v) in Hs. pose proof (weight_pos e).
      pose proof (sumwm_len v). pose proof (zlen_nonneg v).
      destruct IHv as (v' & E); auto; [lia|].
      destruct Ie as (e' & Ee & Ce); auto; [lia|].
      exists ((k, e') :: v'). cbn [collapse_entries]. now rewrite Ee, E. }
    destruct Hc as (m' & ->). exists (GMap m'). split; [reflexivity|cbn; tauto].
Qed.
