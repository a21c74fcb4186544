(** Proofs about copy, assignment and merge. *)
From Coq Require Import ZArith Bool Lia Ascii String List.
From Verif Require Import Base F64 StrMap Value MBasic MCopy SCopy.
Import ListNotations.
Local Open Scope Z_scope.

Lemma valloc_length {A} (d : A) (v old : list A) : few v ->
  length (valloc d (to_u32 (zlen v)) old) = match v with [] => length old | _ => length v end.
Proof.
  unfold few. intros H. rewrite to_u32_id by (unfold uint32; pose proof (zlen_nonneg v); lia).
  unfold valloc. destruct v as [|a v]; [reflexivity|].
  rewrite (proj2 (Z.ltb_lt _ _)) by (rewrite zlen_cons; pose proof (zlen_nonneg v); lia).
  rewrite resize_length. unfold zlen. now rewrite Nat2Z.id.
Qed.

Lemma copy_alloc {A} (d : A) (v old : list A) : few v ->
  copy_into v (valloc d (to_u32 (zlen v)) old) = Ok (match v with [] => old | _ => v end).
Proof.
  intros H. unfold copy_into. pose proof (valloc_length d v old H) as L.
  destruct v as [|a v]; [unfold valloc; reflexivity|].
  rewrite L, Nat.leb_refl. f_equal. rewrite skipn_all2 by lia. apply app_nil_r.
Qed.

Lemma mcopy_exact {A} (P : A -> Prop) d m old : wf_mat P m -> mcopy d m old = Ok m.
Proof.
  intros (Hr & Hc & Hl & _). unfold mcopy, mresize. simpl. unfold copy_into.
  assert (L : Z.to_nat (to_u32 (mrows m * mcols m)) = length (mdata m))
    by (rewrite <- Hl; unfold zlen; apply Nat2Z.id).
  rewrite resize_length, L, Nat.leb_refl. simpl.
  rewrite skipn_all2 by (rewrite resize_length; lia). rewrite app_nil_r. now destruct m.
Qed.

(** Elements beyond the old length are empty. *)
Lemma alloc_vec_nth (v w : list gc) i : few v -> v <> [] ->
  nth_error (alloc_vec (to_u32 (zlen v)) (GVec w)) i =
  if Nat.ltb i (length v) then Some (nth_or_empty i w) else None.
Proof.
  intros H Hne. unfold alloc_vec, valloc. simpl.
  rewrite to_u32_id by (unfold uint32, few in *; pose proof (zlen_nonneg v); lia).
  destruct v as [|a v]; [congruence|].
  rewrite (proj2 (Z.ltb_lt _ _)) by (rewrite zlen_cons; pose proof (zlen_nonneg v); lia).
  rewrite resize_nth. unfold zlen. rewrite Nat2Z.id.
  destruct (Nat.ltb i (length (a :: v))); [|reflexivity].
  unfold nth_or_empty. destruct (Nat.ltb i (length w)) eqn:E.
  - apply Nat.ltb_lt in E. now apply nth_error_nth'.
  - apply Nat.ltb_ge in E. now rewrite nth_overflow.
Qed.

Lemma assign_vec_spec v : forall w,
  (length v <= length w)%nat -> Forall wfm w ->
  Forall (fun a => forall d, wfm d -> exists r, from_gc a d = Ok r /\ wfm r) v ->
  exists r, assign_vec v w = Ok r /\ length r = length w /\ Forall wfm r /\
    forall i, nth_error r i =
      match nth_error v i, nth_error w i with
      | Some a, Some b => match from_gc a b with Ok y => Some y | _ => None end
      | None, o => o
      | _, None => None
      end.
Proof.
  induction v as [|a v IH]; intros w Hl Hw HF.
  - exists w. repeat split; auto. intros i. destruct i; reflexivity.
  - destruct w as [|b w]; [simpl in Hl; lia|]. inversion HF; subst. inversion Hw; subst.
    destruct (H1 b) as (y & Hy & Wy); [assumption|].
    destruct (IH w ltac:(simpl in Hl; lia)) as (r & Hr & Hlr & Wr & Hn); [assumption|assumption|].
    exists (y :: r). simpl. rewrite Hy; simpl. rewrite Hr; simpl. repeat split; [lia|auto|].
    intros [|i]; simpl; [now rewrite Hy | apply Hn].
Qed.

Lemma assign_map_spec n : forall acc,
  Forall (fun kv => no_nul (fst kv)) n -> msorted n -> msorted acc ->
  Forall (fun kv => forall d, wfm d -> exists r, from_gc (snd kv) d = Ok r /\ wfm r) n ->
  Forall (fun kv => wfm (snd kv)) acc ->
  exists r, assign_map n acc = Ok r /\ msorted r /\ Forall (fun kv => wfm (snd kv)) r /\
    forall k, match mfind k n with
              | None => mfind k r = mfind k acc
              | Some x => exists y, from_gc x (find_or_empty k acc) = Ok y /\ mfind k r = Some y
              end.
Proof.
  induction n as [|[k a] n IH]; intros acc Hk Hs Hacc HF Hw.
  - exists acc. repeat split; auto.
  - inversion Hk; subst. inversion HF; subst. simpl in *.
    apply msorted_inv in Hs as [Hs Hall].
    assert (Wd : wfm (odflt (mfind k acc))).
    { destruct (mfind k acc) as [g|] eqn:E; simpl; [|exact I].
      apply mfind_in in E. rewrite Forall_forall in Hw. now apply (Hw _ E). }
    destruct (H3 _ Wd) as (y & Hy & Wy). rewrite (cstr_id k) by assumption. rewrite Hy. simpl.
    destruct (IH (mset k y acc)) as (r & Hr & Hsr & Hwr & Hf); auto.
    { now apply mset_sorted. }
    { rewrite Forall_forall in *. intros [k' v'] Hin. simpl.
      destruct (String.compare k' k) eqn:E.
      - apply String.compare_eq_iff in E; subst k'.
        apply in_mfind in Hin; [|now apply mset_sorted]. rewrite mfind_mset_same in Hin. congruence.
      - apply in_mfind in Hin; [|now apply mset_sorted]. rewrite mfind_mset_other in Hin.
        + apply mfind_in in Hin. now apply (Hw _ Hin).
        + intros ->. rewrite compare_refl in E; discriminate.
      - apply in_mfind in Hin; [|now apply mset_sorted]. rewrite mfind_mset_other in Hin.
        + apply mfind_in in Hin. now apply (Hw _ Hin).
        + intros ->. rewrite compare_refl in E; discriminate. }
    exists r. split; [assumption|]. split; [assumption|]. split; [assumption|].
    intros k'. specialize (Hf k'). destruct (String.compare k' k) eqn:E.
    + apply String.compare_eq_iff in E; subst k'.
      exists y. rewrite mfind_notin in Hf by assumption. split.
      * unfold find_or_empty, odflt in *. exact Hy.
      * rewrite Hf. apply mfind_mset_same.
    + assert (k' <> k) by (intros ->; rewrite compare_refl in E; discriminate).
      destruct (mfind k' n).
      * destruct Hf as (y' & A & B). exists y'. split; [|assumption].
        unfold find_or_empty in *. now rewrite mfind_mset_other in A by assumption.
      * now rewrite mfind_mset_other in Hf by assumption.
    + assert (k' <> k) by (intros ->; rewrite compare_refl in E; discriminate).
      destruct (mfind k' n).
      * destruct Hf as (y' & A & B). exists y'. split; [|assumption].
        unfold find_or_empty in *. now rewrite mfind_mset_other in A by assumption.
      * now rewrite mfind_mset_other in Hf by assumption.
Qed.

Lemma Forall_nth_or_empty w i : Forall wfm w -> wfm (nth_or_empty i w).
Proof.
  intros H. unfold nth_or_empty. destruct (nth_in_or_default i w GNone) as [Hin|E].
  - rewrite Forall_forall in H. auto.
  - rewrite E. exact I.
Qed.

Lemma alloc_vec_wfm (v w : list gc) : few v -> Forall wfm w -> Forall wfm (alloc_vec (to_u32 (zlen v)) (GVec w)).
Proof.
  intros Hf Hw. destruct v as [|a v].
  - exact Hw.
  - rewrite Forall_forall. intros x Hx. apply In_nth_error in Hx as [i Hi].
    rewrite alloc_vec_nth in Hi by (assumption || discriminate).
    destruct (Nat.ltb _ _); [|discriminate]. apply Some_inj in Hi. subst x.
    now apply Forall_nth_or_empty.
Qed.

Lemma alloc_vec_other (v : list gc) g : tag_of g <> TVec ->
  alloc_vec (to_u32 (zlen v)) g = alloc_vec (to_u32 (zlen v)) (GVec []).
Proof. intros H. unfold alloc_vec. destruct g; simpl in *; congruence. Qed.

Ltac plain := apply as_plain; [discriminate|discriminate|unfold empty_tvec; intuition discriminate].

(** For a typed vector the result is the source unless it is an empty vector of the same type. *)
Lemma tvec_case {A} (C : list A -> gc) (v : list A) dst old :
  (forall w, tag_of (C w) = tag_of (C v)) ->
  (forall w w', C w = C w' -> w = w') ->
  tag_of (C v) <> TVec -> tag_of (C v) <> TMap ->
  empty_tvec (C []) -> (forall x l, ~ empty_tvec (C (x :: l))) ->
  (dst = C old \/ (tag_of dst <> tag_of (C v) /\ old = [])) ->
  assigned dst (C v) (C (match v with [] => old | _ => v end)).
Proof.
  intros Ht Hinj Hv Hm He Hne Hd. destruct v as [|a v].
  - destruct Hd as [->|[Hd ->]].
    + apply as_empty_tvec; auto.
    + now apply as_other_type.
  - apply as_plain; auto.
Qed.

(** Assignment over arbitrary content: it succeeds and has the specified result. *)
Theorem from_gc_assigned src : value_ok src -> forall dst, wfm dst ->
  exists r, from_gc src dst = Ok r /\ wfm r /\ assigned dst src r.
Proof.
  induction src as [g Hv Hm | v IH | n IH] using gc_nest_ind; intros (Hw & Hk & Hf) dst Hd.
  - Ltac vcase Hf C d := simpl in Hf; cbn [from_gc];
      unfold set_vptr, set_vbool, set_vint, set_vlong, set_vreal, set_vcomplex, set_vstr,
        alloc_vptr, alloc_vbool, alloc_vint, alloc_vlong, alloc_vreal, alloc_vcomplex, alloc_vstr;
      rewrite copy_alloc by exact Hf; cbn [bind]; eexists; split; [reflexivity|]; split; [exact I|];
      apply (tvec_case C); try (intros; simpl; congruence); try discriminate;
      try (unfold empty_tvec; intuition discriminate); try (unfold empty_tvec; tauto);
      destruct d; simpl; auto; right; split; auto; discriminate.
    Ltac mcase Hw := simpl in Hw; cbn [from_gc];
      unfold set_mint, set_mlong, set_mreal, set_mcomplex; rewrite (mcopy_exact _ _ _ _ Hw);
      cbn [omap bind]; eexists; split; [reflexivity|]; split; [exact I|]; plain.
    destruct g; try (nested_contra Hv Hm);
      try (eexists; split; [reflexivity|]; split; [exact I|]; plain).
    + vcase Hf GVPtr dst.
    + vcase Hf GVBool dst.
    + vcase Hf GVInt dst.
    + vcase Hf GVLong dst.
    + vcase Hf GVReal dst.
    + vcase Hf GVComplex dst.
    + vcase Hf GVStr dst.
    + mcase Hw.
    + mcase Hw.
    + mcase Hw.
    + mcase Hw.
  - rewrite wf_vec in Hw. rewrite keys_ok_vec in Hk. rewrite fits_vec in Hf. destruct Hf as [Hf Hff].
    assert (HT : Forall (fun a => forall d, wfm d ->
               exists r, from_gc a d = Ok r /\ wfm r /\ assigned d a r) v).
    { rewrite Forall_forall in *. intros a Ha. apply IH; auto. repeat split; auto. }
    rewrite from_gc_vec.
    assert (exists w, Forall wfm w /\ (dst = GVec w \/ (tag_of dst <> TVec /\ w = [])) /\
              alloc_vec (to_u32 (zlen v)) dst = alloc_vec (to_u32 (zlen v)) (GVec w))
      as (w & Hww & Hdw & Ew).
    { destruct (tag_dec (tag_of dst) TVec) as [E|E].
      - destruct dst; try discriminate. exists v0. apply wfm_vec in Hd. auto.
      - exists []. split; [constructor|]. split; [auto|]. now apply alloc_vec_other. }
    rewrite Ew. pose proof (alloc_vec_wfm v w Hf Hww) as Hwa.
    destruct (assign_vec_spec v (alloc_vec (to_u32 (zlen v)) (GVec w))) as (r & Hr & Hlr & Wr & Hn).
    { unfold alloc_vec. rewrite valloc_length by assumption. destruct v; simpl; lia. }
    { assumption. }
    { rewrite Forall_forall in *. intros a Ha d Wd. destruct (HT a Ha d Wd) as (y & A & B & _). eauto. }
    exists (GVec r). rewrite Hr. simpl bind. split; [reflexivity|].
    split; [now apply wfm_vec|].
    destruct v as [|a v].
    + assert (r = w).
      { apply nth_error_ext. intros i. rewrite Hn. destruct i; reflexivity. }
      subst r. destruct Hdw as [->|[E ->]]; [apply as_empty_vec|now apply as_other_type].
    + assert (Hlr' : length r = length (a :: v)).
      { rewrite Hlr. unfold alloc_vec. now rewrite valloc_length by assumption. }
      assert (Hpt : forall i x, nth_error (a :: v) i = Some x ->
                exists y, nth_error r i = Some y /\ assigned (nth_or_empty i w) x y).
      { intros i x Hx. rewrite Hn, Hx, alloc_vec_nth by (assumption || discriminate).
        rewrite (proj2 (Nat.ltb_lt _ _)) by (apply nth_error_Some; congruence).
        rewrite Forall_forall in HT. destruct (HT x) with (d := nth_or_empty i w) as (y & A & B & C).
        - eapply nth_error_In; eauto.
        - now apply Forall_nth_or_empty.
        - rewrite A. eauto. }
      destruct Hdw as [->|[E ->]].
      * apply as_vec; auto. discriminate.
      * (* destination of another type: every element is assigned over an empty one *)
        replace (GVec r) with (GVec (a :: v)); [apply as_other_type; assumption|].
        f_equal. apply nth_error_ext. intros i.
        destruct (nth_error (a :: v) i) as [x|] eqn:Ex.
        -- destruct (Hpt i x Ex) as (y & Hy & Ha). rewrite Hy.
           assert (y = x); [|congruence].
           replace (nth_or_empty i []) with GNone in Ha by (destruct i; reflexivity).
           inversion Ha; subst; try reflexivity; try discriminate.
           unfold empty_tvec in *. destruct x; try discriminate; intuition discriminate.
        -- symmetry. apply nth_error_None. rewrite Hlr'. now apply nth_error_None.
  - rewrite wf_map in Hw. rewrite keys_ok_map in Hk. rewrite fits_map in Hf. destruct Hw as [Hs Hw].
    assert (HT : Forall (fun kv => forall d, wfm d ->
               exists r, from_gc (snd kv) d = Ok r /\ wfm r /\ assigned d (snd kv) r) n).
    { rewrite Forall_forall in *. intros a Ha. apply IH; auto.
      destruct (Hk a Ha). repeat split; auto. }
    rewrite from_gc_map.
    assert (exists m, msorted m /\ Forall (fun kv => wfm (snd kv)) m /\ old_map dst = m /\
              (dst = GMap m \/ (tag_of dst <> TMap /\ m = []))) as (m & Hsm & Hwm & Em & Hdm).
    { destruct (tag_dec (tag_of dst) TMap) as [E|E].
      - destruct dst; try discriminate. exists m. apply wfm_map in Hd as [? ?]. auto.
      - exists []. split; [constructor|]. split; [constructor|].
        split; [destruct dst; simpl in *; congruence|auto]. }
    rewrite Em.
    destruct (assign_map_spec n m) as (r & Hr & Hsr & Wr & Hf'); auto.
    { rewrite Forall_forall in *. intros kv Hkv. apply (Hk kv Hkv). }
    { rewrite Forall_forall in *. intros kv Hkv d Wd. destruct (HT kv Hkv d Wd) as (y & A & B & _). eauto. }
    exists (GMap r). rewrite Hr. simpl bind. split; [reflexivity|].
    split; [now apply wfm_map|].
    assert (Hsome : forall k x, mfind k n = Some x ->
              exists y, mfind k r = Some y /\ assigned (find_or_empty k m) x y).
    { intros k x Hx. specialize (Hf' k). rewrite Hx in Hf'. destruct Hf' as (y & A & B).
      exists y. split; [assumption|]. apply mfind_in in Hx. rewrite Forall_forall in HT.
      destruct (HT _ Hx (find_or_empty k m)) as (y' & A' & _ & C).
      - unfold find_or_empty. destruct (mfind k m) eqn:E; [|exact I].
        apply mfind_in in E. rewrite Forall_forall in Hwm. now apply (Hwm _ E).
      - simpl in *. congruence. }
    assert (Hnone : forall k, mfind k n = None -> mfind k r = mfind k m).
    { intros k Hx. specialize (Hf' k). now rewrite Hx in Hf'. }
    destruct Hdm as [->|[E ->]].
    + apply as_map; auto.
    + replace (GMap r) with (GMap n); [now apply as_other_type|].
      f_equal. apply map_ext; auto. intros k. destruct (mfind k n) as [x|] eqn:Ex.
      * destruct (Hsome k x Ex) as (y & Hy & Ha). rewrite Hy.
        assert (y = x); [|congruence]. unfold find_or_empty in Ha. simpl in Ha.
        inversion Ha; subst; try reflexivity; try discriminate.
        unfold empty_tvec in *. destruct x; try discriminate; intuition discriminate.
      * now rewrite Hnone.
Qed.

(** The specification determines when the old content is completely replaced. *)
Theorem assigned_clean b : wfm b -> forall a r, wfm a -> assigned a b r -> (r = b <-> clean a b).
Proof.
  induction b as [g Hv Hm | v IH | n IH] using gc_nest_ind; intros Wb a r Wa H.
  - inversion H; subst; try (nested_contra Hv Hm).
    + split; [intros _|auto]. destruct r; simpl in *; auto; intros; subst; simpl in *; congruence.
    + split; [intros _|auto]. destruct r; simpl in *; auto; intros; subst;
        exfalso; first [congruence | apply H2; unfold empty_tvec; auto 10].
    + unfold empty_tvec in H1.
      destruct H1 as [->|[->|[->|[->|[->|[->| ->]]]]]]; simpl in *; destruct r; try discriminate;
        (split; [intros [= ->] _ w [= <-]; reflexivity | intros E; f_equal; now apply E]).
  - assert (E : clean a (GVec v) <->
        forall w, a = GVec w -> (v = [] -> w = []) /\
           forall i x y, nth_error w i = Some x -> nth_error v i = Some y -> clean x y).
    { destruct a; try (simpl; split; [intros _ w Hw; discriminate | auto]).
      cbn [clean]. split.
      - intros [H1 H2] w [= <-]. split; [assumption|]. clear H1 H Wa IH Wb.
        revert v0 H2; induction v as [|y v IHv]; intros [|x w] H2 [|i] x' y'; simpl; try discriminate.
        + intros [= <-] [= <-]. tauto.
        + intros A B. apply (IHv w) with (i := i); tauto.
      - intros H1. destruct (H1 _ eq_refl) as [H2 H3]. split; [assumption|].
        clear H1 H2 H Wa IH Wb. revert v0 H3; induction v as [|y v IHv]; intros [|x w] H3; auto.
        split; [apply (H3 O x y); reflexivity|]. apply IHv. intros i. apply (H3 (S i)). }
    rewrite E. clear E. apply wfm_vec in Wb. inversion H; subst.
    + split; [|auto]. intros _ w ->. simpl in H0. congruence.
    + exfalso; now apply H0.
    + unfold empty_tvec in H1. intuition discriminate.
    + split.
      * intros [= ->] w' [= <-]. split; auto. intros [|i]; discriminate.
      * intros C. destruct (C w eq_refl) as [C1 _]. now rewrite C1.
    + apply wfm_vec in Wa. split.
      * intros [= ->] w' [= <-]. split; [congruence|]. intros i x y Hx Hy.
        destruct (H4 i y Hy) as (y' & Hy' & Ha). rewrite Hy in Hy'. apply Some_inj in Hy'. subst y'.
        rewrite Forall_forall in IH, Wb, Wa.
        assert (nth_or_empty i w = x) by (unfold nth_or_empty; now apply nth_error_nth).
        rewrite H0 in Ha. eapply IH; eauto using nth_error_In.
      * intros C. destruct (C w eq_refl) as [_ C2]. f_equal. apply nth_error_ext. intros i.
        destruct (nth_error v i) as [y|] eqn:Ey.
        -- destruct (H4 i y Ey) as (y' & Hy' & Ha). rewrite Hy'. f_equal.
           rewrite Forall_forall in IH, Wb.
           assert (Hc : y' = y <-> clean (nth_or_empty i w) y).
           { apply (IH y); eauto using nth_error_In. now apply Forall_nth_or_empty. }
           apply Hc. unfold nth_or_empty. destruct (nth_error w i) as [x|] eqn:Ex.
           ++ rewrite (nth_error_nth w i GNone Ex). eapply C2; eauto.
           ++ rewrite nth_overflow by now apply nth_error_None.
              destruct y; simpl; auto; intros; discriminate.
        -- apply nth_error_None. rewrite H2. now apply nth_error_None.
  - apply wfm_map in Wb as [Sb Wb].
    assert (E : clean a (GMap n) <->
        forall m, a = GMap m -> incl (map fst m) (map fst n) /\
           forall k y, mfind k n = Some y -> clean (find_or_empty k m) y).
    { destruct a; try (simpl; split; [intros _ w Hw; discriminate | auto]).
      cbn [clean].
      assert (E : (fix all (n : list (string * gc)) : Prop :=
                   match n with
                   | [] => True
                   | (k, y) :: n' => clean (find_or_empty k m) y /\ all n'
                   end) n <-> forall k y, In (k, y) n -> clean (find_or_empty k m) y).
      { clear. induction n as [|[k y] n IHn]; [split; [intros _ ? ? []|auto]|].
        rewrite IHn. split.
        - intros [A B] k' y' [[= <- <-]|C]; auto.
        - intros A. split; [apply A; left; reflexivity | intros k' y' C; apply A; right; assumption]. }
      rewrite E. split.
      - intros [A B] m' [= <-]. split; [assumption|]. intros k y Hy. apply B. now apply mfind_in.
      - intros A. destruct (A m eq_refl) as [B C]. split; [assumption|].
        intros k y Hy. apply C. now apply in_mfind. }
    rewrite E. clear E. inversion H; subst.
    + split; [|auto]. intros _ w ->. simpl in H0. congruence.
    + exfalso; now apply H1.
    + unfold empty_tvec in H1. intuition discriminate.
    + apply wfm_map in Wa as [Sa Wa].
      assert (HW : forall k, wfm (find_or_empty k m)).
      { intros k. unfold find_or_empty. destruct (mfind k m) eqn:E; [|exact I].
        apply mfind_in in E. rewrite Forall_forall in Wa. now apply (Wa _ E). }
      assert (Hiff : forall k x y, mfind k n = Some x -> assigned (find_or_empty k m) x y ->
                 (y = x <-> clean (find_or_empty k m) x)).
      { intros k x y Hx Ha. apply mfind_in in Hx. rewrite Forall_forall in IH, Wb.
        apply (IH _ Hx); auto. }
      split.
      * intros [= ->] m' [= <-]. split.
        -- intros k Hin. apply mfind_key_in in Hin as [v Hv]. apply mfind_key_in.
           destruct (mfind k n) eqn:E; [eauto|]. pose proof (H2 k E). congruence.
        -- intros k y Hy. destruct (H4 k y Hy) as (y' & Hy' & Ha).
           rewrite Hy in Hy'. apply Some_inj in Hy'. subst y'. eapply Hiff; eauto.
      * intros C. destruct (C m eq_refl) as [C1 C2]. f_equal. apply map_ext; auto.
        intros k. destruct (mfind k n) as [y|] eqn:Ey.
        -- destruct (H4 k y Ey) as (y' & Hy' & Ha). rewrite Hy'. f_equal.
           apply (Hiff k y y' Ey Ha). auto.
        -- rewrite (H2 k Ey). destruct (mfind k m) eqn:Em; auto.
           assert (In k (map fst n)) by (apply C1; apply mfind_key_in; eauto).
           apply mfind_key_in in H0 as [z Hz]. congruence.
Qed.

Lemma other_type_clean a b : tag_of a <> tag_of b -> clean a b.
Proof.
  destruct b; simpl; auto; intros H; try (intros; subst; simpl in *; congruence);
    destruct a; simpl in *; auto; congruence.
Qed.

Theorem from_gc_clean_iff src dst : value_ok src -> wfm dst ->
  (from_gc src dst = Ok src <-> clean dst src).
Proof.
  intros Hs Hd. destruct (from_gc_assigned src Hs dst Hd) as (r & E & Wr & Ha).
  rewrite E. assert (G : r = src <-> clean dst src).
  { apply assigned_clean; auto. apply wf_wfm. apply Hs. }
  rewrite <- G. split; [intros [= ->]; reflexivity | intros ->; reflexivity].
Qed.

Theorem from_gc_fresh src dst : value_ok src -> wfm dst -> tag_of dst <> tag_of src ->
  from_gc src dst = Ok src.
Proof. intros Hs Hd Ht. apply from_gc_clean_iff; auto. now apply other_type_clean. Qed.

Theorem from_gc_empty src : value_ok src -> from_gc src GNone = Ok src.
Proof.
  intros Hs. apply from_gc_clean_iff; auto; [exact I|].
  destruct src; simpl; auto; intros; discriminate.
Qed.

Theorem to_gc_from_gc a b : to_gc a b = from_gc a b.
Proof. reflexivity. Qed.

Lemma assigned_vec_inv a v r : assigned a (GVec v) r ->
  (tag_of a <> TVec /\ r = GVec v) \/
  exists w, a = GVec w /\
    ((v = [] /\ r = GVec w) \/
     exists r', r = GVec r' /\ v <> [] /\ length r' = length v /\
       forall i x, nth_error v i = Some x ->
         exists y, nth_error r' i = Some y /\ assigned (nth_or_empty i w) x y).
Proof.
  intros H. inversion H; subst; simpl in *; try congruence; auto.
  - unfold empty_tvec in *. intuition discriminate.
  - right. eexists; split; [reflexivity|]. left; auto.
  - right. eexists; split; [reflexivity|]. right. eexists; split; [reflexivity|]. auto.
Qed.

Lemma assigned_map_inv a n r : assigned a (GMap n) r ->
  (tag_of a <> TMap /\ r = GMap n) \/
  exists m r', a = GMap m /\ r = GMap r' /\ msorted r' /\
    (forall k, mfind k n = None -> mfind k r' = mfind k m) /\
    (forall k x, mfind k n = Some x ->
       exists y, mfind k r' = Some y /\ assigned (find_or_empty k m) x y).
Proof.
  intros H. inversion H; subst; simpl in *; try congruence; auto.
  - unfold empty_tvec in *. intuition discriminate.
  - right. eexists; eexists; split; [reflexivity|]. split; [reflexivity|]. auto.
Qed.

Lemma assigned_flat_inv a b r : (forall v, b <> GVec v) -> (forall m, b <> GMap m) ->
  assigned a b r -> (r = b /\ (tag_of a <> tag_of b \/ ~ empty_tvec b)) \/
                    (r = a /\ tag_of a = tag_of b /\ empty_tvec b).
Proof. intros Hv Hm H. inversion H; subst; auto; nested_contra Hv Hm. Qed.

(** The specification determines the result. *)
Theorem assigned_fun b : wfm b -> forall a r r', wfm a -> assigned a b r -> assigned a b r' -> r = r'.
Proof.
  induction b as [g Hv Hm | v IH | n IH] using gc_nest_ind; intros Wb a r r' Wa H H'.
  - apply assigned_flat_inv in H; auto. apply assigned_flat_inv in H'; auto.
    destruct H as [[-> ?]|(-> & ? & ?)]; destruct H' as [[-> ?]|(-> & ? & ?)]; tauto || congruence.
  - apply wfm_vec in Wb. apply assigned_vec_inv in H. apply assigned_vec_inv in H'.
    destruct H as [[Ht ->]|(w & -> & H)], H' as [[Ht' ->]|(w' & Ea & H')];
      simpl in *; try congruence; auto.
    { subst a; simpl in *; congruence. }
    injection Ea as <-. destruct H as [[Hv ->]|(q & -> & Hne & L & Hp)],
      H' as [[Hv' ->]|(q' & -> & Hne' & L' & Hp')]; try congruence.
    apply wfm_vec in Wa. f_equal. apply nth_error_ext. intros i.
    destruct (nth_error v i) as [x|] eqn:Ex.
    + destruct (Hp i x Ex) as (y & Hy & A). destruct (Hp' i x Ex) as (y' & Hy' & A').
      rewrite Hy, Hy'. f_equal. rewrite Forall_forall in IH, Wb.
      pose proof (nth_error_In _ _ Ex) as Hin.
      apply (IH x Hin (Wb x Hin) (nth_or_empty i w)); auto using Forall_nth_or_empty.
    + apply nth_error_None in Ex. rewrite !(proj2 (nth_error_None _ _)); auto; lia.
  - apply wfm_map in Wb as [Sb Wb]. apply assigned_map_inv in H. apply assigned_map_inv in H'.
    destruct H as [[Ht ->]|(m & q & -> & -> & Hs & Hn & Hp)],
      H' as [[Ht' ->]|(m' & q' & Ea & -> & Hs' & Hn' & Hp')]; simpl in *; try congruence; auto.
    { subst a; simpl in *; congruence. }
    injection Ea as <-. apply (proj1 (wfm_map m)) in Wa as [Sa Wa]. f_equal. apply map_ext; auto. intros k.
    destruct (mfind k n) as [x|] eqn:Ex.
    + destruct (Hp k x Ex) as (y & Hy & A). destruct (Hp' k x Ex) as (y' & Hy' & A').
      rewrite Hy, Hy'. f_equal. rewrite Forall_forall in IH, Wb. apply mfind_in in Ex.
      apply (IH _ Ex (Wb _ Ex) (find_or_empty k m)); auto.
      unfold find_or_empty. destruct (mfind k m) eqn:E; [|exact I].
      apply mfind_in in E. rewrite Forall_forall in Wa. now apply (Wa _ E).
    + rewrite Hn, Hn'; auto.
Qed.

(** merge. *)
Theorem merge_spec src dst m : value_ok src -> wfm dst -> src = GMap m ->
  (dst = GNone \/ exists d, dst = GMap d) ->
  exists r, merge src dst = (Ok tt, GMap r) /\ msorted r /\
    (forall k, mfind k m = None -> mfind k r = mfind k (old_map dst)) /\
    (forall k x, mfind k m = Some x ->
       exists y, mfind k r = Some y /\ assigned (find_or_empty k (old_map dst)) x y).
Proof.
  intros Hs Hd -> Hdst.
  assert (E : match from_gc (GMap m) (GMap (old_map dst)) with
              | Ok r => merge (GMap m) dst = (Ok tt, r) | _ => True end).
  { rewrite from_gc_map. cbn [old_map]. destruct Hdst as [->|[d ->]]; simpl;
      destruct (assign_map m _); simpl; auto. }
  assert (Wd : wfm (GMap (old_map dst))).
  { destruct Hdst as [->|[d ->]]; [|exact Hd]. split; [constructor|exact I]. }
  destruct (from_gc_assigned (GMap m) Hs _ Wd) as (r & Er & Wr & Ha).
  rewrite Er in E. apply assigned_map_inv in Ha. destruct Ha as [[Ht _]|(a & q & Ea & -> & H1 & H2 & H3)].
  { simpl in Ht; congruence. }
  injection Ea as <-. exists q. auto.
Qed.

Theorem merge_noop dst : merge GNone dst = (Ok tt, dst).
Proof. reflexivity. Qed.

Theorem merge_bad_src src dst : tag_of src <> TNone -> tag_of src <> TMap ->
  merge src dst = (Throw, dst).
Proof. destruct src; simpl; congruence. Qed.

Theorem merge_bad_dst m dst : tag_of dst <> TNone -> tag_of dst <> TMap ->
  merge (GMap m) dst = (Throw, dst).
Proof. destruct dst; simpl; congruence. Qed.
