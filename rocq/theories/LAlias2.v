(** Lemmas about assignment of a container to itself, into itself, and of a part of it to it. *)
From Coq Require Import ZArith Bool Lia Ascii String List.
From Verif Require Import Base F64 StrMap Value MBasic MMap MCopy SCopy LCopy SCapi LCapi LCapi3 LRuby Props_capi2 MAlias LAlias SCollapse.
Import ListNotations.
Local Open Scope Z_scope.

(** * Values that can be copied stay so. *)

Lemma few_same {A B} (l : list A) (l' : list B) : length l = length l' -> few l -> few l'.
Proof. unfold few, zlen. now intros ->. Qed.
Lemma ok_vec v : few v -> Forall value_ok v -> value_ok (GVec v).
Proof.
  intros Hf H. rewrite Forall_forall in H. split; [|split].
  - apply wf_vec, Forall_forall. intros x Hx. apply (H x Hx).
  - apply keys_ok_vec, Forall_forall. intros x Hx. apply (H x Hx).
  - apply fits_vec. split; [exact Hf|]. apply Forall_forall. intros x Hx. apply (H x Hx).
Qed.
Lemma ok_map m : msorted m -> Forall (fun kv => no_nul (fst kv)) m -> Forall (fun kv => value_ok (snd kv)) m -> value_ok (GMap m).
Proof.
  intros Hs Hn H. rewrite Forall_forall in H, Hn. split; [|split].
  - apply wf_map. split; [exact Hs|]. apply Forall_forall. intros x Hx. apply (H x Hx).
  - apply keys_ok_map, Forall_forall. intros x Hx. split; [now apply Hn|apply (H x Hx)].
  - apply fits_map, Forall_forall. intros x Hx. apply (H x Hx).
Qed.
Lemma ok_none : value_ok GNone.
Proof. split; [exact I|]. split; exact I. Qed.

Lemma assigned_ok s : value_ok s -> forall d r, value_ok d -> assigned d s r -> value_ok r.
Proof.
  induction s as [g Hv Hm | v IH | m IH] using gc_nest_ind; intros Hok d r Hd H.
  - inversion H; subst; try assumption; exfalso; first [eapply Hv; reflexivity|eapply Hm; reflexivity].
  - destruct (value_ok_vec _ Hok) as [Hf Hall]. inversion H as [ | | |w|w v' r' Hv0 Hl Hi| ]; subst; try assumption.
    destruct (value_ok_vec _ Hd) as [Hfw Hw]. apply ok_vec; [symmetry in Hl; exact (few_same _ _ Hl Hf)|]. apply Forall_forall. intros y Hy. apply In_nth_error in Hy as (i & Ei).
    assert (Hx : exists x, nth_error v i = Some x).
    { assert (i < length r')%nat by (apply nth_error_Some; congruence). destruct (nth_error v i) as [x|] eqn:E; [eauto|]. apply nth_error_None in E. lia. }
    destruct Hx as (x & Ex). destruct (Hi i x Ex) as (y' & Ey' & As). rewrite Ei in Ey'. apply Some_inj in Ey'. subst y'.
    rewrite Forall_forall in IH, Hall. apply nth_error_In in Ex. refine (IH x Ex (Hall x Ex) _ y _ As).
    unfold nth_or_empty. destruct (nth_in_or_default i w GNone) as [Hin|E]; [rewrite Forall_forall in Hw; auto|rewrite E; exact ok_none].
  - destruct (value_ok_map _ Hok) as (Hs & Hn & Hall). inversion H as [ | | | | |dm n r' Hsr H1 H2]; subst; try assumption.
    destruct (value_ok_map _ Hd) as (Hsd & Hnd & Halld). rewrite Forall_forall in *.
    assert (K : forall k y, In (k, y) r' -> no_nul k /\ value_ok y).
    { intros k y Hin. apply (in_mfind k y r' Hsr) in Hin. destruct (mfind k m) as [x|] eqn:E.
      - destruct (H2 k x E) as (y' & Ey & As). rewrite Hin in Ey. apply Some_inj in Ey. subst y'. apply mfind_in in E. split; [exact (Hn _ E)|].
        refine (IH (k, x) E (Hall _ E) _ y _ As). unfold find_or_empty. destruct (mfind k dm) as [e|] eqn:Ed; [|exact ok_none]. apply mfind_in in Ed. exact (Halld _ Ed).
      - rewrite (H1 k E) in Hin. apply mfind_in in Hin. split; [exact (Hnd _ Hin)|exact (Halld _ Hin)]. }
    apply ok_map; [exact Hsr| |]; apply Forall_forall; intros (k, y) Hin; apply (K k y Hin).
Qed.
Lemma from_gc_ok s d r : value_ok s -> value_ok d -> from_gc s d = Ok r -> value_ok r.
Proof.
  intros Hs Hd E. destruct (from_gc_assigned s Hs d (wf_wfm _ (proj1 Hd))) as (r' & E' & _ & As). rewrite E in E'. apply Ok_inj in E'. subst r'.
  exact (assigned_ok s Hs d r Hd As).
Qed.

Lemma sub_ok p : forall g e, value_ok g -> sub p g = Some e -> value_ok e.
Proof.
  induction p as [|[k|n] p IH]; intros g e Hg S; [cbn in S; destruct g; apply Some_inj in S; now subst| |]; destruct g; cbn [sub] in S; try discriminate S.
  - destruct (mfind k m) as [x|] eqn:E; [|discriminate S]. destruct (value_ok_map _ Hg) as (_ & _ & H). apply mfind_in in E. rewrite Forall_forall in H. exact (IH x e (H _ E) S).
  - destruct (znth n v) as [x|] eqn:E; [|discriminate S]. destruct (value_ok_vec _ Hg) as (_ & H). unfold znth in E. destruct (n <? 0); [discriminate E|].
    apply nth_error_In in E. rewrite Forall_forall in H. exact (IH x e (H _ E) S).
Qed.
Lemma put_ok p : forall g e x, value_ok g -> sub p g = Some e -> value_ok x -> value_ok (put p x g).
Proof.
  induction p as [|[k|n] p IH]; intros g e x Hg S Hx; [exact Hx| |]; destruct g; cbn [sub put] in *; try discriminate S.
  - destruct (mfind k m) as [y|] eqn:E; [|discriminate S]. destruct (value_ok_map _ Hg) as (Hs & Hn & H).
    pose proof (mfind_in _ _ _ E) as Ein. assert (Hy : value_ok y) by (rewrite Forall_forall in H; exact (H _ Ein)). specialize (IH y e x Hy S Hx).
    destruct (mfind_split _ _ _ E) as (m1 & m2 & -> & N). rewrite mupd_app_mid by assumption.
    apply ok_map; [unfold msorted in *; rewrite map_app in *; exact Hs| |]; rewrite Forall_app in *.
    + destruct Hn as [N1 N2]. inversion N2; subst. split; [exact N1|]. constructor; assumption.
    + destruct H as [N1 N2]. inversion N2; subst. split; [exact N1|]. constructor; assumption.
  - destruct (znth n v) as [y|] eqn:E; [|discriminate S]. destruct (value_ok_vec _ Hg) as (Hf & H).
    destruct (znth_split' _ _ _ E) as (l1 & l2 & -> & L & N). rewrite lset_app_mid by assumption.
    rewrite Forall_app in H. destruct H as [N1 N2]. inversion N2; subst. apply ok_vec.
    + refine (few_same _ _ _ Hf). rewrite !app_length. reflexivity.
    + apply Forall_app. split; [exact N1|]. constructor; [exact (IH y e x H1 S Hx)|assumption].
Qed.

(** * Assignment to itself. *)

Definition not_complex (g : gc) : Prop := forall c, g <> GComplex c.

Lemma from_gc_self s : value_ok s -> (forall v, s <> GVec v) -> (forall m, s <> GMap m) -> from_gc s s = Ok s.
Proof.
  intros H Hv Hm. apply from_gc_clean_iff; [exact H|apply wf_wfm, (proj1 H)|].
  destruct s; cbn [clean]; try exact I; try (intros -> w E; congruence); [now contradiction (Hv v)|now contradiction (Hm m)].
Qed.

Definition real_only : gc -> Prop := everywhere not_complex.
Definition self_done (R : out gc) (root : gc) (nc few_fuel : Prop) : Prop :=
  R = Diverge /\ few_fuel \/ R = Ok root /\ nc \/ R = Undef /\ ~ nc.
Definition selfs (s : gc) : Prop := forall n p ws root, sub p root = Some s -> self_done (copy_at n p p ws root) root (real_only s) (n < need s)%nat.

Lemma vec_loop_self n todo : Forall selfs todo -> forall p ws done root m, sub p root = Some (GVec (done ++ todo)) ->
  self_done (vec_loop (copy_at n) p p ws m (zlen done) root) root (Forall real_only todo) (m <= length todo \/ n < needs todo)%nat.
Proof.
  induction 1 as [|a todo Ha _ IH]; intros p ws done root m S; (destruct m as [|m]; [left; split; [reflexivity|left; lia]|]); cbn [vec_loop]; rewrite S.
  - rewrite app_nil_r, Z.ltb_irrefl. right. left. split; [reflexivity|constructor].
  - rewrite (proj2 (Z.ltb_lt (zlen done) (zlen (done ++ a :: todo)))) by (rewrite zlen_app'; unfold zlen; cbn [length]; lia).
    assert (S1 : sub (p ++ [SIdx (zlen done)]) root = Some a). { rewrite (sub_app p _ root _ S). cbn [sub]. rewrite znth_mid. now destruct a. }
    destruct (Ha n _ (p :: ws) root S1) as [[-> Hn]|[[-> Hn]|[-> Hn]]]; cbn [bind].
    + left. split; [reflexivity|]. right. cbn [needs]. lia.
    + assert (S2 : sub p root = Some (GVec ((done ++ [a]) ++ todo))) by (rewrite <- app_assoc; exact S).
      specialize (IH p ws _ root m S2). rewrite zlen_app' in IH. unfold zlen at 2 in IH. cbn [length] in IH. change (Z.of_nat 1) with 1 in IH.
      destruct IH as [[-> Hm]|[[-> Hm]|[-> Hm]]].
      * left. split; [reflexivity|]. cbn [needs length]. lia.
      * right. left. split; [reflexivity|now constructor].
      * right. right. split; [reflexivity|]. intros F. inversion F; auto.
    + right. right. split; [reflexivity|]. intros F. inversion F; auto.
Qed.
Lemma map_loop_self n todo : Forall (fun kv => selfs (snd kv)) todo -> Forall (fun kv => no_nul (fst kv)) todo -> forall p ws done c root m,
  sub p root = Some (GMap (done ++ todo)) -> msorted (done ++ todo) -> placed c done todo ->
  self_done (map_loop (copy_at n) p p ws m c root) root (Forall (fun kv => real_only (snd kv)) todo) (m <= length todo \/ n < needs (map snd todo))%nat.
Proof.
  intros H. induction H as [|(k, a) todo Ha _ IH]; intros Hk p ws done c root m S Hs Hp; (destruct m as [|m]; [left; split; [reflexivity|left; lia]|]);
    cbn [map_loop]; rewrite S, (next_key_placed _ _ _ Hp).
  - right. left. split; [reflexivity|constructor].
  - cbn [snd] in *. inversion Hk as [|? ? Nk Hk']; subst. cbn [fst] in Nk. apply cstr_id in Nk. rewrite Nk. cbv zeta.
    assert (F : mfind k (done ++ (k, a) :: todo) = Some a) by (apply in_mfind; [exact Hs|apply in_or_app; right; now left]). rewrite F.
    assert (S1 : sub (p ++ [SKey k]) root = Some a). { rewrite (sub_app p _ root _ S). cbn [sub]. rewrite F. now destruct a. }
    destruct (Ha n _ (p :: ws) root S1) as [[-> Hn]|[[-> Hn]|[-> Hn]]]; cbn [bind].
    + left. split; [reflexivity|]. right. cbn [needs map snd]. lia.
    + assert (S2 : sub p root = Some (GMap ((done ++ [(k, a)]) ++ todo))) by (rewrite <- app_assoc; exact S).
      assert (Hs' : msorted ((done ++ [(k, a)]) ++ todo)) by (rewrite <- app_assoc; exact Hs).
      destruct (IH Hk' p ws _ (Some k) root m S2 Hs' (placed_next _ _ _ _ _ Hs Hp)) as [[-> Hm]|[[-> Hm]|[-> Hm]]].
      * left. split; [reflexivity|]. cbn [needs length map snd]. lia.
      * right. left. split; [reflexivity|now constructor].
      * right. right. split; [reflexivity|]. intros G. inversion G; auto.
    + right. right. split; [reflexivity|]. intros G. inversion G; auto.
Qed.

Theorem self_ok s : value_ok s -> selfs s.
Proof.
  induction s as [g Hv Hm | v IH | m IH] using gc_nest_ind; intros Hok n p ws root S;
    (destruct n as [|n]; [left; split; [reflexivity|apply need_pos]|]); cbn [copy_at]; rewrite S.
  - pose proof (from_gc_self g Hok Hv Hm) as E.
    assert (D : (exists c, g = GComplex c) \/ not_complex g) by (destruct g; try (right; discriminate); left; eauto).
    destruct D as [[c ->]|D].
    + right. right. split; [|intros H; apply everywhere_here in H; now apply (H c)]. unfold cleared. cbn [existsb]. pose proof (below_app p []) as B. rewrite app_nil_r in B. now rewrite B.
    + right. left. split; [|destruct g; try (split; [exact D|exact I]); [now contradiction (Hv v)|now contradiction (Hm m)]].
      destruct g; cbn [has_parts andb]; rewrite ?E; cbn [bind]; rewrite ?(put_same _ _ _ S); try reflexivity;
        [now contradiction (D c)|now contradiction (Hv v)|now contradiction (Hm m)].
  - destruct (value_ok_vec _ Hok) as [Hf Hall]. cbv zeta. cbn [has_parts tag_of old_vec].
    replace (negb (tag_eqb TVec TVec)) with false by reflexivity. cbn [andb].
    unfold few in Hf. pose proof (zlen_nonneg v). rewrite to_u32_id by (unfold uint32; lia). rewrite Z.ltb_irrefl, andb_false_r. cbn [andb].
    assert (E : alloc_vec (zlen v) (GVec v) = v).
    { unfold alloc_vec, valloc. cbn [old_vec]. destruct (Z.ltb_spec 0 (zlen v)); [|reflexivity]. unfold resize, zlen. rewrite Nat2Z.id, firstn_all, Nat.sub_diag. apply app_nil_r. }
    rewrite E, (put_same _ _ _ S).
    assert (Hs : Forall selfs v) by (rewrite Forall_forall in *; auto).
    pose proof (vec_loop_self n v Hs p ws [] root n S) as L. change (zlen (@nil gc)) with 0 in L.
    unfold real_only, self_done in *. rewrite everywhere_vec. destruct L as [[-> Hn]|[[-> Hn]|[-> Hn]]].
    + left. split; [reflexivity|]. rewrite need_vec. pose proof (needs_length v). lia.
    + right. left. split; [reflexivity|]. split; [discriminate|exact Hn].
    + right. right. split; [reflexivity|]. tauto.
  - destruct (value_ok_map _ Hok) as (Hs & Hn & Hall). cbn [has_parts tag_of old_map].
    replace (negb (tag_eqb TMap TMap)) with false by reflexivity. cbn [andb]. rewrite (put_same _ _ _ S).
    assert (Hs' : Forall (fun kv => selfs (snd kv)) m) by (rewrite Forall_forall in *; auto).
    pose proof (map_loop_self n m Hs' Hn p ws [] None root n S Hs (placed_start m)) as L.
    unfold real_only, self_done in *. rewrite everywhere_map. destruct L as [[-> Hl]|[[-> Hl]|[-> Hl]]].
    + left. split; [reflexivity|]. rewrite need_map. pose proof (needs_length (map snd m)). rewrite map_length in *. lia.
    + right. left. split; [reflexivity|]. split; [discriminate|exact Hl].
    + right. right. split; [reflexivity|]. tauto.
Qed.

(** * Assignment into itself. *)

Lemma below_short q t st s w : q = w ++ t -> below (q ++ st :: s) w = None.
Proof.
  intros ->. destruct (below _ w) as [u|] eqn:E; [|reflexivity]. apply below_some in E. rewrite <- !app_assoc in E.
  apply (f_equal (@length step)) in E. rewrite !app_length in E. cbn in E. lia.
Qed.
Definition around (q : list step) (ws : list (list step)) : Prop := Forall (fun w => exists t, q = w ++ t) ws.
Lemma around_clear q st s ws : around q ws -> clear_of (q ++ st :: s) ws.
Proof. apply Forall_impl. intros w (t & E). exact (below_short q t st s w E). Qed.
Lemma around_self q ws : around q ws -> around q (q :: ws).
Proof. constructor; [exists []; now rewrite app_nil_r|assumption]. Qed.
Lemma around_next q st ws : around q ws -> around (q ++ [st]) ws.
Proof. apply Forall_impl. intros w (t & ->). exists (t ++ [st]). now rewrite app_assoc. Qed.

Lemma put_below_vec q i s x root v e : sub q root = Some (GVec v) -> sub (q ++ SIdx i :: s) root = Some e ->
  exists v', sub q (put (q ++ SIdx i :: s) x root) = Some (GVec v') /\ length v' = length v.
Proof.
  intros S1 S2. rewrite (put_app q _ root _ x S1). rewrite (sub_put q root _ _ S1). rewrite (sub_app q _ root _ S1) in S2. cbn [sub put] in *.
  destruct (znth i v) as [y|]; [|discriminate S2]. eexists. split; [reflexivity|]. apply lset_length.
Qed.
Lemma put_below_map q k s x root m e : sub q root = Some (GMap m) -> sub (q ++ SKey k :: s) root = Some e ->
  exists m', sub q (put (q ++ SKey k :: s) x root) = Some (GMap m') /\ exists y, mfind k m' = Some y.
Proof.
  intros S1 S2. rewrite (put_app q _ root _ x S1). rewrite (sub_put q root _ _ S1). rewrite (sub_app q _ root _ S1) in S2. cbn [sub put] in *.
  destruct (mfind k m) as [y|] eqn:E; [|discriminate S2]. eexists. split; [reflexivity|].
  destruct (mfind_split _ _ _ E) as (m1 & m2 & -> & N). rewrite mupd_app_mid, mfind_app_mid by assumption. eauto.
Qed.
Lemma next_key_upto c m k0 y : msorted m -> mfind k0 m = Some y -> (forall x, c = Some x -> slt x k0) ->
  exists k a, next_key c m = Some k /\ mfind k m = Some a /\ (k = k0 \/ slt k k0).
Proof.
  intros Hs F Hc. induction m as [|(k, a) m IH]; [discriminate F|]. destruct (msorted_inv _ _ _ Hs) as [Hs' Hk].
  assert (Dk : k = k0 \/ slt k k0).
  { cbn [mfind] in F. destruct (String.compare k0 k) eqn:E; [left; symmetry; now apply compare_eq_iff| |]; right; apply mfind_in, (in_map fst) in F;
      rewrite Forall_forall in Hk; exact (Hk _ F). }
  assert (Here : exists k1 a1, Some k = Some k1 /\ mfind k1 ((k, a) :: m) = Some a1 /\ (k1 = k0 \/ slt k1 k0)).
  { exists k, a. split; [reflexivity|]. split; [|exact Dk]. cbn [mfind]. now rewrite compare_refl. }
  cbn [next_key]. destruct c as [x|]; [|exact Here]. destruct (String.compare x k) eqn:E; [|exact Here|].
  - assert (x = k) by now apply compare_eq_iff. subst x. destruct Dk as [->|Dk]; [now contradiction (slt_irrefl k0 (Hc _ eq_refl))|].
    cbn [mfind] in F. rewrite (compare_gt _ _ Dk) in F. destruct (IH Hs' F) as (k1 & a1 & E1 & F1 & D1). exists k1, a1. split; [exact E1|]. split; [|exact D1].
    cbn [mfind]. destruct (String.compare k1 k) eqn:E2; try exact F1. apply compare_eq_iff in E2. subst k1. apply mfind_in, (in_map fst) in F1.
    rewrite Forall_forall in Hk. now contradiction (slt_irrefl k (Hk _ F1)).
  - assert (slt k x) as L by now apply compare_gt_slt. specialize (Hc _ eq_refl). assert (slt k k0) as L0 by exact (slt_trans _ _ _ L Hc).
    cbn [mfind] in F. rewrite (compare_gt _ _ L0) in F. destruct (IH Hs' F) as (k1 & a1 & E1 & F1 & D1). exists k1, a1. split; [exact E1|]. split; [|exact D1].
    cbn [mfind]. destruct (String.compare k1 k) eqn:E2; try exact F1. apply compare_eq_iff in E2. subst k1. apply mfind_in, (in_map fst) in F1.
    rewrite Forall_forall in Hk. now contradiction (slt_irrefl k (Hk _ F1)).
Qed.

(** [p] is strictly inside [q]. *)
Definition never_ends (n : nat) : Prop := forall q st s ws root d, value_ok root -> sub (q ++ st :: s) root = Some d -> around q ws ->
  copy_at n (q ++ st :: s) q ws root = Diverge.

Lemma rotate (q : list step) st s t : exists st' s', (q ++ st :: s) ++ [t] = q ++ st :: (s ++ [t]) /\ (st = t -> (q ++ st :: s) ++ [t] = (q ++ [t]) ++ st' :: s').
Proof.
  destruct (s ++ [t]) as [|st' s'] eqn:E; [now destruct s|]. exists st', s'. split; [now rewrite <- app_assoc, <- E|].
  intros ->. rewrite <- !app_assoc. cbn [app]. now rewrite <- E.
Qed.

Lemma vec_loop_inside n : never_ends n -> forall i0 s q ws m i root v vv, value_ok root -> around q ws ->
  sub q root = Some (GVec v) -> sub (q ++ SIdx i0 :: s) root = Some (GVec vv) -> length v = length vv -> 0 <= i <= i0 -> i0 < zlen v ->
  vec_loop (copy_at n) (q ++ SIdx i0 :: s) q ws m i root = Diverge.
Proof.
  intros Hn i0 s q ws. induction m as [|m IH]; intros i root v vv Hok Ha Sq Sp Hl Hi H0; [reflexivity|]. cbn [vec_loop]. rewrite Sq, Sp.
  assert (Zl : zlen vv = zlen v) by (unfold zlen; lia). rewrite Zl. rewrite (proj2 (Z.ltb_lt i (zlen v))) by lia.
  assert (Bi : exists b, znth i vv = Some b).
  { unfold znth. rewrite (proj2 (Z.ltb_ge _ _)) by lia. destruct (nth_error vv (Z.to_nat i)) eqn:E; [eauto|]. apply nth_error_None in E. unfold zlen in *. lia. }
  assert (Ai : exists a, znth i v = Some a).
  { unfold znth. rewrite (proj2 (Z.ltb_ge _ _)) by lia. destruct (nth_error v (Z.to_nat i)) eqn:E; [eauto|]. apply nth_error_None in E. unfold zlen in *. lia. }
  destruct Bi as (b & Eb). destruct Ai as (a & Ea).
  assert (Spi : sub ((q ++ SIdx i0 :: s) ++ [SIdx i]) root = Some b). { rewrite (sub_app _ _ root _ Sp). cbn [sub]. rewrite Eb. now destruct b. }
  assert (Sqi : sub (q ++ [SIdx i]) root = Some a). { rewrite (sub_app _ _ root _ Sq). cbn [sub]. rewrite Ea. now destruct a. }
  destruct (rotate q (SIdx i0) s (SIdx i)) as (st' & s' & R1 & R2).
  destruct (Z.eq_dec i i0) as [->|Ni].
  - rewrite (R2 eq_refl) in *. rewrite (Hn (q ++ [SIdx i0]) st' s' (q :: ws) root b Hok Spi); [reflexivity|]. apply around_next. now apply around_self.
  - assert (A : apart ((q ++ SIdx i0 :: s) ++ [SIdx i]) (q ++ [SIdx i])) by (rewrite R1; apply apart_prefix; congruence).
    assert (C : clear_of ((q ++ SIdx i0 :: s) ++ [SIdx i]) (q :: ws)) by (apply clear_of_longer, around_clear; now apply around_self).
    destruct (outside_ok a (sub_ok _ _ _ Hok Sqi) n _ _ (q :: ws) root b Spi Sqi (wf_wfm _ (proj1 Hok)) A C) as (r & Er & Wr & [[-> _]| ->]); [reflexivity|]. cbn [bind].
    set (root' := put ((q ++ SIdx i0 :: s) ++ [SIdx i]) r root).
    assert (Hok' : value_ok root') by (apply (put_ok _ _ _ _ Hok Spi); exact (from_gc_ok a b r (sub_ok _ _ _ Hok Sqi) (sub_ok _ _ _ Hok Spi) Er)).
    destruct (put_below_vec q i0 (s ++ [SIdx i]) r root v b Sq) as (v' & Sv' & Lv'); [rewrite <- R1; exact Spi|]. rewrite <- R1 in Sv'. fold root' in Sv'.
    destruct (put_below_vec (q ++ SIdx i0 :: s) i [] r root vv b Sp Spi) as (vv' & Svv' & Lvv'). fold root' in Svv'.
    apply (IH (i + 1) root' v' vv' Hok' Ha Sv' Svv'); [congruence|lia|unfold zlen in *; lia].
Qed.
Lemma map_loop_inside n : never_ends n -> forall k0 s q ws m c root sm y dm, value_ok root -> around q ws ->
  sub q root = Some (GMap sm) -> sub (q ++ SKey k0 :: s) root = Some (GMap dm) -> mfind k0 sm = Some y -> (forall x, c = Some x -> slt x k0) ->
  map_loop (copy_at n) (q ++ SKey k0 :: s) q ws m c root = Diverge.
Proof.
  intros Hn k0 s q ws. induction m as [|m IH]; intros c root sm y dm Hok Ha Sq Sp F0 Hc; [reflexivity|]. cbn [map_loop]. rewrite Sq, Sp.
  destruct (value_ok_map _ (sub_ok _ _ _ Hok Sq)) as (Hs & Hnn & _).
  destruct (next_key_upto c sm k0 y Hs F0 Hc) as (k & a & -> & Fk & Dk).
  assert (Nk : no_nul k) by (apply mfind_in in Fk; rewrite Forall_forall in Hnn; exact (Hnn _ Fk)). rewrite (cstr_id _ Nk).
  set (p := q ++ SKey k0 :: s) in *. cbv zeta.
  set (root1 := match mfind k dm with Some _ => root | None => put p (GMap (mset k GNone dm)) root end).
  assert (E1 : exists sm1 dm1 b, value_ok root1 /\ sub q root1 = Some (GMap sm1) /\ sub p root1 = Some (GMap dm1) /\ mfind k dm1 = Some b /\
     (exists y1, mfind k0 sm1 = Some y1) /\ (k <> k0 -> sub (q ++ [SKey k]) root1 = Some a)).
  { unfold root1. destruct (mfind k dm) as [b|] eqn:E.
    - exists sm, dm, b. repeat (split; [first [assumption|eauto]|]). intros _. rewrite (sub_app _ _ root _ Sq). cbn [sub]. rewrite Fk. now destruct a.
    - destruct (put_below_map q k0 s (GMap (mset k GNone dm)) root sm _ Sq Sp) as (sm1 & S1 & F1). exists sm1, (mset k GNone dm), GNone.
      split; [|split; [exact S1|]; split; [exact (sub_put p root _ _ Sp)|]; split; [apply mfind_mset_same|]; split; [exact F1|]].
      + apply (put_ok p root _ _ Hok Sp). destruct (value_ok_map _ (sub_ok _ _ _ Hok Sp)) as (H1 & H2 & H3).
        apply ok_map; [now apply mset_sorted| |].
        * apply Forall_forall. intros (k1, e1) Hin. cbn [fst]. apply in_mfind in Hin; [|now apply mset_sorted].
          destruct (string_dec k1 k) as [->|N]; [exact Nk|]. rewrite mfind_mset_other in Hin by assumption. apply mfind_in in Hin. rewrite Forall_forall in H2. exact (H2 _ Hin).
        * apply Forall_forall. intros (k1, e1) Hin. cbn [snd]. apply in_mfind in Hin; [|now apply mset_sorted].
          destruct (string_dec k1 k) as [->|N]; [rewrite mfind_mset_same in Hin; apply Some_inj in Hin; subst e1; exact ok_none|].
          rewrite mfind_mset_other in Hin by assumption. apply mfind_in in Hin. rewrite Forall_forall in H3. exact (H3 _ Hin).
      + intros N. assert (A : apart p (q ++ [SKey k])) by (unfold p; apply apart_prefix; congruence).
        rewrite (sub_put_apart p root _ _ _ Sp A), (sub_app _ _ root _ Sq). cbn [sub]. rewrite Fk. now destruct a. }
  destruct E1 as (sm1 & dm1 & b & Hok1 & Sq1 & Sp1 & Fb & (y1 & Fy1) & Sqk).
  assert (Spk : sub (p ++ [SKey k]) root1 = Some b). { rewrite (sub_app _ _ root1 _ Sp1). cbn [sub]. rewrite Fb. now destruct b. }
  destruct (rotate q (SKey k0) s (SKey k)) as (st' & s' & R1 & R2). fold p in R1, R2.
  destruct (string_dec k k0) as [->|N].
  - rewrite (R2 eq_refl) in *. rewrite (Hn (q ++ [SKey k0]) st' s' (q :: ws) root1 b Hok1 Spk); [reflexivity|]. apply around_next. now apply around_self.
  - specialize (Sqk N). destruct Dk as [Dk|Dk]; [contradiction|].
    assert (A : apart (p ++ [SKey k]) (q ++ [SKey k])) by (rewrite R1; apply apart_prefix; congruence).
    assert (C : clear_of (p ++ [SKey k]) (q :: ws)) by (apply clear_of_longer, around_clear; now apply around_self).
    destruct (outside_ok a (sub_ok _ _ _ Hok1 Sqk) n _ _ (q :: ws) root1 b Spk Sqk (wf_wfm _ (proj1 Hok1)) A C) as (r & Er & Wr & [[-> _]| ->]); [reflexivity|]. cbn [bind].
    set (root' := put (p ++ [SKey k]) r root1).
    assert (Hok' : value_ok root') by (apply (put_ok _ _ _ _ Hok1 Spk); exact (from_gc_ok a b r (sub_ok _ _ _ Hok1 Sqk) (sub_ok _ _ _ Hok1 Spk) Er)).
    destruct (put_below_map q k0 (s ++ [SKey k]) r root1 sm1 b Sq1) as (sm' & Ssm' & (y' & Fy')); [rewrite <- R1; exact Spk|]. rewrite <- R1 in Ssm'. fold root' in Ssm'.
    destruct (put_below_map p k [] r root1 dm1 b Sp1 Spk) as (dm' & Sdm' & _). fold root' in Sdm'.
    apply (IH (Some k) root' sm' y' dm' Hok' Ha Ssm' Sdm' Fy'). intros x E. injection E as <-. exact Dk.
Qed.

Theorem inside_never_ends n : never_ends n.
Proof.
  induction n as [|n IH]; intros q st s ws root d Hok Sp Ha; [reflexivity|]. cbn [copy_at]. rewrite Sp.
  assert (Hq : exists S, sub q root = Some S).
  { clear - Sp. revert root Sp. induction q as [|[k|i] q IHq]; intros root Sp; cbn [app] in Sp; [exists root; now destruct root| |]; destruct root; cbn [sub] in *; try discriminate Sp.
    - destruct (mfind k m); [eauto|discriminate Sp].
    - destruct (znth i v); [eauto|discriminate Sp]. }
  destruct Hq as (S & Sq). rewrite Sq. pose proof Sp as Sp0. rewrite (sub_app q _ root _ Sq) in Sp.
  assert (C : clear_of (q ++ st :: s) (q :: ws)) by (apply around_clear; now apply around_self).
  pose proof (sub_ok _ _ _ Hok Sq) as HokS. pose proof (sub_ok _ _ _ Hok Sp0) as Hokd.
  destruct st as [k0|i0]; destruct S; cbn [sub] in Sp; try discriminate Sp.
  - destruct (mfind k0 m) as [y|] eqn:F; [|discriminate Sp]. rewrite (clear_of_cleared _ _ C), !andb_false_r.
    assert (W : value_ok (GMap (old_map d))).
    { destruct d; try exact Hokd; cbn [old_map]; apply ok_map; constructor. }
    pose proof (put_ok _ _ _ _ Hok Sp0 W) as Hok1. destruct (put_below_map q k0 s (GMap (old_map d)) root m d Sq Sp0) as (m' & S' & y' & F').
    apply (map_loop_inside n IH k0 s q ws n None _ m' y' (old_map d) Hok1 Ha S' (sub_put _ _ _ _ Sp0) F'). discriminate.
  - destruct (znth i0 v) as [y|] eqn:F; [|discriminate Sp]. cbv zeta. rewrite (clear_of_cleared _ _ C), (clear_of_moved _ _ C), (clear_of_cut _ _ _ C), !andb_false_r.
    destruct (value_ok_vec _ HokS) as [Hf Hall]. unfold few in Hf.
    assert (H0 : 0 <= i0 < zlen v).
    { unfold znth in F. destruct (Z.ltb_spec i0 0); [discriminate F|]. assert (Z.to_nat i0 < length v)%nat by (apply nth_error_Some; congruence). unfold zlen. lia. }
    rewrite to_u32_id by (unfold uint32; lia).
    set (w := alloc_vec (zlen v) d).
    assert (Lw : length v = length w). { unfold w, alloc_vec, valloc. rewrite (proj2 (Z.ltb_lt _ _)) by lia. rewrite resize_length. unfold zlen. now rewrite Nat2Z.id. }
    assert (Wo : Forall value_ok (old_vec d)) by (destruct d; try constructor; apply (value_ok_vec _ Hokd)).
    assert (W : value_ok (GVec w)).
    { apply ok_vec; [exact (few_same _ _ Lw Hf)|]. unfold w, alloc_vec, valloc. destruct (0 <? zlen v); [|exact Wo]. unfold resize. apply Forall_app. split.
      - apply Forall_forall. intros x Hx. rewrite Forall_forall in Wo. apply Wo. rewrite <- (firstn_skipn (Z.to_nat (zlen v)) (old_vec d)). apply in_or_app. now left.
      - apply Forall_forall. intros x Hx. apply repeat_spec in Hx. subst x. exact ok_none. }
    pose proof (put_ok _ _ _ _ Hok Sp0 W) as Hok1. destruct (put_below_vec q i0 s (GVec w) root v d Sq Sp0) as (v' & S' & L').
    apply (vec_loop_inside n IH i0 s q ws n 0 _ v' w Hok1 Ha S' (sub_put _ _ _ _ Sp0)); [congruence|lia|unfold zlen in *; lia].
Qed.
