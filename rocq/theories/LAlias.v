(** Lemmas about assignment between parts of one container. *)
From Coq Require Import ZArith Bool Lia Ascii String List.
From Verif Require Import Base F64 StrMap Value MBasic MMap MCopy SCopy LCopy SCapi LCapi LCapi3 LRuby Props_capi2 MAlias.
Import ListNotations.
Local Open Scope Z_scope.

(** * Paths. *)

Lemma step_eqb_eq a b : step_eqb a b = true <-> a = b.
Proof.
  destruct a as [k|i], b as [k'|j]; cbn; try (split; discriminate).
  - rewrite String.eqb_eq. split; congruence.
  - rewrite Z.eqb_eq. split; congruence.
Qed.
Lemma step_eqb_refl a : step_eqb a a = true.
Proof. now apply step_eqb_eq. Qed.
Lemma step_dec (a b : step) : {a = b} + {a <> b}.
Proof. destruct (step_eqb a b) eqn:E; [left; now apply step_eqb_eq|right; intros ->; now rewrite step_eqb_refl in E]. Qed.
Lemma apart_sym p : forall q, apart p q -> apart q p.
Proof. induction p as [|a p IH]; intros [|b q]; cbn; try tauto. intros [H|[H1 H2]]; [left; congruence|right; auto]. Qed.
Lemma apart_app p : forall q s t, apart p q -> apart (p ++ s) (q ++ t).
Proof. induction p as [|a p IH]; intros [|b q] s t; cbn; try tauto. intros [H|[H1 H2]]; [now left|right; auto]. Qed.
Lemma apart_l p q s : apart p q -> apart (p ++ s) q.
Proof. intros H. rewrite <- (app_nil_r q). now apply apart_app. Qed.
Lemma apart_r p q s : apart p q -> apart p (q ++ s).
Proof. intros H. rewrite <- (app_nil_r p). now apply apart_app. Qed.
Lemma apart_prefix p a b s t : a <> b -> apart (p ++ a :: s) (p ++ b :: t).
Proof. intros H. induction p as [|c p IH]; cbn; [now left|right; auto]. Qed.
Lemma below_apart p : forall q, apart p q -> below p q = None.
Proof.
  induction p as [|a p IH]; intros [|b q]; cbn; try tauto. intros [H|[-> H]].
  - destruct (step_eqb a b) eqn:E; [apply step_eqb_eq in E; contradiction|reflexivity].
  - rewrite step_eqb_refl. auto.
Qed.
Lemma below_app p s : below p (p ++ s) = Some s.
Proof. induction p as [|a p IH]; cbn; [reflexivity|]. now rewrite step_eqb_refl. Qed.
Lemma below_some p : forall w s, below p w = Some s -> w = p ++ s.
Proof.
  induction p as [|a p IH]; intros w s H; cbn in *; [congruence|]. destruct w as [|b w]; [discriminate|].
  destruct (step_eqb a b) eqn:E; [|discriminate]. apply step_eqb_eq in E. subst b. f_equal. auto.
Qed.
Lemma below_longer p w s : below p w = None -> below (p ++ s) w = None.
Proof.
  intros H. destruct (below (p ++ s) w) as [t|] eqn:E; [|reflexivity]. apply below_some in E. rewrite <- app_assoc in E. subst w.
  rewrite below_app in H. discriminate.
Qed.
Definition clear_of (p : list step) (ws : list (list step)) : Prop := Forall (fun w => below p w = None) ws.
Lemma clear_of_cleared p ws : clear_of p ws -> cleared p ws = false.
Proof. induction 1 as [|w ws H _ IH]; cbn; [reflexivity|]. rewrite H. exact IH. Qed.
Lemma clear_of_moved p ws : clear_of p ws -> moved p ws = false.
Proof. induction 1 as [|w ws H _ IH]; cbn; [reflexivity|]. rewrite H. exact IH. Qed.
Lemma clear_of_cut n p ws : clear_of p ws -> cut n p ws = false.
Proof. induction 1 as [|w ws H _ IH]; cbn; [reflexivity|]. rewrite H. exact IH. Qed.
Lemma clear_of_longer p ws s : clear_of p ws -> clear_of (p ++ s) ws.
Proof. unfold clear_of. apply Forall_impl. intros w. apply below_longer. Qed.

(** * Maps. *)

Lemma mupd_mset k x m e : mfind k m = Some e -> msorted m -> mupd k x m = mset k x m.
Proof.
  induction m as [|(k', e') m IH]; intros H Hs; [discriminate H|]. cbn [mfind mset mupd] in *. destruct (msorted_inv _ _ _ Hs) as [Hs' Hk].
  destruct (String.compare k k') eqn:E.
  - apply compare_eq_iff in E. subst k'. now rewrite String.eqb_refl.
  - exfalso. apply mfind_in in H. apply (in_map fst) in H. rewrite Forall_forall in Hk. specialize (Hk _ H). cbn [fst] in Hk.
    apply (slt_irrefl k). exact (slt_trans _ _ _ E Hk).
  - destruct (String.eqb_spec k k') as [->|N]; [rewrite compare_refl in E; discriminate|]. now rewrite IH.
Qed.
Lemma mset_mset k x y (m : list (string * gc)) : mset k x (mset k y m) = mset k x m.
Proof.
  induction m as [|(k', e') m IH]; cbn [mset]; [now rewrite compare_refl|].
  destruct (String.compare k k') eqn:E; cbn [mset]; rewrite ?compare_refl, ?E; [reflexivity|reflexivity|now rewrite IH].
Qed.

(** Where the iterator stands: all keys of [done] are behind it, those of [todo] to come. *)
Definition placed (c : option string) (done todo : list (string * gc)) : Prop :=
  (forall k, In k (map fst done) -> exists x, c = Some x /\ (k = x \/ slt k x)) /\
  (forall k x, In k (map fst todo) -> c = Some x -> slt x k).
Lemma placed_start m : placed None [] m.
Proof. split; [intros k []|discriminate]. Qed.
Lemma placed_next c done k a todo : msorted (done ++ (k, a) :: todo) -> placed c done ((k, a) :: todo) -> placed (Some k) (done ++ [(k, a)]) todo.
Proof.
  intros Hs _. unfold msorted in Hs. rewrite map_app in Hs. cbn [map fst] in Hs. split.
  - intros k' H. exists k. split; [reflexivity|]. rewrite map_app in H. apply in_app_or in H as [H|[H|[]]]; [right|left; now symmetry].
    induction done as [|(k0, a0) done IH]; [destruct H|]. cbn [map app fst] in *. inversion Hs as [|? ? S F]; subst. destruct H as [->|H]; [|auto].
    rewrite Forall_forall in F. apply F. apply in_or_app. right. now left.
  - intros k' x H E. injection E as <-. induction done as [|(k0, a0) done IH]; cbn [map app fst] in *; inversion Hs as [|? ? S F]; subst; [|auto].
    rewrite Forall_forall in F. auto.
Qed.
Lemma next_key_placed c done todo : placed c done todo -> next_key c (done ++ todo) = match todo with [] => None | (k, _) :: _ => Some k end.
Proof.
  intros [H1 H2]. induction done as [|(k, a) done IH]; cbn [app].
  - destruct todo as [|(k, a) todo]; [reflexivity|]. cbn [next_key]. destruct c as [x|]; [|reflexivity].
    assert (slt x k) as L by (apply H2; [now left|reflexivity]). now rewrite (compare_lt _ _ L).
  - cbn [next_key]. destruct (H1 k) as (x & -> & D); [now left|].
    assert (String.compare x k <> Lt) as N.
    { destruct D as [->|D]; [rewrite compare_refl; discriminate|]. rewrite (compare_gt _ _ D). discriminate. }
    destruct (String.compare x k) eqn:E; [|contradiction|]; apply IH; intros k' Hk'; apply H1; now right.
Qed.

(** * Fuel. *)

Fixpoint need (g : gc) : nat :=
  match g with
  | GVec v => S (S ((fix go (l : list gc) : nat := match l with [] => O | a :: t => (need a + go t)%nat end) v))
  | GMap m => S (S ((fix go (l : list (string * gc)) : nat := match l with [] => O | a :: t => (need (snd a) + go t)%nat end) m))
  | _ => 1%nat
  end.
Fixpoint needs (l : list gc) : nat := match l with [] => O | a :: t => (need a + needs t)%nat end.
Lemma need_vec v : need (GVec v) = S (S (needs v)).
Proof. reflexivity. Qed.
Lemma need_map m : need (GMap m) = S (S (needs (map snd m))).
Proof.
  cbn [need]. f_equal. f_equal. induction m as [|a m IH]; [reflexivity|]. cbn [needs map]. now rewrite IH.
Qed.
Lemma need_pos g : (1 <= need g)%nat.
Proof. destruct g; cbn; lia. Qed.

(** * A source outside the destination. *)

(** What is claimed of a source [s], at any place. *)
Definition copies_well (s : gc) : Prop := forall n p q ws root d,
  sub p root = Some d -> sub q root = Some s -> wfm root -> apart p q -> clear_of p ws ->
  exists r, from_gc s d = Ok r /\ wfm r /\
    (copy_at n p q ws root = Diverge /\ (n < need s)%nat \/ copy_at n p q ws root = Ok (put p r root)).

Lemma znth_mid {A} (l1 : list A) a l2 : znth (zlen l1) (l1 ++ a :: l2) = Some a.
Proof. unfold znth, zlen. rewrite (proj2 (Z.ltb_ge _ _)) by lia. rewrite Nat2Z.id. rewrite nth_error_app2 by lia. now rewrite Nat.sub_diag. Qed.
Lemma lset_mid {A} (l1 : list A) a l2 x : lset (Z.to_nat (zlen l1)) x (l1 ++ a :: l2) = l1 ++ x :: l2.
Proof. unfold zlen. rewrite Nat2Z.id. induction l1 as [|b l1 IH]; cbn; [reflexivity|]. now rewrite IH. Qed.
Lemma zlen_app' {A} (l1 l2 : list A) : zlen (l1 ++ l2) = zlen l1 + zlen l2.
Proof. unfold zlen. rewrite app_length. lia. Qed.

Lemma vec_loop_ok n todo : Forall copies_well todo -> forall p q ws done wd wt root m,
  sub q root = Some (GVec (done ++ todo)) -> sub p root = Some (GVec (wd ++ wt)) -> length wd = length done -> (length todo <= length wt)%nat ->
  wfm root -> apart p q -> clear_of p ws ->
  exists r, assign_vec todo wt = Ok r /\ Forall wfm r /\
    (vec_loop (copy_at n) p q ws m (zlen done) root = Diverge /\ (m <= length todo \/ n < needs todo)%nat \/
     vec_loop (copy_at n) p q ws m (zlen done) root = Ok (put p (GVec (wd ++ r)) root)).
Proof.
  induction 1 as [|a todo Ha _ IH]; intros p q ws done wd wt root m Sq Sp Hl Hlt Hw A C.
  - exists wt. split; [reflexivity|]. pose proof (sub_wfm _ _ _ Hw Sp) as W. apply wfm_vec, Forall_app in W as [_ W]. split; [exact W|].
    destruct m as [|m]; [left; split; [reflexivity|left; lia]|]. right. cbn [vec_loop]. rewrite Sq, Sp, app_nil_r.
    rewrite Z.ltb_irrefl. now rewrite (put_same _ _ _ Sp).
  - destruct wt as [|b wt]; [cbn in Hlt; lia|].
    assert (Zl : zlen done = zlen wd) by (unfold zlen; lia).
    assert (Sp1 : sub (p ++ [SIdx (zlen done)]) root = Some b).
    { rewrite (sub_app p _ root _ Sp). cbn [sub]. rewrite Zl, znth_mid. now destruct b. }
    assert (Sq1 : sub (q ++ [SIdx (zlen done)]) root = Some a).
    { rewrite (sub_app q _ root _ Sq). cbn [sub]. rewrite znth_mid. now destruct a. }
    assert (C1 : clear_of (p ++ [SIdx (zlen done)]) (q :: ws)).
    { constructor; [apply below_apart; now apply apart_l|now apply clear_of_longer]. }
    destruct (Ha n _ _ (q :: ws) root b Sp1 Sq1 Hw (apart_app _ _ _ _ A) C1) as (b' & Eb & Wb & Hc).
    set (root' := put (p ++ [SIdx (zlen done)]) b' root) in *.
    assert (Er : root' = put p (GVec (wd ++ b' :: wt)) root).
    { unfold root'. rewrite (put_app p _ root _ b' Sp). cbn [put]. rewrite Zl, znth_mid, lset_mid. cbn [put]. now destruct b. }
    assert (Sq' : sub q root' = Some (GVec ((done ++ [a]) ++ todo))).
    { rewrite Er, (sub_put_apart p root _ _ q Sp A), Sq, <- app_assoc. reflexivity. }
    assert (Sp' : sub p root' = Some (GVec ((wd ++ [b']) ++ wt))).
    { rewrite Er, (sub_put p root _ _ Sp), <- app_assoc. reflexivity. }
    assert (Hw' : wfm root') by (unfold root'; exact (put_wfm _ _ _ _ Hw Sp1 Wb)).
    assert (Eput : forall r, put p (GVec ((wd ++ [b']) ++ r)) root' = put p (GVec (wd ++ b' :: r)) root).
    { intros r. rewrite Er, (put_put p root _ _ _ Sp), <- app_assoc. reflexivity. }
    assert (Hl' : length (wd ++ [b']) = length (done ++ [a])) by (rewrite !app_length; cbn; lia).
    assert (Hlt' : (length todo <= length wt)%nat) by (cbn in Hlt; lia).
    destruct (IH p q ws (done ++ [a]) (wd ++ [b']) wt root' (pred m) Sq' Sp' Hl' Hlt' Hw' A C) as (r & Ea & Wr & Hr).
    exists (b' :: r). cbn [assign_vec]. rewrite Eb. cbn [bind]. rewrite Ea. cbn [bind]. split; [reflexivity|]. split; [now constructor|].
    destruct m as [|m]; [left; split; [reflexivity|left; lia]|]. cbn [vec_loop pred] in *. rewrite Sq, Sp.
    rewrite (proj2 (Z.ltb_lt (zlen done) (zlen (done ++ a :: todo)))) by (rewrite zlen_app'; unfold zlen; cbn [length]; lia).
    rewrite (proj2 (Z.ltb_lt (zlen done) (zlen (wd ++ b :: wt)))) by (rewrite zlen_app', Zl; unfold zlen; cbn [length]; lia).
    destruct Hc as [[Ed Hn]| ->].
    + left. rewrite Ed. cbn [bind]. split; [reflexivity|]. right. cbn [needs]. lia.
    + cbn [bind]. rewrite zlen_app' in Hr. unfold zlen at 2 4 in Hr. cbn [length] in Hr. change (Z.of_nat 1) with 1 in Hr.
      destruct Hr as [[Ed Hm]|Er2].
      * left. split; [exact Ed|]. cbn [length needs]. lia.
      * right. rewrite Er2. now rewrite Eput.
Qed.

(** A new key in the map at [p] is not seen at a place outside of it. *)
Lemma sub_insert p : forall root dm k y q, sub p root = Some (GMap dm) -> apart (p ++ [SKey k]) q ->
  sub q (put p (GMap (mset k y dm)) root) = sub q root.
Proof.
  intros root dm k y q Sp A. assert (D : apart p q \/ exists b t, q = p ++ b :: t /\ b <> SKey k).
  { clear Sp. revert q A. induction p as [|a p IH]; intros [|b q] A; cbn [app apart] in A; try contradiction.
    - right. exists b, q. split; [reflexivity|]. destruct A as [A|[_ []]]. congruence.
    - destruct A as [A|[-> A]]; [left; now left|]. destruct (IH q A) as [H|(c & t & -> & H)]; [left; right; auto|right; exists c, t; auto]. }
  destruct D as [D|(b & t & -> & N)]; [now apply (sub_put_apart p root _ _ q Sp)|].
  rewrite (sub_app p _ root _ Sp). rewrite (sub_app p (b :: t) (put p _ root) _ (sub_put p root _ _ Sp)).
  destruct b as [k'|i]; [|reflexivity]. cbn [sub]. rewrite mfind_mset_other by congruence. reflexivity.
Qed.

Lemma map_loop_ok n todo : Forall (fun kv => copies_well (snd kv)) todo -> Forall (fun kv => no_nul (fst kv)) todo -> forall p q ws done c dm root m,
  sub q root = Some (GMap (done ++ todo)) -> sub p root = Some (GMap dm) -> msorted (done ++ todo) -> placed c done todo -> wfm root ->
  (forall k, In k (map fst todo) -> apart (p ++ [SKey k]) q /\ clear_of (p ++ [SKey k]) ws) ->
  exists r, assign_map todo dm = Ok r /\ wfm (GMap r) /\
    (map_loop (copy_at n) p q ws m c root = Diverge /\ (m <= length todo \/ n < needs (map snd todo))%nat \/
     map_loop (copy_at n) p q ws m c root = Ok (put p (GMap r) root)).
Proof.
  intros H. induction H as [|(k, a) todo Ha _ IH]; intros Hk p q ws done c dm root m Sq Sp Hs Hp Hw A.
  - exists dm. split; [reflexivity|]. split; [exact (sub_wfm _ _ _ Hw Sp)|].
    destruct m as [|m]; [left; split; [reflexivity|left; lia]|]. right. cbn [map_loop]. rewrite Sq, Sp, (next_key_placed _ _ _ Hp).
    now rewrite (put_same _ _ _ Sp).
  - cbn [fst snd] in *. inversion Hk as [|? ? Nk Hk']; subst. cbn [fst] in Nk. apply cstr_id in Nk.
    destruct (A k) as [A1 C1]; [now left|].
    pose proof (sub_wfm _ _ _ Hw Sp) as Wd. destruct (proj1 (wfm_map dm) Wd) as [Ws Wf].
    set (root1 := match mfind k dm with Some _ => root | None => put p (GMap (mset k GNone dm)) root end).
    set (old := odflt (mfind k dm)).
    assert (E1 : exists dm1, sub p root1 = Some (GMap dm1) /\ mfind k dm1 = Some old /\ (forall x, mupd k x dm1 = mset k x dm) /\ wfm root1 /\
      sub q root1 = Some (GMap (done ++ (k, a) :: todo)) /\ (forall x, put p x root1 = put p x root)).
    { unfold root1, old. destruct (mfind k dm) as [e|] eqn:E.
      - exists dm. cbn [odflt]. repeat (split; [first [exact Sp|reflexivity|exact E|exact Hw|exact Sq|intros x; now apply (mupd_mset k x dm e)]|]). reflexivity.
      - exists (mset k GNone dm). split; [exact (sub_put p root _ _ Sp)|]. split; [apply mfind_mset_same|].
        split; [intros x; rewrite (mupd_mset k x (mset k GNone dm) GNone); [apply mset_mset|apply mfind_mset_same|now apply mset_sorted]|].
        split; [apply (put_wfm p root _ _ Hw Sp); now apply mset_wfm|]. split; [now rewrite (sub_insert p root dm k GNone q Sp A1)|].
        intros x. exact (put_put p root _ _ _ Sp). }
    destruct E1 as (dm1 & Sp1 & F1 & U1 & W1 & Sq1 & P1).
    assert (Spk : sub (p ++ [SKey k]) root1 = Some old). { rewrite (sub_app p _ root1 _ Sp1). cbn [sub]. rewrite F1. now destruct old. }
    assert (Sqk : sub (q ++ [SKey k]) root1 = Some a).
    { rewrite (sub_app q _ root1 _ Sq1). cbn [sub]. rewrite (in_mfind k a); [now destruct a|exact Hs|apply in_or_app; right; now left]. }
    assert (C1' : clear_of (p ++ [SKey k]) (q :: ws)) by (constructor; [now apply below_apart|exact C1]).
    destruct (Ha n _ _ (q :: ws) root1 old Spk Sqk W1 (apart_r _ _ _ A1) C1') as (b & Eb & Wb & Hc).
    set (root' := put (p ++ [SKey k]) b root1) in *.
    assert (Er : root' = put p (GMap (mset k b dm)) root).
    { unfold root'. rewrite (put_app p _ root1 _ b Sp1). cbn [put]. rewrite F1, U1. cbn [put]. now rewrite P1. }
    assert (Sq' : sub q root' = Some (GMap ((done ++ [(k, a)]) ++ todo))).
    { unfold root'. rewrite (sub_put_apart _ root1 _ _ q Spk A1), Sq1, <- app_assoc. reflexivity. }
    assert (Sp' : sub p root' = Some (GMap (mset k b dm))) by (rewrite Er; exact (sub_put p root _ _ Sp)).
    assert (Hw' : wfm root') by (unfold root'; exact (put_wfm _ _ _ _ W1 Spk Wb)).
    assert (Hs' : msorted ((done ++ [(k, a)]) ++ todo)) by (rewrite <- app_assoc; exact Hs).
    destruct (IH Hk' p q ws (done ++ [(k, a)]) (Some k) (mset k b dm) root' (pred m) Sq' Sp' Hs' (placed_next _ _ _ _ _ Hs Hp) Hw') as (r & Ea & Wr & Hr).
    { intros k' Hin. apply A. now right. }
    exists r. cbn [assign_map]. rewrite Nk. fold old. rewrite Eb. cbn [bind]. split; [exact Ea|]. split; [exact Wr|].
    destruct m as [|m]; [left; split; [reflexivity|left; lia]|]. cbn [map_loop pred] in *. rewrite Sq, Sp, (next_key_placed _ _ _ Hp), Nk. fold root1. cbv zeta.
    destruct Hc as [[Ed Hn]| ->].
    + left. rewrite Ed. cbn [bind]. split; [reflexivity|]. right. cbn [needs map snd]. lia.
    + cbn [bind]. destruct Hr as [[Ed Hm]|Er2].
      * left. split; [exact Ed|]. cbn [length needs map snd]. lia.
      * right. rewrite Er2, Er. f_equal. exact (put_put p root _ _ _ Sp).
Qed.

Lemma needs_length l : (length l <= needs l)%nat.
Proof. induction l as [|a l IH]; cbn; [lia|]. pose proof (need_pos a). lia. Qed.

Lemma value_ok_vec v : value_ok (GVec v) -> few v /\ Forall value_ok v.
Proof.
  intros (H1 & H2 & H3). apply wf_vec in H1. apply keys_ok_vec in H2. apply fits_vec in H3 as [H3 H4]. split; [exact H3|].
  rewrite Forall_forall in *. intros x Hx. split; auto.
Qed.
Lemma value_ok_map m : value_ok (GMap m) -> msorted m /\ Forall (fun kv => no_nul (fst kv)) m /\ Forall (fun kv => value_ok (snd kv)) m.
Proof.
  intros (H1 & H2 & H3). apply wf_map in H1 as [H0 H1]. apply keys_ok_map in H2. apply fits_map in H3. split; [exact H0|].
  split; apply Forall_forall; rewrite Forall_forall in H1, H2, H3; intros x Hx; [now apply H2|]. split; [auto|]. split; [now apply H2|auto].
Qed.

Theorem outside_ok s : value_ok s -> copies_well s.
Proof.
  induction s as [g Hv Hm | v IH | m IH] using gc_nest_ind; intros Hok n p q ws root d Sp Sq Hw A C;
    pose proof (sub_wfm _ _ _ Hw Sp) as Wd; destruct (from_gc_assigned _ Hok d Wd) as (r & Er & Wr & _);
    exists r; (split; [exact Er|]); (split; [exact Wr|]);
    (destruct n as [|n]; [left; split; [reflexivity|apply need_pos]|]); cbn [copy_at]; rewrite Sp, Sq;
    assert (Cq : clear_of p (q :: ws)) by (constructor; [now apply below_apart|exact C]);
    rewrite (clear_of_cleared _ _ C) || idtac.
  - rewrite (clear_of_cleared _ _ Cq), !andb_false_r, Er. cbn [bind].
    destruct g; try (right; reflexivity); [now contradiction (Hv v)|now contradiction (Hm m)].
  - rewrite (clear_of_cleared _ _ Cq), (clear_of_moved _ _ Cq), (clear_of_cut _ _ _ Cq), !andb_false_r. cbv zeta.
    destruct (value_ok_vec _ Hok) as [Hf Hall]. set (w := alloc_vec (to_u32 (zlen v)) d) in *.
    assert (Hcw : Forall copies_well v) by (rewrite Forall_forall in *; auto).
    assert (Lw : (length v <= length w)%nat).
    { unfold w. unfold few in Hf. pose proof (zlen_nonneg v). rewrite to_u32_id by (unfold uint32; lia). unfold alloc_vec, valloc, zlen.
      destruct (Z.ltb_spec 0 (Z.of_nat (length v))); [rewrite resize_length|]; lia. }
    assert (Ww : wfm (GVec w)).
    { apply wfm_vec. unfold w. destruct d; try (apply alloc_vec_wfm with (w := []); [exact Hf|constructor]). apply alloc_vec_wfm; [exact Hf|]. now apply wfm_vec in Wd. }
    destruct (vec_loop_ok n v Hcw p q ws [] [] w (put p (GVec w) root) n) as (r' & Ea & Wr' & Hr); try assumption; try reflexivity.
    { rewrite (sub_put_apart p root _ _ q Sp A). exact Sq. }
    { exact (sub_put p root _ _ Sp). }
    { exact (put_wfm _ _ _ _ Hw Sp Ww). }
    rewrite from_gc_vec in Er. fold w in Er. rewrite Ea in Er. cbn [bind] in Er. apply Ok_inj in Er. subst r.
    change (zlen (@nil gc)) with 0 in Hr. destruct Hr as [[Ed Hn]|Eo].
    + left. split; [exact Ed|]. rewrite need_vec. pose proof (needs_length v). lia.
    + right. rewrite Eo. cbn [app]. f_equal. exact (put_put p root _ _ _ Sp).
  - rewrite (clear_of_cleared _ _ Cq), !andb_false_r.
    destruct (value_ok_map _ Hok) as (Hs & Hn & Hall).
    assert (Hcw : Forall (fun kv => copies_well (snd kv)) m) by (rewrite Forall_forall in *; auto).
    assert (Ww : wfm (GMap (old_map d))) by (destruct d; try (apply wfm_map; split; [constructor|constructor]); exact Wd).
    destruct (map_loop_ok n m Hcw Hn p q ws [] None (old_map d) (put p (GMap (old_map d)) root) n) as (r' & Ea & Wr' & Hr); try assumption; try apply placed_start.
    { rewrite (sub_put_apart p root _ _ q Sp A). exact Sq. }
    { exact (sub_put p root _ _ Sp). }
    { exact (put_wfm _ _ _ _ Hw Sp Ww). }
    { intros k _. split; [now apply apart_l|now apply clear_of_longer]. }
    rewrite from_gc_map, Ea in Er. cbn [bind] in Er. apply Ok_inj in Er. subst r.
    destruct Hr as [[Ed Hl]|Eo].
    + left. split; [exact Ed|]. rewrite need_map. pose proof (needs_length (map snd m)). rewrite map_length in *. lia.
    + right. rewrite Eo. f_equal. exact (put_put p root _ _ _ Sp).
Qed.
