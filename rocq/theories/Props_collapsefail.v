(** Collapse of members and elements, and what a collapse that throws leaves behind. *)
From Coq Require Import ZArith Bool Lia Ascii String List.
From Verif Require Import Base F64 StrMap Value MBasic MCollapse LMap Props_collapse WfDec SCollapseFail.
Import ListNotations.

Lemma all_length v : length (snd (collapse_all v)) = length v.
Proof.
  induction v as [|e v IH]; [reflexivity|]. cbn [collapse_all]. destruct (collapse e) as [[] e']; try reflexivity.
  destruct (collapse_all v). cbn [snd length] in *. congruence.
Qed.
Lemma overwrite_throw r g g' : overwrite r g = (Throw, g') -> g' = g.
Proof. destruct r; cbn; congruence. Qed.
Lemma vec_throw v g' : collapse_vec v = (Throw, g') -> g' = GVec v.
Proof.
  unfold collapse_vec. destruct (negb _); [discriminate|]. destruct (all_string _); [apply overwrite_throw|].
  destruct (max_sub _); first [apply overwrite_throw | discriminate].
Qed.
Lemma all_ok v v' : collapse_all v = (Ok tt, v') -> Forall2 (fun e e' => collapse e = (Ok tt, e')) v v'.
Proof.
  revert v'. induction v as [|e v IH]; intros v' H; cbn [collapse_all] in H.
  - injection H as <-. constructor.
  - destruct (collapse e) as [[[]| | |] e'] eqn:E; try discriminate H. destruct (collapse_all v) as [r t] eqn:C. injection H as -> <-. constructor; auto.
Qed.
Lemma all_fix v : Forall (fun e => collapse e = (Ok tt, e)) v -> collapse_all v = (Ok tt, v).
Proof. induction 1 as [|e v H _ IH]; [reflexivity|]. cbn [collapse_all]. now rewrite H, IH. Qed.
Lemma all_again v v' : Forall (fun e => forall e', collapse e = (Throw, e') -> collapse e' = (Throw, e')) v ->
  collapse_all v = (Throw, v') -> collapse_all v' = (Throw, v').
Proof.
  intros F. revert v'. induction F as [|e v He _ IH]; intros v' H; cbn [collapse_all] in H; [discriminate|].
  destruct (collapse e) as [[[]| | |] e'] eqn:E; try discriminate H.
  - destruct (collapse_all v) as [r t] eqn:C. injection H as -> <-. cbn [collapse_all]. rewrite (C38_idempotent _ _ E). now rewrite (IH t eq_refl).
  - injection H as <-. cbn [collapse_all]. now rewrite (He e' eq_refl).
Qed.
Lemma entries_again m m' : Forall (fun c : string * gc => forall e', collapse (snd c) = (Throw, e') -> collapse e' = (Throw, e')) m ->
  collapse_entries m = (Throw, m') -> collapse_entries m' = (Throw, m').
Proof.
  intros F. revert m'. induction F as [|[k e] m He _ IH]; intros m' H; cbn [collapse_entries] in H; [discriminate|]. cbn [snd] in He.
  destruct (collapse e) as [[[]| | |] e'] eqn:E; try discriminate H.
  - destruct (collapse_entries m) as [r t] eqn:C. injection H as -> <-. cbn [collapse_entries]. rewrite (C38_idempotent _ _ E). now rewrite (IH t eq_refl).
  - injection H as <-. cbn [collapse_entries]. now rewrite (He e' eq_refl).
Qed.

Lemma above k0 k (e : gc) m : Forall (slt k0) (map fst m) -> mfind k m = Some e -> String.compare k k0 = Gt.
Proof.
  intros F E. apply mfind_in in E. rewrite Forall_forall in F. specialize (F k (in_map fst m (k, e) E)). unfold slt in F.
  now rewrite String.compare_antisym, F.
Qed.

(** * C109 *)
(** Repeating a collapse that threw throws again and changes nothing more. *)
Theorem C109_again : forall g g', collapse g = (Throw, g') -> collapse g' = (Throw, g').
Proof.
  intros g. induction g as [g Hv Hm | v IH | m IH] using gc_nest_ind; intros g' H.
  - destruct g; try discriminate H; nested_contra Hv Hm.
  - destruct v as [|e v]; [discriminate H|]. rewrite collapse_vec_eq in H. destruct (collapse_all (e :: v)) as [r v'] eqn:C.
    assert (exists e1 v1, v' = e1 :: v1) as (e1 & v1 & ->).
    { pose proof (all_length (e :: v)) as L. rewrite C in L. destruct v'; [discriminate L|eauto]. }
    destruct r as [[]| | |]; try discriminate H.
    + pose proof (vec_throw _ _ H) as ->. rewrite collapse_vec_eq, all_fix; [exact H|]. apply all_ok in C.
      clear -C. induction C as [|x y p q E _ IHC]; constructor; [now apply C38_idempotent in E | exact IHC].
    + injection H as <-. rewrite collapse_vec_eq. now rewrite (all_again _ _ IH C).
  - rewrite collapse_map_eq in H. destruct (collapse_entries m) as [r m'] eqn:C. injection H as -> <-.
    rewrite collapse_map_eq. now rewrite (entries_again _ _ IH C).
Qed.
(** A vector whose collapse throws stays a vector of the same length; its elements are
    collapsed up to the first that fails, the others are as before. *)
Theorem C109_vector : forall v g', collapse (GVec v) = (Throw, g') ->
  exists v', g' = GVec v' /\ length v' = length v /\
  forall i e, nth_error v i = Some e ->
    (reached_at v i -> nth_error v' i = Some (collapsed e)) /\ (~ reached_at v i -> nth_error v' i = Some e).
Proof.
  assert (G : forall v i e, nth_error v i = Some e ->
    (reached_at v i -> nth_error (snd (collapse_all v)) i = Some (collapsed e)) /\ (~ reached_at v i -> nth_error (snd (collapse_all v)) i = Some e)).
  { induction v as [|x v IH]; intros i e E; [destruct i; discriminate E|]. cbn [collapse_all].
    destruct i as [|i]; cbn [nth_error] in E.
    - injection E as ->. unfold collapsed. assert (reached_at (e :: v) 0) as R by (intros j y J; lia).
      split; [intros _|contradiction]. destruct (collapse e) as [[] e']; try reflexivity. destruct (collapse_all v). reflexivity.
    - destruct (collapse x) as [r x'] eqn:C. destruct r as [[]| | |].
      + destruct (IH i e E) as [I1 I2]. destruct (collapse_all v) as [r t]. cbn [snd nth_error] in *.
        assert (reached_at (x :: v) (S i) <-> reached_at v i) as ->; [|auto]. split; intros R j y J Ej.
        * apply (R (S j)); [lia|exact Ej].
        * destruct j as [|j]; cbn [nth_error] in Ej; [injection Ej as <-; now exists x'|]. apply (R j); [lia|exact Ej].
      + cbn [snd nth_error]. split; [|auto]. intros R. destruct (R O x ltac:(lia) eq_refl) as [y Y]. congruence.
      + cbn [snd nth_error]. split; [|auto]. intros R. destruct (R O x ltac:(lia) eq_refl) as [y Y]. congruence.
      + cbn [snd nth_error]. split; [|auto]. intros R. destruct (R O x ltac:(lia) eq_refl) as [y Y]. congruence. }
  intros v g' H. destruct v as [|e v]; [discriminate H|]. rewrite collapse_vec_eq in H.
  pose proof (G (e :: v)) as P. pose proof (all_length (e :: v)) as L. destruct (collapse_all (e :: v)) as [r v'] eqn:C. cbn [snd] in *.
  exists v'. split; [|split; [exact L|exact P]]. destruct r as [[]| | |]; try discriminate H.
  - exact (vec_throw _ _ H).
  - congruence.
Qed.
(** A map keeps its names; its members are collapsed in the order of their names up to the
    first that fails, the others are as before.  It succeeds when all members do. *)
Theorem C109_map : forall m, wf (GMap m) -> exists m', collapsed (GMap m) = GMap m' /\
  (succeeds (GMap m) <-> forall k e, mfind k m = Some e -> succeeds e) /\
  (forall k, mfind k m = None -> mfind k m' = None) /\
  (forall k e, mfind k m = Some e ->
    (reached_name m k -> mfind k m' = Some (collapsed e)) /\ (~ reached_name m k -> mfind k m' = Some e)).
Proof.
  assert (G : forall m, msorted m -> let '(r, m') := collapse_entries m in
    (r = Ok tt <-> forall k e, mfind k m = Some e -> succeeds e) /\
    (forall k, mfind k m = None -> mfind k m' = None) /\
    (forall k e, mfind k m = Some e ->
      (reached_name m k -> mfind k m' = Some (collapsed e)) /\ (~ reached_name m k -> mfind k m' = Some e))).
  { induction m as [|[k0 x] m IH]; intros Sm; cbn [collapse_entries].
    - split; [split; [discriminate|reflexivity]|]. split; [auto|discriminate].
    - apply msorted_inv in Sm as [Sm Fm]. specialize (IH Sm). destruct (collapse x) as [r x'] eqn:C.
      assert (STOP : r <> Ok tt ->
        (r = Ok tt <-> forall k e, mfind k ((k0, x) :: m) = Some e -> succeeds e) /\
        (forall k, mfind k ((k0, x) :: m) = None -> mfind k ((k0, x') :: m) = None) /\
        (forall k e, mfind k ((k0, x) :: m) = Some e ->
         (reached_name ((k0, x) :: m) k -> mfind k ((k0, x') :: m) = Some (collapsed e)) /\
         (~ reached_name ((k0, x) :: m) k -> mfind k ((k0, x') :: m) = Some e))).
      { intros R. assert (NS : ~ succeeds x) by (intros [y Y]; congruence). assert (mfind k0 ((k0, x) :: m) = Some x) as F0 by (cbn; now rewrite compare_refl). split; [|split].
        - split; [contradiction|]. intros H. destruct NS. exact (H k0 x F0).
        - intros k. cbn. destruct (String.compare k k0); congruence.
        - intros k e E. cbn [mfind] in *. destruct (String.compare k k0) eqn:K.
          + apply String.compare_eq_iff in K. subst k0. injection E as ->. unfold collapsed. rewrite C. split; [reflexivity|].
            intros N. destruct N. intros k' y K' Y. cbn [mfind] in Y. rewrite K' in Y. pose proof (above _ _ _ _ Fm Y). congruence.
          + pose proof (above _ _ _ _ Fm E). congruence.
          + split; [|auto]. intros H. destruct NS. apply (H k0 x); [|exact F0]. rewrite String.compare_antisym, K. reflexivity. }
      destruct r as [[]| | |]; [|apply STOP; discriminate ..]. clear STOP.
      destruct (collapse_entries m) as [r m'] eqn:Cm. destruct IH as (I0 & I1 & I2). assert (SX : succeeds x) by now exists x'. split; [|split].
      + rewrite I0. split; intros H k e E.
        * cbn [mfind] in E. destruct (String.compare k k0); [injection E as <-; exact SX | eauto | eauto].
        * apply (H k e). cbn [mfind]. now rewrite (above _ _ _ _ Fm E).
      + intros k. cbn [mfind]. destruct (String.compare k k0); auto; discriminate.
      + intros k e E. cbn [mfind] in *. destruct (String.compare k k0) eqn:K.
        * apply String.compare_eq_iff in K. subst k0. injection E as ->. unfold collapsed. rewrite C. split; [reflexivity|].
          intros N. destruct N. intros k' y K' Y. cbn [mfind] in Y. rewrite K' in Y. pose proof (above _ _ _ _ Fm Y). congruence.
        * pose proof (above _ _ _ _ Fm E). congruence.
        * assert (reached_name ((k0, x) :: m) k <-> reached_name m k) as ->; [|now apply I2]. split; intros R k' y K' Y.
          -- apply (R k' y K'). cbn [mfind]. now rewrite (above _ _ _ _ Fm Y).
          -- cbn [mfind] in Y. destruct (String.compare k' k0); [injection Y as <-; exact SX | exact (R k' y K' Y) | exact (R k' y K' Y)]. }
  intros m W. apply wf_map in W as [Sm _]. specialize (G m Sm). unfold collapsed at 1, succeeds at 1. rewrite collapse_map_eq.
  destruct (collapse_entries m) as [r m']. destruct G as (G0 & G1 & G2). exists m'. split; [reflexivity|]. split; [|split; assumption].
  rewrite <- G0. split; [intros [g' H]; congruence | intros ->; eauto].
Qed.
(** After a collapse that succeeds, each member at any depth of nested maps is what collapse
    makes of it alone; no member comes or goes. *)
Theorem C109_member : forall p g, wf g -> succeeds g ->
  member p (collapsed g) = match member p g with Some e => Some (collapsed e) | None => None end /\
  (forall e, member p g = Some e -> succeeds e).
Proof.
  induction p as [|k p IH]; intros g W S; [split; [reflexivity|intros e [= <-]; exact S]|].
  assert (NV : forall v g', collapse (GVec v) = (Ok tt, g') -> match g' with GMap _ => False | _ => True end).
  { intros [|e v] g' H; [injection H as <-; exact I|]. rewrite collapse_vec_eq in H. destruct (collapse_all (e :: v)) as [[[]| | |] v']; try discriminate H.
    revert H. unfold collapse_vec. destruct (negb _); [intros [= <-]; exact I|].
    assert (OV : forall r g g', overwrite r g = (Ok tt, g') -> r = Ok g') by (intros [] ? ?; cbn; congruence).
    assert (BO : forall A B (f : A -> B) r y, omap f r = Ok y -> exists x, y = f x) by (intros ? ? f [] y; cbn; intros; try discriminate; apply Ok_inj in H; eauto).
    destruct (all_string _); [intros H; apply OV, bind_ok in H as (t & _ & H)|destruct (max_sub _); try (intros [= <-]; exact I);
      intros H; apply OV, bind_ok in H as (t & _ & H)].
    1-6: apply bind_ok in H as (w & _ & H); apply Ok_inj in H; subst; exact I.
    all: apply BO in H as [w ->]; exact I. }
  destruct g; try (split; [reflexivity|intros e E; discriminate E]).
  - destruct S as [g' S]. specialize (NV _ _ S). unfold collapsed. rewrite S. cbn [snd member]. destruct g'; try contradiction; (split; [reflexivity|intros e E; discriminate E]).
  - destruct (C109_map m W) as (m' & E & S' & N & P). rewrite E. cbn [member]. destruct (mfind k m) as [e|] eqn:F.
    + assert (reached_name m k) as R by (intros k' e' _; now apply S'). rewrite (proj1 (P k e F) R).
      apply IH; [|now apply (proj1 S' S k)]. apply wf_map in W as [_ W]. rewrite Forall_forall in W. apply mfind_in in F. exact (W _ F).
    + rewrite (N k F). split; [reflexivity|discriminate].
Qed.
Print Assumptions C109_again.
Print Assumptions C109_vector.
Print Assumptions C109_map.
Print Assumptions C109_member.

(** The second member fails: the first is collapsed, the third is not. *)
Example C109_example :
  let m := [("a", GVec [GInt 1; GInt 2]); ("b", GVec [GVec [GInt 3]; GStr "x"]); ("c", GVec [GBool true])]%string in
  wf (GMap m) /\
  collapse (GMap m) = (Throw, GMap [("a", GVInt [1; 2]); ("b", GVec [GVInt [3]; GStr "x"]); ("c", GVec [GBool true])]%string%Z) /\
  reached_name m "b" /\ ~ reached_name m "c".
Proof.
  cbn zeta. split; [wfd|]. split; [vm_compute; reflexivity|]. split.
  - intros k' e K E. cbn [mfind] in E. rewrite K in E. destruct (String.compare k' "c") eqn:Q.
    1: apply String.compare_eq_iff in Q; subst k'; discriminate K.
    all: destruct (String.compare k' "a"); try discriminate E; injection E as <-; eexists; vm_compute; reflexivity.
  - intros R. destruct (R "b"%string _ eq_refl eq_refl) as [g' E]. vm_compute in E. discriminate E.
Qed.
Example C109_member_example : let g := GMap [("a", GMap [("b", GVec [GReal 0; GInt 2])])]%string in
  succeeds g /\ member ["a"; "b"]%string (collapsed g) = Some (GVReal [0; 4611686018427387904]%Z).
Proof. cbn zeta. split; [eexists; vm_compute; reflexivity | vm_compute; reflexivity]. Qed.
