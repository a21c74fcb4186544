(** What a program that works on several parts does to each of them. *)
From Coq Require Import ZArith Bool Lia Ascii String List.
From Verif Require Import Base F64 StrMap Value MBasic MMap MPromote MRef MCopy SCopy LBasic MOps SLocal SProject.
From Verif Require Import LMap WfDec Props_copy Props_local Props_commute.
Import ListNotations.
Local Open Scope Z_scope.

Lemma poe_cons x a g : part_or_empty (places (x :: a)) g = part_or_empty (places a) (get (place_of x) g).
Proof.
  unfold get, part_or_empty, places. cbn [map part]. destruct (place_of x) as [k|i]; destruct g; try (destruct a as [|y a]; [reflexivity|]; cbn [map part]; destruct (place_of y); reflexivity).
  - destruct (mfind k m); [reflexivity|]. destruct a as [|y a]; [reflexivity|]; cbn [map part]; destruct (place_of y); reflexivity.
  - destruct (nth_error v (Z.to_nat i)); [reflexivity|]. destruct a as [|y a]; [reflexivity|]; cbn [map part]; destruct (place_of y); reflexivity.
Qed.
Lemma available_cons x a g : available (x :: a) g <-> there x g /\ available a (get (place_of x) g).
Proof. reflexivity. Qed.

(** A statement on a part leaves the chain of another one available and its part as it is. *)
Lemma beside_step o a b : beside a b -> Forall usable a -> Forall usable b -> forall g, available a g -> available b g ->
  let g' := snd (perform (nest a o) g) in available b g' /\ part_or_empty (places b) g' = part_or_empty (places b) g.
Proof.
  assert (DIFF : forall x y a b, usable x -> usable y -> differ (place_of x) (place_of y) -> forall g, available (x :: a) g -> available (y :: b) g ->
    let g' := snd (perform (nest (x :: a) o) g) in available (y :: b) g' /\ part_or_empty (places (y :: b)) g' = part_or_empty (places (y :: b)) g).
  { intros x y a1 b1 Ux Uy D g Ha Hb. cbn zeta. apply available_cons in Ha as [Ta Ha], Hb as [Tb Hb].
    cbn [nest fold_right]. rewrite (one_step x _ g Ux Ta). cbn [snd]. rewrite !poe_cons.
    rewrite get_put_other by (auto using usable_fine). split; [|reflexivity]. apply available_cons.
    rewrite get_put_other by (auto using usable_fine). split; [|exact Hb]. apply there_put; auto using usable_fine. }
  induction 1 as [x y a b k k' Px Py N | x y a b i j Px Py N | x y a b P _ IH]; intros Ua Ub; inversion Ua as [|? ? Ux Ua']; inversion Ub as [|? ? Uy Ub']; subst.
  - apply DIFF; auto. rewrite Px, Py. exact N.
  - apply DIFF; auto. rewrite Px, Py. exact N.
  - intros g Ha Hb. cbn zeta. apply available_cons in Ha as [Ta Ha], Hb as [Tb Hb].
    cbn [nest fold_right]. change (fold_right apply o a) with (nest a o). rewrite (one_step x _ g Ux Ta). cbn [snd]. rewrite !poe_cons, <- P.
    rewrite get_put by now apply usable_fine. rewrite <- P in Hb. destruct (IH Ua' Ub' (get (place_of x) g) Ha Hb) as [I1 I2]. split; [|exact I2].
    apply available_cons. split; [rewrite P; now apply there_same|]. rewrite <- P, get_put by now apply usable_fine. exact I1.
Qed.
(** Another chain to the same part is available afterwards. *)
Lemma same_step o a : Forall usable a -> forall b g, Forall usable b -> places a = places b -> available a g ->
  available b (snd (perform (nest a o) g)).
Proof.
  induction 1 as [|x a Ux _ IH]; intros b g Ub P Ha; destruct b as [|y b]; try discriminate P; [exact I|].
  injection P as P0 P. inversion Ub as [|? ? Uy Ub']; subst. apply available_cons in Ha as [Ta Ha].
  cbn [nest fold_right]. change (fold_right apply o a) with (nest a o). rewrite (one_step x _ g Ux Ta). cbn [snd].
  apply available_cons. split; [rewrite P0; now apply there_same|]. rewrite <- P0, get_put by now apply usable_fine. now apply IH.
Qed.

(** A part that is there stays there. *)
Lemma part_put p e q qs g : fine p -> fine q -> differ p q -> part (q :: qs) g <> None -> part (q :: qs) (put p e g) = part (q :: qs) g.
Proof.
  intros F F' D H. destruct p as [k|i], q as [k'|j]; try contradiction; destruct g; try (exfalso; apply H; reflexivity); cbn [put old_map old_vec part differ fine] in *.
  - now rewrite mfind_mset_other by congruence.
  - rewrite lset_nth_other by lia. rewrite check_resize_nth by exact F. destruct (nth_error v (Z.to_nat j)) eqn:E; [|congruence].
    assert (Z.to_nat j < length v)%nat as L by (apply nth_error_Some; congruence). apply Nat.ltb_lt in L. now rewrite L.
Qed.
Lemma part_get q qs g : part (q :: qs) g <> None -> part (q :: qs) g = part qs (get q g).
Proof.
  unfold get, part_or_empty. destruct q as [k|i], g; intros H; try (exfalso; apply H; reflexivity); cbn [part] in *.
  - destruct (mfind k m); [reflexivity|congruence].
  - destruct (nth_error v (Z.to_nat i)); [reflexivity|congruence].
Qed.
Lemma part_put_same q qs e g : fine q -> part (q :: qs) (put q e g) = part qs e.
Proof.
  intros F. destruct q as [k|i]; cbn [put part fine] in *.
  - now rewrite mfind_mset_same.
  - rewrite lset_nth_same; [reflexivity|]. rewrite grow_len by exact F. lia.
Qed.
Lemma beside_part o a b : beside a b -> Forall usable a -> Forall usable b -> forall g, available a g ->
  part (places b) g <> None -> part (places b) (snd (perform (nest a o) g)) <> None.
Proof.
  induction 1 as [x y a b k k' Px Py N | x y a b i j Px Py N | x y a b P _ IH]; intros Ua Ub; inversion Ua as [|? ? Ux Ua']; inversion Ub as [|? ? Uy Ub']; subst;
    intros g Ha H; apply available_cons in Ha as [Ta Ha]; cbn [nest fold_right]; change (fold_right apply o a) with (nest a o);
    rewrite (one_step x _ g Ux Ta); cbn [snd]; unfold places in *; cbn [map] in *; apply usable_fine in Ux as Fx; apply usable_fine in Uy as Fy.
  - rewrite part_put; auto. rewrite Px, Py. exact N.
  - rewrite part_put; auto. rewrite Px, Py. exact N.
  - rewrite <- P in *. rewrite part_put_same by assumption. apply IH; auto. now rewrite <- part_get.
Qed.

Lemma same_spec a b : reflect (places a = places b) (same_part a b).
Proof. unfold same_part. destruct (list_eq_dec place_dec (places a) (places b)); now constructor. Qed.
Lemma run_snd a o prog g : snd (run ((a, o) :: prog) g) = snd (run prog (snd (perform (nest a o) g))).
Proof. cbn [run]. destruct (perform (nest a o) g) as [r g1]. cbn [snd]. destruct (run prog g1). reflexivity. Qed.
Lemma run_fst a o prog g : fst (run ((a, o) :: prog) g) = fst (perform (nest a o) g) :: fst (run prog (snd (perform (nest a o) g))).
Proof. cbn [run]. destruct (perform (nest a o) g) as [r g1]. cbn [fst snd]. destruct (run prog g1). reflexivity. Qed.
Definition ready (all : list stmt) (g : gc) : Prop := forall s, In s all -> Forall usable (fst s) /\ available (fst s) g.
Lemma ready_step all t g : separate all -> In t all -> ready all g -> ready all (snd (perform (nest (fst t) (snd t)) g)).
Proof.
  intros Sep Ht Hg u Hu. destruct (Hg t Ht) as [Ut At], (Hg u Hu) as [Uu Au]. split; [exact Uu|]. destruct (Sep t u Ht Hu) as [E|B].
  - now apply same_step.
  - now apply beside_step.
Qed.
Lemma stays all s : separate all -> In s all -> forall prog g, incl prog all -> ready all g ->
  part (places (fst s)) g <> None -> part (places (fst s)) (snd (run prog g)) <> None.
Proof.
  intros Sep Hs. induction prog as [|[a o] prog IH]; intros g Sub Hg P; [exact P|]. rewrite run_snd.
  pose proof (Sub _ (or_introl eq_refl)) as Ht. destruct (Hg _ Ht) as [Ut At]. apply IH.
  - intros u Hu. apply Sub. now right.
  - exact (ready_step all (a, o) g Sep Ht Hg).
  - destruct (Sep _ s Ht Hs) as [E|B]; cbn [fst] in *.
    + rewrite <- E. destruct (C104_part o a Ut g At) as [_ Q]. unfold places. rewrite Q. discriminate.
    + apply (beside_part o a (fst s)); auto. now apply Hg.
Qed.
Lemma projection all : separate all -> forall prog g, incl prog all -> ready all g -> forall s, In s all ->
  let here := run_here (on (fst s) prog) (part_or_empty (places (fst s)) g) in
  results (fst s) prog (fst (run prog g)) = fst here /\
  part_or_empty (places (fst s)) (snd (run prog g)) = snd here /\
  (In (places (fst s)) (map (fun t => places (fst t)) prog) -> part (places (fst s)) (snd (run prog g)) <> None).
Proof.
  intros Sep. induction prog as [|[a o] prog IH]; intros g Sub Hg s Hs; cbn zeta; [repeat split; intros []|].
  pose proof (Sub _ (or_introl eq_refl)) as Ht. destruct (Hg _ Ht) as [Ut At]. cbn [fst] in Ut, At.
  assert (incl prog all) as Sub' by (intros u Hu; apply Sub; now right).
  pose proof (ready_step all (a, o) g Sep Ht Hg) as Hg'. cbn [fst snd] in Hg'.
  destruct (IH _ Sub' Hg' s Hs) as (I0 & I1 & I2). rewrite run_snd, run_fst. cbn [results]. unfold on. cbn [filter fst].
  destruct (C104_part o a Ut g At) as [P0 P1]. fold (places a) in P0, P1.
  repeat split.
  1,2: destruct (same_spec (fst s) a) as [E|N].
  - cbn [map]. unfold run_here. cbn [map]. rewrite run_fst. cbn [nest fold_right].
    rewrite <- E in P0, P1. rewrite I0, P0. f_equal. unfold part_or_empty at 1. rewrite P1. reflexivity.
  - rewrite I0. destruct (Sep _ s Ht Hs) as [E|B]; [now contradiction N|]. cbn [fst] in B. destruct (Hg s Hs) as [Us As].
    destruct (beside_step o a (fst s) B Ut Us g At As) as [_ ->]. reflexivity.
  - cbn [map]. unfold run_here. cbn [map]. rewrite run_snd. cbn [nest fold_right]. rewrite I1.
    rewrite <- E in P1. unfold part_or_empty at 1. rewrite P1. reflexivity.
  - rewrite I1. destruct (Sep _ s Ht Hs) as [E|B]; [now contradiction N|]. cbn [fst] in B. destruct (Hg s Hs) as [Us As].
    destruct (beside_step o a (fst s) B Ut Us g At As) as [_ ->]. reflexivity.
  - intros [E|E]; [|now apply I2]. cbn [fst] in E. apply (stays all s Sep Hs prog _ Sub' Hg'). rewrite <- E, P1. discriminate.
Qed.

(** * C108: each part gets what the statements on it alone make of it *)
Theorem C108_projection : forall prog g, separate prog ->
  (forall s, In s prog -> Forall usable (fst s) /\ available (fst s) g) ->
  forall s, In s prog ->
  let here := run_here (on (fst s) prog) (part_or_empty (places (fst s)) g) in
  results (fst s) prog (fst (run prog g)) = fst here /\
  part (places (fst s)) (snd (run prog g)) = Some (snd here).
Proof.
  intros prog g Sep Hg s Hs. destruct (projection prog Sep prog g (incl_refl _) Hg s Hs) as (R & E & P). cbn zeta. split; [exact R|].
  rewrite <- E. unfold part_or_empty. destruct (part (places (fst s)) (snd (run prog g))); [reflexivity|].
  exfalso. apply P; [|reflexivity]. exact (in_map (fun t => places (fst t)) prog s Hs).
Qed.
Print Assumptions C108_projection.

Lemma stores_perform o v g : stores o v -> perform o g = (Ok tt, v).
Proof.
  destruct (C05_matrix_sets_forget g) as (M1 & M2 & M3 & M4), (C05_nonempty_vector_sets_forget_partial g) as (V1 & V2 & V3 & V4).
  destruct o; cbn [stores]; try contradiction; try (intros ->; reflexivity); intros H; cbn [perform].
  - destruct H as (F & N & ->). now rewrite (proj2 (proj2 (proj2 (V1 v0 F N)))).
  - destruct H as (F & N & ->). now rewrite V2.
  - destruct H as (F & N & ->). now rewrite (proj1 (V1 v0 F N)).
  - destruct H as (F & N & ->). now rewrite (proj1 (proj2 (V1 v0 F N))).
  - destruct H as (F & N & ->). now rewrite (proj1 (proj2 (proj2 (V1 v0 F N)))).
  - destruct H as (F & N & ->). now rewrite V3.
  - destruct H as (F & N & ->). now rewrite V4.
  - destruct H as (W & ->). now rewrite M1.
  - destruct H as (W & ->). now rewrite M2.
  - destruct H as (W & ->). now rewrite M3.
  - destruct H as (W & ->). now rewrite M4.
Qed.
Lemma run_here_last ops o v g : stores o v -> snd (run_here (ops ++ [o]) g) = v.
Proof.
  intros S. revert g. unfold run_here. induction ops as [|p ops IH]; intros g; cbn [app map]; rewrite run_snd.
  - cbn [nest fold_right map run snd]. now rewrite (stores_perform o v g S).
  - apply IH.
Qed.
(** The value of the last setter on a part is what is found there in the end, whatever
    happens before it and on other parts. *)
Theorem C108_last_value : forall before a o v after g, let prog := before ++ (a, o) :: after in separate prog ->
  (forall s, In s prog -> Forall usable (fst s) /\ available (fst s) g) ->
  stores o v -> (forall s, In s after -> places (fst s) <> places a) ->
  part (places a) (snd (run prog g)) = Some v.
Proof.
  intros before a o v after g prog Sep Hg St Last.
  assert (In (a, o) prog) as Hs by (apply in_or_app; right; now left).
  destruct (C108_projection prog g Sep Hg _ Hs) as [_ P]. cbn [fst] in P. rewrite P. f_equal.
  assert (on a prog = on a before ++ [o]) as ->; [|now apply run_here_last].
  unfold on, prog. rewrite filter_app, map_app. f_equal. cbn [filter fst]. unfold same_part at 1. destruct (list_eq_dec place_dec (places a) (places a)); [|congruence].
  cbn [map snd]. f_equal. clear -Last. induction after as [|s after IH]; [reflexivity|]. cbn [filter]. unfold same_part at 1.
  destruct (list_eq_dec place_dec (places a) (places (fst s))) as [E|_]; [exfalso; apply (Last s (or_introl eq_refl)); congruence|].
  apply IH. intros u Hu. apply Last. now right.
Qed.
Print Assumptions C108_last_value.

(** Statements on three parts, one of which throws. *)
Definition prog_ex : list stmt :=
  [ ([Brk "size"; BrkI 1], SetInt 4); ([Brk "name"], SetStr "a"); ([MAt "size"; BrkI 0], PushInt 3);
    ([Brk "name"], PushReal 0); ([Brk "size"; ParI 1], SetBool true); ([Brk "size"; BrkI 0], PushInt 5) ]%string.
Definition gc_ex : gc := GMap [("size", GVec [GInt 1; GInt 2])]%string.
Example C108_example : separate prog_ex /\ (forall s, In s prog_ex -> Forall usable (fst s) /\ available (fst s) gc_ex) /\
  run prog_ex gc_ex = ([Ok tt; Ok tt; Ok tt; Throw; Ok tt; Ok tt], GMap [("name", GStr "a"); ("size", GVec [GVInt [1; 3; 5]; GBool true])]%string).
Proof.
  split; [|split].
  - intros s t Hs Ht. cbn [prog_ex In] in Hs, Ht.
    repeat (destruct Hs as [<-|Hs]); try contradiction; repeat (destruct Ht as [<-|Ht]); try contradiction; cbn [fst];
      first [ left; reflexivity | right; eapply be_name; [reflexivity|reflexivity|discriminate]
            | right; apply be_deeper; [reflexivity|]; eapply be_pos; [reflexivity|reflexivity|discriminate] ].
  - intros s Hs. cbn [prog_ex In] in Hs. repeat (destruct Hs as [<-|Hs]); try contradiction; cbn [fst]; 
      (split; [repeat apply Forall_cons; try apply Forall_nil; unfold usable, no_nul; try exact I; try lia; cbn; intuition discriminate|]);
      cbn; repeat split; try discriminate; eexists; reflexivity.
  - vm_compute. reflexivity.
Qed.
