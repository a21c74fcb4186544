(** Statements on a part of a container leave the other parts alone. *)
From Coq Require Import ZArith Bool Lia Ascii String List.
From Verif Require Import Base F64 StrMap Value MBasic MMap MPromote MRef MCopy MOps SLocal.
From Verif Require Import LMap WfDec.
Import ListNotations.
Local Open Scope Z_scope.

(** The outcome and the new content of the part are those of the statement on the part (or
    on an empty container if there is no such part yet). *)
Theorem C104_part o a : Forall usable a -> forall g, available a g ->
  fst (perform (nest a o) g) = fst (perform o (part_or_empty (map place_of a) g)) /\
  part (map place_of a) (snd (perform (nest a o) g)) = Some (snd (perform o (part_or_empty (map place_of a) g))).
Proof.
  induction 1 as [|x a Hx _ IH]; intros g Hav; [split; reflexivity|].
  assert (part_or_empty (map place_of (x :: a)) g = part_or_empty (map place_of a) (part_or_empty [place_of x] g)) as PE.
  { unfold part_or_empty. cbn [map part]. destruct (place_of x) as [k|i]; destruct g; try (destruct a as [|y a]; [reflexivity|]; cbn [map part]; destruct (place_of y); reflexivity).
    - destruct (mfind k m); [reflexivity|]. destruct a as [|y a]; [reflexivity|]; cbn [map part]; destruct (place_of y); reflexivity.
    - destruct (nth_error v (Z.to_nat i)); [reflexivity|]. destruct a as [|y a]; [reflexivity|]; cbn [map part]; destruct (place_of y); reflexivity. }
  rewrite PE. destruct Hav as [H1 H2]. specialize (IH _ H2). destruct IH as [I1 I2].
  set (e := part_or_empty [place_of x] g) in *. cbn [nest fold_right]. change (fold_right apply o a) with (nest a o) in *.
  destruct x as [k|i|k|i|k]; cbn [apply place_of map perform] in *.
  - unfold with_key. rewrite (cstr_id _ Hx).
    assert (match mfind k (old_map g) with Some e => e | None => GNone end = e) as -> by (unfold e, part_or_empty; destruct g; cbn; try reflexivity; destruct (mfind k m); reflexivity).
    destruct (perform (nest a o) e) as [r e'] eqn:E. cbn [fst snd part] in *. rewrite mfind_mset_same. auto.
  - rewrite with_idx_spec by exact Hx.
    assert (slot i (old_vec g) = e) as ->.
    { unfold e, part_or_empty, slot. destruct g; cbn; try (destruct (Z.to_nat i); reflexivity). destruct (nth_error v (Z.to_nat i)); reflexivity. }
    cbn [fst snd part]. rewrite slot_lset by exact Hx. auto.
  - destruct g; try (exfalso; apply H1; reflexivity). unfold call_key_with. rewrite (cstr_id _ Hx). unfold e, part_or_empty in *. cbn [part] in *.
    destruct (mfind k m) as [e0|] eqn:E0; [|congruence]. cbn [part] in *. destruct (perform (nest a o) e0) as [r e'] eqn:E. cbn [fst snd part] in *. rewrite mfind_mset_same. auto.
  - destruct g; try (exfalso; apply H1; reflexivity). unfold call_idx_with. unfold e, part_or_empty in *. cbn [part] in *. cbn [usable] in Hx.
    destruct (nth_error v (Z.to_nat i)) as [e0|] eqn:E0; [|congruence]. cbn [part] in *.
    assert (Z.to_nat i < length v)%nat as L by (apply nth_error_Some; congruence).
    replace (i <? zlen v) with true by (symmetry; apply Z.ltb_lt; unfold zlen; lia). rewrite znth_nth by lia. rewrite E0.
    destruct (perform (nest a o) e0) as [r e'] eqn:E. cbn [fst snd part] in *. rewrite lset_nth_same by exact L. auto.
  - destruct H1 as [m ->].
    assert (match mfind k m with Some e => e | None => GNone end = e) as Ee by (unfold e, part_or_empty; cbn [part]; destruct (mfind k m); reflexivity).
    rewrite Ee. destruct (perform (nest a o) e) as [r e'] eqn:E. cbn [fst snd part] in *. rewrite mfind_mset_same. auto.
Qed.

Lemma part_none q e : part q GNone = Some e -> q = [].
Proof. destruct q as [|[k|i] q]; [reflexivity | discriminate | discriminate]. Qed.
Lemma apart_nil p : ~ apart p [].
Proof. intros H. inversion H. Qed.

(** Every other part is as before; parts that are new are empty. *)
Theorem C104_other_partial o a : Forall usable a -> forall g q, suits a g -> apart (map place_of a) q ->
  let g' := snd (perform (nest a o) g) in
  (forall e, part q g = Some e -> part q g' = Some e) /\
  (forall e, part q g' = Some e -> part q g = Some e \/ part q g = None /\ e = GNone).
Proof.
  induction 1 as [|x a Hx _ IH]; intros g q Hs Hq; [inversion Hq|]. cbn zeta.
  destruct Hs as [H1 H2]. cbn [nest fold_right]. change (fold_right apply o a) with (nest a o).
  assert (forall k m, match place_of x with Name k' => k' = k | _ => False end -> GMap m = g \/ g = GNone /\ m = [] ->
    let g' := GMap (mset k (snd (perform (nest a o) (match mfind k m with Some e => e | None => GNone end))) m) in
    (forall e, part q g = Some e -> part q g' = Some e) /\
    (forall e, part q g' = Some e -> part q g = Some e \/ part q g = None /\ e = GNone)) as MAPS.
  { intros k m Hk Hm. cbn zeta.
    assert (part_or_empty [place_of x] g = match mfind k m with Some e => e | None => GNone end) as PE.
    { destruct (place_of x); [subst k0|contradiction]. destruct Hm as [<- | [-> ->]]; unfold part_or_empty; cbn; try destruct (mfind k m); reflexivity. }
    rewrite PE in H2.
    assert (forall q', part (Name k :: q') g = match mfind k m with Some e => part q' e | None => None end) as PQ.
    { intros q'. destruct Hm as [<- | [-> ->]]; reflexivity. }
    assert (forall k' q', part (Name k' :: q') g = match mfind k' m with Some e => part q' e | None => None end) as PQ'.
    { intros k' q'. destruct Hm as [<- | [-> ->]]; reflexivity. }
    cbn [map] in Hq. destruct (place_of x) as [k0|]; [subst k0|contradiction]. inversion Hq as [? k' ? q' N | | ? j ? q' | | ? ? q' D]; subst.
    - rewrite PQ'. cbn [part]. rewrite mfind_mset_other by congruence. split; intros e E; [exact E | left; exact E].
    - assert (part (Pos j :: q') g = None) as PN by (destruct Hm as [<- | [-> _]]; reflexivity). rewrite PN. cbn [part]. split; intros; discriminate.
    - rewrite PQ. cbn [part]. rewrite mfind_mset_same. destruct (IH _ q' H2 D) as [J1 J2]. destruct (mfind k m) as [e0|] eqn:E0.
      + split; assumption.
      + split; [discriminate|]. intros e E. right. split; [reflexivity|]. destruct (J2 e E) as [K | [_ K]]; [|exact K].
        apply part_none in K. subst q'. exfalso. exact (apart_nil _ D). }
  assert (forall i v w, match place_of x with Pos i' => i' = i | _ => False end -> 0 <= i -> GVec v = g \/ g = GNone /\ v = [] ->
    (forall n, nth_error w n = Some (nth n v GNone) \/ nth_error w n = None) -> (length v <= length w)%nat -> (Z.to_nat i < length w)%nat ->
    let g' := GVec (lset (Z.to_nat i) (snd (perform (nest a o) (nth (Z.to_nat i) v GNone))) w) in
    (forall e, part q g = Some e -> part q g' = Some e) /\
    (forall e, part q g' = Some e -> part q g = Some e \/ part q g = None /\ e = GNone)) as VECS.
  { intros i v w Hk Hi Hm Hw Lvw Liw. cbn zeta.
    assert (part_or_empty [place_of x] g = nth (Z.to_nat i) v GNone) as PE.
    { destruct (place_of x); [contradiction|subst i0]. destruct Hm as [<- | [-> ->]]; unfold part_or_empty; cbn [part].
      - destruct (nth_error v (Z.to_nat i)) as [e|] eqn:E; symmetry; [now apply nth_error_nth | apply nth_overflow, nth_error_None, E].
      - destruct (Z.to_nat i); reflexivity. }
    rewrite PE in H2.
    assert (forall j q', part (Pos j :: q') g = match nth_error v (Z.to_nat j) with Some e => part q' e | None => None end) as PQ.
    { intros j q'. destruct Hm as [<- | [-> ->]]; [reflexivity|]. cbn [part]. destruct (Z.to_nat j); reflexivity. }
    cbn [map] in Hq. destruct (place_of x) as [|i0]; [contradiction|subst i0]. inversion Hq as [ | ? j ? q' G1 G2 N | | ? k' ? q' | ? ? q' D]; subst.
    - rewrite PQ. cbn [part]. rewrite lset_nth_other by lia. destruct (nth_error v (Z.to_nat j)) as [ej|] eqn:Ej.
      + assert (nth_error w (Z.to_nat j) = Some ej) as ->.
        { assert (Z.to_nat j < length v)%nat as L by (apply nth_error_Some; congruence). destruct (Hw (Z.to_nat j)) as [E|E].
          - rewrite E. f_equal. now apply nth_error_nth.
          - apply nth_error_None in E. lia. }
        split; intros e E; [exact E | left; exact E].
      + split; [discriminate|]. intros e E. right. split; [reflexivity|]. destruct (Hw (Z.to_nat j)) as [E1|E1]; rewrite E1 in E; [|discriminate].
        apply nth_error_None in Ej. rewrite nth_overflow in E by exact Ej. pose proof (part_none _ _ E) as K. subst q'. cbn [part] in E. congruence.
    - assert (part (Name k' :: q') g = None) as PN by (destruct Hm as [<- | [-> _]]; reflexivity). rewrite PN. cbn [part]. split; intros; discriminate.
    - rewrite PQ. cbn [part]. rewrite lset_nth_same by exact Liw. destruct (IH _ q' H2 D) as [J1 J2].
      destruct (nth_error v (Z.to_nat i)) as [e0|] eqn:E0.
      + rewrite (nth_error_nth v _ GNone E0) in *. split; assumption.
      + split; [discriminate|]. apply nth_error_None in E0. rewrite (nth_overflow v GNone E0) in *.
        intros e E. right. split; [reflexivity|]. destruct (J2 e E) as [K | [_ K]]; [|exact K].
        apply part_none in K. subst q'. exfalso. exact (apart_nil _ D). }
  destruct x as [k|i|k|i|k]; cbn [apply place_of perform usable] in *.
  - unfold with_key. rewrite (cstr_id _ Hx).
    assert (GMap (old_map g) = g \/ g = GNone /\ old_map g = []) as Hm by (destruct g; cbn in H1 |- *; tauto).
    specialize (MAPS k (old_map g) eq_refl Hm). cbn zeta in MAPS. destruct (perform (nest a o) _) as [r e'] eqn:E. exact MAPS.
  - rewrite with_idx_spec by exact Hx. cbn [snd].
    assert (slot i (old_vec g) = nth (Z.to_nat i) (old_vec g) GNone) as ->.
    { unfold slot. destruct (nth_error (old_vec g) (Z.to_nat i)) as [e|] eqn:E; symmetry; [now apply nth_error_nth | apply nth_overflow, nth_error_None, E]. }
    destruct (check_resize_grow GNone i (old_vec g) Hx) as [_ CL]. apply VECS; try reflexivity; try lia.
    + destruct g; cbn in H1 |- *; tauto.
    + intros n. rewrite check_resize_nth by exact Hx. destruct (Nat.ltb_spec n (length (old_vec g))) as [L|L].
      * left. now apply nth_error_nth'.
      * rewrite (nth_overflow _ _ L). destruct (_ <=? _)%nat; auto.
    + unfold zlen in CL. lia.
    + unfold zlen in CL. lia.
  - destruct g; try (cbn; split; intros e E; auto; fail). unfold call_key_with. rewrite (cstr_id _ Hx).
    specialize (MAPS k m eq_refl (or_introl eq_refl)). cbn zeta in MAPS.
    destruct (mfind k m) as [e0|] eqn:E0; [|split; intros e E; auto]. destruct (perform (nest a o) e0) as [r e'] eqn:E. exact MAPS.
  - destruct g; try (cbn; split; intros e E; auto; fail). unfold call_idx_with. destruct (Z.ltb_spec i (zlen v)) as [L|L]; [|split; intros e E; auto].
    rewrite znth_nth by lia. destruct (nth_error v (Z.to_nat i)) as [e0|] eqn:E0; [|split; intros e E; auto].
    specialize (VECS i v v eq_refl (proj1 Hx) (or_introl eq_refl)). rewrite (nth_error_nth v _ GNone E0) in VECS.
    destruct (perform (nest a o) e0) as [r e'] eqn:E. apply VECS; try lia; [|unfold zlen in L; lia].
    intros n. destruct (nth_error v n) as [en|] eqn:En; [left; f_equal; symmetry; now apply nth_error_nth | right; reflexivity].
  - destruct g; try (cbn; split; intros e E; auto; fail).
    specialize (MAPS k m eq_refl (or_introl eq_refl)). cbn zeta in MAPS. destruct (perform (nest a o) _) as [r e'] eqn:E. exact MAPS.
Qed.

(** Brackets on a container of another kind throw its content away. *)
Theorem C104_refuted :
  ~ (forall o a g q e, Forall usable a -> wf g -> apart (map place_of a) q -> part q g = Some e -> part q (snd (perform (nest a o) g)) = Some e) /\
  snd (perform (Key "k"%string (SetInt 1)) (GVec [GInt 7; GInt 8])) = GMap [("k"%string, GInt 1)] /\
  snd (perform (Key "x"%string (Idx 0 (SetInt 1))) (GMap [("x"%string, GMap [("p"%string, GInt 7)]); ("y"%string, GNone)])) =
    GMap [("x"%string, GVec [GInt 1]); ("y"%string, GNone)].
Proof.
  split; [|vmc]. intros H.
  specialize (H (SetInt 1) [Brk "k"%string] (GVec [GInt 7; GInt 8]) [Pos 1] (GInt 8)). assert (usable (Brk "k"%string)) as U by (intros [H1|[]]; discriminate H1).
  assert (wf (GVec [GInt 7; GInt 8])) as W by wfd. specialize (H (Forall_cons _ U (Forall_nil _)) W (ap_name_pos _ _ _ _) eq_refl). discriminate H.
Qed.
(** A statement four steps down in a container with other parts on every level. *)
Definition ex_c : gc :=
  GMap [("a"%string, GVec [GStr "keep"%string; GMap [("p"%string, GVInt [1; 2]); ("q"%string, GBool true)]]); ("b"%string, GReal 5)].
Definition ex_a : list access := [Brk "a"%string; ParI 1; MAt "r"%string; BrkI 2].
Example C104_example :
  Forall usable ex_a /\ suits ex_a ex_c /\ available ex_a ex_c /\
  perform (nest ex_a (PushInt 9)) ex_c = (Ok tt,
    GMap [("a"%string, GVec [GStr "keep"%string; GMap [("p"%string, GVInt [1; 2]); ("q"%string, GBool true); ("r"%string, GVec [GNone; GNone; GVInt [0; 9]])]]);
          ("b"%string, GReal 5)]) /\
  part (map place_of ex_a) (snd (perform (nest ex_a (PushInt 9)) ex_c)) = Some (GVInt [0; 9]) /\
  apart (map place_of ex_a) [Name "a"%string; Pos 1; Name "p"%string] /\ part [Name "a"%string; Pos 1; Name "p"%string] ex_c = Some (GVInt [1; 2]).
Proof.
  split; [repeat constructor; cbn; try lia; intros [H|[]]; discriminate H|]. split; [vm_compute; tauto|].
  split; [vm_compute; split; [exact I|]; split; [discriminate|]; split; [eexists; reflexivity|]; auto|].
  split; [vmc|]. split; [vmc|]. split; [|reflexivity]. cbn. apply ap_deeper, ap_deeper, ap_name. discriminate.
Qed.
Print Assumptions C104_part.
Print Assumptions C104_other_partial.
Print Assumptions C104_refuted.
