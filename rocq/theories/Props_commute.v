(** Statements on different parts of a container can be made in any order. *)
From Coq Require Import ZArith Bool Lia Ascii String List.
From Verif Require Import Base F64 StrMap Value MBasic MMap MPromote MRef MCopy MOps SLocal.
From Verif Require Import LMap WfDec.
Import ListNotations.
Local Open Scope Z_scope.

(** * One step *)
Definition get (p : place) (g : gc) : gc := part_or_empty [p] g.
Definition put (p : place) (e : gc) (g : gc) : gc :=
  match p with
  | Name k => GMap (mset k e (old_map g))
  | Pos i => GVec (lset (Z.to_nat i) e (check_resize GNone i (old_vec g)))
  end.
Definition there (x : access) (g : gc) : Prop :=
  match x with
  | Par _ | ParI _ => part [place_of x] g <> None
  | MAt _ => exists m, g = GMap m
  | _ => True
  end.
Lemma get_name k g : get (Name k) g = match mfind k (old_map g) with Some e => e | None => GNone end.
Proof. unfold get, part_or_empty. destruct g; cbn; try reflexivity. destruct (mfind k m); reflexivity. Qed.
Lemma get_pos i g : get (Pos i) g = nth (Z.to_nat i) (old_vec g) GNone.
Proof.
  unfold get, part_or_empty. destruct g; cbn [part old_vec]; try (destruct (Z.to_nat i); reflexivity).
  destruct (nth_error v (Z.to_nat i)) as [e|] eqn:E; symmetry; [now apply nth_error_nth | apply nth_overflow, nth_error_None, E].
Qed.
Lemma slot_nth i v : slot i v = nth (Z.to_nat i) v GNone.
Proof. unfold slot. destruct (nth_error v (Z.to_nat i)) as [e|] eqn:E; symmetry; [now apply nth_error_nth | apply nth_overflow, nth_error_None, E]. Qed.
Lemma one_step x o g : usable x -> there x g ->
  perform (apply x o) g = (fst (perform o (get (place_of x) g)), put (place_of x) (snd (perform o (get (place_of x) g))) g).
Proof.
  intros U T. destruct x as [k|i|k|i|k]; cbn [apply place_of perform usable there] in *.
  - unfold with_key. rewrite (cstr_id _ U), get_name. destruct (perform o _); reflexivity.
  - rewrite with_idx_spec by exact U. rewrite slot_nth, get_pos. reflexivity.
  - destruct g; try (exfalso; apply T; reflexivity). unfold call_key_with. rewrite (cstr_id _ U), get_name. cbn [part old_map put] in *.
    destruct (mfind k m) as [e|]; [|congruence]. destruct (perform o e); reflexivity.
  - destruct g; try (exfalso; apply T; reflexivity). unfold call_idx_with. rewrite get_pos. cbn [part old_vec put] in *.
    destruct (nth_error v (Z.to_nat i)) as [e|] eqn:E; [|congruence].
    assert (Z.to_nat i < length v)%nat as L by (apply nth_error_Some; congruence).
    replace (i <? zlen v) with true by (symmetry; apply Z.ltb_lt; unfold zlen; lia). rewrite znth_nth by lia. rewrite E.
    rewrite (nth_error_nth v _ GNone E). unfold check_resize. replace (zlen v <=? i) with false by (symmetry; apply Z.leb_gt; unfold zlen; lia).
    destruct (perform o e); reflexivity.
  - destruct T as [m ->]. rewrite get_name. cbn [old_map put]. destruct (perform o _); reflexivity.
Qed.

(** * Getting and putting *)
Definition fine (p : place) : Prop := match p with Name _ => True | Pos i => 0 <= i < 2^32 - 1 end.
Lemma usable_fine x : usable x -> fine (place_of x).
Proof. destruct x; cbn; auto. Qed.
Lemma grow_nth i (v : list gc) n : 0 <= i < 2^32 - 1 -> nth n (check_resize GNone i v) GNone = nth n v GNone.
Proof.
  intros H. destruct (check_resize_grow GNone i v H) as [-> _]. destruct (Nat.lt_ge_cases n (length v)).
  - now apply app_nth1.
  - rewrite app_nth2 by assumption. rewrite (nth_overflow v) by assumption. apply nth_repeat.
Qed.
Lemma grow_len i (v : list gc) : 0 <= i < 2^32 - 1 -> length (check_resize GNone i v) = Nat.max (length v) (S (Z.to_nat i)).
Proof. intros H. destruct (check_resize_grow GNone i v H) as [_ L]. unfold zlen in L. lia. Qed.
Lemma nth_lset n m (x : gc) l : nth n (lset m x l) GNone = if (n =? m)%nat && (m <? length l)%nat then x else nth n l GNone.
Proof.
  destruct (Nat.eqb_spec n m) as [->|N]; cbn [andb].
  - destruct (Nat.ltb_spec m (length l)) as [L|L].
    + apply nth_error_nth. now apply lset_nth_same.
    + rewrite !nth_overflow; auto. now rewrite lset_length.
  - destruct (nth_error l n) as [y|] eqn:E.
    + rewrite (nth_error_nth l n GNone E). apply nth_error_nth. now rewrite lset_nth_other by congruence.
    + apply nth_error_None in E. rewrite !nth_overflow; auto. now rewrite lset_length.
Qed.
Lemma list_same (v w : list gc) : length v = length w -> (forall n, nth n v GNone = nth n w GNone) -> v = w.
Proof. intros L H. apply (nth_ext v w GNone GNone L). intros n _. apply H. Qed.
Lemma get_put p e g : fine p -> get p (put p e g) = e.
Proof.
  intros F. destruct p as [k|i]; cbn [put fine] in *.
  - rewrite get_name. cbn [old_map]. now rewrite mfind_mset_same.
  - rewrite get_pos. cbn [old_vec]. rewrite nth_lset, Nat.eqb_refl, grow_len by exact F. cbn [andb].
    destruct (Nat.ltb_spec (Z.to_nat i) (Nat.max (length (old_vec g)) (S (Z.to_nat i)))); [reflexivity | lia].
Qed.
Lemma put_put p e e' g : fine p -> put p e (put p e' g) = put p e g.
Proof.
  intros F. destruct p as [k|i]; cbn [put fine] in *; cbn [old_map old_vec]; f_equal.
  - assert (forall V x y (m : list (string * V)), mset k x (mset k y m) = mset k x m) as M; [|apply M].
    clear. intros V x y m. induction m as [|[k' v] m IH]; cbn.
    + now rewrite compare_refl.
    + destruct (String.compare k k') eqn:E; cbn; [now rewrite compare_refl | now rewrite compare_refl | rewrite E; now rewrite IH].
  - assert (zlen (lset (Z.to_nat i) e' (check_resize GNone i (old_vec g))) = zlen (check_resize GNone i (old_vec g))) as L by (unfold zlen; now rewrite lset_length).
    unfold check_resize at 1. rewrite L. destruct (check_resize_grow GNone i (old_vec g) F) as [_ Z].
    replace (zlen (check_resize GNone i (old_vec g)) <=? i) with false by (symmetry; apply Z.leb_gt; lia).
    apply list_same; [now rewrite !lset_length|]. intros n. rewrite !nth_lset, lset_length. destruct (n =? Z.to_nat i)%nat; cbn [andb]; [|reflexivity].
    destruct (_ <? _)%nat; reflexivity.
Qed.
Definition differ (p q : place) : Prop :=
  match p, q with Name k, Name k' => k <> k' | Pos i, Pos j => i <> j | _, _ => False end.
Lemma get_put_other p q e g : fine p -> fine q -> differ p q -> get q (put p e g) = get q g.
Proof.
  intros F F' D. destruct p as [k|i], q as [k'|j]; try contradiction; cbn [put fine differ] in *.
  - rewrite !get_name. cbn [old_map]. now rewrite mfind_mset_other by congruence.
  - rewrite !get_pos. cbn [old_vec]. rewrite nth_lset. destruct (Nat.eqb_spec (Z.to_nat j) (Z.to_nat i)); [lia|]. cbn [andb]. now apply grow_nth.
Qed.
Lemma put_comm p q e f g : wf g -> fine p -> fine q -> differ p q -> put q f (put p e g) = put p e (put q f g).
Proof.
  intros W F F' D. destruct p as [k|i], q as [k'|j]; try contradiction; cbn [put fine differ] in *; cbn [old_map old_vec]; f_equal.
  - assert (msorted (old_map g)) as S by (destruct g; try constructor; now apply wf_map in W).
    apply StrMap.map_ext; try (now repeat apply mset_sorted). intros x.
    destruct (string_dec x k) as [E1|N1]; [|destruct (string_dec x k') as [E2|N2]].
    + subst x. rewrite mfind_mset_other, !mfind_mset_same by congruence. reflexivity.
    + subst x. rewrite mfind_mset_same, mfind_mset_other, mfind_mset_same by congruence. reflexivity.
    + rewrite !mfind_mset_other by congruence. reflexivity.
  - apply list_same.
    + rewrite !lset_length, !grow_len by assumption. rewrite !lset_length, !grow_len by assumption. lia.
    + intros n. rewrite !nth_lset. rewrite !grow_len by assumption. rewrite !lset_length, !grow_len by assumption.
      rewrite !grow_nth by assumption. rewrite !nth_lset. rewrite !grow_nth by assumption. rewrite !grow_len by assumption.
      destruct (Nat.eqb_spec n (Z.to_nat i)), (Nat.eqb_spec n (Z.to_nat j)); cbn [andb]; try lia; try reflexivity;
      repeat match goal with |- context [(?a <? ?b)%nat] => destruct (Nat.ltb_spec a b); try lia end; reflexivity.
Qed.
Lemma there_put x p e g : usable x -> fine p -> differ p (place_of x) -> there x g -> there x (put p e g).
Proof.
  intros U F D T. destruct x as [k|i|k|i|k]; cbn [there place_of] in *; try exact I.
  - destruct p as [k'|]; [|contradiction]. destruct g; try (exfalso; apply T; reflexivity). cbn [put old_map part] in *.
    rewrite mfind_mset_other by congruence. exact T.
  - destruct p as [|j]; [contradiction|]. destruct g; try (exfalso; apply T; reflexivity). cbn [put old_vec part differ fine usable] in *.
    rewrite lset_nth_other by lia. rewrite check_resize_nth by exact F. destruct (nth_error v (Z.to_nat i)) eqn:E; [|congruence].
    assert (Z.to_nat i < length v)%nat as L by (apply nth_error_Some; congruence). apply Nat.ltb_lt in L. now rewrite L.
  - destruct p as [k'|]; [|contradiction]. eexists. reflexivity.
Qed.
Lemma there_same x e g : usable x -> there x (put (place_of x) e g).
Proof.
  intros U. destruct x as [k|i|k|i|k]; cbn [there place_of]; try exact I; cbn [put part].
  - rewrite mfind_mset_same. discriminate.
  - rewrite lset_nth_same; [discriminate|]. rewrite grow_len by exact U. lia.
  - eexists. reflexivity.
Qed.
Lemma wf_get p g : wf g -> wf (get p g).
Proof.
  intros W. destruct p as [k|i].
  - rewrite get_name. destruct (mfind k (old_map g)) as [e|] eqn:E; [|exact I]. destruct g; try discriminate E. apply wf_map in W as [_ W].
    rewrite Forall_forall in W. apply mfind_in in E. exact (W _ E).
  - rewrite get_pos. destruct (nth_in_or_default (Z.to_nat i) (old_vec g) GNone) as [H| ->]; [|exact I].
    destruct g; try contradiction. apply wf_vec in W. rewrite Forall_forall in W. auto.
Qed.

(** The second chain is still available after the first statement, has the same outcome as
    without it, and both orders give the same container. *)
Theorem C106_order o1 o2 a b : beside a b -> Forall usable a -> Forall usable b ->
  forall g, wf g -> available a g -> available b g ->
  let A := perform (nest a o1) in let B := perform (nest b o2) in
  available b (snd (A g)) /\ fst (B (snd (A g))) = fst (B g) /\ fst (A (snd (B g))) = fst (A g) /\
  snd (B (snd (A g))) = snd (A (snd (B g))).
Proof.
  assert (forall a x g, available (x :: a) g <-> there x g /\ available a (get (place_of x) g)) as AV by (intros; reflexivity).
  assert (forall x y a b, usable x -> usable y -> differ (place_of x) (place_of y) -> forall g, wf g -> available (x :: a) g -> available (y :: b) g ->
    let A := perform (nest (x :: a) o1) in let B := perform (nest (y :: b) o2) in
    available (y :: b) (snd (A g)) /\ fst (B (snd (A g))) = fst (B g) /\ fst (A (snd (B g))) = fst (A g) /\ snd (B (snd (A g))) = snd (A (snd (B g)))) as DIFF.
  { intros x y a1 b1 Ux Uy D g W Ha Hb. cbn zeta. apply AV in Ha as [Ta Ha], Hb as [Tb Hb].
    pose proof (usable_fine x Ux) as Fx. pose proof (usable_fine y Uy) as Fy.
    assert (differ (place_of y) (place_of x)) as D' by (destruct (place_of x), (place_of y); cbn in *; congruence).
    cbn [nest fold_right]. rewrite (one_step x _ g Ux Ta), (one_step y _ g Uy Tb). cbn [fst snd].
    set (e := snd (perform _ (get (place_of x) g))). set (f := snd (perform _ (get (place_of y) g))).
    rewrite (one_step y _ (put (place_of x) e g) Uy (there_put y _ e g Uy Fx D Tb)).
    rewrite (one_step x _ (put (place_of y) f g) Ux (there_put x _ f g Ux Fy D' Ta)).
    rewrite (get_put_other (place_of x) (place_of y)), (get_put_other (place_of y) (place_of x)) by assumption. cbn [fst snd].
    split; [apply AV; split; [now apply there_put|]; rewrite get_put_other by assumption; exact Hb|]. split; [reflexivity|]. split; [reflexivity|].
    now apply put_comm. }
  induction 1 as [x y a b k k' Px Py N | x y a b i j Px Py N | x y a b P _ IH]; intros Ua Ub; inversion Ua as [|? ? Ux Ua']; inversion Ub as [|? ? Uy Ub']; subst.
  - apply DIFF; auto. rewrite Px, Py. exact N.
  - apply DIFF; auto. rewrite Px, Py. exact N.
  - intros g W Ha Hb. cbn zeta. apply AV in Ha as [Ta Ha], Hb as [Tb Hb].
    pose proof (usable_fine x Ux) as Fx. pose proof (usable_fine y Uy) as Fy.
    cbn [nest fold_right]. change (fold_right apply o1 a) with (nest a o1). change (fold_right apply o2 b) with (nest b o2).
    rewrite (one_step x _ g Ux Ta), (one_step y _ g Uy Tb). cbn [fst snd]. rewrite <- P in *.
    specialize (IH Ua' Ub' (get (place_of x) g) (wf_get _ _ W) Ha Hb). cbn zeta in IH. destruct IH as (I1 & I2 & I3 & I4).
    set (e := snd (perform (nest a o1) (get (place_of x) g))) in *. set (f := snd (perform (nest b o2) (get (place_of x) g))) in *.
    assert (there y (put (place_of x) e g)) as Ty by (rewrite P; now apply there_same).
    assert (there x (put (place_of x) f g)) as Tx by (now apply there_same).
    rewrite (one_step y _ _ Uy Ty), (one_step x _ _ Ux Tx). rewrite <- P. rewrite !get_put by exact Fx. cbn [fst snd].
    split; [apply AV; split; [exact Ty|]; rewrite <- P, get_put by exact Fx; exact I1|]. split; [exact I2|]. split; [exact I3|].
    rewrite !put_put by exact Fx. now rewrite I4.
Qed.

(** Without these conditions the order matters: a name and an index on the same container, and
    operator() on what the other statement makes. *)
Theorem C106_conditions :
  snd (perform (Idx 0 (SetInt 1)) (snd (perform (Key "a"%string (SetInt 2)) GNone))) <> snd (perform (Key "a"%string (SetInt 2)) (snd (perform (Idx 0 (SetInt 1)) GNone))) /\
  fst (perform (CallKey "a"%string (Key "q"%string (SetInt 1))) (GMap [])) = Throw /\
  fst (perform (CallKey "a"%string (Key "q"%string (SetInt 1))) (snd (perform (Key "a"%string (Key "p"%string (SetInt 2))) (GMap [])))) = Ok tt.
Proof. split; [|vmc]. vm_compute. discriminate. Qed.
(** Two statements under the same member of a map, both making new parts. *)
Definition ex_1 : list access := [Brk "a"%string; ParI 1; MAt "r"%string; BrkI 2].
Definition ex_2 : list access := [Par "a"%string; BrkI 4; Brk "s"%string].
Definition ex_m : gc := GMap [("a"%string, GVec [GStr "keep"%string; GMap [("p"%string, GVInt [1; 2])]]); ("b"%string, GReal 5)].
Example C106_example :
  beside ex_1 ex_2 /\ Forall usable ex_1 /\ Forall usable ex_2 /\ wf ex_m /\ available ex_1 ex_m /\ available ex_2 ex_m /\
  snd (perform (nest ex_2 (PushStr "x"%string)) (snd (perform (nest ex_1 (SetInt 7)) ex_m))) =
  GMap [("a"%string, GVec [GStr "keep"%string; GMap [("p"%string, GVInt [1; 2]); ("r"%string, GVec [GNone; GNone; GInt 7])]; GNone; GNone;
     GMap [("s"%string, GVec [GNone; GStr "x"%string])]]); ("b"%string, GReal 5)].
Proof.
  split; [apply be_deeper; [reflexivity|]; apply (be_pos _ _ _ _ 1 4); [reflexivity | reflexivity | lia]|].
  split; [repeat constructor; cbn; try lia; intros [H|[]]; discriminate H|]. split; [repeat constructor; cbn; try lia; intros [H|[]]; discriminate H|].
  split; [wfd|]. split; [vm_compute; split; [exact I|]; split; [discriminate|]; split; [eexists; reflexivity|]; auto|].
  split; [vm_compute; split; [discriminate|]; auto|]. vmc.
Qed.
Print Assumptions C106_order.
Print Assumptions C106_conditions.
