(** Lemmas about the non-const getters. *)
From Coq Require Import ZArith Bool Lia Ascii String List.
From Verif Require Import Base F64 StrMap Value MBasic MGet SGet LGet MMap LMap MMat MPromote SPromote LPromote MRef SRef.
Import ListNotations.
Local Open Scope Z_scope.

Lemma znth_map {A B} (f : A -> B) i l : znth i (map f l) = option_map f (znth i l).
Proof.
  unfold znth. destruct (i <? 0); [reflexivity|]. generalize (Z.to_nat i) as n.
  induction l as [|a l IH]; intros [|n]; cbn; auto.
Qed.
Lemma znth_lt {A} i (l : list A) a : znth i l = Some a -> 0 <= i < zlen l.
Proof. intros H. apply znth_some. eauto. Qed.

(** Growing and storing at [i]. *)
Lemma grow_get {A} (d : A) i v j : 0 <= i < 2^32 - 1 ->
  znth j (check_resize d i v) =
  match znth j v with Some a => Some a | None => if (0 <=? j) && (j <=? i) then Some d else None end.
Proof.
  intros Hi. destruct (Z_lt_dec j 0) as [N|N].
  - unfold znth. rewrite (proj2 (Z.ltb_lt _ _)) by assumption. rewrite (proj2 (Z.leb_gt 0 j)) by lia. reflexivity.
  - rewrite !znth_nth by lia. rewrite check_resize_nth by assumption.
    rewrite (proj2 (Z.leb_le 0 j)) by lia. cbn [andb].
    destruct (Nat.ltb_spec (Z.to_nat j) (length v)) as [L|L].
    + destruct (nth_error v (Z.to_nat j)) eqn:E; [reflexivity|]. apply nth_error_None in E. lia.
    + rewrite (proj2 (nth_error_None v _) L).
      destruct (Nat.leb_spec (Z.to_nat j) (Z.to_nat i)), (Z.leb_spec j i); (reflexivity || lia).
Qed.

Lemma lset_get {A} i (x : A) l j : 0 <= i < zlen l ->
  znth j (lset (Z.to_nat i) x l) = if j =? i then Some x else znth j l.
Proof.
  intros Hi. destruct (Z.eqb_spec j i) as [->|N].
  - rewrite znth_nth by lia. apply lset_nth_same. unfold zlen in Hi. lia.
  - unfold znth. destruct (Z.ltb_spec j 0); [reflexivity|]. apply lset_nth_other. lia.
Qed.
Lemma lset_zlen {A} n (x : A) l : zlen (lset n x l) = zlen l.
Proof. unfold zlen. now rewrite lset_length. Qed.

Lemma grow_at {A} (d : A) i v : 0 <= i < 2^32 - 1 -> exists a, znth i (check_resize d i v) = Some a.
Proof.
  intros Hi. rewrite grow_get by assumption. destruct (znth i v); [eauto|].
  rewrite (proj2 (Z.leb_le 0 i)), Z.leb_refl by lia. cbn. eauto.
Qed.

Lemma grow_write {A} (mk : list A -> gc) (d : A) i v x : 0 <= i < 2^32 - 1 ->
  rwrite x (grow_ref mk d i v) = (Ok tt, mk (lset (Z.to_nat i) x (check_resize d i v))).
Proof.
  intros Hi. unfold grow_ref. destruct (grow_at d i v Hi) as [a ->]. reflexivity.
Qed.
Lemma vslot_write {A} (k : A -> gc) (d : A) i g v x : 0 <= i < 2^32 - 1 ->
  (match g with GVec _ => (Ok tt, g) | _ => promote_to_vector g end) = (Ok tt, GVec v) ->
  rwrite x (vslot k d i g) = (Ok tt, GVec (lset (Z.to_nat i) (k x) (check_resize GNone i v))).
Proof.
  intros Hi E. unfold vslot. rewrite E. cbn [after]. destruct (grow_at GNone i v Hi) as [a ->]. reflexivity.
Qed.

(** The elements afterwards. *)
Lemma stored_grow {A} (k : A -> gc) (d : A) i v x old : 0 <= i < 2^32 - 1 ->
  Forall2 same_num old (map k v) ->
  stored_at i (k x) (k d) old (map k (lset (Z.to_nat i) x (check_resize d i v))).
Proof.
  intros Hi F. destruct (check_resize_grow d i v Hi) as [_ L].
  assert (Ll : zlen old = zlen v).
  { assert (G : length old = length (map k v)) by (clear - F; induction F; cbn; congruence).
    rewrite map_length in G. unfold zlen. lia. }
  assert (R : 0 <= i < zlen (check_resize d i v)) by (pose proof (zlen_nonneg v); lia).
  split; [|split].
  - rewrite zlen_map, lset_zlen, L, Ll. reflexivity.
  - rewrite znth_map, lset_get by assumption. rewrite Z.eqb_refl. reflexivity.
  - intros j N. rewrite znth_map, lset_get by assumption. rewrite (proj2 (Z.eqb_neq j i)) by assumption.
    rewrite grow_get by assumption.
    destruct (znth j old) as [o|] eqn:E.
    + assert (exists a, znth j v = Some a /\ same_num o (k a)) as (a & -> & S).
      { clear - F E. unfold znth in *. destruct (j <? 0); [discriminate|]. revert E. generalize (Z.to_nat j) as n.
        revert old F. induction v as [|b v IH]; intros old F n E; inversion F; subst; destruct n; cbn in *; try discriminate.
        - inversion E; subst. eauto.
        - eauto. }
      exists (k a). split; [reflexivity|assumption].
    + intros Hj. assert (znth j v = None) as ->.
      { apply znth_none in E. apply znth_none. lia. }
      rewrite (proj2 (Z.leb_le 0 j)), (proj2 (Z.leb_le j i)) by lia. reflexivity.
Qed.
Lemma stored_slot i v (x : gc) : 0 <= i < 2^32 - 1 ->
  stored_at i x GNone v (lset (Z.to_nat i) x (check_resize GNone i v)).
Proof.
  intros Hi. pose proof (stored_grow (fun e => e) GNone i v x v Hi) as H. rewrite !map_id in H.
  apply H, same_nums_refl.
Qed.

(** In range nothing grows. *)
Lemma grow_in {A} (d : A) i v : i < zlen v -> check_resize d i v = v.
Proof. intros H. unfold check_resize. destruct (Z.leb_spec (zlen v) i); [lia|reflexivity]. Qed.
Lemma lset_id {A} i (a : A) v : znth i v = Some a -> lset (Z.to_nat i) a v = v.
Proof. intros H. pose proof (znth_lt _ _ _ H). rewrite znth_nth in H by lia. now apply lset_same. Qed.
Lemma grow_read {A} (mk : list A -> gc) (d : A) i v a : znth i v = Some a ->
  rread (grow_ref mk d i v) = (Ok a, mk v).
Proof.
  intros H. pose proof (znth_lt _ _ _ H). unfold grow_ref. rewrite grow_in by lia. rewrite H. cbn [rread].
  now rewrite lset_id.
Qed.
Lemma znth_same old new j o : Forall2 same_num old new -> znth j old = Some o ->
  exists e, znth j new = Some e /\ same_num o e.
Proof.
  intros F E. unfold znth in *. destruct (j <? 0); [discriminate|]. revert E. generalize (Z.to_nat j) as n.
  induction F as [|a b old new S F IH]; intros n E; destruct n; cbn in *; try discriminate.
  - inversion E; subst. eauto.
  - eauto.
Qed.
