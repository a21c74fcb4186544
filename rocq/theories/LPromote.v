(** Lemmas about promotions and copies. *)
From Coq Require Import ZArith Bool Lia Ascii String List.
From Verif Require Import Base F64 StrMap Value MBasic MGet SGet LGet MMat MPromote SPromote.
Import ListNotations.
Local Open Scope Z_scope.

Lemma copy_into_fresh {A} (src : list A) d :
  zlen src < 2^32 -> copy_into src (valloc d (to_u32 (zlen src)) []) = Ok src.
Proof.
  intros H. pose proof (zlen_nonneg src). rewrite to_u32_id by (unfold uint32; lia).
  unfold copy_into, valloc. destruct (Z.ltb_spec 0 (zlen src)) as [L|L].
  - rewrite resize_length. unfold zlen. rewrite Nat2Z.id, Nat.leb_refl.
    rewrite skipn_all2 by (rewrite resize_length; lia). now rewrite app_nil_r.
  - assert (src = []) as -> by (apply zlen_zero; lia). reflexivity.
Qed.

Lemma copy_into_resize {A} (src : list A) d n :
  zlen src = n -> copy_into src (resize d (Z.to_nat n) []) = Ok src.
Proof.
  intros <-. unfold copy_into. rewrite resize_length. unfold zlen. rewrite Nat2Z.id, Nat.leb_refl.
  rewrite skipn_all2 by (rewrite resize_length; lia). now rewrite app_nil_r.
Qed.

Lemma promote_elems_ok {A B} (k : list B -> gc) d (f : A -> B) v : zlen v < 2^32 ->
  promote_elems k d f v = (Ok tt, k (map f v)).
Proof.
  intros H. unfold promote_elems. rewrite <- (zlen_map f v). rewrite copy_into_fresh; [reflexivity|].
  now rewrite zlen_map.
Qed.

Lemma promote_col_ok {A B} (k : mat B -> gc) (f : A -> B) v : zlen v < 2^32 ->
  promote_col k f v = (Ok tt, k (Mat (zlen v) 1 (map f v))).
Proof.
  intros H. pose proof (zlen_nonneg v). unfold promote_col. rewrite to_u32_id by (unfold uint32; lia).
  rewrite Z.leb_refl. unfold zlen at 2. rewrite Nat2Z.id, firstn_all. reflexivity.
Qed.

Lemma promote_mat_ok {A B} (P : A -> Prop) (k : mat B -> gc) d (f : A -> B) m : wf_mat P m ->
  promote_mat k d f m = (Ok tt, k (Mat (mrows m) (mcols m) (map f (mdata m)))).
Proof.
  intros (_ & _ & H & _). unfold promote_mat. rewrite copy_into_resize; [reflexivity|].
  now rewrite zlen_map.
Qed.

Lemma same_num_refl e : same_num e e.
Proof. now left. Qed.
Lemma same_nums_refl l : Forall2 same_num l l.
Proof. induction l; constructor; auto using same_num_refl. Qed.

(** Forall2 between two maps over one list. *)
Lemma F2map {A B C} (R : B -> C -> Prop) (f : A -> B) (g : A -> C) l :
  (forall a, In a l -> R (f a) (g a)) -> Forall2 R (map f l) (map g l).
Proof.
  induction l; intros H; constructor; [apply H; now left|]. apply IHl. intros; apply H; now right.
Qed.
Lemma F2map' {A B C D} (R : B -> C -> Prop) (f : A -> B) (g : D -> C) (h : A -> D) l :
  (forall a, In a l -> R (f a) (g (h a))) -> Forall2 R (map f l) (map g (map h l)).
Proof. rewrite map_map. apply F2map. Qed.

(** Each conversion of the model preserves the number. *)
Lemma sn_b_i b : same_num (GBool b) (GInt (b2z b)).
Proof. right. cbn. split; [now destruct b | now left]. Qed.
Lemma sn_b_l b : same_num (GBool b) (GLong (b2z b)).
Proof. right. cbn. split; [now destruct b | now left]. Qed.
Lemma sn_i_l i : same_num (GInt i) (GLong i).
Proof. right. cbn. split; [reflexivity | now right]. Qed.
Lemma sn_b_r b : same_num (GBool b) (GReal (f_of_bool b)).
Proof. right. apply f_of_bool_is. Qed.
Lemma sn_i_r i : int32 i -> same_num (GInt i) (GReal (f_of_Z i)).
Proof. intros H. right. now apply int32_exact. Qed.
Lemma sn_l_r l : int64 l -> same_num (GLong l) (GReal (f_of_Z l)).
Proof. intros H. right. apply f_of_Z_nearest. now apply int64_abs. Qed.
Lemma sn_b_c b : same_num (GBool b) (GComplex (c_of_bool b)).
Proof. right. cbn. split; [apply f_of_bool_is | reflexivity]. Qed.
Lemma sn_i_c i : int32 i -> same_num (GInt i) (GComplex (c_of_Z i)).
Proof. intros H. right. split; [now apply int32_exact | reflexivity]. Qed.
Lemma sn_l_c l : int64 l -> same_num (GLong l) (GComplex (c_of_Z l)).
Proof. intros H. right. split; [apply f_of_Z_nearest; now apply int64_abs | reflexivity]. Qed.
Lemma sn_r_c r : same_num (GReal r) (GComplex (c_of_real r)).
Proof. right. now split. Qed.

Lemma Forall_In {A} (P : A -> Prop) l : Forall P l -> forall a, In a l -> P a.
Proof. intros H. now apply Forall_forall. Qed.

Ltac sn :=
  first [ apply same_nums_refl
        | apply same_num_refl
        | apply sn_b_i | apply sn_b_l | apply sn_i_l | apply sn_b_r
        | apply sn_i_r; assumption | apply sn_l_r; assumption
        | apply sn_b_c | apply sn_i_c; assumption | apply sn_l_c; assumption | apply sn_r_c
        | apply sn_i_r; eapply Forall_In; eassumption
        | apply sn_l_r; eapply Forall_In; eassumption
        | apply sn_i_c; eapply Forall_In; eassumption
        | apply sn_l_c; eapply Forall_In; eassumption
        | (constructor; [sn|constructor])
        | (apply F2map'; intros ? ?; sn)
        | (rewrite map_id; apply F2map; intros ? ?; sn)
        | (apply F2map; intros ? ?; sn) ].

Lemma sized_map {A} (f : A -> gc) v : zlen (map f v) < 2^32 -> zlen v < 2^32.
Proof. now rewrite zlen_map. Qed.
