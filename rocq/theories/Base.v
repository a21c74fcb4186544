(** Outcomes of C++ operations and fixed-width integer arithmetic. *)
From Coq Require Import ZArith Bool Lia Ascii String List.
Import ListNotations.
Local Open Scope Z_scope.

(** Outcome of a modelled operation.  [Throw] is a C++ exception: GC_ASSERT and
    GC_DO_ERROR (include/GenericContainer/GenericContainer.hh:52-62) throw
    std::runtime_error, std::vector::at and std::map::at throw std::out_of_range; the
    model does not keep the message.  [Undef] is undefined behaviour, [Diverge] an
    infinite loop. *)
Inductive out (A : Type) : Type :=
| Ok (a : A)
| Throw
| Undef
| Diverge.
Arguments Ok {A} _.
Arguments Throw {A}.
Arguments Undef {A}.
Arguments Diverge {A}.

Definition bind {A B} (x : out A) (f : A -> out B) : out B :=
  match x with
  | Ok a => f a
  | Throw => Throw
  | Undef => Undef
  | Diverge => Diverge
  end.
Notation "'do' x <- e ; f" := (bind e (fun x => f))
  (at level 200, x pattern, e at level 100, f at level 200, right associativity).

Definition omap {A B} (f : A -> B) (x : out A) : out B := do a <- x ; Ok (f a).

(** GC_ASSERT (include/GenericContainer/GenericContainer.hh:58-62). *)
Definition gc_assert {A} (c : bool) (x : out A) : out A := if c then x else Throw.

Lemma bind_ok {A B} (x : out A) (f : A -> out B) b :
  bind x f = Ok b -> exists a, x = Ok a /\ f a = Ok b.
Proof. destruct x; simpl; try discriminate. eauto. Qed.

(** Sequential loop over a list; stops at the first non-[Ok] outcome. *)
Fixpoint omapM {A B} (f : A -> out B) (l : list A) : out (list B) :=
  match l with
  | [] => Ok []
  | a :: l' => do b <- f a ; do bs <- omapM f l' ; Ok (b :: bs)
  end.

Lemma omapM_ok_Forall2 {A B} (f : A -> out B) l r :
  omapM f l = Ok r <-> Forall2 (fun a b => f a = Ok b) l r.
Proof.
  split.
  - revert r; induction l as [|a l IH]; simpl; intros r H.
    + inversion H; subst; constructor.
    + apply bind_ok in H as (b & Hb & H).
      apply bind_ok in H as (bs & Hbs & H).
      inversion H; subst; constructor; auto.
  - induction 1 as [|a b l r Hab _ IH]; simpl; [reflexivity|].
    now rewrite Hab; simpl; rewrite IH.
Qed.

Lemma omapM_total {A B} (f : A -> B) l : omapM (fun a => Ok (f a)) l = Ok (map f l).
Proof. induction l as [|a l IH]; simpl; [reflexivity|]. now rewrite IH. Qed.

Lemma omapM_length {A B} (f : A -> out B) l r : omapM f l = Ok r -> length r = length l.
Proof. rewrite omapM_ok_Forall2. intros H; induction H; simpl; auto. Qed.

(** Machine integers are mathematical integers together with range predicates. *)
Definition int32 (z : Z) : Prop := - 2^31 <= z < 2^31.
Definition int64 (z : Z) : Prop := - 2^63 <= z < 2^63.
Definition uint32 (z : Z) : Prop := 0 <= z < 2^32.
Definition uint64 (z : Z) : Prop := 0 <= z < 2^64.

(** Conversions to a fixed-width integer type are modular (implementation defined before
    C++20, modular on all compilers the project supports). *)
Definition to_u32 (z : Z) : Z := z mod 2^32.
Definition to_u64 (z : Z) : Z := z mod 2^64.
Definition to_i32 (z : Z) : Z := (z + 2^31) mod 2^32 - 2^31.
Definition to_i64 (z : Z) : Z := (z + 2^63) mod 2^64 - 2^63.

Lemma to_i32_range z : int32 (to_i32 z).
Proof. unfold int32, to_i32. pose proof (Z.mod_pos_bound (z + 2^31) (2^32) ltac:(lia)). lia. Qed.
Lemma to_i64_range z : int64 (to_i64 z).
Proof. unfold int64, to_i64. pose proof (Z.mod_pos_bound (z + 2^63) (2^64) ltac:(lia)). lia. Qed.
Lemma to_u32_range z : uint32 (to_u32 z).
Proof. unfold uint32, to_u32. apply Z.mod_pos_bound. lia. Qed.
Lemma to_u64_range z : uint64 (to_u64 z).
Proof. unfold uint64, to_u64. apply Z.mod_pos_bound. lia. Qed.
Lemma to_i32_id z : int32 z -> to_i32 z = z.
Proof. unfold int32, to_i32. intros H. rewrite Z.mod_small; lia. Qed.
Lemma to_i64_id z : int64 z -> to_i64 z = z.
Proof. unfold int64, to_i64. intros H. rewrite Z.mod_small; lia. Qed.
Lemma to_u32_id z : uint32 z -> to_u32 z = z.
Proof. unfold uint32, to_u32. apply Z.mod_small. Qed.
Lemma to_u64_id z : uint64 z -> to_u64 z = z.
Proof. unfold uint64, to_u64. apply Z.mod_small. Qed.
Lemma to_i32_eq_iff z : to_i32 z = z <-> int32 z.
Proof. split; [intros <-; apply to_i32_range | apply to_i32_id]. Qed.
Lemma to_i64_eq_iff z : to_i64 z = z <-> int64 z.
Proof. split; [intros <-; apply to_i64_range | apply to_i64_id]. Qed.
Lemma to_u32_eq_iff z : to_u32 z = z <-> uint32 z.
Proof. split; [intros <-; apply to_u32_range | apply to_u32_id]. Qed.
Lemma to_u64_eq_iff z : to_u64 z = z <-> uint64 z.
Proof. split; [intros <-; apply to_u64_range | apply to_u64_id]. Qed.

(** Lists indexed and sized by [Z]. *)
Definition zlen {A} (l : list A) : Z := Z.of_nat (length l).
Definition znth {A} (i : Z) (l : list A) : option A :=
  if i <? 0 then None else nth_error l (Z.to_nat i).

Lemma zlen_nonneg {A} (l : list A) : 0 <= zlen l.
Proof. unfold zlen; lia. Qed.
Lemma zlen_cons {A} (a : A) l : zlen (a :: l) = zlen l + 1.
Proof. unfold zlen; simpl length; lia. Qed.
Lemma zlen_nil {A} : zlen (@nil A) = 0.
Proof. reflexivity. Qed.
Lemma zlen_app {A} (l l' : list A) : zlen (l ++ l') = zlen l + zlen l'.
Proof. unfold zlen; rewrite app_length; lia. Qed.
Lemma zlen_map {A B} (f : A -> B) l : zlen (map f l) = zlen l.
Proof. unfold zlen; now rewrite map_length. Qed.
Lemma zlen_zero {A} (l : list A) : zlen l = 0 <-> l = [].
Proof. destruct l; unfold zlen; simpl; split; intros; try easy; lia. Qed.
Lemma zlen_repeat {A} (a : A) n : zlen (repeat a n) = Z.of_nat n.
Proof. unfold zlen; now rewrite repeat_length. Qed.

Lemma znth_some {A} i (l : list A) : (exists a, znth i l = Some a) <-> 0 <= i < zlen l.
Proof.
  unfold znth, zlen. destruct (i <? 0) eqn:E; [split; [intros [a H]; discriminate | lia]|].
  apply Z.ltb_ge in E. split.
  - intros [a H]. assert (Z.to_nat i < length l)%nat by (apply nth_error_Some; congruence). lia.
  - intros H. destruct (nth_error l (Z.to_nat i)) eqn:F; [eauto|].
    apply nth_error_None in F. lia.
Qed.
Lemma znth_none {A} i (l : list A) : znth i l = None <-> ~ (0 <= i < zlen l).
Proof.
  rewrite <- znth_some. destruct (znth i l); split; intros; try easy.
  - exfalso; eauto.
  - intros [? ?]; discriminate.
Qed.

(** std::vector::resize: truncate, or append copies of [d]. *)
Definition resize {A} (d : A) (n : nat) (l : list A) : list A :=
  firstn n l ++ repeat d (n - length l).

Lemma resize_length {A} (d : A) n l : length (resize d n l) = n.
Proof. unfold resize. rewrite app_length, firstn_length, repeat_length. lia. Qed.
Lemma resize_nth {A} (d : A) n l i :
  nth_error (resize d n l) i =
  if Nat.ltb i n then (if Nat.ltb i (length l) then nth_error l i else Some d) else None.
Proof.
  destruct (Nat.ltb i n) eqn:E.
  - apply Nat.ltb_lt in E. unfold resize.
    destruct (Nat.ltb i (length l)) eqn:F.
    + apply Nat.ltb_lt in F. rewrite nth_error_app1 by (rewrite firstn_length; lia).
      rewrite <- (firstn_skipn n l) at 2.
      rewrite nth_error_app1 by (rewrite firstn_length; lia). reflexivity.
    + apply Nat.ltb_ge in F. rewrite nth_error_app2 by (rewrite firstn_length; lia).
      rewrite firstn_length, nth_error_repeat; [reflexivity|lia].
  - apply Nat.ltb_ge in E. apply nth_error_None. rewrite resize_length. lia.
Qed.
Lemma resize_same {A} (d : A) l : resize d (length l) l = l.
Proof. unfold resize. now rewrite firstn_all, Nat.sub_diag, app_nil_r. Qed.
Lemma resize_grow {A} (d : A) n l :
  (length l <= n)%nat -> resize d n l = l ++ repeat d (n - length l).
Proof. intros H. unfold resize. now rewrite firstn_all2. Qed.

(** Replace the [n]-th element. *)
Fixpoint lset {A} (n : nat) (x : A) (l : list A) : list A :=
  match l, n with
  | [], _ => []
  | _ :: l', O => x :: l'
  | a :: l', S n' => a :: lset n' x l'
  end.

Lemma lset_length {A} n (x : A) l : length (lset n x l) = length l.
Proof. revert n; induction l as [|a l IH]; intros [|n]; simpl; auto. Qed.
Lemma lset_nth_same {A} n (x : A) l : (n < length l)%nat -> nth_error (lset n x l) n = Some x.
Proof.
  revert n; induction l as [|a l IH]; intros [|n]; simpl; intros; try lia; auto.
  apply IH; lia.
Qed.
Lemma lset_nth_other {A} n m (x : A) l : n <> m -> nth_error (lset n x l) m = nth_error l m.
Proof.
  revert n m; induction l as [|a l IH]; intros [|n] [|m]; simpl; intros; try easy; auto.
Qed.
Lemma lset_same {A} n (x : A) l : nth_error l n = Some x -> lset n x l = l.
Proof.
  revert n; induction l as [|a l IH]; intros [|n]; simpl; intros H; try easy.
  - congruence.
  - now rewrite IH.
Qed.

Lemma nth_error_ext {A} (l l' : list A) :
  (forall i, nth_error l i = nth_error l' i) -> l = l'.
Proof.
  revert l'; induction l as [|a l IH]; intros [|b l'] H; auto.
  - specialize (H O); discriminate.
  - specialize (H O); discriminate.
  - f_equal; [specialize (H O); simpl in H; congruence|].
    apply IH; intros i; exact (H (S i)).
Qed.

Lemma Forall2_eq {A} (l l' : list A) : Forall2 eq l l' <-> l = l'.
Proof.
  split; [induction 1; congruence|]. intros ->. induction l'; constructor; auto.
Qed.

Lemma Some_inj {A} (a b : A) : Some a = Some b -> a = b.
Proof. intros H; injection H; auto. Qed.
Lemma Ok_inj {A} (a b : A) : Ok a = Ok b -> a = b.
Proof. intros H; injection H; auto. Qed.

(** Closed computations: evaluate by the virtual machine, never by unification. *)
Ltac vmc := repeat (match goal with |- _ /\ _ => split end);
  vm_compute; first [reflexivity | congruence | (split; congruence)].
