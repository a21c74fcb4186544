(** Lemmas about copyto_vec_T and copyto_mat_T. *)
From Coq Require Import ZArith Bool Lia Ascii String List.
From Verif Require Import Base F64 StrMap Value MBasic MGet SGet LGet MMat MPromote SPromote LPromote.
Import ListNotations.
Local Open Scope Z_scope.

Lemma push_all_map {A B C} (cv : B -> out C) (f : A -> B) l acc :
  push_all cv (map f l) acc = push_all (fun a => cv (f a)) l acc.
Proof.
  revert acc. induction l as [|a l IH]; intros acc; cbn; [reflexivity|].
  destruct (cv (f a)); auto.
Qed.

Lemma push_all_ext {A B} (cv cv' : A -> out B) l acc :
  (forall a, In a l -> cv a = cv' a) -> push_all cv l acc = push_all cv' l acc.
Proof.
  revert acc. induction l as [|a l IH]; intros acc H; cbn; [reflexivity|].
  rewrite (H a) by (now left). destruct (cv' a); auto. apply IH. intros; apply H; now right.
Qed.

Lemma push_all_ok {A B} (cv : A -> out B) l acc r :
  push_all cv l acc = (Ok tt, r) <-> exists bs, r = acc ++ bs /\ Forall2 (fun a b => cv a = Ok b) l bs.
Proof.
  revert acc. induction l as [|a l IH]; intros acc; cbn.
  - split; [intros [= <-]; exists []; rewrite app_nil_r; auto|].
    intros (bs & -> & H). inversion H. now rewrite app_nil_r.
  - split.
    + destruct (cv a) as [b| | |] eqn:E; try discriminate. intros H. apply IH in H as (bs & -> & H).
      exists (b :: bs). rewrite <- app_assoc. split; [reflexivity|]. now constructor.
    + intros (bs & -> & H). inversion H as [|? b ? bs' Hb Hbs]; subst. rewrite Hb. apply IH.
      exists bs'. now rewrite <- app_assoc.
Qed.

Lemma push_all_in {A B} (cv : A -> out B) (R : A -> B -> Prop) l :
  (forall a, In a l -> exists b, cv a = Ok b /\ R a b) ->
  exists r, push_all cv l [] = (Ok tt, r) /\ Forall2 R l r.
Proof.
  intros H. assert (exists r, Forall2 (fun a b => cv a = Ok b) l r /\ Forall2 R l r) as (r & H1 & H2).
  { induction l as [|a l IH]; [exists []; split; constructor|].
    destruct (H a) as (b & Hb & Rb); [now left|].
    destruct IH as (r & H1 & H2); [intros; apply H; now right|].
    exists (b :: r). split; constructor; assumption. }
  exists r. split; [|assumption]. apply push_all_ok. now exists r.
Qed.

Lemma push_all_throw {A B} (cv : A -> out B) l a acc :
  (forall x, In x l -> cv x = Throw \/ exists b, cv x = Ok b) ->
  In a l -> cv a = Throw -> fst (push_all cv l acc) = Throw.
Proof.
  revert acc. induction l as [|x l IH]; intros acc Hc Ha E; [destruct Ha|]. cbn.
  destruct (Hc x (or_introl eq_refl)) as [-> | [b Hb]]; [reflexivity|]. rewrite Hb.
  destruct Ha as [->|Ha]; [congruence|]. apply IH; auto. intros; apply Hc; now right.
Qed.

Lemma visit_all {A} (v : list A) : zlen v < 2^32 -> visit v = v.
Proof.
  intros H. pose proof (zlen_nonneg v). unfold visit. rewrite to_u32_id by (unfold uint32; lia).
  unfold zlen. now rewrite Nat2Z.id, firstn_all.
Qed.

Definition is_vec (g : gc) : bool := match g with GVec _ => true | _ => false end.

Definition conv_int (vec : bool) (e : gc) : out Z :=
  match e, vec with GLong l, false => cl_int l | _, _ => get_as_int e end.
Definition conv_uint (vec : bool) (e : gc) : out Z :=
  match e, vec with GLong l, false => cl_uint l | _, _ => get_as_uint e end.
Definition conv_real (vec : bool) (e : gc) : out Z :=
  match e, vec with GComplex c, false => cc_real c | _, _ => get_number e end.
Definition conv_complex (vec : bool) (e : gc) : out cplx :=
  if vec then get_complex e else get_complex_number e.

Lemma bad_elems_push {A B} (cv : A -> out B) v g :
  num_elements g = to_u32 (zlen v) -> zlen v < 2^32 -> (forall a, In a v -> cv a = Throw) ->
  bad_elems g = push_all cv v [].
Proof.
  intros E Hs H. unfold bad_elems. pose proof (zlen_nonneg v).
  rewrite E, to_u32_id by (unfold uint32; lia).
  destruct v as [|a v]; [reflexivity|]. rewrite zlen_cons. pose proof (zlen_nonneg v).
  rewrite (proj2 (Z.ltb_lt _ _)) by lia. cbn. now rewrite H by (now left).
Qed.

Lemma unsigned_ge r : fge0 r && is_unsigned r = is_unsigned r.
Proof. unfold is_unsigned. destruct (fge0 r); [reflexivity|]. now rewrite andb_false_r. Qed.

Ltac as_conv :=
  intros Hs Hm; unfold sized in Hs;
  match goal with g : gc |- _ => destruct g end; try (exfalso; now apply Hm); cbn [elems is_vec] in *;
  try rewrite push_all_map;
  try (rewrite visit_all by (first [exact Hs | eapply sized_map; exact Hs]));
  try reflexivity;
  try (apply push_all_ext; intros ? _; cbn;
       repeat match goal with a : cplx |- _ => destruct a end; cbn;
       rewrite ?unsigned_ge; reflexivity);
  try (cbn; repeat match goal with a : cplx |- _ => destruct a end; cbn; rewrite ?unsigned_ge; reflexivity);
  try (apply bad_elems_push; [reflexivity | eapply sized_map; exact Hs | intros; reflexivity]).

Lemma copyto_vec_int_as g old : sized g -> tag_of g <> TMap ->
  copyto_vec_int g old = push_all (conv_int (is_vec g)) (elems g) [].
Proof.
unfold copyto_vec_int. as_conv. apply push_all_ext. now intros []. Qed.

Lemma copyto_vec_uint_as g old : sized g -> tag_of g <> TMap ->
  copyto_vec_uint g old = push_all (conv_uint (is_vec g)) (elems g) [].
Proof. unfold copyto_vec_uint. as_conv. apply push_all_ext. now intros []. Qed.

Lemma copyto_vec_long_as g old : sized g -> tag_of g <> TMap ->
  copyto_vec_long g old = push_all get_as_long (elems g) [].
Proof. unfold copyto_vec_long. as_conv. Qed.

Lemma copyto_vec_ulong_as g old : sized g -> tag_of g <> TMap ->
  copyto_vec_ulong g old = push_all get_as_ulong (elems g) [].
Proof. unfold copyto_vec_ulong. as_conv. Qed.

Lemma copyto_vec_real_as g old : sized g -> tag_of g <> TMap ->
  copyto_vec_real g old = push_all (conv_real (is_vec g)) (elems g) [].
Proof. unfold copyto_vec_real. as_conv. apply push_all_ext. now intros []. Qed.

Lemma copyto_vec_complex_as g old : sized g -> tag_of g <> TMap ->
  copyto_vec_complex g old = push_all (conv_complex (is_vec g)) (elems g) [].
Proof. unfold copyto_vec_complex. as_conv. Qed.

Lemma elems_wf g : wf g -> Forall wf (elems g).
Proof.
  intros H. destruct g; cbn [elems]; try (now constructor); try (constructor; [exact H|constructor]);
    try (apply Forall_forall; intros x Hx; apply in_map_iff in Hx as (y & <- & Hy); cbn [wf] in *;
         first [ exact I | (eapply Forall_In; eassumption)
               | (destruct H as (_ & _ & _ & H); eapply Forall_In; eassumption) ]).
  now apply wf_vec.
Qed.

(** One element: its number in range is returned, anything else throws. *)
Definition int32_dec n : {int32 n} + {~ int32 n}.
Proof. unfold int32. destruct (Z_le_dec (-2^31) n), (Z_lt_dec n (2^31)); (left; lia) || (right; lia). Qed.
Definition int64_dec n : {int64 n} + {~ int64 n}.
Proof. unfold int64. destruct (Z_le_dec (-2^63) n), (Z_lt_dec n (2^63)); (left; lia) || (right; lia). Qed.

Lemma denotes_inj e n n' : denotes e n -> denotes e n' -> n = n'.
Proof.
  destruct e as [ | |b|i|l|r|[re im]| | | | | | | | | | | | | | ]; cbn; try tauto; try congruence.
  - apply fis_inj.
  - intros [H _] [H' _]. now apply (fis_inj re).
Qed.

(** Either the element stores an integer, or no conversion getter accepts it. *)
Lemma denotes_or e : wf e -> no_tiny e -> (exists n, denotes e n) \/ forall n, ~ denotes e n.
Proof.
  intros Hw Ht. destruct e as [ | |b|i|l|r|[re im]| | | | | | | | | | | | | | ]; try (right; intros n H; exact H);
    try (left; eexists; reflexivity).
  - destruct (is_integer r) eqn:E.
    + left. apply is_integer_int in E; assumption.
    + right. intros n D. apply is_integer_of_fis in D. congruence.
  - destruct Ht as [Ht1 Ht2], Hw as [Hw1 Hw2]. cbn in Hw1, Hw2.
    destruct (is_integer re) eqn:E.
    + apply is_integer_int in E as [n E]; [|assumption]. destruct (zero0_or im Hw2 Ht2) as [[Z _]|[Z _]].
      * left. now exists n.
      * right. intros n' [_ D]. now apply Z.
    + right. intros n [D _]. apply is_integer_of_fis in D. congruence.
Qed.

Lemma conv_int_cases vec e : wf e -> no_tiny e ->
  (forall n, denotes e n -> ~ int32 n -> tag_of e = TLong /\ vec = false) ->
  (exists n, denotes e n /\ int32 n /\ conv_int vec e = Ok n) \/
  ((forall n, denotes e n -> ~ int32 n) /\ conv_int vec e = Throw).
Proof.
  intros Hw Ht Hh. destruct (denotes_or e Hw Ht) as [[n D]|D].
  - destruct (int32_dec n) as [R|R].
    + left. exists n. split; [assumption|]. split; [assumption|].
      pose proof (get_as_int_in e n Hw D R) as G.
      destruct e; try exact G. destruct vec; [exact G|]. cbn in D. subst. cbn [conv_int].
      unfold cl_int. rewrite to_i32_id by assumption. now rewrite Z.eqb_refl.
    + right. split; [intros n' D'; now rewrite (denotes_inj e n' n)|].
      destruct (Hh n D R) as [T ->]. destruct e; try discriminate. cbn in D. subst. cbn [conv_int].
      unfold cl_int. destruct (Z.eqb_spec (to_i32 l) l) as [E|E]; [|reflexivity].
      now apply to_i32_eq_iff in E.
  - right. split; [intros n' D'; now apply D in D'|].
    replace (conv_int vec e) with (get_as_int e).
    + now apply get_as_int_none.
    + destruct e; try (destruct vec; reflexivity). now destruct (D l).
Qed.

Lemma get_as_long_cases e : wf e -> no_tiny e -> (forall n, denotes e n -> int64 n) ->
  (exists n, denotes e n /\ int64 n /\ get_as_long e = Ok n) \/
  ((forall n, ~ denotes e n) /\ get_as_long e = Throw).
Proof.
  intros Hw Ht Hh. destruct (denotes_or e Hw Ht) as [[n D]|D].
  - left. exists n. pose proof (Hh n D). split; [assumption|]. split; [assumption|].
    now apply get_as_long_in.
  - right. split; [assumption|]. now apply get_as_long_none.
Qed.

Lemma conv_uint_cases vec e : wf e -> no_tiny e ->
  (forall n, denotes e n -> 2^32 <= n -> tag_of e = TLong /\ vec = false) ->
  (exists n, denotes e n /\ uint32 n /\ (tag_of e = TLong -> vec = false -> n < 2^31) /\ conv_uint vec e = Ok n) \/
  ((forall n, denotes e n -> ~ (uint32 n /\ (tag_of e = TLong -> vec = false -> n < 2^31))) /\
   conv_uint vec e = Throw).
Proof.
  intros Hw Ht Hh. destruct (tag_dec (tag_of e) TLong) as [T|T]; [destruct vec|].
  - destruct e; try discriminate. cbn [conv_uint get_as_uint].
    destruct (Z.lt_ge_cases l (2^32)) as [L|L]; [|destruct (Hh l eq_refl L); discriminate].
    destruct (Z.leb_spec 0 l) as [L'|L']; cbn [gc_assert].
    + left. exists l. split; [reflexivity|]. split; [unfold uint32; lia|]. split; [discriminate|].
      now rewrite to_u32_id by (unfold uint32; lia).
    + right. split; [|reflexivity]. intros n -> [R _]. unfold uint32 in R. lia.
  - destruct e; try discriminate. cbn [conv_uint]. unfold cl_uint.
    destruct (Z.leb_spec 0 l) as [L|L]; [|rewrite andb_false_r; right; split; [|reflexivity]].
    2:{ intros n -> [R _]. unfold uint32 in R. lia. }
    destruct (Z.eqb_spec (to_i32 l) l) as [E|E]; cbn [andb gc_assert].
    + apply to_i32_eq_iff in E. unfold int32 in E. left. exists l. split; [reflexivity|].
      split; [unfold uint32; lia|]. split; [lia|]. now rewrite to_u32_id by (unfold uint32; lia).
    + right. split; [|reflexivity]. intros n -> [R R']. apply E. apply to_i32_eq_iff.
      specialize (R' eq_refl eq_refl). unfold uint32, int32 in *. lia.
  - replace (conv_uint vec e) with (get_as_uint e) by (destruct e; try reflexivity; now destruct T).
    destruct (denotes_or e Hw Ht) as [[n D]|D].
    + destruct (Z.lt_ge_cases n (2^32)) as [L|L]; [|destruct (Hh n D L); congruence].
      destruct (Z.lt_ge_cases n 0) as [L'|L'].
      * right. assert (N : forall n', denotes e n' -> n' < 0) by (intros n' D'; now rewrite (denotes_inj e n' n)).
        split; [|now apply get_as_uint_none]. intros n' D' [R _]. apply N in D'. unfold uint32 in R. lia.
      * left. exists n. split; [assumption|]. split; [unfold uint32; lia|]. split; [congruence|].
        apply get_as_uint_in; auto. unfold uint32; lia.
    + right. split; [intros n D'; now apply D in D'|]. apply get_as_uint_none; auto.
      intros n D'. now apply D in D'.
Qed.

Lemma get_as_ulong_cases e : wf e -> no_tiny e -> (forall n, denotes e n -> n < 2^64) ->
  (exists n, denotes e n /\ uint64 n /\ get_as_ulong e = Ok n) \/
  ((forall n, denotes e n -> ~ uint64 n) /\ get_as_ulong e = Throw).
Proof.
  intros Hw Ht Hh. destruct (denotes_or e Hw Ht) as [[n D]|D].
  - pose proof (Hh n D). destruct (Z.lt_ge_cases n 0) as [L'|L'].
    + right. assert (N : forall n', denotes e n' -> n' < 0) by (intros n' D'; now rewrite (denotes_inj e n' n)).
      split; [|now apply get_as_ulong_none]. intros n' D' R. apply N in D'. unfold uint64 in R. lia.
    + left. exists n. split; [assumption|]. split; [unfold uint64; lia|].
      apply get_as_ulong_in; auto. unfold uint64; lia.
  - right. split; [intros n D'; now apply D in D'|]. apply get_as_ulong_none; auto.
    intros n D'. now apply D in D'.
Qed.

(** A list of elements, each of which converts to a value related by [R] or throws. *)
Lemma push_all_cases {A B} (cv : A -> out B) (R : A -> B -> Prop) l :
  (forall a, In a l -> (exists b, R a b /\ cv a = Ok b) \/ ((forall b, ~ R a b) /\ cv a = Throw)) ->
  ((forall a, In a l -> exists b, R a b) ->
     exists r, push_all cv l [] = (Ok tt, r) /\ Forall2 R l r) /\
  ((exists a, In a l /\ forall b, ~ R a b) -> fst (push_all cv l []) = Throw).
Proof.
  intros H. split.
  - intros Hall. apply push_all_in. intros a Ha. destruct (H a Ha) as [(b & Rb & E)|[N _]]; [eauto|].
    destruct (Hall a Ha) as [b Rb]. now apply N in Rb.
  - intros (a & Ha & N). apply push_all_throw with a; [|assumption|].
    + intros x Hx. destruct (H x Hx) as [(b & _ & E)|[_ E]]; [right; eauto | now left].
    + destruct (H a Ha) as [(b & Rb & _)|[_ E]]; [now apply N in Rb | assumption].
Qed.

(** Filling a matrix column by column. *)
Lemma lset_app {A} (pre : list A) a x post : lset (length pre) x (pre ++ a :: post) = pre ++ x :: post.
Proof. induction pre as [|p pre IH]; cbn; [reflexivity|]. now rewrite IH. Qed.

Lemma skipn_S {A} s (l : list A) : skipn (S s) l = tl (skipn s l).
Proof.
  revert l. induction s as [|s IH]; intros l; [now destruct l|].
  destruct l; [reflexivity|]. apply IH.
Qed.

Lemma fill_col_app {A} nr nc j (vj : list A) k : forall s pre rest,
  0 <= nr -> 0 <= j -> zlen pre = j * nr + Z.of_nat s ->
  length vj = (s + k)%nat -> Z.of_nat (s + k) = nr -> (k <= length rest)%nat ->
  zlen (pre ++ rest) < 2^32 ->
  fill_col j vj (map Z.of_nat (seq s k)) (Mat nr nc (pre ++ rest)) =
  Ok (Mat nr nc (pre ++ skipn s vj ++ skipn k rest)).
Proof.
  induction k as [|k IH]; intros s pre rest Hnr Hj Hpre Hv Hk Hr Hz.
  - cbn [seq map fill_col]. rewrite skipn_all2 by lia. reflexivity.
  - cbn [seq map fill_col].
    destruct (skipn s vj) as [|x vs] eqn:Es.
    { apply (f_equal (@length A)) in Es. rewrite skipn_length in Es. cbn in Es. lia. }
    assert (Hx : nth_error vj s = Some x).
    { rewrite <- (firstn_skipn s vj), Es, nth_error_app2 by (rewrite firstn_length; lia).
      rewrite firstn_length. replace (s - Nat.min s (length vj))%nat with O by lia. reflexivity. }
    assert (Es' : skipn (S s) vj = vs).
    { rewrite skipn_S, Es. reflexivity. }
    unfold raw_at, znth. rewrite (proj2 (Z.ltb_ge _ _)) by lia. rewrite Nat2Z.id, Hx. cbn [bind].
    destruct rest as [|a rest]; [cbn in Hr; lia|].
    assert (Hpos : mpos (Mat nr nc (pre ++ a :: rest)) (Z.of_nat s) j = zlen pre).
    { unfold mpos. cbn [mrows]. rewrite Hpre. rewrite zlen_app, zlen_cons in Hz.
      pose proof (zlen_nonneg rest). rewrite to_u32_id; [ring|]. unfold uint32. nia. }
    unfold mat_set. rewrite Hpos. unfold znth. rewrite (proj2 (Z.ltb_ge _ _)) by apply zlen_nonneg.
    unfold zlen at 1. rewrite Nat2Z.id. cbn [mdata mrows mcols].
    rewrite nth_error_app2, Nat.sub_diag by lia. cbn [nth_error].
    unfold zlen at 1. rewrite Nat2Z.id, lset_app.
    replace (pre ++ x :: rest) with ((pre ++ [x]) ++ rest) by (rewrite <- app_assoc; reflexivity).
    rewrite IH.
    + rewrite Es'. rewrite <- !app_assoc. reflexivity.
    + assumption.
    + assumption.
    + rewrite zlen_app, zlen_cons, zlen_nil. lia.
    + lia.
    + lia.
    + cbn in Hr. lia.
    + rewrite <- app_assoc. cbn [app]. rewrite !zlen_app, !zlen_cons in *. lia.
Qed.

Lemma fill_cols_ok {A} (cv : gc -> list A -> out unit * list A) nr nc : 0 <= nr ->
  forall cols vs j pre rest, 0 <= j ->
  Forall2 (fun c v => cv c [] = (Ok tt, v) /\ zlen v = nr) cols vs ->
  zlen pre = j * nr -> zlen rest = nr * zlen cols -> zlen (pre ++ rest) < 2^32 ->
  fill_cols cv nr cols j (Mat nr nc (pre ++ rest)) = Ok (Mat nr nc (pre ++ concat vs)).
Proof.
  intros Hnr. induction cols as [|c cols IH]; intros vs j pre rest Hj HF Hp Hr Hz.
  - inversion HF; subst. cbn. rewrite zlen_nil, Z.mul_0_r in Hr. apply zlen_zero in Hr. now subst.
  - inversion HF as [|? v ? vs' [Hv Hlv'] HF']; subst. remember (zlen v) as nr eqn:Hlv. symmetry in Hlv. cbn [fill_cols]. rewrite Hv.
    rewrite zlen_cons in Hr. pose proof (zlen_nonneg cols).
    assert (Hk : (Z.to_nat nr <= length rest)%nat) by (unfold zlen in *; nia).
    assert (K : zlen (skipn (Z.to_nat nr) rest) = zlen rest - nr)
      by (unfold zlen; rewrite skipn_length; lia).
    unfold zseq. erewrite fill_col_app; try assumption.
    2:{ rewrite Hp. cbn. lia. }
    2:{ unfold zlen in Hlv. cbn. lia. }
    2:{ cbn. lia. }
    cbn [bind skipn]. rewrite app_assoc.
    rewrite (IH vs' (j + 1)).
    + cbn [concat]. now rewrite <- app_assoc.
    + lia.
    + assumption.
    + rewrite zlen_app, Hp. lia.
    + rewrite K, Hr. ring.
    + rewrite !zlen_app in *. lia.
Qed.
