(** C28, C29: copies into typed vectors and matrices. *)
From Coq Require Import ZArith Bool Lia Ascii String List.
From Verif Require Import Base F64 StrMap Value MBasic MGet SGet LGet MMat SMap MPromote SPromote LPromote LCopyto.
Import ListNotations.
Local Open Scope Z_scope.

Ltac wfc := vm_compute; repeat split; congruence.

(** C28.  The integer copies.  [elem_ok] says what a single element must be: an integer [n]
    in the range of the output type.  (A long in a typed container must moreover be below
    [lim]: copyto_vec_uint rejects longs from 2^31 on.) *)
Definition elem_ok (rng : Z -> Prop) (lim : Z) (g e : gc) (n : Z) : Prop :=
  denotes e n /\ rng n /\ (tag_of e = TLong -> tag_of g <> TVec -> n < lim).

(** For every container without subnormal doubles in which the only integers too large for the
    output type ([haz]) are longs in typed storage: the copy succeeds exactly when every
    element is acceptable, and then the output (whatever it held before) is exactly the
    elements' integers; otherwise it throws. *)
Definition copies_ints (f : gc -> list Z -> out unit * list Z) (rng haz : Z -> Prop) (lim : Z) : Prop :=
  forall g old, wf g -> sized g -> tag_of g <> TMap -> Forall no_tiny (elems g) ->
    (forall e n, In e (elems g) -> denotes e n -> haz n -> tag_of e = TLong /\ tag_of g <> TVec) ->
    ((forall e, In e (elems g) -> exists n, elem_ok rng lim g e n) ->
       exists l, f g old = (Ok tt, l) /\ Forall2 denotes (elems g) l) /\
    ((exists e, In e (elems g) /\ forall n, ~ elem_ok rng lim g e n) -> fst (f g old) = Throw).

Lemma F2_denotes rng lim g l r : Forall2 (elem_ok rng lim g) l r -> Forall2 denotes l r.
Proof. induction 1 as [|? ? ? ? [H _]]; constructor; auto. Qed.

Lemma is_vec_true g : is_vec g = true <-> tag_of g = TVec.
Proof. destruct g; cbn; split; congruence. Qed.
Lemma is_vec_false g : is_vec g = false <-> tag_of g <> TVec.
Proof. destruct g; cbn; split; congruence. Qed.

Theorem C28_integers_partial :
  copies_ints copyto_vec_int int32 (fun n => ~ int32 n) (2^31) /\
  copies_ints copyto_vec_uint uint32 (fun n => 2^32 <= n) (2^31) /\
  copies_ints copyto_vec_long int64 (fun n => ~ int64 n) (2^63) /\
  copies_ints copyto_vec_ulong uint64 (fun n => 2^64 <= n) (2^63).
Proof.
  split; [|split; [|split]]; intros g old Hw Hs Hm Ht Hh;
    pose proof (elems_wf g Hw) as Hwe; rewrite Forall_forall in Hwe, Ht.
  - rewrite copyto_vec_int_as by assumption.
    destruct (push_all_cases (conv_int (is_vec g)) (elem_ok int32 (2^31) g) (elems g)) as [P1 P2].
    { intros e He. destruct (conv_int_cases (is_vec g) e) as [(n & D & R & E)|[N E]]; auto.
      - intros n D R. destruct (Hh e n He D R). split; [assumption|]. now apply is_vec_false.
      - left. exists n. split; [|assumption]. split; [assumption|]. split; [assumption|].
        intros _ _. unfold int32 in R. lia.
      - right. split; [|assumption]. intros n (D & R & _). now apply (N n). }
    split; [|exact P2]. intros H. destruct (P1 H) as (r & E & F). exists r. split; [assumption|].
    eapply F2_denotes; eassumption.
  - rewrite copyto_vec_uint_as by assumption.
    destruct (push_all_cases (conv_uint (is_vec g)) (elem_ok uint32 (2^31) g) (elems g)) as [P1 P2].
    { intros e He. destruct (conv_uint_cases (is_vec g) e) as [(n & D & R & L & E)|[N E]]; auto.
      - intros n D R. destruct (Hh e n He D R). split; [assumption|]. now apply is_vec_false.
      - left. exists n. split; [|assumption]. split; [assumption|]. split; [assumption|].
        intros T V. apply L; [assumption|]. now apply is_vec_false.
      - right. split; [|assumption]. intros n (D & R & L). apply (N n D). split; [assumption|].
        intros T V. apply L; [assumption|]. now apply is_vec_false. }
    split; [|exact P2]. intros H. destruct (P1 H) as (r & E & F). exists r. split; [assumption|].
    eapply F2_denotes; eassumption.
  - rewrite copyto_vec_long_as by assumption.
    destruct (push_all_cases get_as_long (elem_ok int64 (2^63) g) (elems g)) as [P1 P2].
    { intros e He. destruct (get_as_long_cases e) as [(n & D & R & E)|[N E]]; auto.
      - intros n D. destruct (int64_dec n) as [R|R]; [assumption|]. exfalso.
        destruct (Hh e n He D R) as [T _]. destruct e; try discriminate.
        cbn in D. subst. apply R. exact (Hwe _ He).
      - left. exists n. split; [|assumption]. split; [assumption|]. split; [assumption|].
        intros _ _. unfold int64 in R. lia.
      - right. split; [|assumption]. intros n (D & _). now apply (N n). }
    split; [|exact P2]. intros H. destruct (P1 H) as (r & E & F). exists r. split; [assumption|].
    eapply F2_denotes; eassumption.
  - rewrite copyto_vec_ulong_as by assumption.
    destruct (push_all_cases get_as_ulong (elem_ok uint64 (2^63) g) (elems g)) as [P1 P2].
    { intros e He. destruct (get_as_ulong_cases e) as [(n & D & R & E)|[N E]]; auto.
      - intros n D. destruct (Z.lt_ge_cases n (2^64)) as [R|R]; [assumption|]. exfalso.
        destruct (Hh e n He D R) as [T _]. destruct e; try discriminate.
        cbn in D. subst. pose proof (Hwe _ He) as W. cbn in W. unfold int64 in W. lia.
      - left. exists n. split; [|assumption]. split; [assumption|]. split; [assumption|].
        intros T _. destruct e; try discriminate. cbn in D. subst.
        pose proof (Hwe _ He) as W. cbn in W. unfold int64 in W. lia.
      - right. split; [|assumption]. intros n (D & R & _). now apply (N n). }
    split; [|exact P2]. intros H. destruct (P1 H) as (r & E & F). exists r. split; [assumption|].
    eapply F2_denotes; eassumption.
Qed.

(** Where the claim fails: a long inside a generic vector is narrowed, a subnormal becomes 0,
    a too large real is undefined behaviour. *)
Theorem C28_wrong_numbers_refuted :
  (exists g, wf g /\ copyto_vec_int g [] = (Ok tt, [0]) /\ ~ Forall2 denotes (elems g) [0]) /\
  (exists g, wf g /\ copyto_vec_uint g [] = (Ok tt, [5]) /\ ~ Forall2 denotes (elems g) [5]) /\
  (exists g, wf g /\ copyto_vec_long g [] = (Ok tt, [0]) /\ ~ Forall2 denotes (elems g) [0]) /\
  (exists g, wf g /\ fst (copyto_vec_int g []) = Undef /\ fst (copyto_vec_long g []) = Undef /\
             fst (copyto_vec_uint g []) = Undef /\ fst (copyto_vec_ulong g []) = Undef).
Proof.
  split; [exists (GVec [GLong (2^32)])|split; [exists (GVec [GLong (2^32 + 5)])
    |split; [exists (GVReal [1])|exists (GReal (f_of_Z (2^64)))]]].
  - split; [wfc|]. split; [vmc|]. intros F. inversion F as [|? ? ? ? D _]; subst.
    vm_compute in D. discriminate.
  - split; [wfc|]. split; [vmc|]. intros F. inversion F as [|? ? ? ? D _]; subst.
    vm_compute in D. discriminate.
  - split; [repeat constructor; vm_compute; congruence|]. split; [vmc|].
    intros F. inversion F as [|? ? ? ? D _]; subst. vm_compute in D. discriminate.
  - split; [wfc|]. vmc.
Qed.

(** The real copy: booleans, integers and reals exactly, longs to the nearest double, complex
    numbers (in typed storage) when the imaginary part is zero; anything else throws. *)
Theorem C28_real_partial : forall g old, wf g -> sized g -> tag_of g <> TMap ->
  Forall no_tiny (elems g) ->
  ((forall e, In e (elems g) -> exists x, real_conv e x /\ (tag_of e = TComplex -> tag_of g <> TVec)) ->
     exists l, copyto_vec_real g old = (Ok tt, l) /\ Forall2 real_conv (elems g) l) /\
  ((exists e, In e (elems g) /\
      forall x, ~ (real_conv e x /\ (tag_of e = TComplex -> tag_of g <> TVec))) ->
     fst (copyto_vec_real g old) = Throw).
Proof.
  intros g old Hw Hs Hm Ht. pose proof (elems_wf g Hw) as Hwe. rewrite Forall_forall in Hwe, Ht.
  rewrite copyto_vec_real_as by assumption.
  destruct (push_all_cases (conv_real (is_vec g))
     (fun e x => real_conv e x /\ (tag_of e = TComplex -> tag_of g <> TVec)) (elems g)) as [P1 P2].
  - intros e He. specialize (Hwe e He). specialize (Ht e He).
    destruct (tag_dec (tag_of e) TComplex) as [T|T].
    + destruct e as [ | | | | | |[re im]| | | | | | | | | | | | | | ]; try discriminate.
      destruct (is_vec g) eqn:V; cbn [conv_real].
      * right. split; [|reflexivity]. intros b [_ H]. apply is_vec_true in V. now apply H.
      * apply is_vec_false in V. unfold cc_real. cbn [fst snd]. destruct Hwe as [_ Hi], Ht as [_ Ht].
        destruct (zero0_or im Hi Ht) as [[Z ->]|[Z ->]]; cbn [gc_assert].
        -- left. exists re. split; [|reflexivity]. split; [|auto]. right. now exists im.
        -- right. split; [|reflexivity]. intros b [[[]|(im' & [= <- <-] & C)] _]. now apply Z.
    + replace (conv_real (is_vec g) e) with (get_number e)
        by (destruct e; try reflexivity; now destruct T).
      destruct (get_number_cases e) as [[x E]|[E N]].
      * left. exists x. split; [|assumption]. split; [|congruence]. left. now apply get_number_ok.
      * right. split; [|assumption]. intros b [[C|(im & -> & _)] _]; [now apply N in C | now apply T].
  - split; [|exact P2]. intros H. destruct (P1 H) as (r & E & F). exists r. split; [assumption|].
    clear -F. induction F as [|? ? ? ? [H _]]; constructor; auto.
Qed.

(** The complex copy: every number in typed storage or as a scalar, but in a generic vector
    only elements that are complex already. *)
Theorem C28_complex : forall g old, wf g -> sized g -> tag_of g <> TMap ->
  ((forall e, In e (elems g) -> exists c, cplx_of e c /\ (tag_of g = TVec -> tag_of e = TComplex)) ->
     exists l, copyto_vec_complex g old = (Ok tt, l) /\ Forall2 cplx_of (elems g) l) /\
  ((exists e, In e (elems g) /\
      forall c, ~ (cplx_of e c /\ (tag_of g = TVec -> tag_of e = TComplex))) ->
     fst (copyto_vec_complex g old) = Throw).
Proof.
  intros g old Hw Hs Hm. pose proof (elems_wf g Hw) as Hwe. rewrite Forall_forall in Hwe.
  rewrite copyto_vec_complex_as by assumption.
  destruct (push_all_cases (conv_complex (is_vec g))
     (fun e c => cplx_of e c /\ (tag_of g = TVec -> tag_of e = TComplex)) (elems g)) as [P1 P2].
  - intros e He. specialize (Hwe e He). unfold conv_complex. destruct (is_vec g) eqn:V.
    + apply is_vec_true in V. destruct (tag_dec (tag_of e) TComplex) as [T|T].
      * destruct e; try discriminate. left. exists c. repeat split.
      * right. split; [intros c [_ H]; now apply T, H|]. destruct e; try reflexivity. now destruct T.
    + apply is_vec_false in V. destruct (get_complex_number_cases e) as [[c E]|[E N]].
      * left. exists c. split; [|assumption]. split; [now apply get_complex_number_ok|]. congruence.
      * right. split; [|assumption]. intros c [C _]. now apply N in C.
  - split; [|exact P2]. intros H. destruct (P1 H) as (r & E & F). exists r. split; [assumption|].
    clear -F. induction F as [|? ? ? ? [H _]]; constructor; auto.
Qed.

(** The string copy. *)
Theorem C28_string : forall g old, sized g ->
  (forall l, (tag_of g = TStr \/ tag_of g = TVStr \/ tag_of g = TVec) -> elems g = map GStr l ->
     copyto_vec_string g old = (Ok tt, l)) /\
  ((~ (tag_of g = TStr \/ tag_of g = TVStr \/ tag_of g = TVec) \/
    (exists e, In e (elems g) /\ tag_of e <> TStr)) -> fst (copyto_vec_string g old) = Throw).
Proof.
  intros g old Hs. unfold sized in Hs. split.
  - intros l T E. destruct g; cbn [tag_of] in T; try (exfalso; intuition discriminate); cbn [elems] in E, Hs.
    + destruct l as [|s' [|]]; try discriminate. injection E as ->. reflexivity.
    + cbn [copyto_vec_string]. rewrite zlen_map in Hs. pose proof (zlen_nonneg v).
      rewrite to_u32_id by (unfold uint32; lia). rewrite copy_into_resize by reflexivity.
      f_equal. clear -E. revert l E. induction v as [|a v IH]; intros [|b l] E; try discriminate; [reflexivity|].
      injection E as -> E. f_equal. now apply IH.
    + cbn [copyto_vec_string]. rewrite visit_all by assumption. apply push_all_ok. exists l.
      split; [reflexivity|]. subst v. clear. induction l; cbn; constructor; auto.
  - intros [T|(e & He & T)].
    + destruct g; try reflexivity; exfalso; apply T; cbn; tauto.
    + destruct g; try reflexivity; cbn [elems] in He, Hs; cbn [copyto_vec_string].
      * destruct He as [<-|[]]. now destruct T.
      * apply in_map_iff in He as (s & <- & _). now destruct T.
      * rewrite visit_all by assumption. apply push_all_throw with e; [|assumption|].
        -- intros x _. destruct x; try (now left). right. now eexists.
        -- destruct e; try reflexivity. now destruct T.
Qed.

(** A non-empty map throws in every copy. *)
Theorem C28_map : forall m, m <> [] -> zlen m < 2^32 ->
  fst (copyto_vec_int (GMap m) []) = Throw /\ fst (copyto_vec_uint (GMap m) []) = Throw /\
  fst (copyto_vec_long (GMap m) []) = Throw /\ fst (copyto_vec_ulong (GMap m) []) = Throw /\
  fst (copyto_vec_real (GMap m) []) = Throw /\ fst (copyto_vec_complex (GMap m) []) = Throw /\
  fst (copyto_vec_string (GMap m) []) = Throw.
Proof.
  intros m Hm Hs. unfold copyto_vec_int, copyto_vec_uint, copyto_vec_long, copyto_vec_ulong,
    copyto_vec_real, copyto_vec_complex, copyto_vec_string, bad_elems, num_elements.
  pose proof (zlen_nonneg m). rewrite to_u32_id by (unfold uint32; lia).
  destruct m; [congruence|]. destruct (Z.eqb_spec (zlen (p :: m)) 0) as [E|E]; [discriminate E|].
  cbn. repeat split.
Qed.

Example C28_example :
  copyto_vec_int (GVReal [f_of_Z 3; f_of_Z (-4)]) [9; 9; 9] = (Ok tt, [3; -4]) /\
  fst (copyto_vec_int (GVReal [f_of_Z 3; f_half]) []) = Throw /\
  fst (copyto_vec_int (GVLong [2^40]) []) = Throw /\
  copyto_vec_real (GVec [GBool true; GInt 2]) [] = (Ok tt, [f_of_Z 1; f_of_Z 2]) /\
  fst (copyto_vec_complex (GVec [GInt 2]) []) = Throw /\
  copyto_vec_string (GVec [GStr "a"%string]) [] = (Ok tt, ["a"%string]).
Proof. vmc. Qed.

Lemma not_tiny_small n : Z.abs n <= 2^53 -> ~ tiny (f_of_Z n).
Proof.
  intros H (v & E & Hv & Hb). destruct (f_of_Z_exact n H) as [_ F]. unfold fis in F. rewrite E in F.
  apply Some_inj in F. subst v. assert (n <> 0) by (intros ->; now apply Hv).
  assert (K : fone <= Z.abs (n * fone)).
  { rewrite Z.abs_mul, (Z.abs_eq fone) by (pose proof fone_pos; lia). pose proof fone_pos. nia. }
  assert (B : 2^52 < fone) by vmc. lia.
Qed.

(** The hypotheses of C28_integers_partial are met by ordinary containers. *)
Example C28_hypotheses :
  let g := GVReal [f_of_Z 3; f_of_Z (-4)] in
  wf g /\ sized g /\ Forall no_tiny (elems g) /\
  (forall e n, In e (elems g) -> denotes e n -> ~ int32 n -> tag_of e = TLong /\ tag_of g <> TVec) /\
  (forall e, In e (elems g) -> exists n, elem_ok int32 (2^31) g e n).
Proof.
  cbv zeta. split; [repeat constructor; vm_compute; congruence|]. split; [reflexivity|].
  split; [repeat (constructor; [apply not_tiny_small; lia|]); constructor|].
  assert (D3 : denotes (GReal (f_of_Z 3)) 3) by (apply f_of_Z_exact; lia).
  assert (D4 : denotes (GReal (f_of_Z (-4))) (-4)) by (apply f_of_Z_exact; lia).
  split.
  - intros e n [<-|[<-|[]]] D R.
    + rewrite (denotes_inj _ _ _ D D3) in R. exfalso. apply R. unfold int32. lia.
    + rewrite (denotes_inj _ _ _ D D4) in R. exfalso. apply R. unfold int32. lia.
  - intros e [<-|[<-|[]]]; [exists 3 | exists (-4)];
      (split; [assumption|]; split; [unfold int32; lia | discriminate]).
Qed.

(** C29. *)
Definition mat_shape (g : gc) : Z * Z :=
  match g with
  | GMInt m | GMLong m | GMReal m => (mrows m, mcols m)
  | GMComplex m => (mrows m, mcols m)
  | _ => (zlen (elems g), 1)
  end.

(** The copy [f] of every non-empty container with a type in [ts] is a matrix of its shape
    holding its numbers ([k] turns an entry of the output into a scalar container); types
    that are neither in [ts] nor NOTYPE nor VECTOR throw; a non-bool container with no
    elements is undefined behaviour. *)
Definition copies_mat {A} (f : gc -> out (mat A)) (k : A -> gc) (ts : list tag) : Prop :=
  forall g, wf g -> sized g ->
    (In (tag_of g) ts -> elems g <> [] ->
       exists m, f g = Ok m /\ mrows m = fst (mat_shape g) /\ mcols m = snd (mat_shape g) /\
                 Forall2 same_num (elems g) (map k (mdata m))) /\
    (In (tag_of g) ts -> elems g = [] ->
       if tag_dec (tag_of g) TVBool then f g = Ok (Mat 0 1 []) else f g = Undef) /\
    (~ In (tag_of g) (TNone :: TVec :: ts) -> f g = Throw).

Lemma copy_n_mat_ok {A} (src : list A) d nr nc : src <> [] -> zlen src = to_u32 (nr * nc) ->
  copy_n_mat src (mresize d nr nc []) = Ok (Mat nr nc src).
Proof.
  intros Hn Hl. unfold copy_n_mat, mresize. cbn [mdata mrows mcols].
  destruct (resize d (Z.to_nat (to_u32 (nr * nc))) []) eqn:E.
  - exfalso. apply (f_equal (@length A)) in E. rewrite resize_length in E. cbn in E.
    rewrite <- Hl in E. unfold zlen in E. rewrite Nat2Z.id in E. now destruct src.
  - rewrite <- E, copy_into_resize by assumption. reflexivity.
Qed.
Lemma copy_n_mat_empty {A} (src : list A) d nr nc : to_u32 (nr * nc) = 0 ->
  copy_n_mat src (mresize d nr nc []) = Undef.
Proof. intros H. unfold copy_n_mat, mresize. cbn [mdata]. now rewrite H. Qed.

Lemma mat_of_vec_ok {A B} (d : B) (f : A -> B) v : zlen v < 2^32 -> v <> [] ->
  mat_of_vec d f v = Ok (Mat (zlen v) 1 (map f v)).
Proof.
  intros Hs Hn. pose proof (zlen_nonneg v). unfold mat_of_vec. rewrite to_u32_id by (unfold uint32; lia).
  apply copy_n_mat_ok.
  - intros C. now apply map_eq_nil in C.
  - rewrite zlen_map, Z.mul_1_r, to_u32_id by (unfold uint32; lia). reflexivity.
Qed.
Lemma mat_of_bools_ok {B} (d : B) (f : bool -> B) v : zlen v < 2^32 ->
  mat_of_bools d f v = Ok (Mat (zlen v) 1 (map f v)).
Proof.
  intros Hs. pose proof (zlen_nonneg v). unfold mat_of_bools. rewrite to_u32_id by (unfold uint32; lia).
  now rewrite Z.leb_refl.
Qed.
Lemma mat_of_mat_ok {A B} (P : A -> Prop) (d : B) (f : A -> B) m : wf_mat P m -> mdata m <> [] ->
  mat_of_mat d f m = Ok (Mat (mrows m) (mcols m) (map f (mdata m))).
Proof.
  intros (_ & _ & H & _) Hn. unfold mat_of_mat. rewrite <- H. unfold zlen at 1.
  rewrite Nat2Z.id, firstn_all. apply copy_n_mat_ok.
  - intros C. now apply map_eq_nil in C.
  - now rewrite zlen_map.
Qed.
Lemma mat_of_mat_empty {A B} (P : A -> Prop) (d : B) (f : A -> B) m : wf_mat P m -> mdata m = [] ->
  mat_of_mat d f m = Undef.
Proof.
  intros (_ & _ & H & _) Hn. unfold mat_of_mat. apply copy_n_mat_empty. rewrite <- H, Hn. reflexivity.
Qed.

Ltac do_copies defs :=
  intros g Hw Hs; unfold sized in Hs;
  destruct g; cbn [elems wf] in *;
  (split; [|split];
   [ try (intros HIn; exfalso; cbn [tag_of In] in HIn; intuition discriminate);
     intros _ Hne; defs;
     try (rewrite mat_of_bools_ok by (eapply sized_map; eassumption));
     try (rewrite mat_of_vec_ok by first [eapply sized_map; eassumption | intros ->; now apply Hne]);
     try (erewrite mat_of_mat_ok by first [eassumption | intros Hd; rewrite Hd in Hne; now apply Hne]);
     eexists; (split; [reflexivity|]);
     (split; [cbn; rewrite ?zlen_map; reflexivity|]); (split; [reflexivity|]);
     cbn [mdata mat11];
     try (match goal with H : wf_mat _ _ |- _ => destruct H as (_ & _ & _ & H) end); sn
   | try (intros HIn; exfalso; cbn [tag_of In] in HIn; intuition discriminate);
     try (intros _ Hne; discriminate);
     intros _ Hne; apply map_eq_nil in Hne; cbn [tag_of];
     (destruct (tag_dec _ _) as [Td|Td]; [try discriminate Td | try now destruct Td]); defs;
     first [ rewrite Hne; reflexivity
           | eapply mat_of_mat_empty; eassumption ]
   | try (intros _; reflexivity); out_tags' ])
with out_tags' := intros HIn; exfalso; apply HIn; cbn [tag_of In app]; tauto.

Theorem C29_copies_partial :
  copies_mat copyto_mat_int GInt [TBool; TInt; TVBool; TVInt; TMInt] /\
  copies_mat copyto_mat_long GLong [TBool; TInt; TLong; TVBool; TVInt; TVLong; TMInt; TMLong] /\
  copies_mat copyto_mat_real GReal
    [TBool; TInt; TLong; TReal; TVBool; TVInt; TVLong; TVReal; TMInt; TMLong; TMReal] /\
  copies_mat copyto_mat_complex GComplex
    [TBool; TInt; TLong; TReal; TComplex; TVBool; TVInt; TVLong; TVReal; TVComplex; TMInt; TMLong; TMReal].
Proof.
  split; [|split; [|split]];
   do_copies ltac:(cbn [copyto_mat_int copyto_mat_long copyto_mat_real copyto_mat_complex]).
Qed.

(** A generic vector is taken as the list of the columns: all must convert and have the same
    number of elements. *)
Definition copies_columns {A} (f : gc -> out (mat A)) (cv : gc -> list A -> out unit * list A) : Prop :=
  forall v nr, zlen v < 2^32 -> v <> [] -> 0 <= nr -> nr * zlen v < 2^32 ->
    (forall c, In c v -> num_elements c = nr) ->
    forall cols, Forall2 (fun c col => cv c [] = (Ok tt, col) /\ zlen col = nr) v cols ->
    f (GVec v) = Ok (Mat nr (zlen v) (concat cols)).

Lemma mat_of_cols_ok {A} (d : A) cv : copies_columns (fun g => match g with GVec v => mat_of_cols d cv v | _ => Throw end) cv.
Proof.
  intros v nr Hs Hv Hnr Hp Hn cols F. cbv beta iota. unfold mat_of_cols. rewrite visit_all by assumption.
  pose proof (zlen_nonneg v).
  destruct v as [|c0 cs]; [congruence|].
  rewrite (Hn c0) by (now left).
  replace (forallb _ cs) with true.
  2:{ symmetry. apply forallb_forall. intros c Hc. apply Z.eqb_eq. apply Hn. now right. }
  cbn [gc_assert]. unfold mresize. rewrite !(to_u32_id (zlen (c0 :: cs))) by (unfold uint32; lia).
  rewrite to_u32_id by (unfold uint32; nia).
  change (resize d (Z.to_nat (nr * zlen (c0 :: cs))) [])
    with ([] ++ resize d (Z.to_nat (nr * zlen (c0 :: cs))) []).
  rewrite (fill_cols_ok cv nr (zlen (c0 :: cs)) Hnr (c0 :: cs) cols 0).
  - reflexivity.
  - lia.
  - exact F.
  - cbn. lia.
  - unfold zlen at 1. rewrite resize_length. rewrite Z2Nat.id; [reflexivity | nia].
  - cbn [app]. unfold zlen at 1. rewrite resize_length, Z2Nat.id by nia. assumption.
Qed.

Theorem C29_columns_partial :
  copies_columns copyto_mat_int copyto_vec_int /\ copies_columns copyto_mat_long copyto_vec_long /\
  copies_columns copyto_mat_real copyto_vec_real /\ copies_columns copyto_mat_complex copyto_vec_complex.
Proof.
  split; [|split; [|split]]; intros v nr H1 H2 H3 H4 H5 cols F.
  - exact (mat_of_cols_ok 0 copyto_vec_int v nr H1 H2 H3 H4 H5 cols F).
  - exact (mat_of_cols_ok 0 copyto_vec_long v nr H1 H2 H3 H4 H5 cols F).
  - exact (mat_of_cols_ok f_zero copyto_vec_real v nr H1 H2 H3 H4 H5 cols F).
  - exact (mat_of_cols_ok c_zero copyto_vec_complex v nr H1 H2 H3 H4 H5 cols F).
Qed.

(** Ragged or empty generic vectors throw. *)
Theorem C29_columns_throw : forall v, zlen v < 2^32 ->
  (v = [] \/ exists c c', In c v /\ In c' v /\ num_elements c <> num_elements c') ->
  copyto_mat_int (GVec v) = Throw /\ copyto_mat_long (GVec v) = Throw /\
  copyto_mat_real (GVec v) = Throw /\ copyto_mat_complex (GVec v) = Throw.
Proof.
  intros v Hs H.
  assert (K : forall A (d : A) cv, mat_of_cols d cv v = Throw).
  { intros A d cv. unfold mat_of_cols. rewrite visit_all by assumption.
    destruct v as [|c0 cs]; [reflexivity|]. destruct H as [H|(c & c' & Hc & Hc' & Hne)]; [discriminate|].
    destruct (forallb (fun c => num_elements c =? num_elements c0) cs) eqn:E; [|reflexivity].
    exfalso. rewrite forallb_forall in E.
    assert (All : forall x, In x (c0 :: cs) -> num_elements x = num_elements c0).
    { intros x [<-|Hx]; [reflexivity|]. now apply Z.eqb_eq, E. }
    rewrite (All c Hc), (All c' Hc') in Hne. now apply Hne. }
  repeat split; apply K.
Qed.

(** Where the claim fails: copying a complex matrix to a complex matrix throws, and copying an
    empty integer vector or matrix is undefined. *)
Theorem C29_refuted :
  (forall m, copyto_mat_complex (GMComplex m) = Throw) /\
  copyto_mat_int (GVInt []) = Undef /\ copyto_mat_real (GMReal (Mat 0 3 [])) = Undef.
Proof. repeat split. Qed.

Example C29_example :
  copyto_mat_real (GMInt (Mat 2 1 [1; 2])) = Ok (Mat 2 1 [f_of_Z 1; f_of_Z 2]) /\
  copyto_mat_int (GVInt [1; 2; 3]) = Ok (Mat 3 1 [1; 2; 3]) /\
  copyto_mat_int (GVec [GVInt [1; 2]; GVReal [f_of_Z 3; f_of_Z 4]; GVBool [true; false]]) =
    Ok (Mat 2 3 [1; 2; 3; 4; 1; 0]) /\
  copyto_mat_int (GVec [GVInt [1; 2]; GInt 3]) = Throw.
Proof. vmc. Qed.

Print Assumptions C28_integers_partial.
Print Assumptions C28_wrong_numbers_refuted.
Print Assumptions C28_real_partial.
Print Assumptions C28_complex.
Print Assumptions C28_string.
Print Assumptions C29_copies_partial.
Print Assumptions C29_columns_partial.
Print Assumptions C29_columns_throw.
Print Assumptions C28_map.
