(** C08-C12: strict getters, numeric conversion getters, indexed numbers. *)
From Coq Require Import ZArith Bool Lia Ascii String List.
From Verif Require Import Base F64 StrMap Value MBasic MGet SGet LGet.
Import ListNotations.
Local Open Scope Z_scope.

(** C08.  Each const getter returns the value exactly when the container has that type and
    otherwise throws. *)
Theorem C08_strict_scalars : forall g,
  (forall p, get_pvoid g = Ok p <-> g = GPtr p) /\ (tag_of g <> TPtr -> get_pvoid g = Throw) /\
  (forall b, get_bool g = Ok b <-> g = GBool b) /\ (tag_of g <> TBool -> get_bool g = Throw) /\
  (forall i, get_int g = Ok i <-> g = GInt i) /\ (tag_of g <> TInt -> get_int g = Throw) /\
  (forall l, get_long g = Ok l <-> g = GLong l) /\ (tag_of g <> TLong -> get_long g = Throw) /\
  (forall r, get_real g = Ok r <-> g = GReal r) /\ (tag_of g <> TReal -> get_real g = Throw) /\
  (forall c, get_complex g = Ok c <-> g = GComplex c) /\ (tag_of g <> TComplex -> get_complex g = Throw) /\
  (forall s, get_string g = Ok s <-> g = GStr s) /\ (tag_of g <> TStr -> get_string g = Throw).
Proof.
  intros g. repeat apply conj;
    first [ intros x; destruct g; cbn; split; intros H; congruence
          | destruct g; cbn; intros H; congruence ].
Qed.

Theorem C08_strict_vectors : forall g,
  (forall v, get_vec_pointer g = Ok v <-> g = GVPtr v) /\ (tag_of g <> TVPtr -> get_vec_pointer g = Throw) /\
  (forall v, get_vec_bool g = Ok v <-> g = GVBool v) /\ (tag_of g <> TVBool -> get_vec_bool g = Throw) /\
  (forall v, get_vec_int g = Ok v <-> g = GVInt v) /\ (tag_of g <> TVInt -> get_vec_int g = Throw) /\
  (forall v, get_vec_long g = Ok v <-> g = GVLong v) /\ (tag_of g <> TVLong -> get_vec_long g = Throw) /\
  (forall v, get_vec_real g = Ok v <-> g = GVReal v) /\ (tag_of g <> TVReal -> get_vec_real g = Throw) /\
  (forall v, get_vec_complex g = Ok v <-> g = GVComplex v) /\ (tag_of g <> TVComplex -> get_vec_complex g = Throw) /\
  (forall v, get_vec_string g = Ok v <-> g = GVStr v) /\ (tag_of g <> TVStr -> get_vec_string g = Throw).
Proof.
  intros g. repeat apply conj;
    first [ intros x; destruct g; cbn; split; intros H; congruence
          | destruct g; cbn; intros H; congruence ].
Qed.

Theorem C08_strict_matrices_nested : forall g,
  (forall m, get_mat_int g = Ok m <-> g = GMInt m) /\ (tag_of g <> TMInt -> get_mat_int g = Throw) /\
  (forall m, get_mat_long g = Ok m <-> g = GMLong m) /\ (tag_of g <> TMLong -> get_mat_long g = Throw) /\
  (forall m, get_mat_real g = Ok m <-> g = GMReal m) /\ (tag_of g <> TMReal -> get_mat_real g = Throw) /\
  (forall m, get_mat_complex g = Ok m <-> g = GMComplex m) /\ (tag_of g <> TMComplex -> get_mat_complex g = Throw) /\
  (forall v, get_vector g = Ok v <-> g = GVec v) /\ (tag_of g <> TVec -> get_vector g = Throw) /\
  (forall m, get_map g = Ok m <-> g = GMap m) /\ (tag_of g <> TMap -> get_map g = Throw).
Proof.
  intros g. repeat apply conj;
    first [ intros x; destruct g; cbn; split; intros H; congruence
          | destruct g; cbn; intros H; congruence ].
Qed.

Example C08_example :
  get_int (GInt 7) = Ok 7 /\ get_int (GLong 7) = Throw /\ get_vec_real (GVInt [1]) = Throw /\
  get_map (GMap [("k"%string, GInt 1)]) = Ok [("k"%string, GInt 1)].
Proof. repeat split. Qed.

(** C09.  The conversion getters do return a wrong number: a long is narrowed silently. *)
Theorem C09_int_wrong_number_refuted :
  exists g n, wf g /\ get_as_int g = Ok n /\ ~ denotes g n.
Proof.
  exists (GLong (2^32)), 0. vmc.
Qed.

Theorem C09_uint_wrong_number_refuted :
  exists g n, wf g /\ get_as_uint g = Ok n /\ ~ denotes g n.
Proof.
  exists (GLong (2^32 + 5)), 5. vmc.
Qed.

(** A non-zero subnormal double is returned as the integer 0. *)
Theorem C09_subnormal_refuted :
  exists g, wf g /\ get_as_int g = Ok 0 /\ get_as_long g = Ok 0 /\
            get_as_uint g = Ok 0 /\ get_as_ulong g = Ok 0 /\ ~ denotes g 0.
Proof.
  exists (GReal 1). vmc.
Qed.

(** A real that is integral but too large is converted with undefined behaviour. *)
Theorem C09_undefined_refuted :
  exists g, wf g /\ get_as_int g = Undef /\ get_as_long g = Undef /\
            get_as_uint g = Undef /\ get_as_ulong g = Undef.
Proof.
  exists (GReal (f_of_Z (2^64))). vmc.
Qed.

(** What does hold, for every container without subnormal doubles: a stored integer that
    fits is returned exactly; a container that stores no integer (or, for the unsigned
    getters, no non-negative one) makes the getter throw. Together with the next theorem
    this fixes the outcome in every case. *)
Theorem C09_in_range_partial : forall g, wf g -> no_tiny g ->
  (forall n, denotes g n -> int32 n -> get_as_int g = Ok n) /\
  (forall n, denotes g n -> int64 n -> get_as_long g = Ok n) /\
  (forall n, denotes g n -> uint32 n -> get_as_uint g = Ok n) /\
  (forall n, denotes g n -> uint64 n -> get_as_ulong g = Ok n) /\
  ((forall n, ~ denotes g n) -> get_as_int g = Throw /\ get_as_long g = Throw) /\
  ((forall n, denotes g n -> n < 0) -> get_as_uint g = Throw /\ get_as_ulong g = Throw).
Proof.
  intros g Hw Ht.
  split; [intros; now apply get_as_int_in|].
  split; [intros; now apply get_as_long_in|].
  split; [intros; now apply get_as_uint_in|].
  split; [intros; now apply get_as_ulong_in|].
  split; intros.
  - split; [now apply get_as_int_none | now apply get_as_long_none].
  - split; [now apply get_as_uint_none | now apply get_as_ulong_none].
Qed.

(** Out of range: longs are narrowed modulo 2^32 (never detected), reals and complexes are
    undefined behaviour (never detected). *)
Theorem C09_out_of_range_partial : forall g n, wf g -> denotes g n ->
  (~ int32 n -> get_as_int g = if tag_dec (tag_of g) TLong then Ok (to_i32 n) else Undef) /\
  (2^32 <= n -> get_as_uint g = if tag_dec (tag_of g) TLong then Ok (to_u32 n) else Undef) /\
  (~ int64 n -> get_as_long g = Undef) /\
  (2^64 <= n -> get_as_ulong g = Undef).
Proof.
  intros g n Hw Hd.
  split; [intros; now apply get_as_int_out|].
  split; [intros; now apply get_as_uint_out|].
  split; [intros; now apply (get_as_long_out g n)|].
  intros; now apply (get_as_ulong_out g n).
Qed.

Example C09_example :
  wf (GReal (f_of_Z (-3))) /\ no_tiny (GReal (f_of_Z (-3))) /\ denotes (GReal (f_of_Z (-3))) (-3) /\
  get_as_int (GReal (f_of_Z (-3))) = Ok (-3) /\ get_as_uint (GReal (f_of_Z (-3))) = Throw /\
  get_as_int (GReal f_half) = Throw /\ get_as_ulong (GComplex (f_of_Z 9, 0)) = Ok 9.
Proof.
  assert (N : no_tiny (GReal (f_of_Z (-3)))).
  { intros (v & H & _ & Hb). cbn [no_tiny] in *.
    destruct (f_of_Z_exact (-3) ltac:(lia)) as [_ E]. unfold fis in E. rewrite H in E.
    apply Some_inj in E. rewrite E in Hb. vm_compute in Hb. discriminate. }
  split; [vmc|]. split; [exact N|]. vmc.
Qed.

(** C10. *)
Theorem C10_get_number : forall g, wf g ->
  (forall x, get_number g = Ok x -> real_of g x) /\
  ((exists x, get_number g = Ok x) \/ (get_number g = Throw /\ forall x, ~ real_of g x)).
Proof. intros g Hw. split; [intros x; now apply get_number_ok | apply get_number_cases]. Qed.

Theorem C10_get_complex_number : forall g, wf g ->
  (forall c, get_complex_number g = Ok c -> cplx_of g c) /\
  ((exists c, get_complex_number g = Ok c) \/
   (get_complex_number g = Throw /\ forall c, ~ cplx_of g c)).
Proof. intros g Hw. split; [intros x; now apply get_complex_number_ok | apply get_complex_number_cases]. Qed.

Example C10_example :
  get_number (GLong (2^53 + 1)) = Ok (f_of_Z (2^53)) /\ wf (GLong (2^53 + 1)) /\
  real_of (GLong (2^53 + 1)) (f_of_Z (2^53)) /\ get_number (GComplex (0, 0)) = Throw.
Proof.
  split; [vmc|]. split; [vmc|]. split; [|reflexivity].
  assert (E : f_of_Z (2^53) = f_of_Z (2^53 + 1)) by vmc. rewrite E.
  apply f_of_Z_nearest. lia.
Qed.

(** C11. *)
Theorem C11_is_integer : forall x, is_integer x = true <-> (exists n, fis x n) \/ tiny x.
Proof. exact is_integer_spec. Qed.

Example C11_example :
  is_integer (f_of_Z 12) = true /\ is_integer f_half = false /\ is_integer 1 = true /\
  is_integer (2047 * 2^52) = false /\ is_integer (2047 * 2^52 + 1) = false.
Proof. vmc. Qed.

(** C12.  Out-of-range indices are not checked. *)
Theorem C12_out_of_bounds_refuted :
  exists g i, wf g /\ uint32 i /\ elem g i = None /\
              get_number_at i g = Undef /\ get_complex_number_at i g = Undef.
Proof.
  exists (GVInt [1; 2]), 2. split; [repeat constructor; vm_compute; congruence|]. vmc.
Qed.

(** In range, the element is converted as by get_number / get_complex_number; containers
    without numbered elements throw. *)
Theorem C12_in_range_partial : forall g i e, wf g -> elem g i = Some e ->
  (forall x, get_number_at i g = Ok x -> real_of e x) /\
  (forall c, get_complex_number_at i g = Ok c -> cplx_of e c) /\
  ((forall x, ~ real_of e x) -> get_number_at i g = Throw) /\
  ((forall c, ~ cplx_of e c) -> get_complex_number_at i g = Throw) /\
  ((exists x, real_of e x) -> exists x, get_number_at i g = Ok x) /\
  ((exists c, cplx_of e c) -> exists c, get_complex_number_at i g = Ok c).
Proof.
  intros g i e Hw He. pose proof (elem_wf g i e Hw He) as Hwe.
  rewrite (get_complex_number_at_elem g i e He).
  pose proof (get_complex_number_cases e) as Cc. pose proof (get_number_cases e) as Cn.
  pose proof (get_number_ok e) as On. pose proof (get_complex_number_ok e) as Oc.
  assert (N : get_number_at i g = get_number e).
  { destruct (get_number_at_elem g i e He) as [E|[[m ->]|[m ->]]]; [assumption| |];
      cbn [elem] in He; destruct (znth i _); try discriminate; apply Some_inj in He; subst;
      reflexivity. }
  rewrite N. repeat apply conj; eauto.
  - intros Hx. destruct Cn as [[x E]|[E _]]; [|assumption]. now apply On, Hx in E.
  - intros Hx. destruct Cc as [[x E]|[E _]]; [|assumption]. now apply Oc, Hx in E.
  - intros [x Hx]. destruct Cn as [C|[_ C]]; [assumption|]. now apply C in Hx.
  - intros [x Hx]. destruct Cc as [C|[_ C]]; [assumption|]. now apply C in Hx.
Qed.

Theorem C12_no_elements_partial : forall g i,
  match g with
  | GVBool _ | GVInt _ | GVLong _ | GVReal _ | GVComplex _ | GMInt _ | GMLong _ | GMReal _
  | GMComplex _ | GVec _ => True
  | _ => get_number_at i g = Throw /\ get_complex_number_at i g = Throw
  end.
Proof. intros g i; destruct g; auto. Qed.

Example C12_example :
  elem (GVec [GBool true; GStr "x"; GLong 4]) 2 = Some (GLong 4) /\
  get_number_at 2 (GVec [GBool true; GStr "x"; GLong 4]) = Ok (f_of_Z 4) /\
  get_number_at 1 (GVec [GBool true; GStr "x"; GLong 4]) = Throw.
Proof. vmc. Qed.

Print Assumptions C08_strict_scalars.
Print Assumptions C08_strict_vectors.
Print Assumptions C08_strict_matrices_nested.
Print Assumptions C09_in_range_partial.
Print Assumptions C09_out_of_range_partial.
Print Assumptions C10_get_number.
Print Assumptions C10_get_complex_number.
Print Assumptions C11_is_integer.
Print Assumptions C12_in_range_partial.
