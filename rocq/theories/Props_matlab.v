(** Properties C77-C80: exchange of values with MATLAB. *)
From Coq Require Import ZArith Bool Lia Ascii String List.
From Verif Require Import Base F64 StrMap Value WfDec MBasic MCopy SCopy MGet MMap MMat SGet SPromote SCollapse MJson SJson LJson LTable LToJson LCollapse LRound MMatlab SMatlab LMatlab Props_tojson Props_totoml.
Import ListNotations.
Local Open Scope Z_scope.

(** * C77: reading *)
(** Proper arrays of at most two dimensions whose numbers fit are read without loss, whatever
    the container held before.  Missing: the cases of the theorems below. *)
Theorem C77_read_partial : forall a, mx_all mx_ok a -> mx_all mx_node a ->
  exists r, (forall g, mx_to_GC a g = (Ok tt, r)) /\ wf r /\ data_of r = mx_data a.
Proof. exact read_ok. Qed.

(** The containers for arrays of numbers, one by one. *)
Theorem C77_kinds : forall dims g, small_dims dims ->
  (forall c d, dims_ok dims d -> c <> I64 -> c <> U64 -> Forall (fun z => class_range c z /\ fits_int c z) d ->
     mx_to_GC (MxInt c dims d) g = (Ok tt, shaped GInt GVInt GMInt dims d)) /\
  (forall c d, dims_ok dims d -> c = I64 \/ c = U64 -> Forall (fun z => class_range c z /\ fits_int c z) d ->
     mx_to_GC (MxInt c dims d) g = (Ok tt, shaped GLong GVLong GMLong dims d)) /\
  (forall s d, dims_ok dims d -> mx_to_GC (MxReal s dims d) g = (Ok tt, shaped GReal GVReal GMReal dims d)) /\
  (forall s d, dims_ok dims d -> mx_to_GC (MxCplx s dims d) g = (Ok tt, shaped GComplex GVComplex GMComplex dims d)) /\
  (forall d, dims_ok dims d -> mx_to_GC (MxLogical dims d) g = (Ok tt, match d with [b] => GBool b | _ => GVec (map GBool d) end)).
Proof.
  intros dims g S. split; [|split; [|split; [|split]]].
  - intros c d H N1 N2 F. replace (mx_to_GC (MxInt c dims d) g) with (mx_to_vec_int dims d) by (destruct c; easy).
    rewrite vec_int_ok by assumption. do 2 f_equal. apply map_id_in. eapply Forall_impl; [|exact F]. intros z (H1 & H2).
    apply to_i32_id. now apply (to_i32_class c).
  - intros c d H N F. replace (mx_to_GC (MxInt c dims d) g) with (mx_to_vec_long dims d) by (destruct N as [-> | ->]; reflexivity).
    rewrite vec_long_ok by assumption. do 2 f_equal. apply map_id_in. eapply Forall_impl; [|exact F]. intros z (H1 & H2).
    apply to_i64_id. unfold class_range, fits_int, int64 in *. destruct N as [-> | ->]; lia.
  - intros s d H. change (mx_to_GC (MxReal s dims d) g) with (mx_to_vec_real dims d). now apply vec_real_ok.
  - intros s d H. change (mx_to_GC (MxCplx s dims d) g) with (mx_to_vec_complex dims d). now apply vec_complex_ok.
  - intros d H. change (mx_to_GC (MxLogical dims d) g) with (mx_to_vec_bool d). apply vec_bool_ok. now apply (dims_len dims).
Qed.

(** Unsigned numbers that do not fit come back negative: any uint32 from 2^31 on. *)
Theorem C77_unsigned_refuted : forall z g, 2^31 <= z < 2^32 ->
  mx_all mx_ok (MxInt U32 [1; 1] [z]) /\ mx_to_GC (MxInt U32 [1; 1] [z]) g = (Ok tt, GInt (z - 2^32)) /\
  data_of (GInt (z - 2^32)) <> mx_data (MxInt U32 [1; 1] [z]).
Proof.
  intros z g H. split; [|split].
  - split; [|exact I]. split; [apply one_dims|]. apply Forall_cons; [|apply Forall_nil]. unfold class_range. lia.
  - change (mx_to_GC (MxInt U32 [1; 1] [z]) g) with (@Ok unit tt, GInt (to_i32 z)). do 2 f_equal. unfold to_i32.
    replace (z + 2^31) with ((z - 2^31) + 1 * 2^32) by lia. rewrite Z.mod_add, Z.mod_small by lia. lia.
  - cbn [data_of mx_data arr_data]. intros E. apply dint_inj in E. lia.
Qed.
Theorem C77_unsigned64_refuted : forall z g, 2^63 <= z < 2^64 ->
  mx_to_GC (MxInt U64 [1; 1] [z]) g = (Ok tt, GLong (z - 2^64)).
Proof.
  intros z g H. change (mx_to_GC (MxInt U64 [1; 1] [z]) g) with (@Ok unit tt, GLong (to_i64 z)). do 2 f_equal. unfold to_i64.
  replace (z + 2^63) with ((z - 2^63) + 1 * 2^64) by lia. rewrite Z.mod_add, Z.mod_small by lia. lia.
Qed.

(** Arrays of numbers with three or more dimensions (and other than one element), and objects
    of other classes, are dropped without an error. *)
Theorem C77_dropped_refuted : forall g,
  mx_to_GC MxOther g = (Ok tt, GNone) /\
  forall n1 n2 n3 dims s, (forall d, length d <> 1%nat -> mx_to_GC (MxReal s (n1 :: n2 :: n3 :: dims) d) g = (Ok tt, GNone)) /\
    (forall c d, length d <> 1%nat -> mx_to_GC (MxInt c (n1 :: n2 :: n3 :: dims) d) g = (Ok tt, GNone)).
Proof.
  intros g. split; [reflexivity|]. intros n1 n2 n3 dims s. split.
  - intros d Hd. destruct d as [|x [|y d]]; try reflexivity. now destruct Hd.
  - intros c d Hd. destruct c, d as [|x [|y d]]; try reflexivity; now destruct Hd.
Qed.

(** The shape of logical arrays and of cell arrays is dropped: two of different shapes with the
    same elements are read as the same container; and sparse arrays with different numbers of
    rows are, too. *)
Theorem C77_shape_refuted :
  (forall s t d g, mx_to_GC (MxLogical s d) g = mx_to_GC (MxLogical t d) g) /\
  (forall s t d g, mx_to_GC (MxCell s d) g = mx_to_GC (MxCell t d) g) /\
  (forall nr nr' nc ir jc d g, mx_to_GC (MxSparse nr nc ir jc d) g = mx_to_GC (MxSparse nr' nc ir jc d) g).
Proof. repeat split; reflexivity. Qed.
Example C77_shape_data :
  mx_ok (MxLogical [2; 3] [true; false; true; false; true; true]) /\ mx_ok (MxLogical [3; 2] [true; false; true; false; true; true]) /\
  mx_data (MxLogical [2; 3] [true; false; true; false; true; true]) <> mx_data (MxLogical [3; 2] [true; false; true; false; true; true]).
Proof.
  split; [|split].
  - split; [repeat (apply Forall_cons; [lia|]); apply Forall_nil|reflexivity].
  - split; [repeat (apply Forall_cons; [lia|]); apply Forall_nil|reflexivity].
  - vm_compute. discriminate.
Qed.

(** Values of a sparse logical array are read through a null pointer. *)
Theorem C77_sparse_logical_refuted : forall nr nc ir jc d g, sparse_ok nr nc ir jc d -> d <> [] ->
  nc + 1 < 2^32 -> Forall (fun i => i < 2^31) ir -> zlen ir < 2^31 -> fst (mx_to_GC (MxSparseL nr nc ir jc d) g) = Undef.
Proof.
  intros nr nc ir jc d g O N S1 S2 S3. cbn [mx_to_GC clear].
  pose proof (sparse_read nr nc ir jc d (fun _ => (Ok tt, GNone)) GNone O S1 S2 S3 eq_refl) as (E & _). unfold sparse_to_GC in *.
  destruct ((nc + 1 <? 2^32) && (zlen ir <? 2^32)); [|discriminate E]. cbv zeta in *.
  destruct (with_key "jc" (fun e => put_all GVInt (old_vint e) (map to_i32 jc)) _) as [[o| | |] g3]; try discriminate E.
  destruct (with_key "ir" (fun e => put_all GVInt (old_vint e) (map to_i32 ir)) g3) as [[o'| | |] g4]; try discriminate E.
  unfold with_key, sparse_logical. cbv zeta. destruct d; [easy|]. reflexivity.
Qed.

Example C77_read_ex :
  let a := MxStruct [1; 2] [("z"%string, [MxInt U32 [2; 2] [1; 2; 3; 2147483647]; MxChar "t"%string]); ("a"%string, [MxCell [2; 1] [MxNull; MxReal false [1; 1] [f_of_Z 7]]; MxSparse 9 1 [8] [0; 1] [f_of_Z 1]])] in
  mx_all mx_ok a /\ mx_all mx_node a /\
  mx_to_GC a (GStr "old"%string) = (Ok tt, GMap [("a"%string, GVec [GVec [GNone; GReal (f_of_Z 7)]; GMap [("ir"%string, GVInt [8]); ("jc"%string, GVInt [0; 1]); ("values"%string, GVReal [f_of_Z 1])]]);
    ("z"%string, GVec [GMInt (Mat 2 2 [1; 2; 3; 2147483647]); GStr "t"%string])]).
Proof.
  cbv zeta. split; [|split; [|vmc]].
  - apply mx_all_struct. split.
    + split; [every; lia|]. split; [|every; (split; [vm_compute; intuition discriminate|reflexivity])].
      repeat constructor; cbn; intuition discriminate.
    + apply Forall_cons; [apply Forall_cons; [|apply Forall_cons; [|apply Forall_nil]]|apply Forall_cons; [apply Forall_cons; [|apply Forall_cons; [|apply Forall_nil]]|apply Forall_nil]].
      * split; [|exact I]. split; [split; [every; lia|reflexivity]|]. every; unfold class_range; lia.
      * split; exact I.
      * apply mx_all_cell. split; [split; [every; lia|reflexivity]|]. apply Forall_cons; [split; exact I|]. apply Forall_cons; [|apply Forall_nil].
        split; [|exact I]. split; [apply one_dims|]. apply Forall_cons; [apply f_of_Z_exact; lia|apply Forall_nil].
      * split; [|exact I]. split; [|apply Forall_cons; [apply f_of_Z_exact; lia|apply Forall_nil]].
        split; [lia|]. split; [lia|]. split; [reflexivity|]. split; [reflexivity|]. split; [reflexivity|].
        split; [apply Forall_cons; [lia|apply Forall_nil]|]. change (zlen [8]) with 1. every; lia.
  - apply mx_all_struct. split.
    + split; [|exact I]. split; [every; lia|reflexivity].
    + apply Forall_cons; [apply Forall_cons; [|apply Forall_cons; [|apply Forall_nil]]|apply Forall_cons; [apply Forall_cons; [|apply Forall_cons; [|apply Forall_nil]]|apply Forall_nil]].
      * split; [|exact I]. split; [split; [every; lia|reflexivity]|]. split; [exact I|]. every; unfold fits_int; lia.
      * split; [|exact I]. vm_compute. intuition discriminate.
      * apply mx_all_cell. split; [split; [split; [every; lia|reflexivity]|right; lia]|]. apply Forall_cons; [split; exact I|]. apply Forall_cons; [|apply Forall_nil].
        split; [|exact I]. split; [apply one_small|exact I].
      * split; [|exact I]. split; [lia|]. split; [every; lia|reflexivity].
Qed.

(** * C78: writing *)
(** Containers without empty maps and without zero characters in text are always written, as
    proper arrays. *)
Theorem C78_written : forall g, wf g -> everywhere to_mx_node g -> exists m, GC_to_mx g = Ok m /\ mx_all mx_ok m.
Proof. intros g W N. destruct (write_ok g W N) as (m & E & O & _). now exists m. Qed.
(** The array has the data of the container when MATLAB can tell them apart. *)
Theorem C78_data_partial : forall g, wf g -> everywhere to_mx_node g -> everywhere mx_distinct g ->
  exists m, GC_to_mx g = Ok m /\ mx_all mx_ok m /\ mx_data m = data_of g.
Proof.
  intros g W N D. destruct (write_ok g W N) as (m & E & O & Nd & R). exists m. split; [exact E|]. split; [exact O|].
  destruct (read_ok m O Nd) as (r & R' & _ & Hr). specialize (R GNone). specialize (R' GNone). rewrite R in R'. injection R' as <-.
  rewrite <- Hr. now apply back_data.
Qed.
(** Class and size of the array, for each type. *)
Theorem C78_class : forall g m, wf g -> to_mx_node g -> GC_to_mx g = Ok m -> written_as g m.
Proof.
  assert (B : forall A (o : out A) (f : A -> mx) (P : mx -> Prop), (forall a, P (f a)) -> forall m, (do a <- o ; Ok (f a)) = Ok m -> P m).
  { intros A o f P H m E. destruct o as [a| | |]; try discriminate E. apply Ok_inj in E. subst m. apply H. }
  intros g m W N E.
  destruct g; cbn [GC_to_mx num_elements num_rows num_cols written_as to_mx_node] in *;
    try (apply Ok_inj in E; subst m; repeat split; reflexivity);
    try (rewrite zlen_u32 in E by (try apply N; assumption); revert m E; apply B; intros d; repeat split; reflexivity);
    try (revert m E; apply B; intros d; repeat split; reflexivity).
  destruct m0 as [|kv t]; [discriminate E|]. destruct (zlen (kv :: t) <? 2^31); [|discriminate E].
  revert m E. apply B. intros d. repeat split; reflexivity.
Qed.
(** Without that: one-element vectors are scalars, one-row matrices vectors, and the empty
    container is an empty matrix, as are pointers. *)
Theorem C78_alike_refuted :
  (forall x, GC_to_mx (GVReal [x]) = GC_to_mx (GReal x)) /\
  (forall b, GC_to_mx (GVBool [b]) = GC_to_mx (GBool b)) /\
  (forall p, GC_to_mx (GPtr p) = GC_to_mx GNone /\ GC_to_mx GNone = GC_to_mx (GMReal (Mat 0 0 []))) /\
  (GC_to_mx (GMReal (Mat 1 2 [0; 0])) = GC_to_mx (GVReal [0; 0])).
Proof. repeat split; reflexivity. Qed.
(** An empty map is undefined behaviour, wherever it stands alone in a sequence or as a value. *)
Theorem C78_empty_map_refuted : GC_to_mx (GMap []) = Undef /\ (forall k, GC_to_mx (GMap [(k, GMap [])]) = Undef) /\ GC_to_mx (GVec [GMap []]) = Undef.
Proof. repeat split; reflexivity. Qed.

Definition sample : gc :=
  GMap [("a"%string, GVec [GInt (-3); GVStr ["x"%string; "y z"%string]; GVec []]); ("b"%string, GMReal (Mat 2 2 [0; f_of_Z 1; f_of_Z 2; f_of_Z 3])); ("c"%string, GVLong [2^62; -1])].
Lemma sample_ok : wf sample /\ everywhere to_mx_node sample /\ everywhere mx_distinct sample.
Proof.
  split; [unfold sample; wfd|]. split.
  - unfold sample. apply everywhere_map. split; [split; [discriminate|split; [reflexivity|every; vm_compute; intuition discriminate]]|].
    apply Forall_cons; [|apply Forall_cons; [|apply Forall_cons; [|apply Forall_nil]]].
    + apply everywhere_vec. split; [reflexivity|]. apply Forall_cons; [split; exact I|apply Forall_cons; [|apply Forall_cons; [|apply Forall_nil]]].
      * split; [|exact I]. split; [reflexivity|every; vm_compute; intuition discriminate].
      * split; [reflexivity|exact I].
    + split; [reflexivity|exact I].
    + split; [reflexivity|exact I].
  - unfold sample. apply everywhere_map. split; [exact I|].
    apply Forall_cons; [|apply Forall_cons; [|apply Forall_cons; [|apply Forall_nil]]].
    + apply everywhere_vec. split; [exact I|]. apply Forall_cons; [split; exact I|apply Forall_cons; [|apply Forall_cons; [|apply Forall_nil]]]; split; exact I.
    + split; [cbn [mx_distinct snd mrows]; lia|exact I].
    + split; [discriminate|exact I].
Qed.
Example C78_ex : GC_to_mx sample = Ok (MxStruct [1; 1]
  [("a"%string, [MxCell [1; 3] [MxInt I64 [1; 1] [-3]; MxCell [1; 2] [MxChar "x"%string; MxChar "y z"%string]; MxCell [1; 0] []]]);
   ("b"%string, [MxReal false [2; 2] [0; f_of_Z 1; f_of_Z 2; f_of_Z 3]]); ("c"%string, [MxInt I64 [1; 2] [2^62; -1]])]).
Proof. vmc. Qed.

(** * C79: there and back *)
(** What comes back, exactly: integers as long integers, vectors of strings and of booleans as
    sequences, and the things MATLAB does not distinguish as the other of the two. *)
Theorem C79_exact : forall g, wf g -> everywhere to_mx_node g ->
  exists m, GC_to_mx g = Ok m /\ forall h, mx_to_GC m h = (Ok tt, mx_back g).
Proof. intros g W N. destruct (write_ok g W N) as (m & E & _ & _ & R). now exists m. Qed.
Theorem C79_data_partial : forall g, wf g -> everywhere to_mx_node g -> everywhere mx_distinct g ->
  exists m, GC_to_mx g = Ok m /\ forall h, exists r, mx_to_GC m h = (Ok tt, r) /\ wf r /\ data_of r = data_of g.
Proof.
  intros g W N D. destruct (write_ok g W N) as (m & E & O & Nd & R). exists m. split; [exact E|]. intros h. exists (mx_back g).
  destruct (read_ok m O Nd) as (r & R' & Wr & _). pose proof (R' GNone) as E'. rewrite (R GNone) in E'. injection E' as <-.
  split; [apply R|]. split; [exact Wr|]. now apply back_data.
Qed.
(** Whatever was lost was lost at once: writing what came back and reading it again changes no
    data any more. *)
Theorem C79_twice : forall g m r h, wf g -> everywhere to_mx_node g -> GC_to_mx g = Ok m -> mx_to_GC m h = (Ok tt, r) ->
  exists m', GC_to_mx r = Ok m' /\ forall h', exists r', mx_to_GC m' h' = (Ok tt, r') /\ data_of r' = data_of r.
Proof.
  intros g m r h W N E R. destruct (write_ok g W N) as (m0 & E0 & O & Nd & R0). rewrite E in E0. apply Ok_inj in E0. subst m0.
  destruct (read_ok m O Nd) as (r1 & R1 & Wr & _). specialize (R1 h). rewrite (R0 h) in R1. injection R1 as <-.
  rewrite (R0 h) in R. injection R as <-. destruct (again_back g W N) as (A1 & A2).
  destruct (C79_data_partial (mx_back g) Wr A1 A2) as (m' & E' & R'). exists m'. split; [exact E'|]. intros h'.
  destruct (R' h') as (r' & Rr & _ & D). now exists r'.
Qed.
Theorem C79_alike_refuted : forall x h, exists m, GC_to_mx (GVReal [x]) = Ok m /\ mx_to_GC m h = (Ok tt, GReal x) /\
  data_of (GReal x) <> data_of (GVReal [x]).
Proof. intros x h. exists (MxReal false [1; 1] [x]). split; [reflexivity|]. split; [reflexivity|]. cbn [data_of map]. unfold d_real. discriminate. Qed.
Example C79_ex : exists m, GC_to_mx sample = Ok m /\ mx_to_GC m GNone = (Ok tt,
  GMap [("a"%string, GVec [GLong (-3); GVec [GStr "x"%string; GStr "y z"%string]; GVec []]); ("b"%string, GMReal (Mat 2 2 [0; f_of_Z 1; f_of_Z 2; f_of_Z 3])); ("c"%string, GVLong [2^62; -1])]).
Proof. eexists. split; [exact C78_ex|vmc]. Qed.

(** * C80: the functions for single values *)
(** Scalars and text come back as they were (integers as long integers). *)
Theorem C80_scalars : forall h,
  (forall b, mx_to_GC (to_mx_bool b) h = (Ok tt, GBool b)) /\
  (forall i, int32 i -> mx_to_GC (to_mx_int i) h = (Ok tt, GLong i)) /\
  (forall l, int64 l -> mx_to_GC (to_mx_long l) h = (Ok tt, GLong l)) /\
  (forall x, mx_to_GC (to_mx_real x) h = (Ok tt, GReal x)) /\
  (forall c, mx_to_GC (to_mx_complex c) h = (Ok tt, GComplex c)) /\
  (forall s, no_nul s -> mx_to_GC (to_mx_string s) h = (Ok tt, GStr s)).
Proof.
  intros h. split; [reflexivity|]. split; [|split; [|split; [reflexivity|split; [reflexivity|]]]].
  - intros i Hi. unfold to_mx_int. rewrite int64_slot_id by now apply int32_int64.
    change (mx_to_GC (MxInt I64 [1; 1] [i]) h) with (@Ok unit tt, GLong (to_i64 i)). now rewrite to_i64_id by now apply int32_int64.
  - intros l Hl. change (mx_to_GC (to_mx_long l) h) with (@Ok unit tt, GLong (to_i64 l)). now rewrite to_i64_id.
  - intros s Hs. unfold to_mx_string. cbn. rewrite (cstr_id s Hs), (cstr_id s Hs). reflexivity.
Qed.

Lemma col_dims {A} (v : list A) : dims_ok [zlen v; 1] v.
Proof. split; [|rewrite numel2; lia]. repeat (apply Forall_cons; [pose proof (zlen_nonneg v); lia|]). apply Forall_nil. Qed.
Lemma col_small {A} (v : list A) : zlen v < 2^32 -> small_dims [zlen v; 1].
Proof. intros H. split; [|rewrite numel2; lia]. repeat (apply Forall_cons; [lia|]). apply Forall_nil. Qed.
Lemma shaped_col {A} one vec mtx (v : list A) : zlen v <> 1 -> shaped one vec mtx [zlen v; 1] v = mtx (Mat (zlen v) 1 v).
Proof.
  intros N. unfold shaped. rewrite (proj2 (Z.eqb_neq _ _) N). destruct v as [|x [|y v]]; try reflexivity. now destruct N.
Qed.
(** Vectors of numbers become columns and come back as matrices with one column; vectors of
    strings and of booleans come back as sequences. *)
Theorem C80_vectors : forall h,
  (forall v, zlen v < 2^32 -> zlen v <> 1 -> Forall int32 v -> mx_to_GC (to_mx_vint v) h = (Ok tt, GMInt (Mat (zlen v) 1 v))) /\
  (forall v, zlen v < 2^32 -> zlen v <> 1 -> Forall int64 v -> mx_to_GC (to_mx_vlong v) h = (Ok tt, GMLong (Mat (zlen v) 1 v))) /\
  (forall v, zlen v < 2^32 -> zlen v <> 1 -> mx_to_GC (to_mx_vreal v) h = (Ok tt, GMReal (Mat (zlen v) 1 v))) /\
  (forall v, zlen v < 2^32 -> zlen v <> 1 -> mx_to_GC (to_mx_vcomplex v) h = (Ok tt, GMComplex (Mat (zlen v) 1 v))) /\
  (forall v, zlen v < 2^32 -> zlen v <> 1 -> mx_to_GC (to_mx_vbool v) h = (Ok tt, GVec (map GBool v))) /\
  (forall v, zlen v < 2^32 -> Forall no_nul v -> mx_to_GC (to_mx_vstr v) h = (Ok tt, GVec (map GStr v))).
Proof.
  intros h. split; [|split; [|split; [|split; [|split]]]]; intros v S.
  - intros N F. unfold to_mx_vint. rewrite <- (shaped_col GInt GVInt GMInt v N). apply reads_int; [reflexivity|apply col_dims|now apply col_small|assumption].
  - intros N F. unfold to_mx_vlong. rewrite <- (shaped_col GLong GVLong GMLong v N). apply reads_long; [reflexivity|apply col_dims|now apply col_small|assumption].
  - intros N. rewrite <- (shaped_col GReal GVReal GMReal v N). apply vec_real_ok; [apply col_dims|now apply col_small].
  - intros N. rewrite <- (shaped_col GComplex GVComplex GMComplex v N). apply vec_complex_ok; [apply col_dims|now apply col_small].
  - intros N. change (mx_to_GC (to_mx_vbool v) h) with (mx_to_vec_bool v). rewrite vec_bool_ok by assumption.
    destruct v as [|x [|y v]]; try reflexivity. now destruct N.
  - intros K. unfold to_mx_vstr. rewrite mx_cell, zlen_map', zlen_u32 by assumption.
    rewrite <- (zlen_map' (fun s => MxChar (cstr s))). rewrite (mx_cells_ok _ (map GStr v)); [reflexivity|].
    clear - K. induction K as [|s v Hs _ IH]; [apply Forall2_nil|]. cbn [map]. apply Forall2_cons; [|exact IH].
    intros h. cbn. rewrite (cstr_id s Hs), (cstr_id s Hs). reflexivity.
Qed.
(** Matrices with more than one row come back as they were. *)
Theorem C80_matrices : forall h,
  (forall m, wf_mat int32 m -> mrows m * mcols m < 2^32 -> mrows m <> 1 -> exists a, to_mx_mint m = Ok a /\ mx_to_GC a h = (Ok tt, GMInt m)) /\
  (forall m, wf_mat int64 m -> mrows m * mcols m < 2^32 -> mrows m <> 1 -> exists a, to_mx_mlong m = Ok a /\ mx_to_GC a h = (Ok tt, GMLong m)) /\
  (forall m, wf_mat f64 m -> mrows m * mcols m < 2^32 -> mrows m <> 1 -> exists a, to_mx_mreal m = Ok a /\ mx_to_GC a h = (Ok tt, GMReal m)) /\
  (forall m, wf_mat fc m -> mrows m * mcols m < 2^32 -> mrows m <> 1 -> exists a, to_mx_mcomplex m = Ok a /\ mx_to_GC a h = (Ok tt, GMComplex m)).
Proof.
  assert (SM : forall A (one : A -> gc) vec mtx m, zlen (mdata m) = mrows m * mcols m -> 0 <= mrows m -> 0 <= mcols m -> mrows m <> 1 ->
    shaped one vec mtx [mrows m; mcols m] (mdata m) = mtx m).
  { intros A one vec mtx [r c d] L H1 H2 N. cbn [mrows mcols mdata] in *. unfold shaped. rewrite (proj2 (Z.eqb_neq _ _) N).
    destruct d as [|x [|y d]]; try reflexivity. change (zlen [x]) with 1 in L. symmetry in L. apply Z.eq_mul_1 in L. lia. }
  intros h. split; [|split; [|split]]; intros m W S N; destruct (mat_dims _ m W S) as (D1 & D2 & D3 & D4 & D5 & D6); eexists.
  - split; [unfold to_mx_mint; rewrite read_entries_all; try assumption; reflexivity|].
    rewrite <- (SM _ GInt GVInt GMInt m); try assumption; try lia. now apply reads_int.
  - split; [unfold to_mx_mlong; rewrite read_entries_all; try assumption; reflexivity|].
    rewrite <- (SM _ GLong GVLong GMLong m); try assumption; try lia. now apply reads_long.
  - split; [unfold to_mx_mreal; rewrite read_entries_all; try assumption; reflexivity|].
    rewrite <- (SM _ GReal GVReal GMReal m); try assumption; try lia. now apply vec_real_ok.
  - split; [unfold to_mx_mcomplex; rewrite read_entries_all; try assumption; reflexivity|].
    rewrite <- (SM _ GComplex GVComplex GMComplex m); try assumption; try lia. now apply vec_complex_ok.
Qed.
(** Class and size of the arrays. *)
Theorem C80_class :
  (forall b, is_array CLogical false [1; 1] (to_mx_bool b)) /\
  (forall i, is_array (CInteger I64) false [1; 1] (to_mx_int i)) /\
  (forall l, is_array (CInteger I64) false [1; 1] (to_mx_long l)) /\
  (forall x, is_array CDouble false [1; 1] (to_mx_real x)) /\
  (forall c, is_array CDouble true [1; 1] (to_mx_complex c)) /\
  (forall s, mx_class (to_mx_string s) = CText) /\
  (forall v, is_array CLogical false [zlen v; 1] (to_mx_vbool v)) /\
  (forall v, is_array (CInteger I32) false [zlen v; 1] (to_mx_vint v)) /\
  (forall v, is_array (CInteger I64) false [zlen v; 1] (to_mx_vlong v)) /\
  (forall v, is_array CDouble false [zlen v; 1] (to_mx_vreal v)) /\
  (forall v, is_array CDouble true [zlen v; 1] (to_mx_vcomplex v)) /\
  (forall v, is_array CCell false [zlen v; 1] (to_mx_vstr v)) /\
  (forall m a, to_mx_mint m = Ok a -> is_array (CInteger I32) false [mrows m; mcols m] a) /\
  (forall m a, to_mx_mlong m = Ok a -> is_array (CInteger I64) false [mrows m; mcols m] a) /\
  (forall m a, to_mx_mreal m = Ok a -> is_array CDouble false [mrows m; mcols m] a) /\
  (forall m a, to_mx_mcomplex m = Ok a -> is_array CDouble true [mrows m; mcols m] a).
Proof.
  assert (B : forall A (o : out A) (f : A -> mx) (P : mx -> Prop), (forall a, P (f a)) -> forall m, (do a <- o ; Ok (f a)) = Ok m -> P m).
  { intros A o f P H m E. destruct o as [a| | |]; try discriminate E. apply Ok_inj in E. subst m. apply H. }
  repeat match goal with |- _ /\ _ => split end; intros; repeat split; try reflexivity;
    match goal with H : _ = Ok ?a |- _ => revert a H; apply B; intros d; reflexivity end.
Qed.
(** The same vector given to the two functions is a column for one and a row for the other, so
    it does not come back as the same container. *)
Theorem C80_orientation_refuted : forall x y h, 
  (exists m, GC_to_mx (GVReal [x; y]) = Ok m /\ mx_to_GC m h = (Ok tt, GVReal [x; y])) /\
  mx_to_GC (to_mx_vreal [x; y]) h = (Ok tt, GMReal (Mat 2 1 [x; y])) /\
  data_of (GMReal (Mat 2 1 [x; y])) <> data_of (GVReal [x; y]).
Proof.
  intros x y h. split; [exists (MxReal false [1; 2] [x; y]); split; reflexivity|]. split; [reflexivity|]. cbn [data_of]. unfold d_mat. cbn. discriminate.
Qed.
Example C80_ex : wf_mat int32 (Mat 2 3 [1; 2; 3; 4; 5; 6]) /\ to_mx_mint (Mat 2 3 [1; 2; 3; 4; 5; 6]) = Ok (MxInt I32 [2; 3] [1; 2; 3; 4; 5; 6]) /\
  to_mx_vint [4; 5] = MxInt I32 [2; 1] [4; 5].
Proof.
  split; [|vmc]. split; [unfold uint32; cbn [mrows]; lia|]. split; [unfold uint32; cbn [mcols]; lia|]. split; [reflexivity|].
  cbn [mdata]. repeat (apply Forall_cons; [unfold int32; lia|]). apply Forall_nil.
Qed.

Print Assumptions C77_read_partial.
Print Assumptions C77_kinds.
Print Assumptions C77_unsigned_refuted.
Print Assumptions C77_unsigned64_refuted.
Print Assumptions C77_dropped_refuted.
Print Assumptions C77_shape_refuted.
Print Assumptions C77_sparse_logical_refuted.
Print Assumptions C78_written.
Print Assumptions C78_data_partial.
Print Assumptions C78_class.
Print Assumptions C78_alike_refuted.
Print Assumptions C78_empty_map_refuted.
Print Assumptions C79_exact.
Print Assumptions C79_data_partial.
Print Assumptions C79_twice.
Print Assumptions C79_alike_refuted.
Print Assumptions C80_scalars.
Print Assumptions C80_vectors.
Print Assumptions C80_matrices.
Print Assumptions C80_class.
Print Assumptions C80_orientation_refuted.
