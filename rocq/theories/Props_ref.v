(** C70-C72: the non-const getters, whose results are references into the container. *)
From Coq Require Import ZArith Bool Lia Ascii String List.
From Verif Require Import Base F64 StrMap Value MBasic MGet SGet LGet MMap LMap MMat MPromote SPromote LPromote
  Props_promote MRef SRef LRef WfDec.
Import ListNotations.
Local Open Scope Z_scope.

(** ** C70: c.get_T_at(i) = x *)

(** On a container whose type is in [ts] storing [x] at [i] gives a typed vector of type [t];
    any other vector becomes a generic one; matrices and maps are left alone by an exception.
    Full statement: also other scalars become a vector.  For these the promotion to a generic
    vector is undefined (C26). *)
Definition stores {A} (r : Z -> gc -> refr A) (k : A -> gc) (d : A) (t : tag) (ts : list tag) : Prop :=
  forall i x g, 0 <= i < 2^32 - 1 -> wf g -> sized g ->
    (In (tag_of g) ts ->
       exists g', rwrite x (r i g) = (Ok tt, g') /\ tag_of g' = t /\ stored_at i (k x) (k d) (elems g) (elems g')) /\
    (~ In (tag_of g) ts -> vec_tag (tag_of g) \/ tag_of g = TVec ->
       exists v, rwrite x (r i g) = (Ok tt, GVec v) /\ stored_at i (k x) GNone (elems g) v) /\
    (In (tag_of g) [TMInt; TMLong; TMReal; TMComplex; TMap] -> rwrite x (r i g) = (Throw, g)) /\
    (~ In (tag_of g) ts -> scalar_tag (tag_of g) -> fst (rwrite x (r i g)) = Undef).

Ltac no_tag H := exfalso; unfold vec_tag, scalar_tag in H; cbn [tag_of In] in H; intuition discriminate.
Ltac is_tag N := exfalso; apply N; cbn [tag_of In app]; tauto.
Ltac fresh_vec :=
  try change (set_vint_sz 0 GNone) with (GVInt []); try change (set_vlong_sz 0 GNone) with (GVLong []);
  try change (set_vreal_sz 0 GNone) with (GVReal []); try change (set_vcomplex_sz 0 GNone) with (GVComplex []).
Ltac do_stores defs :=
  intros i x g Hi Hw Hs; unfold sized in Hs;
  destruct g; cbn [elems wf] in *;
  (split; [|split; [|split]];
   [ intros HIn; try (no_tag HIn); clear HIn; defs;
     try (rewrite promote_elems_ok by (eapply sized_map; eassumption));
     cbn [after]; fresh_vec; defs;
     rewrite grow_write by assumption; (eexists; split; [reflexivity | split; [reflexivity|]]);
     cbn [elems]; apply stored_grow; first [assumption | apply Forall2_nil | sn]
   | intros N HIn; try (no_tag HIn); try (is_tag N); clear N HIn; defs;
     erewrite vslot_write by first
       [ assumption | (cbn [promote_to_vector]; apply promote_elems_ok; eapply sized_map; eassumption) | reflexivity ];
     (eexists; split; [reflexivity|]); apply stored_slot; assumption
   | intros HIn; try (no_tag HIn); reflexivity
   | intros N HIn; try (no_tag HIn); try (is_tag N); reflexivity ]).
Ltac unf := cbn [ref_int_at ref_long_at ref_real_at ref_complex_at ref_string_at
  promote_to_vec_int promote_to_vec_long promote_to_vec_real promote_to_vec_complex
  vint_at vlong_at vreal_at vcomplex_at].

Theorem C70_store_partial :
  stores ref_int_at GInt 0 TVInt [TNone; TBool; TInt; TVBool; TVInt] /\
  stores ref_long_at GLong 0 TVLong [TNone; TBool; TInt; TLong; TVBool; TVInt; TVLong] /\
  stores ref_real_at GReal 0 TVReal [TNone; TVBool; TVInt; TVLong; TVReal] /\
  stores ref_complex_at GComplex (0, 0) TVComplex [TNone; TVBool; TVInt; TVLong; TVReal; TVComplex] /\
  stores ref_string_at GStr EmptyString TVStr [TNone; TVStr].
Proof.
  split; [|split; [|split; [|split]]]; do_stores unf.
Qed.

(** Storing into a typed vector past 2^32 - 2: the size wraps to 0 and the write goes past the
    end, for every vector. *)
Theorem C70_last_index_refuted : forall v x, zlen v < 2^32 ->
  fst (rwrite x (ref_int_at (2^32 - 1) (GVInt v))) = Undef.
Proof.
  intros v x H. cbn [ref_int_at vint_at]. unfold grow_ref, check_resize.
  destruct (Z.leb_spec (zlen v) (2^32 - 1)) as [L|L]; [|lia]. reflexivity.
Qed.

(** The references to scalars: storing needs an empty container or one of the same type. *)
Definition stores_scalar {A} (w : A -> gc -> out unit * gc) (k : A -> gc) (t : tag) : Prop :=
  forall x g,
    (g = GNone \/ tag_of g = t -> w x g = (Ok tt, k x)) /\
    (g <> GNone -> tag_of g <> t -> w x g = (Throw, g)).
Theorem C70_scalars :
  stores_scalar (fun x g => swrite x (ref_bool g)) GBool TBool /\
  stores_scalar (fun x g => swrite x (ref_int g)) GInt TInt /\
  stores_scalar (fun x g => swrite x (ref_long g)) GLong TLong /\
  stores_scalar (fun x g => swrite x (ref_real g)) GReal TReal /\
  stores_scalar (fun x g => rwrite x (ref_complex g)) GComplex TComplex /\
  stores_scalar (fun x g => rwrite x (ref_string g)) GStr TStr.
Proof.
  repeat apply conj; intros x g; (split; [intros [->|H]; [reflexivity|] | intros N H]);
    destruct g; first [discriminate | reflexivity | contradiction | (now contradiction H)].
Qed.

Example C70_example :
  wf (GVReal [f_half]) /\ sized (GVReal [f_half]) /\
  rwrite 7 (ref_int_at 2 (GVBool [true])) = (Ok tt, GVInt [1; 0; 7]) /\
  rwrite 7 (ref_int_at 2 (GVReal [f_half])) = (Ok tt, GVec [GReal f_half; GNone; GInt 7]) /\
  stored_at 2 (GInt 7) (GInt 0) [GBool true] [GInt 1; GInt 0; GInt 7].
Proof.
  split; [wfd|]. split; [reflexivity|]. split; [reflexivity|]. split; [reflexivity|].
  apply (stored_grow GInt 0 2 [1] 7 [GBool true]); [lia|]. constructor; [apply (sn_b_i true)|constructor].
Qed.

(** ** C71: reading through a non-const getter *)

(** On a container whose type is in [ts] and which has an [i]-th element, reading it shows
    that number, and the container still holds all its numbers (perhaps as another type).
    Full statement: for every container. *)
Definition reads {A} (r : Z -> gc -> refr A) (k : A -> gc) (t : tag) (ts : list tag) : Prop :=
  forall i g e, wf g -> sized g -> In (tag_of g) ts -> znth i (elems g) = Some e ->
    exists a g', rread (r i g) = (Ok a, g') /\ same_num e (k a) /\ promoted t g g'.

Lemma reads_intro {A} (k : A -> gc) (mk : list A -> gc) (t : tag) d i g e v :
  (forall v, tag_of (mk v) = t /\ elems (mk v) = map k v) ->
  Forall2 same_num (elems g) (map k v) -> znth i (elems g) = Some e ->
  exists a g', rread (grow_ref mk d i v) = (Ok a, g') /\ same_num e (k a) /\ promoted t g g'.
Proof.
  intros M F E. destruct (znth_same _ _ _ _ F E) as (x & Ex & S). rewrite znth_map in Ex.
  destruct (znth i v) as [a|] eqn:Ea; cbn in Ex; [|discriminate]. injection Ex as <-.
  exists a, (mk v). split; [now apply grow_read|]. split; [assumption|]. destruct (M v) as [T L]. split; [assumption|].
  now rewrite L.
Qed.
Ltac do_reads defs :=
  intros i g e Hw Hs HIn E; unfold sized in Hs;
  destruct g; cbn [elems wf] in *; try (no_tag HIn); clear HIn; defs;
  try (rewrite promote_elems_ok by (eapply sized_map; eassumption));
  cbn [after]; fresh_vec; defs;
  (eapply reads_intro; [intros; split; reflexivity | cbn [elems] | eassumption]); sn.
Theorem C71_read_partial :
  reads ref_bool_at GBool TVBool [TVBool] /\
  reads ref_int_at GInt TVInt [TBool; TInt; TVBool; TVInt] /\
  reads ref_long_at GLong TVLong [TBool; TInt; TLong; TVBool; TVInt; TVLong] /\
  reads ref_real_at GReal TVReal [TVBool; TVInt; TVLong; TVReal] /\
  reads ref_complex_at GComplex TVComplex [TVBool; TVInt; TVLong; TVReal; TVComplex] /\
  reads ref_string_at GStr TVStr [TVStr].
Proof.
  repeat apply conj; do_reads ltac:(cbn [ref_bool_at]; unf).
Qed.

(** The element of any other vector, read through the non-const getter, is lost: it shows the
    default value, and this is what the container holds afterwards. *)
Definition wipes {A} (r : Z -> gc -> refr A) (k : A -> gc) (d : A) (ts : list tag) : Prop :=
  forall i g, 0 <= i < 2^32 - 1 -> sized g -> ~ In (tag_of g) ts ->
    vec_tag (tag_of g) \/ tag_of g = TVec ->
    exists v, rread (r i g) = (Ok d, GVec v) /\ stored_at i (k d) GNone (elems g) v.
Lemma vslot_read {A} (k : A -> gc) (d : A) i g v : 0 <= i < 2^32 - 1 ->
  (match g with GVec _ => (Ok tt, g) | _ => promote_to_vector g end) = (Ok tt, GVec v) ->
  rread (vslot k d i g) = (Ok d, GVec (lset (Z.to_nat i) (k d) (check_resize GNone i v))).
Proof.
  intros Hi E. unfold vslot. rewrite E. cbn [after]. destruct (grow_at GNone i v Hi) as [a ->]. reflexivity.
Qed.
Theorem C71_wiped_refuted :
  wipes ref_bool_at GBool false [TVBool] /\
  wipes ref_int_at GInt 0 [TVBool; TVInt] /\
  wipes ref_long_at GLong 0 [TVBool; TVInt; TVLong] /\
  wipes ref_real_at GReal 0 [TVBool; TVInt; TVLong; TVReal] /\
  wipes ref_complex_at GComplex (0, 0) [TVBool; TVInt; TVLong; TVReal; TVComplex] /\
  wipes ref_string_at GStr EmptyString [TVStr].
Proof.
  repeat apply conj; intros i g Hi Hs N HIn; unfold sized in Hs; destruct g; try (no_tag HIn); try (is_tag N);
    cbn [elems] in *; cbn [ref_bool_at]; unf;
    (erewrite vslot_read by first
       [ assumption | (cbn [promote_to_vector]; apply promote_elems_ok; eapply sized_map; eassumption) | reflexivity ]);
    (eexists; split; [reflexivity|]); apply stored_slot; assumption.
Qed.

(** Reading past the end grows the vector up to there with zeros. *)
Definition grows {A} (r : Z -> gc -> refr A) (mk : list A -> gc) (k : A -> gc) (d : A) : Prop :=
  forall v i, zlen v <= i < 2^32 - 1 ->
    exists w, rread (r i (mk v)) = (Ok d, mk w) /\ zlen w = i + 1 /\
      stored_at i (k d) (k d) (map k v) (map k w).
Lemma grow_past {A} (mk : list A -> gc) (k : A -> gc) (d : A) v i : zlen v <= i < 2^32 - 1 ->
  exists w, rread (grow_ref mk d i v) = (Ok d, mk w) /\ zlen w = i + 1 /\
    stored_at i (k d) (k d) (map k v) (map k w).
Proof.
  intros Hi. pose proof (zlen_nonneg v). unfold grow_ref.
  rewrite grow_get by lia. rewrite (proj2 (znth_none i v)) by lia.
  rewrite (proj2 (Z.leb_le 0 i)), Z.leb_refl by lia. cbn [andb rread].
  eexists. split; [reflexivity|]. split.
  - rewrite lset_zlen. destruct (check_resize_grow d i v) as [_ ->]; lia.
  - apply stored_grow; [lia|]. apply same_nums_refl.
Qed.
Theorem C71_past_end_refuted :
  grows ref_bool_at GVBool GBool false /\ grows ref_int_at GVInt GInt 0 /\
  grows ref_long_at GVLong GLong 0 /\ grows ref_real_at GVReal GReal 0 /\
  grows ref_complex_at GVComplex GComplex (0, 0) /\ grows ref_string_at GVStr GStr EmptyString.
Proof. repeat apply conj; intros v i Hi; cbn [ref_bool_at]; unf; now apply grow_past. Qed.

(** get_bool(), get_int(), ... without index. *)
Definition reads_scalar {A} (w : gc -> out A * gc) (k : A -> gc) (t : tag) : Prop :=
  (forall x, w (k x) = (Ok x, k x)) /\ (forall g, g <> GNone -> tag_of g <> t -> w g = (Throw, g)).
Theorem C71_scalars :
  reads_scalar (fun g => sread (ref_bool g)) GBool TBool /\
  reads_scalar (fun g => sread (ref_int g)) GInt TInt /\
  reads_scalar (fun g => sread (ref_long g)) GLong TLong /\
  reads_scalar (fun g => sread (ref_real g)) GReal TReal /\
  reads_scalar (fun g => rread (ref_complex g)) GComplex TComplex /\
  reads_scalar (fun g => rread (ref_string g)) GStr TStr.
Proof.
  repeat apply conj; try reflexivity; intros g N H; destruct g; first [contradiction | reflexivity].
Qed.
(** On an empty container the scalar getters return uninitialised memory. *)
Theorem C71_empty_refuted :
  fst (sread (ref_bool GNone)) = Undef /\ fst (sread (ref_int GNone)) = Undef /\
  fst (sread (ref_long GNone)) = Undef /\ fst (sread (ref_real GNone)) = Undef.
Proof. repeat split. Qed.

(** The getters of whole vectors and matrices: a container whose type is in [ts] is promoted
    and shown; for any other type except those in [odd] the call throws and changes nothing. *)
Definition shows_whole {A B} (r : gc -> refr B) (data : B -> list A) (k : A -> gc) (t : tag) (ts odd : list tag) : Prop :=
  forall g, wf g -> sized g ->
    (In (tag_of g) ts ->
       exists v g', rread (r g) = (Ok v, g') /\ promoted t g g' /\ elems g' = map k (data v)) /\
    (~ In (tag_of g) (ts ++ odd) -> rread (r g) = (Throw, g)).
Ltac do_shows defs :=
  intros g Hw Hs; unfold sized in Hs; destruct g; cbn [elems wf] in *;
  (split;
   [ intros HIn; try (no_tag HIn); clear HIn; defs;
     try (rewrite promote_elems_ok by (eapply sized_map; eassumption));
     try (rewrite promote_col_ok by (eapply sized_map; eassumption));
     try (erewrite promote_mat_ok by eassumption);
     cbn [after]; do 2 eexists; (split; [reflexivity | split; [split; [reflexivity|] | first [reflexivity | (cbn [elems]; symmetry; apply map_id)]]]);
     cbn [elems mdata];
     try (match goal with H : wf_mat _ _ |- _ => destruct H as (_ & _ & _ & H) end);
     first [apply Forall2_nil | sn]
   | try (intros _; reflexivity); intros N; is_tag N ]).
Ltac whole := unfold ref_vec_int, ref_vec_long, ref_vec_real, ref_vec_complex,
  ref_mat_int, ref_mat_long, ref_mat_real, ref_mat_complex,
  promote_to_vec_int, promote_to_vec_long, promote_to_vec_real, promote_to_vec_complex,
  promote_to_mat_int, promote_to_mat_long, promote_to_mat_real, promote_to_mat_complex.
Theorem C71_vectors :
  shows_whole ref_vec_bool (fun v => v) GBool TVBool [TVBool] [] /\
  shows_whole ref_vec_int (fun v => v) GInt TVInt [TNone; TVBool; TVInt] [] /\
  shows_whole ref_vec_long (fun v => v) GLong TVLong [TNone; TVBool; TVInt; TVLong] [] /\
  shows_whole ref_vec_real (fun v => v) GReal TVReal [TNone; TVBool; TVInt; TVLong; TVReal] [] /\
  shows_whole ref_vec_complex (fun v => v) GComplex TVComplex [TNone; TVBool; TVInt; TVLong; TVReal; TVComplex] [] /\
  shows_whole ref_vec_string (fun v => v) GStr TVStr [TVStr] [] /\
  shows_whole ref_vec_pointer (fun v => v) GPtr TVPtr [TVPtr] [] /\
  shows_whole ref_vector (fun v => v) (fun e => e) TVec [TVec] [].
Proof.
  repeat apply conj; do_shows ltac:(whole).
Qed.

(** The same for matrices; vectors become one column. *)
Definition shows_mat {A} (r : gc -> refr (mat A)) (k : A -> gc) (t : tag) (ts odd : list tag) : Prop :=
  forall g, wf g -> sized g -> g <> GNone ->
    (In (tag_of g) ts ->
       exists m g', rread (r g) = (Ok m, g') /\ mat_promoted t g g' /\
         elems g' = map k (mdata m) /\ shape g' (mrows m) (mcols m)) /\
    (~ In (tag_of g) (ts ++ odd) -> rread (r g) = (Throw, g)).
Ltac do_shows_mat defs :=
  intros g Hw Hs Hn; unfold sized in Hs; destruct g; try congruence; cbn [elems wf] in *;
  (split;
   [ intros HIn; try (no_tag HIn); clear HIn; defs;
     try (rewrite promote_col_ok by (eapply sized_map; eassumption));
     try (erewrite promote_mat_ok by eassumption);
     cbn [after]; do 2 eexists;
     (split; [reflexivity |
      split; [split; [split; [reflexivity|] | cbn; rewrite ?zlen_map; split; reflexivity] |
      split; [reflexivity | split; reflexivity]]]);
     cbn [elems mdata];
     try (match goal with H : wf_mat _ _ |- _ => destruct H as (_ & _ & _ & H) end); sn
   | try (intros _; reflexivity); intros N; is_tag N ]).
Theorem C71_matrices_partial :
  shows_mat ref_mat_int GInt TMInt [TMInt] [TVBool; TVInt] /\
  shows_mat ref_mat_long GLong TMLong [TVInt; TVLong; TMInt; TMLong] [TVBool] /\
  shows_mat ref_mat_real GReal TMReal [TVBool; TVInt; TVLong; TVReal; TMInt; TMLong; TMReal] [] /\
  shows_mat ref_mat_complex GComplex TMComplex [TMReal; TMComplex] [TVBool; TVInt; TVLong; TVReal] /\
  rread (ref_mat_int GNone) = (Ok (Mat 0 0 []), GMInt (Mat 0 0 [])) /\
  rread (ref_mat_long GNone) = (Ok (Mat 0 0 []), GMLong (Mat 0 0 [])) /\
  rread (ref_mat_real GNone) = (Ok (Mat 0 0 []), GMReal (Mat 0 0 [])) /\
  rread (ref_mat_complex GNone) = (Ok (Mat 0 0 []), GMComplex (Mat 0 0 [])).
Proof.
  split; [|split; [|split; [|split; [|repeat split]]]]; do_shows_mat ltac:(whole).
Qed.
(** Some vectors are promoted through a pointer of the wrong type (C25), and a vector of bools
    asked for as a matrix of longs throws but has become a matrix of reals. *)
Theorem C71_matrices_refuted :
  (forall g, elems g <> [] -> In (tag_of g) [TVBool; TVInt] -> fst (rread (ref_mat_int g)) = Undef) /\
  (forall g, elems g <> [] -> In (tag_of g) [TVBool; TVInt; TVLong; TVReal] -> fst (rread (ref_mat_complex g)) = Undef) /\
  (forall v, zlen v < 2^32 -> exists g', rread (ref_mat_long (GVBool v)) = (Throw, g') /\ tag_of g' = TMReal).
Proof.
  split; [|split].
  - intros g N HIn. destruct g; try (no_tag HIn); destruct v; first [exfalso; now apply N | reflexivity].
  - intros g N HIn. destruct g; try (no_tag HIn); destruct v; first [exfalso; now apply N | reflexivity].
  - intros v H. whole. rewrite promote_col_ok by assumption. cbn [after]. eexists. split; reflexivity.
Qed.

Example C71_example :
  wf (GVLong [2^40; 5]) /\ sized (GVLong [2^40; 5]) /\
  rread (ref_real_at 1 (GVLong [2^40; 5])) = (Ok (f_of_Z 5), GVReal [f_of_Z (2^40); f_of_Z 5]) /\
  rread (ref_int_at 0 (GVec [GStr "lost"])) = (Ok 0, GVec [GInt 0]) /\
  rread (ref_mat_real (GVInt [4; 5])) = (Ok (Mat 2 1 [f_of_Z 4; f_of_Z 5]), GMReal (Mat 2 1 [f_of_Z 4; f_of_Z 5])).
Proof. split; [wfd|]. split; [reflexivity|]. vmc. Qed.

(** ** C72: c.get_T_at(i,j) *)

(** On a container whose type is in [ts], for an entry inside its shape. *)
Definition at_entry {A} (r : Z -> Z -> gc -> refr A) (k : A -> gc) (t : tag) (ts : list tag) : Prop :=
  forall i j x g, wf g -> sized g -> In (tag_of g) ts ->
    let nr := fst (as_shape g) in let nc := snd (as_shape g) in
    nr * nc < 2^32 -> 0 <= i < nr -> 0 <= j < nc ->
    (exists g', rwrite x (r i j g) = (Ok tt, g') /\ tag_of g' = t /\ shape g' nr nc /\
       forall d, stored_at (i + j * nr) (k x) d (elems g) (elems g')) /\
    (exists a g' e, rread (r i j g) = (Ok a, g') /\ mat_promoted t g g' /\
       znth (i + j * nr) (elems g) = Some e /\ same_num e (k a)).

Lemma at_entry_intro {A} (k : A -> gc) (mk : mat A -> gc) t i j x g nr nc (v : list A) :
  (forall m, tag_of (mk m) = t /\ elems (mk m) = map k (mdata m) /\ shape (mk m) (mrows m) (mcols m)) ->
  Forall2 same_num (elems g) (map k v) -> as_shape g = (nr, nc) ->
  zlen v = nr * nc -> nr * nc < 2^32 -> 0 <= i < nr -> 0 <= j < nc ->
  (exists g', rwrite x (mat_ref mk i j (Mat nr nc v)) = (Ok tt, g') /\ tag_of g' = t /\ shape g' nr nc /\
     forall d, stored_at (i + j * nr) (k x) d (elems g) (elems g')) /\
  (exists a g' e, rread (mat_ref mk i j (Mat nr nc v)) = (Ok a, g') /\ mat_promoted t g g' /\
     znth (i + j * nr) (elems g) = Some e /\ same_num e (k a)).
Proof.
  intros M F Sh L B Hi Hj.
  assert (P : 0 <= i + j * nr < nr * nc) by nia.
  assert (Lo : zlen (elems g) = zlen v).
  { assert (G : length (elems g) = length (map k v)) by (clear - F; induction F; cbn; congruence).
    rewrite map_length in G. unfold zlen. lia. }
  unfold mat_ref, mpos. cbn [mrows mcols mdata]. rewrite to_u32_id by (unfold uint32; lia).
  destruct (proj2 (znth_some (i + j * nr) v)) as [a Ea]; [lia|]. rewrite Ea. cbn [rwrite rread].
  split.
  - eexists. split; [reflexivity|]. destruct (M (Mat nr nc (lset (Z.to_nat (i + j * nr)) x v))) as (T & E & S).
    split; [exact T|]. split; [exact S|]. intros d. rewrite E. cbn [mdata]. split; [|split].
    + rewrite zlen_map, lset_zlen. lia.
    + rewrite znth_map, lset_get by lia. now rewrite Z.eqb_refl.
    + intros q N. rewrite znth_map, lset_get by lia. rewrite (proj2 (Z.eqb_neq q _)) by assumption.
      destruct (znth q (elems g)) as [o|] eqn:Eo.
      * destruct (znth_same _ _ _ _ F Eo) as (y & Ey & Sy). rewrite znth_map in Ey. rewrite Ey. eauto.
      * apply znth_none in Eo. lia.
  - destruct (proj2 (znth_some (i + j * nr) (elems g))) as [e Ee]; [lia|].
    exists a, (mk (Mat nr nc (lset (Z.to_nat (i + j * nr)) a v))), e. split; [reflexivity|]. rewrite lset_id by assumption.
    destruct (M (Mat nr nc v)) as (T & E & S). split; [split; [split; [exact T|]|]|split; [exact Ee|]].
    + now rewrite E.
    + rewrite Sh. exact S.
    + destruct (znth_same _ _ _ _ F Ee) as (y & Ey & Sy). rewrite znth_map, Ea in Ey. now injection Ey as <-.
Qed.
Lemma len_b v : zlen (elems (GVBool v)) = zlen v. Proof. apply zlen_map. Qed.
Lemma len_i v : zlen (elems (GVInt v)) = zlen v. Proof. apply zlen_map. Qed.
Lemma len_l v : zlen (elems (GVLong v)) = zlen v. Proof. apply zlen_map. Qed.
Lemma len_r v : zlen (elems (GVReal v)) = zlen v. Proof. apply zlen_map. Qed.
Ltac do_entry defs :=
  intros i j x g Hw Hs HIn nr nc B Hi Hj; unfold sized in Hs; subst nr nc;
  destruct g; try (no_tag HIn); clear HIn;
  try (match goal with m : mat _ |- _ => destruct m as [nr nc v] end);
  cbn [wf as_shape fst snd mrows mcols] in *; rewrite ?len_b, ?len_i, ?len_l, ?len_r in *; defs;
  rewrite ?promote_col_ok by assumption;
  try (erewrite promote_mat_ok by eassumption);
  cbn [after mreal_at mlong_at mint_at mcomplex_at mrows mcols mdata];
  try (match goal with H : wf_mat _ _ |- _ =>
         let E := fresh in destruct H as (_ & _ & E & H); cbn [mrows mcols mdata] in E, H;
         rewrite to_u32_id in E by (unfold uint32; nia) end);
  (eapply at_entry_intro;
    [ intros; split; [reflexivity | split; [reflexivity | split; reflexivity]]
    | cbn [elems mdata]; sn
    | cbn [as_shape mrows mcols]; rewrite ?len_b, ?len_i, ?len_l, ?len_r; reflexivity
    | rewrite ?zlen_map; nia | assumption | assumption | assumption ]).
Theorem C72_entry_partial :
  at_entry ref_int_at2 GInt TMInt [TMInt] /\
  at_entry ref_long_at2 GLong TMLong [TVInt; TVLong; TMLong] /\
  at_entry ref_real_at2 GReal TMReal [TVBool; TVInt; TVLong; TVReal; TMReal] /\
  at_entry ref_complex_at2 GComplex TMComplex [TMReal; TMComplex].
Proof.
  repeat apply conj; do_entry ltac:(unfold ref_int_at2, ref_long_at2, ref_real_at2, ref_complex_at2;
    unfold promote_to_mat_long, promote_to_mat_real, promote_to_mat_complex).
Qed.

(** Asking an empty container for the entry (i,j) makes a matrix of i rows and j columns, which
    has no such entry: the call throws, for every i and j, and the matrix stays.  For int and
    long it is moreover a matrix of reals. *)
Theorem C72_empty_refuted : forall i j, 0 <= i -> 0 <= j -> i + j * i < 2^32 ->
  (forall x, fst (rwrite x (ref_int_at2 i j GNone)) = Throw) /\
  (forall x, fst (rwrite x (ref_long_at2 i j GNone)) = Throw) /\
  (forall x, fst (rwrite x (ref_real_at2 i j GNone)) = Throw) /\
  (forall x, fst (rwrite x (ref_complex_at2 i j GNone)) = Throw) /\
  shape (snd (rread (ref_real_at2 i j GNone))) i j /\ tag_of (snd (rread (ref_int_at2 i j GNone))) = TMReal.
Proof.
  intros i j Hi Hj B.
  assert (P : forall A (d : A), znth (mpos (mresize d i j []) i j) (mdata (mresize d i j [])) = None).
  { intros A d. unfold mresize, mpos. cbn [mrows mcols mdata]. rewrite !to_u32_id by (unfold uint32; nia).
    apply znth_none. unfold zlen. rewrite resize_length. nia. }
  split; [reflexivity|]. split; [reflexivity|].
  unfold ref_real_at2, ref_complex_at2, set_mreal_sz, set_mcomplex_sz, alloc_mreal, alloc_mcomplex.
  cbn [mreal_at mcomplex_at old_mreal old_mcomplex]. unfold mat_ref. rewrite !P. repeat split.
Qed.

(** Only the flat position is checked: storing at a row past the last one changes an entry of
    the next column. *)
Theorem C72_row_refuted : forall x m, mrows m = 2 -> mcols m = 2 -> zlen (mdata m) = 4 ->
  exists m', rwrite x (ref_real_at2 2 0 (GMReal m)) = (Ok tt, GMReal m') /\ mat_get m' 0 1 = Ok x.
Proof.
  intros x [nr nc v] Hr Hc Hl. cbn [mrows mcols mdata] in *. subst.
  destruct v as [|a [|b [|c [|d [|]]]]]; try (unfold zlen in Hl; cbn in Hl; lia).
  eexists. split; reflexivity.
Qed.

(** The other types. *)
Theorem C72_other_types : forall i j g, g <> GNone ->
  (~ In (tag_of g) [TVBool; TVInt; TMInt] -> rread (ref_int_at2 i j g) = (Throw, g)) /\
  (~ In (tag_of g) [TVBool; TVInt; TVLong; TMLong] -> rread (ref_long_at2 i j g) = (Throw, g)) /\
  (~ In (tag_of g) [TVBool; TVInt; TVLong; TVReal; TMReal] -> rread (ref_real_at2 i j g) = (Throw, g)) /\
  (~ In (tag_of g) [TVBool; TVInt; TVLong; TVReal; TMReal; TMComplex] -> rread (ref_complex_at2 i j g) = (Throw, g)) /\
  (elems g <> [] -> In (tag_of g) [TVBool; TVInt] -> fst (rread (ref_int_at2 i j g)) = Undef) /\
  (elems g <> [] -> In (tag_of g) [TVBool; TVInt; TVLong; TVReal] -> fst (rread (ref_complex_at2 i j g)) = Undef) /\
  (sized g -> tag_of g = TVBool -> exists g', rread (ref_long_at2 i j g) = (Throw, g') /\ tag_of g' = TMReal).
Proof.
  intros i j g Hn. repeat apply conj.
  1-4: intros N; destruct g; try contradiction; first [reflexivity | is_tag N].
  1-2: intros N HIn; destruct g; try (no_tag HIn); destruct v; first [exfalso; now apply N | reflexivity].
  intros Hs T. destruct g; try discriminate. unfold sized in Hs. rewrite len_b in Hs.
  unfold ref_long_at2, promote_to_mat_long. rewrite promote_col_ok by assumption. eexists. split; reflexivity.
Qed.

Example C72_example :
  wf (GMReal (Mat 2 2 [1; 2; 3; 4])) /\ sized (GMReal (Mat 2 2 [1; 2; 3; 4])) /\
  rwrite 9 (ref_real_at2 0 1 (GMReal (Mat 2 2 [1; 2; 3; 4]))) = (Ok tt, GMReal (Mat 2 2 [1; 2; 9; 4])) /\
  rwrite 9 (ref_long_at2 1 0 (GVInt [5; 6])) = (Ok tt, GMLong (Mat 2 1 [5; 9])).
Proof. split; [wfd|]. split; [reflexivity|]. vmc. Qed.

Print Assumptions C70_store_partial.
Print Assumptions C70_scalars.
Print Assumptions C70_last_index_refuted.
Print Assumptions C71_read_partial.
Print Assumptions C71_wiped_refuted.
Print Assumptions C71_past_end_refuted.
Print Assumptions C71_scalars.
Print Assumptions C71_empty_refuted.
Print Assumptions C71_vectors.
Print Assumptions C71_matrices_partial.
Print Assumptions C71_matrices_refuted.
Print Assumptions C72_entry_partial.
Print Assumptions C72_empty_refuted.
Print Assumptions C72_row_refuted.
Print Assumptions C72_other_types.
