(** Properties C73 and C74: writing TOML, and reading back what was written. *)
From Coq Require Import ZArith Bool Lia Ascii String List.
From Verif Require Import Base F64 StrMap Value WfDec MBasic SCopy SGet SPromote MCollapse SCollapse MJson SJson LJson LBuild
  MToml SDocs LDocs SToJson LToJson LRound Props_docs MToToml SToToml LToToml.
Import ListNotations.
Local Open Scope Z_scope.

(** [value_ok] of a concrete container. *)
Ltac vok := split; [wfd|split];
  [cbn [keys_ok fst snd]; repeat match goal with |- _ /\ _ => split | |- True => exact I end; vm_compute; intuition discriminate
  |cbn [fits fst snd]; repeat match goal with |- _ /\ _ => split | |- True => exact I end; unfold few; vm_compute; reflexivity].

(** * C73: the TOML tree written for a container has its structure and its data.

    Full statement: for every container the tree exists, is a table and has the data of the
    container.  False in the code: an empty container anywhere makes it dereference a null
    pointer, a root that is not a map is not a TOML document, and pointers, complex numbers
    and matrices are written as other data. *)
Theorem C73_form_partial : forall g, value_ok g -> everywhere has_form g ->
  exists t, to_toml g = Ok t /\ toml_form g t.
Proof. intros g _. apply written_form. Qed.
Theorem C73_data_partial : forall g, value_ok g -> everywhere toml_node g ->
  exists t, to_toml g = Ok t /\ json_data (toml_doc t) = data_of g.
Proof.
  intros g (W & _) E. destruct (written_form g) as (t & Et & F).
  - revert E. apply everywhere_impl. intros a [H _]. exact H.
  - exists t. split; [assumption|]. now apply form_data.
Qed.
(** Exactly the containers without an empty container in them are written; anything else is
    undefined behaviour. *)
Theorem C73_written_iff : forall g, value_ok g ->
  (everywhere (fun a => a <> GNone) g -> exists t, to_toml g = Ok t) /\
  (~ everywhere (fun a => a <> GNone) g -> to_toml g = Undef).
Proof.
  intros g _.
  enough (D : (everywhere (fun a => a <> GNone) g /\ exists t, to_toml g = Ok t) \/ (~ everywhere (fun a => a <> GNone) g /\ to_toml g = Undef))
    by tauto.
  induction g as [g Hv Hm | v IH | m IH] using gc_nest_ind.
  - destruct g; try nested_contra Hv Hm; try (left; split; [split; [discriminate|exact I]|eexists; reflexivity]).
    right. split; [|reflexivity]. intros [H _]. now apply H.
  - rewrite to_toml_vec.
    enough (D : (Forall (everywhere (fun a => a <> GNone)) v /\ exists l, omapM to_toml v = Ok l) \/
                (~ Forall (everywhere (fun a => a <> GNone)) v /\ omapM to_toml v = Undef)).
    { destruct D as [[D (l & ->)]|[D ->]]; [left|right].
      - split; [apply everywhere_vec; split; [discriminate|assumption]|eexists; reflexivity].
      - split; [|reflexivity]. intros H. apply everywhere_vec in H as [_ H]. auto. }
    induction IH as [|a v Ha _ IHv]; [left; split; [constructor|eexists; reflexivity]|]. cbn [omapM].
    destruct Ha as [[Ea (t & ->)]|[Ea ->]]; [|right; split; [intros H; inversion H; auto|reflexivity]].
    destruct IHv as [[Ev (l & ->)]|[Ev ->]]; [left; split; [now constructor|eexists; reflexivity]|].
    right. split; [intros H; inversion H; auto|reflexivity].
  - rewrite to_toml_map.
    enough (D : (Forall (fun kv => everywhere (fun a => a <> GNone) (snd kv)) m /\
                   exists l, omapM (fun kv => do t <- to_toml (snd kv) ; Ok (fst kv, t)) m = Ok l) \/
                (~ Forall (fun kv => everywhere (fun a => a <> GNone) (snd kv)) m /\
                   omapM (fun kv => do t <- to_toml (snd kv) ; Ok (fst kv, t)) m = Undef)).
    { destruct D as [[D (l & ->)]|[D ->]]; [left|right].
      - split; [apply everywhere_map; split; [discriminate|assumption]|eexists; reflexivity].
      - split; [|reflexivity]. intros H. apply everywhere_map in H as [_ H]. auto. }
    induction IH as [|[k a] v Ha _ IHv]; [left; split; [constructor|eexists; reflexivity]|]. cbn [omapM fst snd] in *.
    destruct Ha as [[Ea (t & ->)]|[Ea ->]]; [|right; split; [intros H; inversion H; auto|reflexivity]]. cbn [bind].
    destruct IHv as [[Ev (l & ->)]|[Ev ->]]; [left; split; [now constructor|eexists; reflexivity]|].
    right. split; [intros H; inversion H; auto|reflexivity].
Qed.
(** The tree is a table, as a TOML document must be, exactly for maps and matrices. *)
Theorem C73_table_iff : forall g t, value_ok g -> to_toml g = Ok t ->
  ((exists m, t = TTbl m) <-> In (tag_of g) [TMap; TMInt; TMLong; TMReal; TMComplex]).
Proof.
  intros g t _ H. destruct g as [ | | | | | | | | | | | | | | | | | | |v|m];
    try (apply Ok_inj in H; subst t; split; [intros (m' & E)|intros K]; first [discriminate E | cbn; tauto | (eexists; reflexivity) | (cbn in K; exfalso; intuition discriminate)]).
  - discriminate H.
  - rewrite to_toml_vec in H. destruct (omapM to_toml v); try discriminate H. apply Ok_inj in H. subst t.
    split; [intros (m' & E); discriminate E|intros K; cbn in K; exfalso; intuition discriminate].
  - rewrite to_toml_map in H. destruct (omapM _ m); try discriminate H. apply Ok_inj in H. subst t.
    split; [intros _; cbn; tauto|intros _; eexists; reflexivity].
Qed.
(** A matrix is written with its dimensions and its entries column after column. *)
Definition written_mat (t : toml) (name : string) (nr nc : Z) (data : list (string * list toml)) : Prop :=
  exists m, t = TTbl [(name, TTbl m)] /\ member "$nrows"%string m = Some (TIntN nr) /\ member "$ncols"%string m = Some (TIntN nc) /\
    Forall (fun kv => member (fst kv) m = Some (TArr (snd kv))) data /\ zlen m = zlen data + 2.
Theorem C73_matrices : forall g t, value_ok g -> to_toml g = Ok t ->
  match g with
  | GMInt m => written_mat t "$mat_integer"%string (mrows m) (mcols m) [("$data"%string, map TIntN (mdata m))]
  | GMLong m => written_mat t "$mat_long"%string (mrows m) (mcols m) [("$data"%string, map TIntN (mdata m))]
  | GMReal m => exists name, written_mat t name (mrows m) (mcols m) [("$data"%string, map TFltN (mdata m))]
  | GMComplex m => exists name, written_mat t name (mrows m) (mcols m)
      [("$data_real"%string, map (fun c => TFltN (fst c)) (mdata m)); ("$data_imag"%string, map (fun c => TFltN (snd c)) (mdata m))]
  | _ => True
  end.
Proof.
  intros g t _ H. destruct g; try exact I; apply Ok_inj in H; subst t; try exists "$mat_long"%string; eexists;
    (split; [reflexivity|]); (split; [reflexivity|]); (split; [reflexivity|]); (split; [|reflexivity]); repeat (constructor; [reflexivity|]); constructor.
Qed.
(** Different data, the same tree; matrices of reals and complex numbers are labelled as
    matrices of longs. *)
Theorem C73_same_tree_refuted :
  (exists g g' t, value_ok g /\ value_ok g' /\ tag_of g = TPtr /\ to_toml g = Ok t /\ to_toml g' = Ok t /\ data_of g <> data_of g') /\
  (exists g g' t, value_ok g /\ value_ok g' /\ tag_of g = TComplex /\ to_toml g = Ok t /\ to_toml g' = Ok t /\ data_of g <> data_of g') /\
  (exists m t, value_ok (GMReal m) /\ to_toml (GMReal m) = Ok (TTbl [("$mat_long"%string, t)])) /\
  (exists m t, value_ok (GMComplex m) /\ to_toml (GMComplex m) = Ok (TTbl [("$mat_long"%string, t)])) /\
  (exists g t, value_ok g /\ to_toml g = Ok t /\ forall m, t <> TTbl m).
Proof.
  split; [|split; [|split; [|split]]].
  - exists (GPtr 255), (GStr "0xff"%string), (TStrN "0xff"%string).
    split; [|split; [|split; [reflexivity|split; [vm_compute; reflexivity|split; [reflexivity|discriminate]]]]]; vok.
  - exists (GComplex (f_one, 0)), (GVReal [f_one; 0]), (TArr [TFltN f_one; TFltN 0]).
    split; [|split; [|split; [reflexivity|split; [reflexivity|split; [reflexivity|discriminate]]]]]; vok.
  - exists (Mat 1 1 [f_one]). eexists. split; [|reflexivity]. vok.
  - exists (Mat 1 1 [(f_one, 0)]). eexists. split; [|reflexivity]. vok.
  - exists (GInt 1). eexists. split; [|split; [reflexivity|discriminate]]. vok.
Qed.

(** * C74: what is written as TOML reads back.

    Full statement: for every container that is a map, reading the tree written gives the same
    data.  False in the code: besides what C73 excludes, vectors of integers are cut to 32 bits
    and collapse may round longs and mix shapes. *)
Theorem C74_round_trip_partial : forall m old, value_ok (GMap m) -> everywhere toml_node (GMap m) ->
  everywhere narrow_node (GMap m) -> unrounded (GMap m) -> everywhere not_mixed_data (GMap m) -> weight (GMap m) < 2^31 ->
  (forall m', old <> GMap m') ->
  exists l r, to_toml (GMap m) = Ok (TTbl l) /\ from_toml (Some l) old = (Ok true, r) /\ wf r /\ data_of r = data_of (GMap m).
Proof.
  intros m old (W & K) E N U M S F. destruct (written_form (GMap m)) as (t & Et & Ft).
  { revert E. apply everywhere_impl. intros a [H _]. exact H. }
  assert (T : exists l, t = TTbl l) by (inversion Ft; eauto). destruct T as (l & ->). exists l.
  destruct (C48_toml_document_partial l old F) as (r & Er & Wr & Dr).
  - now apply (form_storable (GMap m)).
  - now apply (form_names (GMap m)).
  - rewrite (form_size (GMap m)) by assumption. exact S.
  - now apply (form_narrow (GMap m)).
  - now apply (form_unrounded (GMap m)).
  - now apply (form_unmixed (GMap m)).
  - exists r. split; [assumption|]. split; [assumption|]. split; [assumption|]. rewrite Dr. now apply form_data.
Qed.
(** A vector of longs that do not fit 32 bits, a complex number and a matrix come back
    different. *)
Theorem C74_refuted : exists g l r, value_ok (GMap [("k"%string, g)]) /\
  to_toml (GMap [("k"%string, g)]) = Ok (TTbl l) /\ from_toml (Some l) GNone = (Ok true, r) /\
  tag_of g = TVLong /\ data_of r = DMap [("k"%string, DList [d_int 5])] /\ g = GVLong [2^32 + 5].
Proof.
  exists (GVLong [2^32 + 5]). eexists. exists (GMap [("k"%string, GVInt [5])]). split; [|split; [vm_compute; reflexivity|]].
  - vok.
  - split; [vm_compute; reflexivity|]. split; [reflexivity|]. split; reflexivity.
Qed.
Theorem C74_matrix_refuted : forall n, In n [GMInt (Mat 1 2 [1; 2]); GComplex (f_one, 0); GPtr 3] ->
  exists l r, to_toml (GMap [("k"%string, n)]) = Ok (TTbl l) /\ from_toml (Some l) GNone = (Ok true, r) /\
    tag_of r = TMap /\ data_of r <> data_of (GMap [("k"%string, n)]).
Proof.
  intros n [<-|[<-|[<-|[]]]]; eexists; eexists; (split; [vm_compute; reflexivity|split; [vm_compute; reflexivity|split; [reflexivity|]]]);
    vm_compute; discriminate.
Qed.

Definition w74 : gc :=
  GMap [("a"%string, GVec [GLong (2^40); GReal f_one; GStr "x"%string; GBool true]); ("b"%string, GVec [GVReal [f_one; 0]; GVInt [1; -2]]);
        ("c"%string, GMap [("n"%string, GVLong [-5]); ("s"%string, GVStr ["u"%string; "v"%string])]); ("d"%string, GVBool [true; false])].
Lemma no_longs v : (forall a, In a v -> Forall long_ok (merging a)) -> unrounded_node (GVec v).
Proof. intros H. now right. Qed.
Lemma rep40 : representable (2^40).
Proof. exists (f_of_Z (2^40)). split; [split; vm_compute; congruence|]. apply f_of_Z_exact; vm_compute; congruence. Qed.
Example C74_example : value_ok w74 /\ everywhere toml_node w74 /\ everywhere narrow_node w74 /\ unrounded w74 /\
  everywhere not_mixed_data w74 /\ weight w74 < 2^31.
Proof.
  split; [unfold w74; vok|].
  - split; [|split; [|split; [|split]]].
    + unfold w74. cbn [everywhere snd]. repeat match goal with |- _ /\ _ => split | |- True => exact I | |- toml_node _ => split end;
        unfold has_form; cbn [tag_of In]; intuition discriminate.
    + unfold w74. cbn [everywhere narrow_node snd]. repeat match goal with |- _ /\ _ => split | |- True => exact I end.
      * intros H. exfalso. specialize (H (GStr "x"%string)). cbn in H. intuition discriminate.
      * intros _ l H. cbn in H. intuition discriminate.
      * constructor; [unfold int32; lia|constructor].
    + unfold w74, unrounded. cbn [everywhere snd]. repeat match goal with |- _ /\ _ => split | |- True => exact I end; try exact I; apply no_longs; intros a Ha; cbn in Ha.
      * destruct Ha as [<-|[<-|[<-|[<-|[]]]]]; cbn [merging elems map]; repeat constructor. exact rep40.
      * destruct Ha as [<-|[<-|[]]]; cbn [merging elems map]; repeat constructor.
    + unfold w74. cbn [everywhere not_mixed_data snd]. repeat match goal with |- _ /\ _ => split | |- True => exact I end;
        intros a b d Ha Hb Sa Hd; cbn [In] in Ha, Hb.
      * destruct Hb as [<-|[<-|[<-|[<-|[]]]]]; discriminate Hd.
      * destruct Hb as [<-|[<-|[]]]; discriminate Hd.
    + vm_compute. reflexivity.
Qed.
Example C73_example : value_ok (GVec [GComplex (f_one, 0); GMap [("k"%string, GVComplex [])]]) /\
  everywhere has_form (GVec [GComplex (f_one, 0); GMap [("k"%string, GVComplex [])]]).
Proof.
  split; [vok|].
  - cbn [everywhere snd]. repeat match goal with |- _ /\ _ => split | |- True => exact I end; unfold has_form; cbn [tag_of In]; intuition discriminate.
Qed.
Print Assumptions C73_form_partial.
Print Assumptions C73_data_partial.
Print Assumptions C73_written_iff.
Print Assumptions C73_table_iff.
Print Assumptions C73_matrices.
Print Assumptions C73_same_tree_refuted.
Print Assumptions C74_round_trip_partial.
Print Assumptions C74_refuted.
Print Assumptions C74_matrix_refuted.
