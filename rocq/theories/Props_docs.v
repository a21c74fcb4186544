(** Properties C48, C66 and C67: reading YAML and TOML documents. *)
From Coq Require Import ZArith Bool Lia Ascii String List.
From Verif Require Import Base F64 StrMap Value WfDec MBasic SGet SPromote MCollapse SCollapse LCollapse LCollapse2 Props_collapse
  MJson SJson LJson LJson2 LBuild MYaml MToml SDocs LDocs Props_json.
Import ListNotations.
Local Open Scope Z_scope.

(** * C48: integers of YAML and TOML documents keep their value.

    Full statement: for every document whose integers fit 64 bits the reader succeeds and the
    data of the container are the data of the document ([yaml_doc], [toml_doc], [json_data]).
    False in the code: integers in TOML arrays of integers are cut to 32 bits, and collapse
    changes some documents (see C37). *)

(** A YAML integer, whatever the container held. *)
Theorem C48_yaml_integer : forall z g, - 2^63 <= z < 2^63 ->
  exists r, from_yaml (Some (YInt z)) g = (Ok true, r) /\ wf r /\ data_of r = d_int z.
Proof.
  intros z g Hz. exists (stored_int z). cbn [from_yaml YAML_to_GC then_collapse]. rewrite decode_int64_stored.
  split; [|split; [apply (build_wf (JInt z)); split; [exact Hz|exact I]|]]; dint z; reflexivity.
Qed.

(** Whole YAML documents with string keys, read into a container that is neither a VECTOR nor
    a MAP. *)
Lemma yaml_finish y : yall string_keys y -> jall distinct_names (yaml_doc y) -> jsize (yaml_doc y) < 2^31 ->
  forall g, fresh g -> from_yaml (Some y) g = caught (collapse (build (yaml_doc y))).
Proof.
  intros Hk Hd Hn g F. cbn [from_yaml]. rewrite yaml_fresh by assumption.
  rewrite yaml_build by (try assumption; now apply jsize_short). reflexivity.
Qed.
Theorem C48_yaml_document_partial : forall y g, fresh g -> yall string_keys y ->
  jall storable (yaml_doc y) -> jall distinct_names (yaml_doc y) -> jsize (yaml_doc y) < 2^31 ->
  jall unrounded_doc (yaml_doc y) -> jall not_jmixed (yaml_doc y) ->
  exists r, from_yaml (Some y) g = (Ok true, r) /\ wf r /\ data_of r = json_data (yaml_doc y).
Proof.
  intros y g F Hk Hr Hd Hn He Hm. rewrite yaml_finish by assumption.
  destruct (finish_build (yaml_doc y)) as (r & E & W & D); try assumption.
  unfold finish in E. destruct (collapse _) as [r0 r1]. injection E as E ->.
  exists r. destruct r0 as [[]| | |]; try discriminate. auto.
Qed.
(** Without the last two conditions integers next to reals may be rounded to the nearest
    double, and in mixed arrays a number may become a one-element list or null an empty list.
    This also holds when the result is false because collapse throws half way. *)
Theorem C48_yaml_general_partial : forall y g b r, fresh g -> yall string_keys y ->
  jall storable (yaml_doc y) -> jall distinct_names (yaml_doc y) -> jsize (yaml_doc y) < 2^31 ->
  jall no_subnormal (yaml_doc y) -> from_yaml (Some y) g = (Ok b, r) ->
  wf r /\ sim true true (json_data (yaml_doc y)) (data_of r).
Proof.
  intros y g b r F Hk Hr Hd Hn Ht E. rewrite yaml_finish in E by assumption.
  apply (finish_build_sim _ (fst (finish (build (yaml_doc y)))) r Hr Hd Hn Ht); unfold finish;
    destruct (collapse _) as [[[]| | |] r1]; try discriminate; injection E as _ ->; cbn; auto.
Qed.
(** In particular arrays of 64-bit integers, at any size below 2^31. *)
Lemma int_array l : Forall (fun z => - 2^63 <= z < 2^63) l ->
  let j := JArr (map JInt l) in
  jall storable j /\ jall distinct_names j /\ jsize j = 1 + zlen l /\ jall unrounded_doc j /\ jall not_jmixed j.
Proof.
  intros H j. subst j.
  assert (A : forall P : json -> Prop, P (JArr (map JInt l)) -> Forall (fun z => P (JInt z)) l -> jall P (JArr (map JInt l))).
  { intros P P0 P1. apply jall_arr. split; [assumption|]. apply Forall_map. eapply Forall_impl; [|exact P1]. intros z Hz. now split. }
  assert (T : forall P : json -> Prop, (forall z, P (JInt z)) -> Forall (fun z => P (JInt z)) l)
    by (intros P HP; apply Forall_forall; auto).
  split; [apply A; [exact I|exact H]|].
  split; [apply A; [exact I|apply T; intros; exact I]|].
  split; [|split].
  - rewrite jsize_arr. f_equal. clear. induction l as [|z l IH]; [reflexivity|]. cbn [map]. rewrite zlen_cons.
    change (jsum (JInt z :: map JInt l)) with (1 + jsum (map JInt l)). lia.
  - apply A; [|apply T; intros; exact I]. left. intros a Ia. apply in_map_iff in Ia as (z & <- & _). repeat constructor.
  - apply A; [|apply T; intros; exact I]. split.
    + intros a b _ Ib. apply in_map_iff in Ib as (z & E & _). discriminate.
    + intros [Ib _]. apply in_map_iff in Ib as (z & E & _). discriminate.
Qed.
Theorem C48_yaml_array : forall l g, fresh g -> Forall (fun z => - 2^63 <= z < 2^63) l -> zlen l < 2^31 - 1 ->
  exists r, from_yaml (Some (YSeq (map YInt l))) g = (Ok true, r) /\ wf r /\ data_of r = DList (map d_int l).
Proof.
  intros l g F H Hl.
  assert (E : yaml_doc (YSeq (map YInt l)) = JArr (map JInt l)) by (cbn [yaml_doc]; now rewrite map_map).
  destruct (int_array l H) as (A1 & A2 & A3 & A4 & A5).
  destruct (C48_yaml_document_partial (YSeq (map YInt l)) g) as (r & R); rewrite ?E; auto.
  - apply yall_seq. split; [exact I|]. apply Forall_forall. intros y Hy. apply in_map_iff in Hy as (z & <- & _). split; exact I.
  - lia.
  - exists r. rewrite E in R. cbn [json_data] in R. rewrite map_map in R. exact R.
Qed.

(** TOML: an integer that is the value of a key, when the container is not a MAP. *)
Theorem C48_toml_integer : forall k z g, (forall m, g <> GMap m) -> - 2^63 <= z < 2^63 ->
  exists r, from_toml (Some [(k, TIntN z)]) g = (Ok true, r) /\ wf r /\ data_of r = DMap [(k, d_int z)].
Proof.
  intros k z g F Hz. exists (GMap [(k, stored_int z)]). cbn [from_toml]. rewrite toml_fresh_root by assumption.
  rewrite toml_tbl. cbn [old_map toml_members mfind TOML_to_GC mset]. rewrite decode_int64_stored.
  split; [dint z; reflexivity|]. split; [|dint z; reflexivity].
  apply wf_map. split; [repeat constructor|]. constructor; [|constructor]. apply (build_wf (JInt z)). split; [exact Hz|exact I].
Qed.
(** An array of integers keeps them all exactly when they all fit 32 bits. *)
Theorem C48_toml_array : forall k l g, (forall m, g <> GMap m) ->
  exists r, from_toml (Some [(k, TArr (map TIntN l))]) g = (Ok true, r) /\
    (data_of r = DMap [(k, DList (map d_int l))] <-> Forall (fun z => - 2^31 <= z < 2^31) l).
Proof.
  intros k l g F. destruct l as [|z0 l0].
  { exists (GMap [(k, GVStr [])]). cbn [from_toml map]. rewrite toml_fresh_root by assumption. split; [reflexivity|].
    split; [constructor|reflexivity]. }
  remember (z0 :: l0) as l eqn:El.
  assert (G : TOML_to_GC (TArr (map TIntN l)) GNone = (Ok tt, GVInt (map to_i32 l))).
  { rewrite toml_arr.
    replace (tables_only (map TIntN l)) with false by (subst l; reflexivity).
    replace (forallb is_string (map TIntN l)) with false by (subst l; reflexivity).
    replace (forallb is_integer (map TIntN l)) with true.
    - rewrite map_map. reflexivity.
    - symmetry. apply forallb_forall. intros x Hx. apply in_map_iff in Hx as (z & <- & _). reflexivity. }
  exists (GMap [(k, GVInt (map to_i32 l))]). cbn [from_toml]. rewrite toml_fresh_root by assumption.
  rewrite toml_tbl. cbn [old_map toml_members mfind]. rewrite G. split; [reflexivity|]. clear El G.
  cbn [data_of map fst snd]. split.
  - intros E. injection E as E.
    assert (Inj : forall a b, d_int a = d_int b -> a = b).
    { intros a b Ea. assert (Hf : 0 < fone) by (apply Z.pow_pos_nonneg; lia). injection Ea as Ea. apply Z.mul_reg_r in Ea; lia. }
    revert E. clear -Inj. induction l as [|z l IH]; cbn [map]; intros E; constructor.
    + assert (E0 : d_int (to_i32 z) = d_int z) by congruence. apply Inj in E0. pose proof (to_i32_range z). unfold int32 in *. lia.
    + apply IH. congruence.
  - intros H. assert (E : map to_i32 l = l); [|now rewrite E].
    induction H as [|z l Hz _ IH]; [reflexivity|]. cbn [map]. rewrite IH. f_equal. apply to_i32_id. unfold int32. lia.
Qed.
Lemma toml_finish m g : (forall m', g <> GMap m') -> jall distinct_names (toml_doc (TTbl m)) -> jsize (toml_doc (TTbl m)) < 2^31 ->
  from_toml (Some m) g = caught (collapse (tbuild (TTbl m))).
Proof.
  intros F Hd Hn. cbn [from_toml]. rewrite toml_fresh_root by assumption.
  rewrite toml_build by (try assumption; now apply jsize_short). reflexivity.
Qed.
Theorem C48_toml_document_partial : forall m g, (forall m', g <> GMap m') ->
  jall storable (toml_doc (TTbl m)) -> jall distinct_names (toml_doc (TTbl m)) -> jsize (toml_doc (TTbl m)) < 2^31 ->
  jall narrow_arrays (toml_doc (TTbl m)) ->
  jall unrounded_doc (toml_doc (TTbl m)) -> jall not_jmixed (toml_doc (TTbl m)) ->
  exists r, from_toml (Some m) g = (Ok true, r) /\ wf r /\ data_of r = json_data (toml_doc (TTbl m)).
Proof.
  intros m g F Hr Hd Hn Ha He Hm. rewrite toml_finish by assumption.
  pose proof (tbuild_wf _ Hr Ha) as W. pose proof (tbuild_unmixed _ Hm) as U. pose proof (tbuild_weight _ Hd) as Ew.
  destruct (C39_never_fails_partial _ W ltac:(rewrite Ew; exact Hn) U (tbuild_parsed _)) as (r & E).
  exists r. rewrite E. split; [reflexivity|].
  destruct (C37_exact_partial _ _ _ W ltac:(rewrite Ew; exact Hn) U (tbuild_unrounded _ He) E (or_introl eq_refl)) as (W' & D).
  split; [assumption|]. rewrite D. now apply tbuild_data.
Qed.
(** The same number changes when it stands in an array of integers; and an array that mixes
    integers and floats rounds it. *)
Theorem C48_refuted :
  (exists r, from_toml (Some [("n"%string, TArr [TIntN 1; TIntN (2^32 + 2)])]) GNone = (Ok true, r) /\
     data_of r = DMap [("n"%string, DList [d_int 1; d_int 2])]) /\
  (exists r, from_yaml (Some (YSeq [YInt (2^53 + 1); YFlt f_one])) GNone = (Ok true, r) /\
     data_of r = DList [d_int (2^53); d_int 1]).
Proof.
  split.
  - exists (GMap [("n"%string, GVInt [1; 2])]). split; [vmc|reflexivity].
  - exists (GVReal [f_of_Z (2^53); f_one]). split; [vmc|]. cbn [data_of map]. unfold d_real, d_int.
    repeat f_equal; vm_compute; reflexivity.
Qed.
Definition y48 : yaml :=
  YMap [(YStr "n"%string, YSeq [YInt (2^53 + 1); YInt 7]); (YStr "m"%string, YSeq [YSeq [YInt 1; YInt (- 2^63)]; YSeq [YInt 3; YInt 4]]);
        (YStr "o"%string, YMap [(YStr "k"%string, YNull)]); (YStr "r"%string, YSeq [YFlt f_one; YStr "x"%string])].
Example C48_yaml_example : yall string_keys y48 /\ jall storable (yaml_doc y48) /\ jall distinct_names (yaml_doc y48) /\
  jsize (yaml_doc y48) < 2^31 /\ jall unrounded_doc (yaml_doc y48) /\ jall not_jmixed (yaml_doc y48) /\ jall no_subnormal (yaml_doc y48).
Proof.
  split; [|unfold y48; cbn [yaml_doc map key_name fst snd]; split; [|split; [|split; [|split; [|split]]]]].
  - unfold y48. cbn [yall string_keys snd fst]. repeat match goal with |- _ /\ _ => split | |- True => exact I
      | |- Forall _ _ => constructor; [eexists; reflexivity|] end; constructor.
  - cbn [jall storable snd]; repeat match goal with |- _ /\ _ => split | |- True => exact I end;
      try lia; split; vm_compute; congruence.
  - cbn [jall distinct_names snd map fst]; repeat match goal with |- _ /\ _ => split | |- True => exact I
            | |- NoDup _ => constructor end; cbn; intuition discriminate.
  - vm_compute. reflexivity.
  - cbn [jall unrounded_doc snd]; repeat match goal with |- _ /\ _ => split | |- True => exact I end;
      try (left; intros a Ha; cbn in Ha; intuition subst; cbn [jmerging]; repeat (constructor; [exact I|]); constructor; fail);
      right; intros a Ha; cbn in Ha; intuition subst; cbn [jmerging]; repeat (constructor; [exact I|]); constructor.
  - cbn [jall not_jmixed snd]; repeat match goal with |- _ /\ _ => split | |- True => exact I end;
      try (intros a b Ha Hb; cbn in Hb; intuition discriminate); intros [H1 H2]; cbn in H1, H2; intuition discriminate.
  - cbn [jall no_subnormal snd]; repeat match goal with |- _ /\ _ => split | |- True => exact I end.
    cbn [no_tiny]. intros (v & E & _ & L). vm_compute in E. apply Some_inj in E. rewrite <- E in L. vm_compute in L. discriminate.
Qed.
Definition t48 : list (string * toml) :=
  [("n"%string, TArr [TIntN (- 2^31); TIntN 7]); ("m"%string, TArr [TArr [TIntN 1; TIntN 2]; TArr [TFltN f_one; TIntN 5]]);
   ("o"%string, TTbl [("k"%string, TIntN (- 2^63))]); ("d"%string, TDate "2020-01-02"%string);
   ("r"%string, TArr [TIntN (2^53 + 1); TStrN "x"%string])].
Example C48_toml_example : jall storable (toml_doc (TTbl t48)) /\ jall distinct_names (toml_doc (TTbl t48)) /\
  jsize (toml_doc (TTbl t48)) < 2^31 /\ jall narrow_arrays (toml_doc (TTbl t48)) /\
  jall unrounded_doc (toml_doc (TTbl t48)) /\ jall not_jmixed (toml_doc (TTbl t48)).
Proof.
  unfold t48; cbn [toml_doc map fst snd]; split; [|split; [|split; [|split; [|split]]]].
  - cbn [jall storable snd]; repeat match goal with |- _ /\ _ => split | |- True => exact I end;
      try lia; split; vm_compute; congruence.
  - cbn [jall distinct_names snd map fst]; repeat match goal with |- _ /\ _ => split | |- True => exact I
            | |- NoDup _ => constructor end; cbn; intuition discriminate.
  - vm_compute. reflexivity.
  - assert (N1 : forall l, Forall (fun j => match j with JInt z => - 2^31 <= z < 2^31 | _ => True end) l -> narrow_arrays (JArr l)).
    { intros l F _ z Hz. rewrite Forall_forall in F. exact (F _ Hz). }
    assert (N2 : forall a s, narrow_arrays (JArr [a; JStr s])).
    { intros a s H. destruct (H (JStr s)) as (w & Ew); [right; now left|discriminate]. }
    cbn [jall snd]; repeat match goal with |- _ /\ _ => split | |- True => exact I end; try exact I; try apply N2;
      apply N1; repeat (constructor; [first [exact I | lia]|]); constructor.
  - cbn [jall unrounded_doc snd]; repeat match goal with |- _ /\ _ => split | |- True => exact I end;
      try (left; intros a Ha; cbn in Ha; intuition subst; cbn [jmerging]; repeat (constructor; [exact I|]); constructor; fail);
      right; intros a Ha; cbn in Ha; intuition subst; cbn [jmerging];
      repeat (constructor; [first [exact I | (left; lia)]|]); constructor.
  - cbn [jall not_jmixed snd]; repeat match goal with |- _ /\ _ => split | |- True => exact I end;
      try (intros a b Ha Hb; cbn in Hb; intuition discriminate); intros [H1 H2]; cbn in H1, H2; intuition discriminate.
Qed.

(** * C66: reading a document replaces the content.

    Full statement: from_yaml and from_toml leave the container as if it had been empty before.
    False in the code: elements of old vectors and entries of old maps are kept, and typed
    arrays of TOML documents append.  It holds when the container is not a VECTOR or MAP (TOML:
    not a MAP), and for the C++ wrappers YAML_to_GC and TOML_to_GC, which clear first. *)
Theorem C66_partial : (forall d g, fresh g -> d <> None -> from_yaml d g = from_yaml d GNone) /\
  (forall d g, (forall m, g <> GMap m) -> d <> None -> from_toml d g = from_toml d GNone) /\
  (forall y g, (forall l, y <> YSeq l) -> (forall m, y <> YMap m) -> from_yaml (Some y) g = from_yaml (Some y) GNone).
Proof.
  split; [|split].
  - intros [y|] g F Hd; [|easy]. cbn [from_yaml]. now rewrite yaml_fresh.
  - intros [m|] g F Hd; [|easy]. cbn [from_toml]. now rewrite toml_fresh_root.
  - intros y g Hs Hm. destruct y; try reflexivity; [now contradiction (Hs l)|now contradiction (Hm m)].
Qed.
Theorem C66_wrappers : (forall d g, GC_from_YAML d g = from_yaml d GNone) /\ (forall d g, GC_from_TOML d g = from_toml d GNone).
Proof. split; reflexivity. Qed.
Theorem C66_refuted :
  (let d := Some [("a"%string, TArr [TIntN 1; TIntN 2])] in
   from_toml d (snd (from_toml d GNone)) = (Ok true, GMap [("a"%string, GVInt [1; 2; 1; 2])])) /\
  from_yaml (Some (YSeq [])) (GVec [GInt 1]) = (Ok true, GVInt [1]) /\
  from_yaml (Some (YMap [])) (GMap [("a"%string, GInt 1)]) = (Ok true, GMap [("a"%string, GInt 1)]).
Proof. vmc. Qed.
(** Arrays of strings, integers or floats always append to an old vector of that type. *)
Theorem C66_appends : forall k,
  (forall v l, l <> [] -> from_toml (Some [(k, TArr (map TStrN l))]) (GMap [(k, GVStr v)]) = (Ok true, GMap [(k, GVStr (v ++ l))])) /\
  (forall v l, l <> [] -> Forall (fun z => - 2^31 <= z < 2^31) l ->
    from_toml (Some [(k, TArr (map TIntN l))]) (GMap [(k, GVInt v)]) = (Ok true, GMap [(k, GVInt (v ++ l))])) /\
  (forall v l, l <> [] -> from_toml (Some [(k, TArr (map TFltN l))]) (GMap [(k, GVReal v)]) = (Ok true, GMap [(k, GVReal (v ++ l))])).
Proof.
  intros k.
  assert (R : forall t a b, TOML_to_GC t a = (Ok tt, b) -> collapse (GMap [(k, b)]) = (Ok tt, GMap [(k, b)]) ->
    from_toml (Some [(k, t)]) (GMap [(k, a)]) = (Ok true, GMap [(k, b)])).
  { intros t a b E C. cbn [from_toml]. rewrite toml_tbl. cbn [old_map toml_members mfind]. rewrite compare_refl, E. cbn [mset]. rewrite compare_refl.
    cbn [then_collapse]. now rewrite C. }
  assert (All : forall (A : Type) (f : A -> toml) (p : toml -> bool) l, (forall a, p (f a) = true) -> forallb p (map f l) = true).
  { intros A f p l H. induction l as [|a l IH]; [reflexivity|]. cbn [map forallb]. now rewrite H, IH. }
  split; [|split].
  - intros v l N. apply R; [|reflexivity]. rewrite toml_arr, (All _ TStrN is_string) by reflexivity.
    replace (tables_only _) with false by (destruct l; [easy|reflexivity]). rewrite map_map, map_id. reflexivity.
  - intros v l N Hl. apply R; [|reflexivity]. rewrite toml_arr, (All _ TIntN is_integer) by reflexivity.
    replace (tables_only _) with false by (destruct l; [easy|reflexivity]).
    replace (forallb is_string _) with false by (destruct l; [easy|reflexivity]). rewrite map_map. cbn [int_of alloc_vint]. do 3 f_equal.
    rewrite <- (map_id l) at 2. apply List.map_ext_in. intros z Hz. rewrite Forall_forall in Hl. now apply to_i32_id, Hl.
  - intros v l N. apply R; [|reflexivity]. rewrite toml_arr, (All _ TFltN is_float) by reflexivity.
    replace (tables_only _) with false by (destruct l; [easy|reflexivity]).
    replace (forallb is_string _) with false by (destruct l; [easy|reflexivity]).
    replace (forallb is_integer _) with false by (destruct l; [easy|reflexivity]). rewrite map_map, map_id. reflexivity.
Qed.
Example C66_example : fresh (GVInt [1; 2]) /\ (forall m, GVec [GInt 1] <> GMap m).
Proof. split; [split; discriminate|discriminate]. Qed.

(** * C67: a YAML document with a key that is not a string is reported as a failure.

    For documents with fewer than 2^32 elements in each sequence, whatever the container held;
    the result of the reader itself (before collapse) is success exactly when all keys of all
    mappings are strings. *)
Theorem C67_non_string_key : forall y g, yall short_seq y -> ~ yall string_keys y ->
  exists r, from_yaml (Some y) g = (Ok false, r).
Proof.
  intros y g Hs Hk. destruct (yaml_outcome y Hs g) as [[K _]|[_ E]]; [easy|].
  cbn [from_yaml]. destruct (YAML_to_GC y g) as [r h]. cbn [fst] in E. subst r. now exists h.
Qed.
Theorem C67_string_keys : forall y g, yall short_seq y -> yall string_keys y ->
  exists h, YAML_to_GC y g = (Ok tt, h) /\ from_yaml (Some y) g = caught (collapse h).
Proof.
  intros y g Hs Hk. destruct (yaml_outcome y Hs g) as [[_ E]|[K _]]; [|easy].
  cbn [from_yaml]. destruct (YAML_to_GC y g) as [r h]. cbn [fst] in E. subst r. now exists h.
Qed.
(** A text the parser rejects is reported too, and the container is left alone. *)
Theorem C67_parse_error : forall g,
  from_yaml None g = (Ok false, g) /\ from_toml None g = (Ok false, g).
Proof. split; reflexivity. Qed.

Example C67_example :
  let y := YMap [(YStr "a"%string, YSeq [YMap [(YInt 1, YNull)]])] in yall short_seq y /\ ~ yall string_keys y /\ yall short_seq y48.
Proof.
  split; [|split].
  - cbn. repeat split; reflexivity.
  - cbn. intros (_ & (_ & (F & _) & _) & _). inversion F as [|? ? (s & E)]. discriminate.
  - unfold y48. cbn [yall short_seq snd]. repeat match goal with |- _ /\ _ => split | |- True => exact I end; vm_compute; reflexivity.
Qed.

Print Assumptions C48_yaml_integer.
Print Assumptions C48_yaml_document_partial.
Print Assumptions C48_yaml_general_partial.
Print Assumptions C48_yaml_array.
Print Assumptions C48_toml_integer.
Print Assumptions C48_toml_array.
Print Assumptions C48_toml_document_partial.
Print Assumptions C48_refuted.
Print Assumptions C66_partial.
Print Assumptions C66_wrappers.
Print Assumptions C66_refuted.
Print Assumptions C66_appends.
Print Assumptions C67_non_string_key.
Print Assumptions C67_string_keys.
Print Assumptions C67_parse_error.
