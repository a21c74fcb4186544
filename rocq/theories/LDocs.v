(** Lemmas about the YAML and TOML readers. *)
From Coq Require Import ZArith Bool Lia Ascii String List.
From Verif Require Import Base F64 StrMap Value MBasic SGet SPromote MMap MCollapse SCollapse LCollapse LCollapse2 Props_collapse
  MJson SJson LJson LJson2 LBuild MYaml MToml SDocs.
Import ListNotations.
Local Open Scope Z_scope.

Lemma decode_int64_stored z g : decode_int64 z g = stored_int z.
Proof.
  unfold decode_int64, stored_int. replace (z <=? 2^31 - 1) with (z <? 2^31); [reflexivity|].
  destruct (Z.ltb_spec z (2^31)), (Z.leb_spec z (2^31 - 1)); lia || reflexivity.
Qed.
Lemma alloc_fresh n g : fresh g -> 0 <= n -> alloc_vec n g = repeat GNone (Z.to_nat n).
Proof. intros F H. unfold alloc_vec. rewrite (fresh_vec g F). now apply alloc_vec_none. Qed.

(** The size of a document bounds its arrays. *)
Definition short_arrays (j : json) : Prop := match j with JArr l => zlen l < 2^31 | _ => True end.
Lemma jsize_pos j : 1 <= jsize j.
Proof.
  induction j as [j Ha Ho | l IH | m IH] using json_nest_ind.
  - destruct j; cbn [jsize]; try lia; [now contradiction (Ha l)|now contradiction (Ho m)].
  - rewrite jsize_arr. enough (0 <= jsum l) by lia. induction IH as [|a l H _ IHl]; unfold jsum; cbn [fold_right]; [lia|].
    fold (jsum l). lia.
  - rewrite jsize_obj. enough (0 <= jsum (map snd m)) by lia.
    induction IH as [|a l H _ IHl]; unfold jsum; cbn [map fold_right]; [lia|]. fold (jsum (map snd l)). lia.
Qed.
Lemma jsum_len l : zlen l <= jsum l.
Proof.
  induction l as [|a l IH]; [reflexivity|]. rewrite zlen_cons. change (jsum (a :: l)) with (jsize a + jsum l).
  pose proof (jsize_pos a). lia.
Qed.
Lemma jsum_in l x : In x l -> jsize x <= jsum l.
Proof.
  induction l as [|a l IH]; [intros []|]. change (jsum (a :: l)) with (jsize a + jsum l).
  pose proof (jsum_len l). pose proof (zlen_nonneg l). pose proof (jsize_pos a). intros [->|H']; [lia|]. specialize (IH H'). lia.
Qed.
Lemma jsize_short j : jsize j < 2^31 -> jall short_arrays j.
Proof.
  induction j as [j Ha Ho | l IH | m IH] using json_nest_ind; intros H.
  - destruct j; cbn; auto; [now contradiction (Ha l)|now contradiction (Ho m)].
  - rewrite jsize_arr in H. apply jall_arr. split; [cbn; pose proof (jsum_len l); lia|].
    rewrite Forall_forall in *. intros x Hx. apply IH; [assumption|]. pose proof (jsum_in l x Hx). lia.
  - rewrite jsize_obj in H. apply jall_obj. split; [exact I|].
    rewrite Forall_forall in *. intros x Hx. apply IH; [assumption|].
    pose proof (jsum_in (map snd m) (snd x) (in_map snd _ _ Hx)). lia.
Qed.

(** * YAML *)
Lemma yaml_fresh y g : fresh g -> YAML_to_GC y g = YAML_to_GC y GNone.
Proof.
  intros F. destruct y; try reflexivity.
  - rewrite !yaml_seq. unfold alloc_vec. now rewrite (fresh_vec g F).
  - rewrite !yaml_map. now rewrite (fresh_map g F).
Qed.
Lemma yaml_build y : yall string_keys y -> jall distinct_names (yaml_doc y) -> jall short_arrays (yaml_doc y) ->
  YAML_to_GC y GNone = (Ok tt, build (yaml_doc y)).
Proof.
  induction y as [y Hs Hm | l IH | m IH] using yaml_nest_ind; intros Hk Hd Hl.
  - destruct y; try reflexivity; [|now contradiction (Hs l)|now contradiction (Hm m)].
    cbn [YAML_to_GC yaml_doc build]. now rewrite decode_int64_stored.
  - apply yall_seq in Hk as [_ Hk]. cbn [yaml_doc] in Hd, Hl. apply jall_arr in Hd as [_ Hd], Hl as [Hl0 Hl].
    rewrite yaml_seq. cbn [short_arrays] in Hl0. rewrite zlen_map in Hl0. pose proof (zlen_nonneg l).
    rewrite to_u32_id by (unfold uint32; lia). rewrite alloc_fresh by (assumption || apply fresh_none).
    replace (Z.to_nat (zlen l)) with (length l) by (unfold zlen; lia).
    cbn [yaml_doc build]. rewrite map_map.
    replace (yaml_all l (repeat GNone (length l))) with (Ok tt, map (fun y => build (yaml_doc y)) l); [reflexivity|].
    clear Hl0 H. induction l as [|a l IHl]; [reflexivity|]. cbn [map] in Hd, Hl.
    inversion IH; inversion Hk; inversion Hd; inversion Hl; subst.
    cbn [map length repeat yaml_all]. rewrite H1 by assumption. rewrite <- IHl by assumption. reflexivity.
  - apply yall_map in Hk as [Hk0 Hk]. cbn [yaml_doc] in Hd, Hl. apply jall_obj in Hd as [Hd0 Hd], Hl as [_ Hl].
    rewrite yaml_map. cbn [old_map yaml_doc build]. rewrite map_map. cbn [fst snd].
    cbn [string_keys] in Hk0. cbn [distinct_names] in Hd0. rewrite map_map in Hd0. cbn [fst] in Hd0. unfold by_key.
    assert (G : forall acc, (forall k, In k (map (fun kv => key_name (fst kv)) m) -> ~ In k (map fst acc)) ->
      yaml_members m acc = (Ok tt, fold_left (fun acc kv => mset (fst kv) (snd kv) acc)
        (map (fun kv => (key_name (fst kv), build (yaml_doc (snd kv)))) m) acc)).
    { induction m as [|(k, x) m IHm]; intros acc Ha; [reflexivity|]. cbn [map fst snd] in *.
      inversion IH; inversion Hk; inversion Hd; inversion Hl; inversion Hk0; inversion Hd0; subst. cbn [fst snd] in *.
      destruct H17 as (s & ->). cbn [yaml_members key_text fold_left fst snd key_name] in *.
      rewrite (mfind_none_key s acc) by (apply Ha; now left). rewrite H1 by assumption.
      apply IHm; try assumption. intros k Hin. rewrite mset_keys. intros [->|Hin']; [easy|].
      apply (Ha k); [now right|assumption]. }
    rewrite G; [reflexivity|]. intros k _ H. exact H.
Qed.

(** A key that is not a string makes the reader throw, whatever the container held. *)
Lemma yaml_outcome y : yall short_seq y -> forall g,
  (yall string_keys y /\ fst (YAML_to_GC y g) = Ok tt) \/ (~ yall string_keys y /\ fst (YAML_to_GC y g) = Throw).
Proof.
  induction y as [y Hs Hm | l IH | m IH] using yaml_nest_ind; intros Hl g.
  - left. destruct y; try (now contradiction (Hs l)); try (now contradiction (Hm m)); cbn; auto.
  - apply yall_seq in Hl as [Hl0 Hl]. cbn in Hl0. pose proof (zlen_nonneg l). rewrite yaml_seq.
    rewrite to_u32_id by (unfold uint32; lia).
    assert (E : (length l <= length (alloc_vec (zlen l) g))%nat).
    { unfold alloc_vec, valloc, zlen. destruct (Z.ltb_spec 0 (Z.of_nat (length l))); [rewrite resize_length|]; lia. }
    assert (C : (Forall (yall string_keys) l /\ fst (yaml_all l (alloc_vec (zlen l) g)) = Ok tt) \/
                (~ Forall (yall string_keys) l /\ fst (yaml_all l (alloc_vec (zlen l) g)) = Throw)).
    { revert E. generalize (alloc_vec (zlen l) g) as v. clear Hl0 H. induction l as [|a l IHl]; intros v E.
      - left. split; [constructor|]. destruct v; reflexivity.
      - destruct v as [|e v]; [cbn in E; lia|]. inversion IH; inversion Hl; subst. cbn [yaml_all].
        destruct (H1 H5 e) as [[K Er]|[K Er]]; destruct (YAML_to_GC a e) as [r e']; cbn [fst] in Er; subst r.
        + destruct (IHl H2 H6 v) as [[K' Er]|[K' Er]]; [cbn in E; lia| |]; destruct (yaml_all l v) as [r w]; cbn [fst] in *; subst r.
          * left. auto.
          * right. split; [|reflexivity]. intros F. inversion F. now apply K'.
        + right. split; [|reflexivity]. intros F. inversion F. now apply K. }
    destruct (yaml_all l _) as [r v]. cbn [fst] in *.
    destruct C as [[K ->]|[K ->]]; [left|right]; (split; [|reflexivity]); rewrite yall_seq; cbn [string_keys]; tauto.
  - apply yall_map in Hl as [_ Hl]. rewrite yaml_map.
    assert (C : ((string_keys (YMap m) /\ Forall (fun kv => yall string_keys (snd kv)) m) /\ fst (yaml_members m (old_map g)) = Ok tt) \/
                (~ (string_keys (YMap m) /\ Forall (fun kv => yall string_keys (snd kv)) m) /\ fst (yaml_members m (old_map g)) = Throw)).
    { generalize (old_map g) as acc. cbn [string_keys]. induction m as [|(k, x) m IHm]; intros acc.
      - left. repeat constructor.
      - inversion IH; inversion Hl; subst. cbn [snd] in *. cbn [yaml_members].
        destruct (key_text k) as [s| | |] eqn:Ek; [|right|destruct k; discriminate|destruct k; discriminate].
        + destruct k; try discriminate. cbn in Ek. injection Ek as ->.
          match goal with |- context [YAML_to_GC x ?e] => destruct (H1 H5 e) as [[K Er]|[K Er]]; destruct (YAML_to_GC x e) as [r e'] end;
            cbn [fst] in Er; subst r.
          * destruct (IHm H2 H6 (mset s e' acc)) as [[K' Er]|[K' Er]]; rewrite Er; [left|right].
            -- split; [|reflexivity]. destruct K'. split; constructor; cbn; eauto.
            -- split; [|reflexivity]. intros [F1 F2]. inversion F1; inversion F2. tauto.
          * right. split; [|reflexivity]. intros [F1 F2]. inversion F2. auto.
        + split; [|reflexivity]. intros [F1 F2]. inversion F1 as [|? ? (s & Es)]; subst. cbn in Es. subst k. discriminate. }
    destruct (yaml_members m _) as [r v]. cbn [fst] in *.
    destruct C as [[K ->]|[K ->]]; [left|right]; (split; [|reflexivity]); rewrite yall_map; tauto.
Qed.

(** * TOML *)
(** The container the reader builds. *)
Fixpoint tbuild (t : toml) : gc :=
  match t with
  | TStrN s => GStr s
  | TIntN z => stored_int z
  | TFltN x => GReal x
  | TBoolN b => GBool b
  | TDate s => GMap [("$date"%string, GStr s)]
  | TTime s => GMap [("$time"%string, GStr s)]
  | TDateTime s => GMap [("$date_time"%string, GStr s)]
  | TTbl m => GMap (by_key (map (fun kv => (fst kv, tbuild (snd kv))) m))
  | TArr l =>
      if tables_only l then GVec (map tbuild l)
      else if forallb is_string l then GVStr (map text_of l)
      else if forallb is_integer l then GVInt (map (fun x => to_i32 (int_of x)) l)
      else if forallb is_float l then GVReal (map flt_of l)
      else GVec (map tbuild l)
  end.

Lemma lset_snoc {A} (v : list A) x y : lset (length v) y (v ++ [x]) = v ++ [y].
Proof. induction v as [|a v IH]; [reflexivity|]. cbn. now rewrite IH. Qed.
Lemma with_idx_end {A} (f : gc -> out A * gc) (v : list gc) : zlen v < 2^32 - 1 ->
  with_idx (to_u32 (zlen v)) f (GVec v) = let '(r, e) := f GNone in (r, GVec (v ++ [e])).
Proof.
  intros H. pose proof (zlen_nonneg v). rewrite to_u32_id by (unfold uint32; lia). unfold with_idx. cbn [old_vec].
  unfold check_resize. destruct (Z.leb_spec (zlen v) (zlen v)); [|lia]. rewrite to_u32_id by (unfold uint32; lia).
  assert (E : resize GNone (Z.to_nat (zlen v + 1)) v = v ++ [GNone]).
  { unfold resize. replace (Z.to_nat (zlen v + 1)) with (S (length v)) by (unfold zlen; lia).
    rewrite firstn_all2 by lia. replace (S (length v) - length v)%nat with 1%nat by lia. reflexivity. }
  rewrite E. assert (Ez : znth (zlen v) (v ++ [GNone]) = Some GNone).
  { unfold znth. destruct (Z.ltb_spec (zlen v) 0); [lia|]. replace (Z.to_nat (zlen v)) with (length v) by (unfold zlen; lia).
    rewrite nth_error_app2 by lia. now rewrite Nat.sub_diag. }
  rewrite Ez. destruct (f GNone) as [r e]. replace (Z.to_nat (zlen v)) with (length v) by (unfold zlen; lia). now rewrite lset_snoc.
Qed.
Lemma toml_items_append l : Forall (fun t => TOML_to_GC t GNone = (Ok tt, tbuild t)) l ->
  forall v, zlen v + zlen l < 2^31 -> toml_items l (zlen v) (GVec v) = (Ok tt, GVec (v ++ map tbuild l)).
Proof.
  induction 1 as [|t l Ht _ IH]; intros v Hl; [cbn [toml_items map]; now rewrite app_nil_r|].
  rewrite zlen_cons in Hl. pose proof (zlen_nonneg l). cbn [toml_items map]. rewrite with_idx_end by lia. rewrite Ht.
  replace (zlen v + 1) with (zlen (v ++ [tbuild t])) by (rewrite zlen_app, zlen_cons; reflexivity).
  rewrite IH by (rewrite zlen_app, zlen_cons; change (zlen []) with 0; lia). now rewrite <- app_assoc.
Qed.
Lemma toml_build t : jall distinct_names (toml_doc t) -> jall short_arrays (toml_doc t) ->
  TOML_to_GC t GNone = (Ok tt, tbuild t).
Proof.
  induction t as [t Ha Hm | l IH | m IH] using toml_nest_ind; intros Hd Hl.
  - destruct t; try reflexivity; [|now contradiction (Hm m)|now contradiction (Ha l)].
    cbn [TOML_to_GC tbuild]. now rewrite decode_int64_stored.
  - cbn [toml_doc] in Hd, Hl. apply jall_arr in Hd as [_ Hd], Hl as [Hl0 Hl]. cbn [short_arrays] in Hl0. rewrite zlen_map in Hl0.
    assert (F : Forall (fun t => TOML_to_GC t GNone = (Ok tt, tbuild t)) l).
    { rewrite Forall_forall in *. intros t Ht. apply IH; [assumption|apply Hd|apply Hl]; now apply in_map. }
    rewrite toml_arr. cbn [tbuild].
    pose proof (toml_items_append l F [] ltac:(change (zlen []) with 0; lia)) as E.
    change (set_vector_sz 0 GNone) with (GVec []). change (zlen []) with 0 in E. cbn [app] in E. rewrite E.
    destruct (tables_only l), (forallb is_string l), (forallb is_integer l), (forallb is_float l); reflexivity.
  - cbn [toml_doc] in Hd, Hl. apply jall_obj in Hd as [Hd0 Hd], Hl as [_ Hl].
    rewrite toml_tbl. cbn [old_map tbuild]. cbn [distinct_names] in Hd0. rewrite map_map in Hd0. cbn [fst] in Hd0. unfold by_key.
    assert (G : forall acc, (forall k, In k (map fst m) -> ~ In k (map fst acc)) ->
      toml_members m acc = (Ok tt, fold_left (fun acc kv => mset (fst kv) (snd kv) acc)
        (map (fun kv => (fst kv, tbuild (snd kv))) m) acc)).
    { induction m as [|(k, x) m IHm]; intros acc Ha; [reflexivity|]. cbn [map fst snd] in *.
      inversion IH; inversion Hd; inversion Hl; inversion Hd0; subst. cbn [fst snd] in *.
      cbn [toml_members fold_left fst snd] in *.
      rewrite (mfind_none_key k acc) by (apply Ha; now left). rewrite H1 by assumption.
      apply IHm; try assumption. intros k' Hin. rewrite mset_keys. intros [->|Hin']; [easy|].
      apply (Ha k'); [now right|assumption]. }
    rewrite G; [reflexivity|]. intros k _ H. exact H.
Qed.
Lemma toml_fresh_root m g : (forall m', g <> GMap m') -> TOML_to_GC (TTbl m) g = TOML_to_GC (TTbl m) GNone.
Proof. intros H. rewrite !toml_tbl. destruct g; try reflexivity. now contradiction (H m0). Qed.

(** What is known when an array is stored as a typed vector. *)
Lemma all_string l : forallb is_string l = true -> map tbuild l = map (fun x => GStr (text_of x)) l.
Proof.
  induction l as [|a l IH]; [reflexivity|]. cbn [forallb map]. intros H. apply andb_true_iff in H as [H1 H2].
  rewrite (IH H2). destruct a; try discriminate. reflexivity.
Qed.
Lemma all_string_doc l : forallb is_string l = true -> map toml_doc l = map (fun x => JStr (text_of x)) l.
Proof.
  induction l as [|a l IH]; [reflexivity|]. cbn [forallb map]. intros H. apply andb_true_iff in H as [H1 H2].
  rewrite (IH H2). destruct a; try discriminate. reflexivity.
Qed.
Lemma all_integer_doc l : forallb is_integer l = true -> map toml_doc l = map (fun x => JInt (int_of x)) l.
Proof.
  induction l as [|a l IH]; [reflexivity|]. cbn [forallb map]. intros H. apply andb_true_iff in H as [H1 H2].
  rewrite (IH H2). destruct a; try discriminate. reflexivity.
Qed.
Lemma all_float_doc l : forallb is_float l = true -> map toml_doc l = map (fun x => JDbl (flt_of x)) l.
Proof.
  induction l as [|a l IH]; [reflexivity|]. cbn [forallb map]. intros H. apply andb_true_iff in H as [H1 H2].
  rewrite (IH H2). destruct a; try discriminate. reflexivity.
Qed.
Lemma narrow_ints l : forallb is_integer l = true -> narrow_arrays (JArr (map toml_doc l)) ->
  map (fun x => to_i32 (int_of x)) l = map int_of l /\ Forall (fun x => - 2^31 <= int_of x < 2^31) l.
Proof.
  intros Hi Hn. cbn [narrow_arrays] in Hn. rewrite (all_integer_doc l Hi) in Hn.
  assert (F : Forall (fun x => - 2^31 <= int_of x < 2^31) l).
  { apply Forall_forall. intros x Hx. apply Hn; [|apply in_map_iff; now exists x].
    intros y Hy. apply in_map_iff in Hy as (z & <- & _). eauto. }
  split; [|exact F]. clear -F. induction F as [|a l H _ IH]; [reflexivity|]. cbn [map]. rewrite IH. f_equal.
  apply to_i32_id. unfold int32. lia.
Qed.

(** The shapes of an array. *)
Inductive array_case (l : list toml) : gc -> Prop :=
| ac_str : forallb is_string l = true -> array_case l (GVStr (map text_of l))
| ac_int : forallb is_integer l = true -> array_case l (GVInt (map (fun x => to_i32 (int_of x)) l))
| ac_flt : forallb is_float l = true -> array_case l (GVReal (map flt_of l))
| ac_vec : array_case l (GVec (map tbuild l)).
Lemma array_cases l : array_case l (tbuild (TArr l)).
Proof.
  cbn [tbuild]. destruct (tables_only l); [apply ac_vec|]. destruct (forallb is_string l) eqn:E1; [now apply ac_str|].
  destruct (forallb is_integer l) eqn:E2; [now apply ac_int|]. destruct (forallb is_float l) eqn:E3; [now apply ac_flt|apply ac_vec].
Qed.

Lemma tbuild_data t : jall narrow_arrays (toml_doc t) -> data_of (tbuild t) = json_data (toml_doc t).
Proof.
  induction t as [t Ha Hm | l IH | m IH] using toml_nest_ind; intros Hn.
  - destruct t; try reflexivity; [|now contradiction (Hm m)|now contradiction (Ha l)]. cbn [tbuild]. dint z; reflexivity.
  - cbn [toml_doc] in Hn |- *. apply jall_arr in Hn as [Hn0 Hn].
    destruct (array_cases l) as [H|H|H|]; cbn [data_of json_data]; f_equal.
    + rewrite all_string_doc, !map_map by assumption. reflexivity.
    + destruct (narrow_ints l H Hn0) as [E _]. rewrite E, all_integer_doc, !map_map by assumption. reflexivity.
    + rewrite all_float_doc, !map_map by assumption. reflexivity.
    + rewrite !map_map. clear Hn0. induction IH as [|a l Ea _ IHl]; [reflexivity|]. cbn [map] in *. inversion Hn; subst.
      now rewrite Ea, IHl.
  - cbn [toml_doc] in Hn. apply jall_obj in Hn as [_ Hn]. cbn [tbuild toml_doc data_of json_data]. f_equal.
    change (vmap data_of (by_key (vmap tbuild m)) = by_key (vmap json_data (vmap toml_doc m))).
    rewrite vmap_by_key, !vmap_vmap. f_equal. apply vmap_ext. apply Forall_forall. intros kv Hkv. rewrite Forall_forall in IH, Hn.
    apply IH; [assumption|]. apply (Hn (fst kv, toml_doc (snd kv))). apply in_map_iff. now exists kv.
Qed.
Lemma tbuild_wf t : jall storable (toml_doc t) -> jall narrow_arrays (toml_doc t) -> wf (tbuild t).
Proof.
  induction t as [t Ha Hm | l IH | m IH] using toml_nest_ind; intros Hr Hn.
  - destruct t; try exact I; [| | | | |now contradiction (Hm m)|now contradiction (Ha l)].
    + apply (build_wf (JInt z)). exact Hr.
    + apply jall_here in Hr. exact Hr.
    + apply wf_map. split; [repeat constructor|]. repeat constructor.
    + apply wf_map. split; [repeat constructor|]. repeat constructor.
    + apply wf_map. split; [repeat constructor|]. repeat constructor.
  - cbn [toml_doc] in Hn, Hr. apply jall_arr in Hn as [Hn0 Hn], Hr as [_ Hr].
    destruct (array_cases l) as [H|H|H|].
    + exact I.
    + destruct (narrow_ints l H Hn0) as [E F]. rewrite E. cbn [wf]. apply Forall_map. eapply Forall_impl; [|exact F].
      intros a Ia. cbn beta in Ia |- *. unfold int32. lia.
    + cbn [wf]. rewrite all_float_doc in Hr by assumption. apply Forall_map. rewrite Forall_map in Hr. eapply Forall_impl; [|exact Hr].
      intros a Ia. apply jall_here in Ia. exact Ia.
    + apply wf_vec. apply Forall_map. rewrite Forall_map in Hr, Hn. rewrite Forall_forall in *. auto.
  - cbn [toml_doc] in Hn, Hr. apply jall_obj in Hn as [_ Hn], Hr as [_ Hr]. cbn [tbuild]. apply wf_map. split; [apply by_key_sorted|].
    apply by_key_forall. rewrite Forall_map in *. rewrite Forall_forall in *. cbn [snd] in *. auto.
Qed.
Lemma tbuild_weight t : jall distinct_names (toml_doc t) -> weight (tbuild t) = jsize (toml_doc t).
Proof.
  induction t as [t Ha Hm | l IH | m IH] using toml_nest_ind; intros Hd.
  - destruct t; try reflexivity; [|now contradiction (Hm m)|now contradiction (Ha l)]. cbn [tbuild]. dint z; reflexivity.
  - cbn [toml_doc] in Hd |- *. apply jall_arr in Hd as [_ Hd]. rewrite jsize_arr.
    assert (C : forall A (f : toml -> A) (h : A -> json), (forall a, jsize (h a) = 1) -> map toml_doc l = map (fun x => h (f x)) l ->
                 1 + zlen (map f l) = 1 + jsum (map toml_doc l)).
    { intros A f h H ->. f_equal. clear -H. induction l as [|a l IHl]; [reflexivity|].
      cbn [map]. rewrite zlen_cons, IHl. unfold jsum. cbn [fold_right]. rewrite H. lia. }
    destruct (array_cases l) as [H|H|H|].
    + apply (C _ text_of JStr); [reflexivity|now apply all_string_doc].
    + cbn [weight]. rewrite zlen_map, <- (zlen_map int_of l). apply (C _ int_of JInt); [reflexivity|now apply all_integer_doc].
    + apply (C _ flt_of JDbl); [reflexivity|now apply all_float_doc].
    + rewrite weight_vec. f_equal. clear C. induction l as [|a l IHl]; [reflexivity|]. cbn [map] in *. inversion IH; inversion Hd; subst.
      cbn [sumw fold_right jsum]. f_equal; [auto|]. now apply IHl.
  - cbn [toml_doc] in Hd |- *. apply jall_obj in Hd as [Hd0 Hd]. cbn [tbuild].
    rewrite weight_map, jsize_obj. f_equal. cbn [distinct_names] in Hd0. rewrite map_map in Hd0. cbn [fst] in Hd0.
    rewrite sumwm_by_key by (rewrite map_map; exact Hd0). clear Hd0. rewrite map_map. cbn [snd].
    induction m as [|a m IHm]; [reflexivity|]. cbn [map] in *. inversion IH; inversion Hd; subst.
    cbn [map sumwm fold_right jsum snd] in *. f_equal; [auto|]. now apply IHm.
Qed.
(** The scalar and sequence nodes are those of the plain document, with as many elements. *)
Lemma tbuild_shape t : (scalar (tbuild t) <-> scalar (build (toml_doc t))) /\ (sequence (tbuild t) <-> sequence (build (toml_doc t))) /\
  (sequence (tbuild t) -> zlen (elems (tbuild t)) = zlen (elems (build (toml_doc t)))) /\
  (scalar (tbuild t) -> elems (tbuild t) = elems (build (toml_doc t))).
Proof.
  destruct t as [ | | | | | | | m | l ]; try (split; [|split; [|split]]; try intros _; reflexivity).
  - cbn [toml_doc build]. rewrite map_map.
    destruct (array_cases l) as [H|H|H|]; (split; [|split; [|split]]); unfold scalar, sequence; cbn [tag_of In elems];
      rewrite ?zlen_map; try reflexivity; try (split; intros; intuition discriminate); intros; exfalso; intuition discriminate.
Qed.
Section TEverywhere.
  Variable Q : json -> Prop.
  Variable P : gc -> Prop.
  Hypothesis Hint : forall z, Q (JInt z) -> P (stored_int z).
  Hypothesis Hstr : forall s, P (GStr s).
  Hypothesis Hflt : forall x, Q (JDbl x) -> P (GReal x).
  Hypothesis Hbool : forall b, P (GBool b).
  Hypothesis Hmap : forall m, P (GMap m).
  Hypothesis Hvstr : forall v, P (GVStr v).
  Hypothesis Hvint : forall v, P (GVInt v).
  Hypothesis Hvflt : forall v, P (GVReal v).
  Hypothesis Hvec : forall l, Q (JArr (map toml_doc l)) -> P (GVec (map tbuild l)).
  Lemma tbuild_everywhere t : jall Q (toml_doc t) -> everywhere P (tbuild t).
  Proof.
    induction t as [t Ha Hm | l IH | m IH] using toml_nest_ind; intros Hq.
    - destruct t; try (match goal with m : list (string * toml) |- _ => now contradiction (Hm m) end);
        try (match goal with l : list toml |- _ => now contradiction (Ha l) end).
      + split; [apply Hstr|exact I].
      + apply jall_here in Hq. specialize (Hint z Hq). cbn [tbuild]. dint z; (split; [exact Hint|exact I]).
      + apply jall_here in Hq. split; [now apply Hflt|exact I].
      + split; [apply Hbool|exact I].
      + cbn [tbuild]. apply everywhere_map. split; [apply Hmap|]. repeat constructor. apply Hstr.
      + cbn [tbuild]. apply everywhere_map. split; [apply Hmap|]. repeat constructor. apply Hstr.
      + cbn [tbuild]. apply everywhere_map. split; [apply Hmap|]. repeat constructor. apply Hstr.
    - cbn [toml_doc] in Hq. apply jall_arr in Hq as [Hq0 Hq]. rewrite Forall_map in Hq.
      destruct (array_cases l) as [H|H|H|]; try (split; [auto|exact I]).
      apply everywhere_vec. split; [now apply Hvec|]. apply Forall_map. rewrite Forall_forall in *. auto.
    - cbn [toml_doc] in Hq. apply jall_obj in Hq as [Hq0 Hq]. rewrite Forall_map in Hq. cbn [snd] in Hq.
      cbn [tbuild]. apply everywhere_map. split; [apply Hmap|]. apply by_key_forall. apply Forall_map. cbn [snd]. rewrite Forall_forall in *. auto.
  Qed.
End TEverywhere.
Lemma tbuild_parsed t : parsed (tbuild t).
Proof.
  apply (tbuild_everywhere (fun _ => True)); try (intros; unfold parsed_node; cbn; tauto); [|apply jall_true].
  intros z _. dint z; unfold parsed_node; cbn; tauto.
Qed.
Lemma toml_merging t x : In x (merging (tbuild t)) -> exists k, In k (jmerging (toml_doc t)) /\
  (no_jreal k -> no_real x) /\ (jlong_ok k -> long_ok x).
Proof.
  destruct t as [s|z|r|b|s|s|s|m|l]; try (intros []; fail).
  - intros [<-|[]]. exists (JStr s). split; [now left|]. split; intros; exact I.
  - intros H. destruct (build_merging (JInt z) x H) as (k & Hk & ->). exists k. split; [exact Hk|]. apply build_leaf.
  - intros [<-|[]]. exists (JDbl r). split; [now left|]. split; [intros K; exact K|intros; exact I].
  - intros [<-|[]]. exists (JBool b). split; [now left|]. split; intros; exact I.
  - cbn [toml_doc jmerging]. destruct (array_cases l) as [H|H|H|]; cbn [merging elems]; rewrite ?map_map; intros Hx.
    + apply in_map_iff in Hx as (a & <- & Ha). exists (toml_doc a). split; [now apply in_map|]. split; intros; exact I.
    + apply in_map_iff in Hx as (a & <- & Ha). exists (toml_doc a). split; [now apply in_map|]. split; intros; exact I.
    + apply in_map_iff in Hx as (a & <- & Ha). exists (toml_doc a). split; [now apply in_map|].
      rewrite forallb_forall in H. specialize (H a Ha). destruct a; try discriminate. split; [intros K; exact K|intros; exact I].
    + apply in_map_iff in Hx as (a & <- & Ha). exists (toml_doc a). split; [now apply in_map|].
      destruct a as [s|z|r|b|s|s|s|m|w]; try (split; intros; exact I).
      * apply (build_leaf (JInt z)).
      * split; [intros K; exact K|intros; exact I].
      * destruct (array_cases w); split; intros; exact I.
Qed.
Lemma tbuild_unrounded t : jall unrounded_doc (toml_doc t) -> unrounded (tbuild t).
Proof.
  intros H. apply (tbuild_everywhere unrounded_doc); try assumption; try (intros; exact I).
  - intros z _. dint z; exact I.
  - intros l Hl. apply (unrounded_from toml_doc); [assumption|]. intros a _ x Hx. now apply toml_merging.
Qed.
Lemma tbuild_unmixed t : jall not_jmixed (toml_doc t) -> unmixed (tbuild t).
Proof.
  intros Hm. apply (tbuild_everywhere not_jmixed); try assumption; try (intros; exact I).
  - intros z _. dint z; exact I.
  - intros l H. pose proof (build_not_mixed _ H) as N.
    intros a b Ia Ib Sa Sb. apply in_map_iff in Ia as (ta & <- & Ta), Ib as (tb & <- & Tb).
    pose proof (tbuild_shape ta) as (A1 & _ & _ & A4). pose proof (tbuild_shape tb) as (_ & B2 & B3 & _).
    rewrite (A4 Sa), (B3 Sb). apply N; try (apply in_map; now apply in_map); [now apply A1|now apply B2].
Qed.
