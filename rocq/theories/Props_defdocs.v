(** Property C115: the YAML and TOML readers always return true or false. *)
From Coq Require Import ZArith Bool Lia Ascii String List.
From Verif Require Import Base F64 StrMap Value MBasic WfDec SGet SPromote MCollapse SCollapse LCollapse MJson SJson LJson LBuild MYaml MToml SDocs LDocs SOps SDefined Props_defined Props_defjson.
From Verif Require LOps LOps2.
Import ListNotations.
Local Open Scope Z_scope.

Lemma yaml_short y : jall short_array (yaml_doc y) -> yall short_seq y.
Proof.
  induction y as [y Hs Hm | l IH | m IH] using yaml_nest_ind; intros H.
  - destruct y; try (split; exact I); [now contradiction (Hs l)|now contradiction (Hm m)].
  - cbn [yaml_doc] in H. apply jall_arr in H as [H0 H]. cbn [short_array] in H0. rewrite zlen_map in H0. apply yall_seq. split; [cbn [short_seq]; lia|].
    rewrite Forall_map in H. rewrite Forall_forall in *. auto.
  - cbn [yaml_doc] in H. apply jall_obj in H as [_ H]. apply yall_map. split; [exact I|]. rewrite Forall_map in H. rewrite Forall_forall in *. cbn [snd] in H. auto.
Qed.
Lemma int64_fits z g : number_fits (decode_int64 z g) /\ harmless (decode_int64 z g).
Proof. unfold decode_int64. destruct (_ && _); split; first [exact I | split; exact I]. Qed.
Lemma yaml_number_fits y g : (forall x, y = YFlt x -> int_or_fraction x) -> number_fits (snd (YAML_to_GC y g)).
Proof.
  intros H. destruct y; try exact I; [apply int64_fits|now apply H| |].
  - rewrite yaml_seq. destruct (yaml_all _ _) as [r v]. exact I.
  - rewrite yaml_map. destruct (yaml_members _ _) as [r v]. exact I.
Qed.
Lemma yaml_harmless y : jall short_array (yaml_doc y) -> jall small_reals (yaml_doc y) -> forall g, harmless g -> harmless (snd (YAML_to_GC y g)).
Proof.
  induction y as [y Ha Ho | l IH | m IH] using yaml_nest_ind; intros S R g Hg.
  - destruct y; try (split; exact I); [apply int64_fits|now contradiction (Ha l)|now contradiction (Ho m)].
  - cbn [yaml_doc] in S, R. apply jall_arr in S as [S0 S]. apply jall_arr in R as [R0 R]. cbn [short_array small_reals] in S0, R0. rewrite yaml_seq.
    pose proof (zlen_nonneg l) as N. rewrite to_u32_id by (rewrite zlen_map in S0; unfold uint32; lia).
    destruct (alloc_harmless (map yaml_doc l) g Hg S0) as (V1 & V2 & V3). rewrite zlen_map in V1, V2, V3. clear S0 N. generalize dependent (alloc_vec (zlen l) g).
    assert (G : forall v, Forall number_fits v -> Forall harmless v ->
      length (snd (yaml_all l v)) = length v /\ Forall number_fits (snd (yaml_all l v)) /\ Forall harmless (snd (yaml_all l v))).
    { induction IH as [|x l Ex _ IHl]; intros v V2 V3; [destruct v; now split|]. destruct v as [|e v]; [now split|]. cbn [yaml_all map] in *.
      inversion S; inversion R; inversion V2; inversion V3; subst.
      destruct (IHl ltac:(assumption) (fun y Hy => R0 y (or_intror Hy)) ltac:(assumption) v ltac:(assumption) ltac:(assumption)) as (A & B & C).
      assert (F : number_fits (snd (YAML_to_GC x e))) by (apply yaml_number_fits; intros y ->; apply R0; now left).
      assert (K : harmless (snd (YAML_to_GC x e))) by (apply Ex; assumption).
      destruct (YAML_to_GC x e) as [[] e']; cbn [snd] in F, K; cbn [snd length]; try (split; [reflexivity|]; split; constructor; assumption).
      destruct (yaml_all l v) as [r w]. cbn [snd length] in *. split; [now rewrite A|]. split; constructor; assumption. }
    intros v V1 V2 V3. destruct (G v V2 V3) as (A & B & C). destruct (yaml_all l v) as [r w]. cbn [snd] in *. apply harmless_vec. unfold zlen in *. rewrite A. auto.
  - cbn [yaml_doc] in S, R. apply jall_obj in S as [_ S]. apply jall_obj in R as [_ R]. rewrite Forall_map in S, R. cbn [snd] in S, R. rewrite yaml_map.
    assert (F : Forall (fun kv => harmless (snd kv)) (old_map g)) by (destruct g; try constructor; now apply harmless_map).
    enough (G : forall acc, Forall (fun kv => harmless (snd kv)) acc -> Forall (fun kv => harmless (snd kv)) (snd (yaml_members m acc))).
    { specialize (G _ F). destruct (yaml_members m _) as [r acc]. now apply harmless_map. }
    clear g Hg F. induction IH as [|[k x] m Ex _ IHl]; intros acc F; [exact F|]. cbn [yaml_members]. inversion S; inversion R; subst. cbn [snd] in *.
    destruct (key_text k) as [s| | |]; try exact F.
    assert (E : harmless (match mfind s acc with Some e => e | None => GNone end)).
    { destruct (mfind s acc) as [e|] eqn:E; [|apply none_harmless]. apply mfind_in in E. rewrite Forall_forall in F. apply (F _ E). }
    specialize (Ex ltac:(assumption) ltac:(assumption) _ E). destruct (YAML_to_GC x _) as [[] e']; cbn [snd] in Ex |- *;
      try (apply LJson.mset_forall; assumption). apply IHl; [assumption|assumption|]. apply LJson.mset_forall; assumption.
Qed.

(** * C115: from_yaml and from_toml return true or false for every document without large reals
    in arrays that hold other things too; nothing is thrown and nothing is undefined.
    [d] is what the parser gives, [None] if it rejects the text. *)
Theorem C115_yaml : forall d g, wf g -> harmless g ->
  (forall y, d = Some y -> jall tree_fits (yaml_doc y) /\ jall short_array (yaml_doc y) /\ jall small_reals (yaml_doc y)) ->
  exists b g', from_yaml d g = (Ok b, g').
Proof.
  intros d g W H D. destruct d as [y|]; [|now exists false, g]. destruct (D y eq_refl) as (F & S & R). cbn [from_yaml].
  pose proof (LOps2.yaml_ok y F g W) as Wy. pose proof (yaml_harmless y S R g H) as Hy.
  destruct (yaml_outcome y (yaml_short y S) g) as [[_ E]|[_ E]]; destruct (YAML_to_GC y g) as [r h]; cbn [fst snd] in *; subst r; cbn [then_collapse].
  - destruct (C110_defined h Wy Hy) as [(g' & ->)|(g' & ->)]; cbn [caught]; eauto.
  - cbn [caught]. eauto.
Qed.
(** TOML: arrays of reals alone become typed vectors, so only mixed arrays matter. *)
Definition small_mixed_reals (j : json) : Prop :=
  match j with JArr l => (forall e, In e l -> exists x, e = JDbl x) \/ (forall x, In (JDbl x) l -> int_or_fraction x) | _ => True end.
Lemma tbuild_harmless t : jall short_array (toml_doc t) -> jall small_mixed_reals (toml_doc t) -> harmless (tbuild t).
Proof.
  induction t as [t Ha Ho | l IH | m IH] using toml_nest_ind; intros S R.
  - destruct t; try (split; exact I); [| | | |now contradiction (Ho m)|now contradiction (Ha l)].
    + cbn [tbuild]. dint z; split; exact I.
    + apply harmless_map. repeat constructor.
    + apply harmless_map. repeat constructor.
    + apply harmless_map. repeat constructor.
  - cbn [toml_doc] in S, R. apply jall_arr in S as [S0 S]. apply jall_arr in R as [R0 R]. cbn [short_array small_mixed_reals] in S0, R0. rewrite zlen_map in S0.
    rewrite Forall_map in S, R. cbn [tbuild].
    assert (V : Forall harmless (map tbuild l)) by (rewrite Forall_map; rewrite Forall_forall in *; auto).
    assert (N : (forall x, In (TFltN x) l -> int_or_fraction x) -> harmless (GVec (map tbuild l))).
    { intros N. apply harmless_vec. split; [|exact V]. split; [now rewrite zlen_map|]. rewrite Forall_map, Forall_forall. intros t Ht.
      destruct t; try exact I; [cbn [tbuild]; dint z; exact I|now apply N|]. cbn [tbuild].
      destruct (tables_only l0); [exact I|]. destruct (forallb is_string l0); [exact I|]. destruct (forallb is_integer l0); [exact I|].
      destruct (forallb is_float l0); exact I. }
    destruct (tables_only l) eqn:T.
    { apply N. intros x Hx. exfalso. destruct l as [|a l]; [contradiction|]. cbn [tables_only] in T. rewrite forallb_forall in T. apply T in Hx. discriminate. }
    destruct (forallb is_string l); [split; [cbn [harmless_node]; now rewrite zlen_map|exact I]|].
    destruct (forallb is_integer l); [split; [cbn [harmless_node]; now rewrite zlen_map|exact I]|].
    destruct (forallb is_float l) eqn:E; [split; [cbn [harmless_node]; now rewrite zlen_map|exact I]|].
    apply N. destruct R0 as [R0|R0].
    + exfalso. apply Bool.not_true_iff_false in E. apply E. apply forallb_forall. intros t Ht. destruct (R0 _ (in_map toml_doc _ _ Ht)) as [x X]. destruct t; try discriminate X. reflexivity.
    + intros x Hx. apply R0. exact (in_map toml_doc _ _ Hx).
  - cbn [toml_doc] in S, R. apply jall_obj in S as [_ S]. apply jall_obj in R as [_ R]. cbn [tbuild]. apply harmless_map. apply by_key_forall.
    rewrite Forall_map in *. cbn [snd] in *. rewrite Forall_forall in *. auto.
Qed.
Theorem C115_toml : forall d g, (forall m', g <> GMap m') ->
  (forall m, d = Some m -> let j := toml_doc (TTbl m) in
     jall tree_fits j /\ jall distinct_names j /\ jall short_array j /\ jall small_mixed_reals j) ->
  exists b g', from_toml d g = (Ok b, g').
Proof.
  intros d g Fr D. destruct d as [m|]; [|now exists false, g]. destruct (D m eq_refl) as (F & U & S & R). cbn [from_toml].
  rewrite toml_fresh_root by assumption. pose proof (LOps2.toml_ok (TTbl m) F GNone I) as W. pose proof (tbuild_harmless _ S R) as H.
  rewrite toml_build in W |- * by assumption. cbn [snd] in W. cbn [then_collapse].
  destruct (C110_defined _ W H) as [(g' & ->)|(g' & ->)]; cbn [caught]; eauto.
Qed.
(** Both results occur, and without the condition the readers can have undefined behaviour. *)
Example C115_example :
  (exists g', from_yaml (Some (YMap [(YStr "a"%string, YSeq [YInt 1; YStr "x"%string])])) (GVec [GInt 1]) = (Ok true, g')) /\
  (exists g', from_yaml (Some (YMap [(YStr "a"%string, YSeq [YStr "x"%string; YSeq [YInt 1]])])) GNone = (Ok false, g')) /\
  (exists g', from_toml (Some [("a"%string, TArr [TFltN (f_of_Z (2^40)); TFltN (f_of_Z (2^50))]); ("b"%string, TIntN 5)]) (GInt 3) = (Ok true, g')) /\
  (exists g', from_yaml (Some (YSeq [YFlt (f_of_Z (2^40)); YSeq [YInt 1]])) GNone = (Undef, g')).
Proof. repeat split; eexists; vm_compute; reflexivity. Qed.
(** The hypotheses hold for a nested document with an array of large reals (TOML) and with names given twice (YAML). *)
Example C115_hypotheses :
  (let j := yaml_doc (YMap [(YStr "a"%string, YSeq [YInt 1; YSeq [YStr "x"%string]]); (YStr "a"%string, YBool true); (YInt 3, YNull)]) in
   jall tree_fits j /\ jall short_array j /\ jall small_reals j) /\
  (let j := toml_doc (TTbl [("a"%string, TArr [TFltN 4890909195324358656; TFltN 5]); ("b"%string, TArr [TIntN 5; TBoolN true])]) in
   jall tree_fits j /\ jall distinct_names j /\ jall short_array j /\ jall small_mixed_reals j).
Proof.
  cbv zeta. cbn [yaml_doc toml_doc map fst snd jall tree_fits short_array small_reals small_mixed_reals distinct_names].
  assert (f64 4890909195324358656 /\ f64 5) by (unfold f64; lia). assert (int64 1 /\ int64 5) by (unfold int64; lia).
  split; [split; [|split]|split; [|split; [|split]]]; repeat match goal with |- _ /\ _ => split | |- True => exact I end; try tauto.
  all: try (unfold zlen; cbn [length]; lia). all: try (intros x Hx; cbn [In] in Hx; intuition discriminate).
  - repeat constructor; cbn [In]; intuition discriminate.
  - left. intros e [<-|[<-|[]]]; eauto.
  - right. intros x Hx. cbn [In] in Hx. intuition discriminate.
Qed.
Print Assumptions C115_yaml.
Print Assumptions C115_toml.
