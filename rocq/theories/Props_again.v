(** Property C117: reading the same document again changes nothing. *)
From Coq Require Import ZArith Bool Lia Ascii String List.
From Verif Require Import Base F64 StrMap Value MBasic WfDec SGet SPromote MCollapse SCollapse LCollapse MNum MText MJson SJson LJson LBuild MRapid MYaml MToml SDocs LDocs Props_order.
Import ListNotations.
Local Open Scope Z_scope.

(** What collapse leaves of a container: generic vectors and maps keep their shape or become something else. *)
Inductive remains : gc -> gc -> Prop :=
| rm_flat h h' : fresh h' -> remains h h'
| rm_vec v v' : Forall2 remains v v' -> remains (GVec v) (GVec v')
| rm_map m m' : Forall2 (fun a b => fst a = fst b /\ remains (snd a) (snd b)) m m' -> remains (GMap m) (GMap m').
Lemma fresh_not_vec v : ~ fresh (GVec v).
Proof. intros [H _]. now apply (H v). Qed.
Lemma fresh_not_map m : ~ fresh (GMap m).
Proof. intros [_ H]. now apply (H m). Qed.
Lemma fresh_over r g : (forall g', r = Ok g' -> fresh g') -> snd (overwrite r g) = g \/ fresh (snd (overwrite r g)).
Proof. destruct r; cbn [overwrite snd]; auto. Qed.
Lemma collapse_vec_remains v : snd (collapse_vec v) = GVec v \/ fresh (snd (collapse_vec v)).
Proof.
  unfold collapse_vec. cbv zeta. destruct (negb _); [now left|]. destruct (MCollapse.all_string _).
  { apply fresh_over. intros g' E. apply bind_ok in E as (t & _ & E). unfold set_vstr in E. apply bind_ok in E as (w & _ & E). apply Ok_inj in E. subst g'. split; discriminate. }
  destruct (max_sub _); try (now left); apply fresh_over; intros g' E; apply bind_ok in E as (t & E1 & E2).
  all: first [ unfold set_vbool, set_vint, set_vlong, set_vreal, set_vcomplex in E2; apply bind_ok in E2 as (w & _ & E2)
             | unfold set_mint, set_mlong, set_mreal, set_mcomplex in E2; apply bind_ok in E2 as (w & _ & E2) | idtac ]; apply Ok_inj in E2; subst g'; split; discriminate.
Qed.
Lemma remains_refl g : remains g g.
Proof.
  induction g as [g Hv Hm | v IH | m IH] using gc_nest_ind; [apply rm_flat; now split|apply rm_vec|apply rm_map].
  - induction IH; constructor; assumption.
  - induction IH; constructor; [now split|assumption].
Qed.
Lemma collapse_remains g : remains g (snd (collapse g)).
Proof.
  induction g as [g Hv Hm | v IH | m IH] using gc_nest_ind.
  - destruct g; try (apply rm_flat; split; discriminate); nested_contra Hv Hm.
  - destruct v as [|e v]; [apply remains_refl|]. rewrite collapse_vec_eq.
    assert (A : Forall2 remains (e :: v) (snd (collapse_all (e :: v)))).
    { generalize dependent (e :: v). clear e v. intros l IH. induction IH as [|a l Ha _ IHl]; cbn [collapse_all]; [constructor|].
      assert (R : Forall2 remains l l) by (clear; induction l; constructor; [apply remains_refl|assumption]).
      destruct (collapse a) as [[] a']; cbn [snd] in *; try (constructor; assumption).
      destruct (collapse_all l) as [r l']. cbn [snd] in *. now constructor. }
    destruct (collapse_all (e :: v)) as [[] v']; cbn [snd] in *; try (now apply rm_vec).
    destruct (collapse_vec_remains v') as [->|F]; [now apply rm_vec|now apply rm_flat].
  - rewrite collapse_map_eq.
    assert (A : Forall2 (fun a b => fst a = fst b /\ remains (snd a) (snd b)) m (snd (collapse_entries m))).
    { induction IH as [|[k a] l Ha _ IHl]; cbn [collapse_entries]; [constructor|]. cbn [snd] in Ha.
      assert (R : Forall2 (fun a b : string * gc => fst a = fst b /\ remains (snd a) (snd b)) l l) by (clear; induction l; constructor; [split; [reflexivity|apply remains_refl]|assumption]).
      destruct (collapse a) as [[] a']; cbn [snd] in *; try (constructor; [split; [reflexivity|exact Ha]|assumption]).
      destruct (collapse_entries l) as [r l']. cbn [snd] in *. constructor; [split; [reflexivity|exact Ha]|assumption]. }
    destruct (collapse_entries m) as [r m']. now apply rm_map.
Qed.

(** A decoding step that gives the same over what remains of its own result. *)
Definition settled (f : gc -> gc) : Prop := forall h, remains (f GNone) h -> f h = f GNone.
Fixpoint app_all (fs : list (gc -> gc)) (v : list gc) : list gc :=
  match fs, v with f :: fs', e :: v' => f e :: app_all fs' v' | _, _ => v end.
Lemma app_all_length fs : forall v, length (app_all fs v) = length v.
Proof. induction fs as [|f fs IH]; intros [|e v]; cbn [app_all length]; auto. Qed.
Lemma alloc_none n : 0 <= n -> alloc_vec n GNone = repeat GNone (Z.to_nat n).
Proof. intros H. apply alloc_fresh; [split; discriminate|exact H]. Qed.
Lemma alloc_same (v : list gc) n : zlen v = n -> alloc_vec n (GVec v) = v.
Proof.
  intros L. unfold alloc_vec, valloc. cbn [old_vec]. destruct (0 <? n); [|reflexivity]. unfold resize. subst n. unfold zlen. rewrite Nat2Z.id, firstn_all2 by lia.
  rewrite Nat.sub_diag. apply app_nil_r.
Qed.
Lemma settled_each fs : Forall settled fs -> forall v, Forall2 remains (app_all fs (repeat GNone (length fs))) v -> app_all fs v = app_all fs (repeat GNone (length fs)).
Proof.
  induction 1 as [|f fs Hf _ IH]; intros v F2; cbn [length repeat app_all] in *; inversion F2; subst; [reflexivity|]. cbn [app_all]. f_equal; [now apply Hf|now apply IH].
Qed.
Lemma settled_all fs : Forall settled fs -> settled (fun g => GVec (app_all fs (alloc_vec (zlen fs) g))).
Proof.
  intros F h R. pose proof (zlen_nonneg fs) as Z0. assert (L : Z.to_nat (zlen fs) = length fs) by (unfold zlen; apply Nat2Z.id).
  rewrite (alloc_none (zlen fs) Z0), L in R |- *. inversion R as [? ? Fr|v v' F2 E E'|]; subst.
  - rewrite (alloc_fresh (zlen fs) h Fr Z0), L. reflexivity.
  - f_equal. rewrite alloc_same; [now apply settled_each|]. apply same_length in F2. rewrite app_all_length, repeat_length in F2. unfold zlen. now rewrite F2.
Qed.
Lemma sorted_names (m m' : list (string * gc)) : map fst m = map fst m' -> msorted m -> msorted m'.
Proof. unfold msorted. intros E. now rewrite E. Qed.
Lemma settled_updates us : NoDup (map fst us) -> Forall (fun kf => settled (snd kf)) us -> settled (fun g => GMap (updates us (old_map g))).
Proof.
  intros N F h R. inversion R as [? ? Fr| |m m' F2 E E']; subst; [now rewrite (fresh_map h Fr)|]. cbn [old_map] in *. f_equal.
  pose proof (match_names _ _ _ F2) as En. assert (S0 : msorted (updates us [])) by (apply updates_sorted; constructor).
  assert (S : msorted m') by exact (sorted_names _ _ En S0).
  apply StrMap.map_ext; [now apply updates_sorted|exact S0|]. intros k.
  destruct (in_dec string_dec k (map fst us)) as [Hin|Hout].
  - apply in_map_iff in Hin as ((k0, f) & E & Hin). cbn [fst] in E. subst k0. rewrite !(updates_at us _ k f N Hin). f_equal.
    pose proof (updates_at us [] k f N Hin) as E0. change (slot k []) with GNone in *.
    destruct (match_in eq remains _ _ (k, f GNone) F2 (mfind_in _ _ _ E0)) as ((k1, e) & I1 & X & Y). cbn [fst snd] in X, Y. subst k1.
    unfold slot. rewrite (in_mfind _ _ _ S I1). rewrite Forall_forall in F. exact (F _ Hin e Y).
  - rewrite !updates_other by exact Hout. cbn [mfind]. destruct (mfind k m') as [e|] eqn:E; [|reflexivity]. exfalso.
    assert (K : In k (map fst m')) by (apply mfind_key_in; eauto). rewrite <- En in K. apply mfind_key_in in K as (x & K). now rewrite updates_other in K by exact Hout.
Qed.

(** * JSON. *)
(** Different names in every object, as the program sees them (up to a NUL). *)
Definition own_names (j : json) : Prop := match j with JObj m => NoDup (map (fun kv => cstr (fst kv)) m) | _ => True end.
Lemma decode_all_app l : forall v, decode_all l v = app_all (map decode_json l) v.
Proof. induction l as [|x l IH]; intros [|e v]; cbn [decode_all map app_all]; try reflexivity. now rewrite IH. Qed.
Lemma decode_settled j : jall own_names j -> settled (decode_json j).
Proof.
  induction j as [j Ha Ho | l IH | m IH] using json_nest_ind; intros N.
  - intros h _. destruct j; try reflexivity; [now contradiction (Ha l)|now contradiction (Ho m)].
  - apply jall_arr in N as [_ N]. intros h R. rewrite !decode_arr, !decode_all_app in *. rewrite <- (zlen_map decode_json l) in *.
    apply (settled_all (map decode_json l)); [|exact R]. rewrite Forall_map. rewrite Forall_forall in *. auto.
  - apply jall_obj in N as [N0 N]. intros h R. rewrite !decode_obj, !decode_members_updates in *.
    apply (settled_updates (json_updates m)); [now rewrite json_updates_names| |exact R]. unfold json_updates. rewrite Forall_map. cbn [snd]. rewrite Forall_forall in *. auto.
Qed.
Lemma decode_fresh_start j g : jall own_names j -> fresh g -> decode_json j g = decode_json j GNone.
Proof. intros N F. apply decode_settled; [exact N|]. now apply rm_flat. Qed.

(** * YAML. *)
Definition own_keys (y : yaml) : Prop := match y with YMap m => NoDup (map fst m) | _ => True end.
Lemma yaml_all_app l : Forall (fun y => yall short_seq y /\ yall string_keys y) l -> forall v, (length l <= length v)%nat ->
  yaml_all l v = (Ok tt, app_all (map (fun y g => snd (YAML_to_GC y g)) l) v).
Proof.
  induction 1 as [|x l [S K] _ IH]; intros [|e v] L; cbn [yaml_all map app_all]; try reflexivity; [cbn in L; lia|].
  destruct (yaml_outcome x S e) as [[_ E]|[X _]]; [|now contradiction X]. destruct (YAML_to_GC x e) as [r e']. cbn [fst snd] in *. subst r.
  rewrite IH by (cbn in L; lia). reflexivity.
Qed.
Lemma names_nodup (m : list (yaml * yaml)) : Forall (fun kv => exists s, fst kv = YStr s) m -> NoDup (map fst m) -> NoDup (map (fun kv => yname (fst kv)) m).
Proof.
  intros K N. rewrite <- (map_map fst yname). rewrite <- (Forall_map fst (fun k => exists s, k = YStr s)) in K. clear -K N. induction N as [|k l H _ IH]; [constructor|].
  inversion K as [|? ? (s & ->) K']; subst. cbn [map yname]. constructor; [|auto]. intros X. apply in_map_iff in X as (k' & E & X). rewrite Forall_forall in K'.
  destruct (K' _ X) as (s' & ->). cbn [yname] in E. subst. contradiction.
Qed.
Lemma yaml_settled y : yall short_seq y -> yall string_keys y -> yall own_keys y -> settled (fun g => snd (YAML_to_GC y g)).
Proof.
  induction y as [y Hs Hm | l IH | m IH] using yaml_nest_ind; intros S K N.
  - intros h _. destruct y; try reflexivity; [now contradiction (Hs l)|now contradiction (Hm m)].
  - apply yall_seq in S as [S0 S], K as [_ K], N as [_ N]. cbn [short_seq] in S0. pose proof (zlen_nonneg l) as Z0.
    assert (B : Forall (fun y => yall short_seq y /\ yall string_keys y) l) by (rewrite Forall_forall in *; auto).
    assert (E : forall g, snd (YAML_to_GC (YSeq l) g) = GVec (app_all (map (fun y g => snd (YAML_to_GC y g)) l) (alloc_vec (zlen (map (fun y g => snd (YAML_to_GC y g)) l)) g))).
    { intros g. rewrite yaml_seq, zlen_map, to_u32_id by (unfold uint32; lia). rewrite yaml_all_app; [reflexivity|exact B|].
      unfold alloc_vec, valloc, zlen. destruct (Z.ltb_spec 0 (Z.of_nat (length l))); [rewrite resize_length|]; lia. }
    intros h R. rewrite !E in *. apply (settled_all (map (fun y g => snd (YAML_to_GC y g)) l)); [|exact R]. rewrite Forall_map. rewrite Forall_forall in *. auto.
  - apply yall_map in S as [_ S], K as [K0 K], N as [N0 N]. cbn [string_keys own_keys] in K0, N0.
    assert (B : Forall (fun kv : yaml * yaml => yall short_seq (snd kv) /\ yall string_keys (snd kv)) m) by (rewrite Forall_forall in *; auto).
    assert (E : forall g, snd (YAML_to_GC (YMap m) g) = GMap (updates (yaml_updates m) (old_map g))) by (intros g; rewrite yaml_map, yaml_members_updates by assumption; reflexivity).
    intros h R. rewrite !E in *. apply (settled_updates (yaml_updates m)); [|  |exact R].
    + unfold yaml_updates. rewrite map_map. now apply names_nodup.
    + unfold yaml_updates. rewrite Forall_map. cbn [snd]. rewrite Forall_forall in *. auto.
Qed.

(** * C117: reading the same document again gives the same result and the same container. *)
Theorem C117_json_partial : forall t g r g', fresh g -> (forall j, rapidjson t = Some j -> jall own_names j) ->
  from_json_text t g = (r, g') -> from_json_text t g' = (r, g').
Proof.
  intros t g r g' F N. unfold from_json_text. destruct (rapidjson t) as [j|]; [|cbn [from_json]; intros E; inversion E; reflexivity].
  specialize (N j eq_refl). cbn [from_json]. rewrite (decode_fresh_start j g N F). intros E.
  assert (G : g' = snd (collapse (decode_json j GNone))).
  { unfold MJson.finish in E. destruct (collapse (decode_json j GNone)) as [[] g0]; apply (f_equal snd) in E; cbn [snd] in E |- *; symmetry; exact E. }
  rewrite (decode_settled j N g'); [exact E|]. rewrite G. apply collapse_remains.
Qed.
Theorem C117_yaml_partial : forall d g r g', fresh g ->
  (forall y, d = Some y -> yall string_keys y /\ yall own_keys y /\ yall short_seq y) ->
  from_yaml d g = (r, g') -> from_yaml d g' = (r, g').
Proof.
  intros d g r g' F D. destruct d as [y|]; [|cbn [from_yaml]; intros E; inversion E; reflexivity]. destruct (D y eq_refl) as (K & N & S).
  assert (Y : forall g, YAML_to_GC y g = (Ok tt, snd (YAML_to_GC y g))).
  { intros h. destruct (yaml_outcome y S h) as [[_ E]|[X _]]; [|now contradiction X]. destruct (YAML_to_GC y h). cbn [fst snd] in *. now subst. }
  cbn [from_yaml]. rewrite (Y g), (Y g'). cbn [then_collapse]. rewrite (yaml_settled y S K N g) by now apply rm_flat. intros E.
  assert (G : g' = snd (collapse (snd (YAML_to_GC y GNone)))).
  { destruct (collapse (snd (YAML_to_GC y GNone))) as [[] g0]; cbn [caught] in E; apply (f_equal snd) in E; cbn [snd] in E |- *; symmetry; exact E. }
  rewrite (yaml_settled y S K N g'); [exact E|]. rewrite G. apply collapse_remains.
Qed.
(** TOML arrays grow each time. *)
Theorem C117_toml_refuted : exists m g' g'', from_toml (Some m) GNone = (Ok true, g') /\ from_toml (Some m) g' = (Ok true, g'') /\ g' <> g'' /\
  jall distinct_names (toml_doc (TTbl m)).
Proof.
  exists [("a"%string, TArr [TIntN 1])], (GMap [("a"%string, GVInt [1])]), (GMap [("a"%string, GVInt [1; 1])]).
  split; [vm_compute; reflexivity|]. split; [vm_compute; reflexivity|]. split; [discriminate|]. cbn. repeat split. repeat constructor. exact (fun X => X).
Qed.
(** A document with generic vectors, objects in arrays and a failing collapse. *)
Example C117_example :
  let t := quoted "{'a':[{'x':[1,2]},{'y':'s'}],'b':['a',[1]],'c':[]}" in
  (forall j, rapidjson t = Some j -> jall own_names j) /\
  exists g', from_json_text t (GInt 3) = (Throw, g') /\
    g' = GMap [("a"%string, GVec [GMap [("x"%string, GVInt [1; 2])]; GMap [("y"%string, GStr "s")]]); ("b"%string, GVec [GStr "a"; GVInt [1]]); ("c"%string, GVec [])].
Proof.
  cbv zeta. split.
  - intros j E. destruct (rapidjson _) as [k|] eqn:K in E; [|discriminate]. apply Some_inj in E. subst k. vm_compute in K. apply Some_inj in K. subst j.
    cbn [jall snd fst own_names map]. repeat match goal with |- _ /\ _ => split | |- True => exact I end; cbn; repeat constructor; cbn [In]; intuition discriminate.
  - eexists. split; vm_compute; reflexivity.
Qed.
Print Assumptions C117_json_partial.
Print Assumptions C117_yaml_partial.
