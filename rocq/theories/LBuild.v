(** The container that holds a document as it is, and what collapse makes of it. *)
From Coq Require Import ZArith Bool Lia Ascii String List.
From Verif Require Import Base F64 StrMap Value MBasic SGet SPromote MCollapse SCollapse LCollapse LCollapse2 Props_collapse MJson SJson LJson LJson2.
Import ListNotations.
Local Open Scope Z_scope.

Definition stored_int (z : Z) : gc := if (- 2^31 <=? z) && (z <? 2^31) then GInt z else GLong z.
Fixpoint build (j : json) : gc :=
  match j with
  | JNull => GNone
  | JBool b => GBool b
  | JInt z => stored_int z
  | JDbl x => GReal x
  | JStr s => GStr s
  | JArr l => GVec (map build l)
  | JObj m => GMap (by_key (map (fun kv => (fst kv, build (snd kv))) m))
  end.
(** Numbers that the types of a container can hold. *)
Definition storable (j : json) : Prop :=
  match j with JInt z => - 2^63 <= z < 2^63 | JDbl x => f64 x | _ => True end.

Lemma stored_int_cases z : stored_int z = GInt z \/ stored_int z = GLong z.
Proof. unfold stored_int. destruct (_ && _); auto. Qed.
Ltac dint z := destruct (stored_int_cases z) as [?E|?E]; rewrite ?E in *.

Lemma build_data j : data_of (build j) = json_data j.
Proof.
  induction j as [j Ha Ho | l IH | m IH] using json_nest_ind.
  - destruct j; try reflexivity; [|now contradiction (Ha l)|now contradiction (Ho m)].
    cbn [build]. dint z; reflexivity.
  - cbn [build data_of json_data]. f_equal. rewrite map_map.
    induction IH as [|a l Ea _ IHl]; [reflexivity|]. cbn [map]. now rewrite Ea, IHl.
  - cbn [build data_of json_data]. f_equal.
    change (vmap data_of (by_key (vmap build m)) = by_key (vmap json_data m)).
    rewrite vmap_by_key, vmap_vmap. f_equal. now apply vmap_ext.
Qed.
Lemma build_wf j : jall storable j -> wf (build j).
Proof.
  induction j as [j Ha Ho | l IH | m IH] using json_nest_ind; intros Hr.
  - apply jall_here in Hr. destruct j; try exact I; [|exact Hr|now contradiction (Ha l)|now contradiction (Ho m)].
    cbn [build]. unfold stored_int. destruct (_ && _) eqn:E; [|split; cbn in Hr; lia].
    apply andb_true_iff in E as [A B]. apply Z.leb_le in A. apply Z.ltb_lt in B. split; lia.
  - apply jall_arr in Hr as [_ Hr]. cbn [build]. apply wf_vec. apply Forall_forall. intros g Hg.
    apply in_map_iff in Hg as (j & <- & Hj). rewrite Forall_forall in *. auto.
  - apply jall_obj in Hr as [_ Hr]. cbn [build]. apply wf_map. split; [apply by_key_sorted|].
    apply by_key_forall. apply Forall_forall. intros g Hg. apply in_map_iff in Hg as (j & <- & Hj). cbn [snd].
    rewrite Forall_forall in *. auto.
Qed.
Section Everywhere.
  Variable Q : json -> Prop.
  Variable P : gc -> Prop.
  Hypothesis Hflat : forall j, (forall l, j <> JArr l) -> (forall m, j <> JObj m) -> Q j -> P (build j).
  Hypothesis Harr : forall l, Q (JArr l) -> P (GVec (map build l)).
  Hypothesis Hobj : forall m, P (GMap m).
  Lemma build_everywhere j : jall Q j -> everywhere P (build j).
  Proof.
    induction j as [j Ha Ho | l IH | m IH] using json_nest_ind; intros Hq.
    - apply jall_here in Hq. pose proof (Hflat j Ha Ho Hq) as H. apply everywhere_intro; [| |assumption].
      + destruct j; try discriminate; [|now contradiction (Ha l)]. cbn [build]. dint z; discriminate.
      + destruct j; try discriminate; [|now contradiction (Ho m)]. cbn [build]. dint z; discriminate.
    - apply jall_arr in Hq as [Hq0 Hq].
      cbn [build]. apply everywhere_vec. split; [now apply Harr|]. apply Forall_forall. intros g Hg.
      apply in_map_iff in Hg as (j & <- & Hj). rewrite Forall_forall in *. auto.
    - apply jall_obj in Hq as [Hq0 Hq].
      cbn [build]. apply everywhere_map. split; [apply Hobj|].
      apply by_key_forall. apply Forall_forall. intros g Hg. apply in_map_iff in Hg as (j & <- & Hj). cbn [snd].
      rewrite Forall_forall in *. auto.
  Qed.
End Everywhere.
Lemma build_tag_flat j : (forall l, j <> JArr l) -> (forall m, j <> JObj m) ->
  In (tag_of (build j)) [TNone; TBool; TInt; TLong; TReal; TStr].
Proof.
  intros Ha Ho. destruct j; try (cbn; tauto); [|now contradiction (Ha l)|now contradiction (Ho m)].
  cbn [build]. dint z; cbn; tauto.
Qed.
Lemma jall_true j : jall (fun _ => True) j.
Proof.
  induction j as [j Ha Ho | l IH | m IH] using json_nest_ind.
  + destruct j; cbn; auto; [now contradiction (Ha l)|now contradiction (Ho m)].
  + apply jall_arr. auto.
  + apply jall_obj. auto.
Qed.
Lemma build_parsed j : parsed (build j).
Proof.
  apply (build_everywhere (fun _ => True)).
  - intros k Ha Ho _. pose proof (build_tag_flat k Ha Ho) as H. unfold parsed_node. cbn in *. tauto.
  - intros l _. unfold parsed_node. cbn. tauto.
  - intros m. unfold parsed_node. cbn. tauto.
  - apply jall_true.
Qed.
Lemma build_leaf k : (no_jreal k -> no_real (build k)) /\ (jlong_ok k -> long_ok (build k)).
Proof.
  destruct k; try (split; intros; exact I); [|split; [intros H; exact H|intros; exact I]].
  cbn [build]. unfold stored_int. destruct (_ && _) eqn:E; [split; intros; exact I|]. split; [intros; exact I|].
  cbn [long_ok jlong_ok]. intros [R|R]; [|assumption].
  apply andb_false_iff in E as [E|E]; [apply Z.leb_gt in E|apply Z.ltb_ge in E]; lia.
Qed.
Lemma build_merging a x : In x (merging (build a)) -> exists k, In k (jmerging a) /\ x = build k.
Proof.
  destruct a; cbn [build]; try (intros [<-|[]]; eexists; split; [now left|reflexivity]); try (intros []).
  - dint z; intros [<-|[]]; exists (JInt z); (split; [now left|]); cbn [build]; now rewrite E.
  - cbn [merging elems jmerging]. intros Hx. apply in_map_iff in Hx as (k & <- & Hk). now exists k.
Qed.
Lemma build_unrounded_node l : unrounded_doc (JArr l) -> unrounded_node (GVec (map build l)).
Proof.
  intros H. apply (unrounded_from (fun j => j)); [now rewrite map_id|]. intros a Ia x Hx. destruct (build_merging a x Hx) as (k & Hk & ->).
  exists k. split; [assumption|apply build_leaf].
Qed.
Lemma build_unrounded j : jall unrounded_doc j -> unrounded (build j).
Proof.
  intros H. apply (build_everywhere unrounded_doc); try assumption; try (intros; exact I).
  - intros k Ha Ho _. pose proof (build_tag_flat k Ha Ho) as T. destruct (build k); try exact I. cbn in T. exfalso. intuition discriminate.
  - intros l. apply build_unrounded_node.
Qed.
Lemma build_calm j : jall (fun j => match j with JDbl x => no_tiny (GReal x) | _ => True end) j -> calm (build j).
Proof.
  intros H. eapply build_everywhere; [| | |exact H]; try (intros; exact I).
  intros k Ha Ho Hk. destruct k; try exact I; [|exact Hk]. cbn [build]. dint z; exact I.
Qed.
Lemma build_not_mixed l : not_jmixed (JArr l) -> not_mixed (GVec (map build l)).
Proof.
  intros (H1 & H2) a b Ia Ib Sa Sb. apply in_map_iff in Ia as (ja & <- & Ja), Ib as (jb & <- & Jb).
    destruct jb as [ | | | | | lb | mb]; try (unfold sequence in Sb; cbn in Sb; exfalso; intuition discriminate).
    { exfalso. unfold sequence in Sb. cbn [build] in Sb. dint z; cbn in Sb; intuition discriminate. }
    cbn [build elems]. rewrite zlen_map.
    destruct lb as [|b1 [|b2 lb]].
    + destruct ja; try (intros Z; unfold zlen in Z; cbn in Z; discriminate).
      * exfalso. apply H2. auto.
      * cbn [build]. dint z; intros Z; unfold zlen in Z; cbn in Z; discriminate.
      * unfold scalar in Sa. cbn in Sa. exfalso. intuition discriminate.
      * unfold scalar in Sa. cbn in Sa. exfalso. intuition discriminate.
    + specialize (H1 ja b1 Ja Jb). destruct ja; try contradiction.
      * unfold zlen; cbn. discriminate.
      * unfold scalar in Sa. cbn in Sa. exfalso. intuition discriminate.
      * unfold scalar in Sa. cbn in Sa. exfalso. intuition discriminate.
    + assert (zlen (elems (build ja)) <= 1).
      { destruct ja; try (unfold zlen; cbn; lia).
        - cbn [build]. dint z; unfold zlen; cbn; lia.
        - unfold scalar in Sa. cbn in Sa. exfalso. intuition discriminate. }
      unfold zlen in *. cbn [length] in *. lia.
Qed.
Lemma build_unmixed j : jall not_jmixed j -> unmixed (build j).
Proof.
  intros Hm. apply (build_everywhere not_jmixed); try assumption; try (intros; exact I).
  - intros k Ha Ho _. pose proof (build_tag_flat k Ha Ho) as H. destruct (build k); try exact I.
    cbn in H. exfalso. intuition discriminate.
  - intros l. apply build_not_mixed.
Qed.
Lemma build_weight j : jall distinct_names j -> weight (build j) = jsize j.
Proof.
  induction j as [j Ha Ho | l IH | m IH] using json_nest_ind; intros Hd.
  - destruct j; try reflexivity; [|now contradiction (Ha l)|now contradiction (Ho m)].
    cbn [build]. dint z; reflexivity.
  - apply jall_arr in Hd as [_ Hd]. cbn [build]. rewrite weight_vec, jsize_arr. f_equal.
    induction l as [|a l IHl]; [reflexivity|]. inversion IH; inversion Hd; subst.
    cbn [map sumw fold_right jsum]. f_equal; [auto|]. apply IHl; assumption.
  - apply jall_obj in Hd as [Hd0 Hd]. cbn [build].
    rewrite weight_map, jsize_obj. f_equal.
    rewrite sumwm_by_key by (rewrite map_map; exact Hd0). clear Hd0.
    induction m as [|a m IHm]; [reflexivity|]. inversion IH; inversion Hd; subst.
    cbn [map sumwm fold_right jsum snd]. f_equal; [auto|]. apply IHm; assumption.
Qed.

(** After the final collapse. *)
Lemma finish_build j : jall storable j -> jall distinct_names j -> jsize j < 2^31 -> jall unrounded_doc j -> jall not_jmixed j ->
  exists g, finish (build j) = (Ok true, g) /\ wf g /\ data_of g = json_data j.
Proof.
  intros Hr Hd Hn He Hm. unfold finish. pose proof (build_wf j Hr) as W. pose proof (build_unmixed j Hm) as U.
  pose proof (build_weight j Hd) as Ew.
  destruct (C39_never_fails_partial _ W ltac:(rewrite Ew; exact Hn) U (build_parsed j)) as (g & E).
  exists g. rewrite E. split; [reflexivity|].
  destruct (C37_exact_partial _ _ _ W ltac:(rewrite Ew; exact Hn) U (build_unrounded j He) E (or_introl eq_refl)) as (W' & D).
  split; [assumption|]. rewrite D. apply build_data.
Qed.
Lemma finish_build_sim j r g : jall storable j -> jall distinct_names j -> jsize j < 2^31 ->
  jall (fun j => match j with JDbl x => no_tiny (GReal x) | _ => True end) j ->
  finish (build j) = (r, g) -> r = Ok true \/ r = Throw -> wf g /\ sim true true (json_data j) (data_of g).
Proof.
  intros Hr Hd Hn Ht. unfold finish. destruct (collapse _) as [r0 g0] eqn:E. intros E0 Hc. injection E0 as E0 <-.
  rewrite <- build_data. apply (C37_general_partial _ r0 _ (build_wf j Hr)); [rewrite build_weight by assumption; exact Hn| |exact E|].
  - now apply build_calm.
  - destruct r0 as [[]| | |]; cbn in E0; destruct Hc; subst; auto; discriminate.
Qed.
