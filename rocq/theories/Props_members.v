(** C120: the members of an object are read independently of each other. *)
From Coq Require Import ZArith Bool Lia Ascii String List.
From Verif Require Import Base F64 StrMap Value MBasic MCopy MCollapse LCollapse MText MJson SJson LJson LJson2 MNum SJsonText MRapid SRapid LRapid MYaml MToml SDocs LDocs.
From Verif Require Props_order Props_rapid.
Import ListNotations.
Local Open Scope Z_scope.
Local Open Scope string_scope.

(** ** Collapse of a map, member by member *)
Lemma entries_ok m : Forall (fun kv => fst (collapse (snd kv)) = Ok tt) m ->
  collapse_entries m = (Ok tt, map (fun kv => (fst kv, snd (collapse (snd kv)))) m).
Proof.
  induction 1 as [|(k, e) m E _ IH]; [reflexivity|]. cbn [collapse_entries map fst snd] in *.
  destruct (collapse e) as [r e']. cbn [fst snd] in *. subst r. now rewrite IH.
Qed.
Lemma entries_only m : fst (collapse_entries m) = Ok tt -> Forall (fun kv => fst (collapse (snd kv)) = Ok tt) m.
Proof.
  induction m as [|(k, e) m IH]; intros H; constructor; cbn [collapse_entries] in H; cbn [snd]; destruct (collapse e) as [[[]| | |] e']; cbn [fst] in *; try discriminate H; [reflexivity|].
  apply IH. destruct (collapse_entries m). exact H.
Qed.
Lemma mfind_map {A B} (f : A -> B) k m : mfind k (map (fun kv => (fst kv, f (snd kv))) m) = option_map f (mfind k m).
Proof. induction m as [|(k', a) m IH]; [reflexivity|]. cbn [map fst snd mfind]. destruct (String.compare k k'); [reflexivity|exact IH|exact IH]. Qed.

(** ** JSON *)
Section Json.
Variables (t : text) (m : list (string * json)) (g : gc).
Hypotheses (T : gtext (jstring true) plain t (JObj m)) (F : fresh g) (D : NoDup (map fst m)) (P : Forall no_nul (map fst m)).

Lemma text_members : from_json_text t g = MJson.finish (GMap (decode_members m [])).
Proof. rewrite (proj2 (Props_rapid.C98_exact_partial t _ g T)). cbn [from_json]. now rewrite decode_obj, (fresh_map g F). Qed.
Lemma member_in k x : In (k, x) m -> mfind k (decode_members m []) = Some (decode_json x GNone).
Proof. intros I. rewrite (decode_members_find m D P), (find_name m k x D I). reflexivity. Qed.
Lemma member_out k : ~ In k (map fst m) -> mfind k (decode_members m []) = None.
Proof.
  intros N. rewrite (decode_members_find m D P). destruct (find _ m) as [(k1, x)|] eqn:E; [|reflexivity].
  apply find_some in E as (E1 & E2). cbn [fst] in E2. apply String.eqb_eq in E2 as ->. now apply (in_map fst) in E1.
Qed.
Lemma member_of k e : In (k, e) (decode_members m []) -> exists x, In (k, x) m /\ e = decode_json x GNone.
Proof.
  intros I. apply in_mfind in I; [|apply decode_members_sorted; constructor].
  rewrite (decode_members_find m D P) in I. destruct (find _ m) as [(k1, x)|] eqn:E; [|discriminate I].
  apply find_some in E as (E1 & E2). cbn [fst] in E2. apply String.eqb_eq in E2 as ->. exists x. split; [exact E1|]. cbn [mfind] in I. congruence.
Qed.
Lemma read_ok x : fst (from_json (Some x) GNone) = Ok true <-> fst (collapse (decode_json x GNone)) = Ok tt.
Proof.
  cbn [from_json]. unfold MJson.finish. destruct (collapse _) as [[[]| | |] e]; cbn [fst omap]; split; intros H; try discriminate H; reflexivity.
Qed.
Lemma read_value x : snd (from_json (Some x) GNone) = snd (collapse (decode_json x GNone)).
Proof. cbn [from_json]. unfold MJson.finish. now destruct (collapse _). Qed.

Lemma json_members : (forall k x, In (k, x) m -> fst (from_json (Some x) GNone) = Ok true) ->
  exists r, from_json_text t g = (Ok true, GMap r) /\
    (forall k x, In (k, x) m -> mfind k r = Some (snd (from_json (Some x) GNone))) /\
    (forall k, ~ In k (map fst m) -> mfind k r = None).
Proof.
  intros H. rewrite text_members. unfold MJson.finish. rewrite collapse_map_eq, entries_ok.
  - eexists. split; [reflexivity|]. split.
    + intros k x I. now rewrite (mfind_map (fun e => snd (collapse e))), (member_in k x I), read_value.
    + intros k N. now rewrite (mfind_map (fun e => snd (collapse e))), (member_out k N).
  - apply Forall_forall. intros (k, e) I. cbn [snd]. destruct (member_of k e I) as (x & Ix & ->). apply read_ok. exact (H k x Ix).
Qed.
Lemma json_only : fst (from_json_text t g) = Ok true -> forall k x, In (k, x) m -> fst (from_json (Some x) GNone) = Ok true.
Proof.
  rewrite text_members. unfold MJson.finish. rewrite collapse_map_eq. intros H k x I. apply read_ok.
  assert (E : fst (collapse_entries (decode_members m [])) = Ok tt)
    by (destruct (collapse_entries _) as [[[]| | |] r]; cbn [fst omap] in *; try discriminate H; reflexivity).
  apply entries_only in E. rewrite Forall_forall in E. exact (E (k, decode_json x GNone) (mfind_in _ _ _ (member_in k x I))).
Qed.
End Json.

(** The members of a JSON object are read as the documents they are: if each of them is read
    alone without an error, the object is, and it holds under every name what is read alone. *)
Theorem C120_json : forall t m g, gtext (jstring true) plain t (JObj m) -> fresh g ->
  NoDup (map fst m) -> Forall no_nul (map fst m) ->
  (forall k x, In (k, x) m -> fst (from_json (Some x) GNone) = Ok true) ->
  exists r, from_json_text t g = (Ok true, GMap r) /\
    (forall k x, In (k, x) m -> mfind k r = Some (snd (from_json (Some x) GNone))) /\
    (forall k, ~ In k (map fst m) -> mfind k r = None).
Proof. exact json_members. Qed.
(** A member that is not read alone makes the whole object fail. *)
Theorem C120_json_fails : forall t m g k x, gtext (jstring true) plain t (JObj m) -> fresh g ->
  NoDup (map fst m) -> Forall no_nul (map fst m) -> In (k, x) m ->
  fst (from_json (Some x) GNone) <> Ok true -> fst (from_json_text t g) <> Ok true.
Proof. intros t m g k x T F D P I N H. exact (N (json_only t m g T F D P H k x I)). Qed.

(** ** YAML *)
Definition ymembers (m : list (string * yaml)) : yaml := YMap (map (fun kx => (YStr (fst kx), snd kx)) m).

Lemma yaml_members_find m : NoDup (map fst m) -> (forall k x, In (k, x) m -> fst (YAML_to_GC x GNone) = Ok tt) ->
  forall acc, (forall k, In k (map fst m) -> mfind k acc = None) -> msorted acc ->
  exists r, yaml_members (map (fun kx => (YStr (fst kx), snd kx)) m) acc = (Ok tt, r) /\ msorted r /\
    (forall k x, In (k, x) m -> mfind k r = Some (snd (YAML_to_GC x GNone))) /\
    (forall k, ~ In k (map fst m) -> mfind k r = mfind k acc).
Proof.
  induction m as [|(k0, x0) m IH]; intros D H acc A S; cbn [map fst snd yaml_members key_text].
  - exists acc. repeat split; auto. intros k x [].
  - cbn [map fst] in D, A. apply NoDup_cons_iff in D as (D1 & D2). rewrite (A k0 (or_introl eq_refl)).
    pose proof (H k0 x0 (or_introl eq_refl)) as E. destruct (YAML_to_GC x0 GNone) as [o e] eqn:Y. cbn [fst] in E. subst o.
    destruct (IH D2 (fun k x I => H k x (or_intror I)) (mset k0 e acc)) as (r & R1 & R2 & R3 & R4).
    + intros k I. rewrite mfind_mset_other by (intros ->; contradiction). apply A. now right.
    + now apply mset_sorted.
    + exists r. rewrite R1. split; [reflexivity|]. split; [exact R2|]. split.
      * intros k x [I|I]; [|exact (R3 k x I)]. injection I as <- <-. rewrite (R4 k0 D1), mfind_mset_same, Y. reflexivity.
      * intros k N. rewrite R4 by (intros I; apply N; now right). apply mfind_mset_other. intros ->. apply N. now left.
Qed.
Lemma yread_ok x : fst (from_yaml (Some x) GNone) = Ok true ->
  fst (YAML_to_GC x GNone) = Ok tt /\ fst (collapse (snd (YAML_to_GC x GNone))) = Ok tt /\
  snd (from_yaml (Some x) GNone) = snd (collapse (snd (YAML_to_GC x GNone))).
Proof.
  cbn [from_yaml]. destruct (YAML_to_GC x GNone) as [[[]| | |] e]; cbn [then_collapse caught fst snd]; intros H; try discriminate H.
  destruct (collapse e) as [[[]| | |] e']; cbn [caught fst snd] in *; try discriminate H. auto.
Qed.

Theorem C120_yaml : forall m g, fresh g -> NoDup (map fst m) ->
  (forall k x, In (k, x) m -> fst (from_yaml (Some x) GNone) = Ok true) ->
  exists r, from_yaml (Some (ymembers m)) g = (Ok true, GMap r) /\
    (forall k x, In (k, x) m -> mfind k r = Some (snd (from_yaml (Some x) GNone))) /\
    (forall k, ~ In k (map fst m) -> mfind k r = None).
Proof.
  intros m g F D H.
  destruct (yaml_members_find m D (fun k x I => proj1 (yread_ok x (H k x I))) []) as (r & R1 & R2 & R3 & R4); [reflexivity|constructor|].
  cbn [from_yaml]. unfold ymembers. rewrite yaml_map, (fresh_map g F), R1. cbn [then_collapse]. rewrite collapse_map_eq, entries_ok.
  - eexists. split; [reflexivity|]. split.
    + intros k x I. rewrite (mfind_map (fun e => snd (collapse e))), (R3 k x I). cbn [option_map]. f_equal. symmetry. apply yread_ok. exact (H k x I).
    + intros k N. now rewrite (mfind_map (fun e => snd (collapse e))), (R4 k N).
  - apply Forall_forall. intros (k, e) I. cbn [snd]. apply in_mfind in I; [|exact R2].
    destruct (in_dec string_dec k (map fst m)) as [J|J]; [|rewrite (R4 k J) in I; discriminate I].
    apply in_map_iff in J as ((k1, x) & E & J). cbn [fst] in E. subst k1. rewrite (R3 k x J) in I. injection I as <-.
    apply yread_ok. exact (H k x J).
Qed.

Lemma yaml_members_only m : NoDup (map fst m) -> forall acc, (forall k, In k (map fst m) -> mfind k acc = None) ->
  fst (yaml_members (map (fun kx => (YStr (fst kx), snd kx)) m) acc) = Ok tt ->
  forall k x, In (k, x) m -> fst (YAML_to_GC x GNone) = Ok tt.
Proof.
  induction m as [|(k0, x0) m IH]; intros D acc A; cbn [map fst snd yaml_members key_text]; [intros _ k x []|].
  cbn [map fst] in D, A. apply NoDup_cons_iff in D as (D1 & D2). rewrite (A k0 (or_introl eq_refl)).
  destruct (YAML_to_GC x0 GNone) as [[[]| | |] e] eqn:Y; intros H; try discriminate H.
  intros k x [I|I]; [injection I as _ <-; now rewrite Y|].
  apply (IH D2 (mset k0 e acc)) with (k := k); [|exact H|exact I].
  intros k1 J. rewrite mfind_mset_other by (intros ->; contradiction). apply A. now right.
Qed.
(** A member that is not read alone makes the whole map fail. *)
Theorem C120_yaml_fails : forall m g k x, fresh g -> NoDup (map fst m) -> In (k, x) m ->
  fst (from_yaml (Some x) GNone) <> Ok true -> fst (from_yaml (Some (ymembers m)) g) <> Ok true.
Proof.
  intros m g k x F D I N H. apply N. clear N. cbn [from_yaml] in H. unfold ymembers in H. rewrite yaml_map, (fresh_map g F) in H.
  destruct (yaml_members _ []) as [o r] eqn:Y. destruct o as [[]| | |]; cbn [then_collapse caught fst] in H; try discriminate H.
  pose proof (yaml_members_only m D [] (fun _ _ => eq_refl)) as A. rewrite Y in A. specialize (A eq_refl).
  destruct (yaml_members_find m D A []) as (r' & R1 & R2 & R3 & _); [reflexivity|constructor|]. rewrite Y in R1. injection R1 as <-.
  rewrite collapse_map_eq in H.
  assert (E : fst (collapse_entries r) = Ok tt) by (destruct (collapse_entries r) as [[[]| | |] w]; cbn [fst caught] in *; try discriminate H; reflexivity).
  apply entries_only in E. rewrite Forall_forall in E. specialize (E _ (mfind_in _ _ _ (R3 k x I))). cbn [snd] in E.
  specialize (A k x I). cbn [from_yaml]. destruct (YAML_to_GC x GNone) as [o e]. cbn [fst snd] in *. subst o. cbn [then_collapse].
  destruct (collapse e) as [o e']. cbn [fst] in E. subst o. reflexivity.
Qed.

(** {"a":[1, 1],"b":1} and {"a":["x",[1]],"b":1}: the first is read, the second is not. *)
Definition t120 (v : text) : text := ("{"%char :: ([] ++ (ch 34 :: ["a"%char] ++ [ch 34]) ++ [] ++ ":"%char :: [] ++ v ++ [] ++ ","%char ::
    ([] ++ (ch 34 :: ["b"%char] ++ [ch 34]) ++ [] ++ ":"%char :: [] ++ txt "1" ++ [])) ++ ["}"%char])%list.
Definition v120 : text := ("["%char :: ([] ++ txt "1" ++ [] ++ ","%char :: ([" "%char] ++ txt "1" ++ [])) ++ ["]"%char])%list.
Definition w120 : text := ("["%char :: ([] ++ (ch 34 :: ["x"%char] ++ [ch 34]) ++ [] ++ ","%char :: ([] ++ ("["%char :: ([] ++ txt "1" ++ []) ++ ["]"%char]) ++ [])) ++ ["]"%char])%list.
Lemma t120_text v j : gval (jstring true) plain v j -> gtext (jstring true) plain (t120 v) (JObj [(untxt ["a"%char], j); (untxt ["b"%char], JInt 1)]).
Proof.
  intros V. assert (N : ws []) by constructor. destruct Props_rapid.plain_ex as (P1 & _).
  exists [], (t120 v), []. split; [cbn [app]; now rewrite app_nil_r|]. split; [assumption|]. split; [|assumption].
  apply gv_obj. apply gm_more; try assumption; [Props_rapid.str|]. apply gm_one; try assumption; [Props_rapid.str|now apply gv_number].
Qed.
Lemma names120 (j : json) : let m := [(untxt ["a"%char], j); (untxt ["b"%char], JInt 1)] in NoDup (map fst m) /\ Forall no_nul (map fst m).
Proof.
  split.
  - constructor; [intros [E|[]]; discriminate E|]. constructor; [intros []|constructor].
  - repeat constructor; intros [E|[]]; discriminate E.
Qed.
Example C120_example : t120 v120 = quoted "{'a':[1, 1],'b':1}" /\ t120 w120 = quoted "{'a':['x',[1]],'b':1}" /\
  (exists r, from_json_text (t120 v120) GNone = (Ok true, GMap r) /\ mfind "a" r = Some (GVInt [1; 1]) /\ mfind "b" r = Some (GInt 1) /\ mfind "c" r = None) /\
  fst (from_json_text (t120 w120) GNone) <> Ok true.
Proof.
  assert (N : ws []) by constructor. assert (B : ws [" "%char]) by (constructor; [cbn; auto|constructor]). destruct Props_rapid.plain_ex as (P1 & _).
  assert (F : fresh GNone) by (split; discriminate).
  split; [reflexivity|]. split; [reflexivity|]. split.
  - destruct (C120_json (t120 v120) [(untxt ["a"%char], JArr [JInt 1; JInt 1]); (untxt ["b"%char], JInt 1)] GNone) as (r & R1 & R2 & R3).
    + apply t120_text. apply gv_arr. apply ge_more; [assumption|now apply gv_number|assumption|]. apply ge_one; [assumption|now apply gv_number|assumption].
    + exact F.
    + apply names120.
    + apply names120.
    + intros k x [E|[E|[]]]; injection E as <- <-; reflexivity.
    + exists r. split; [exact R1|]. split; [|split].
      * exact (R2 _ _ (or_introl eq_refl)).
      * exact (R2 _ _ (or_intror (or_introl eq_refl))).
      * apply R3. intros [E|[E|[]]]; discriminate E.
  - apply (C120_json_fails (t120 w120) [(untxt ["a"%char], JArr [JStr (untxt ["x"%char]); JArr [JInt 1]]); (untxt ["b"%char], JInt 1)] GNone (untxt ["a"%char]) (JArr [JStr (untxt ["x"%char]); JArr [JInt 1]])).
    + apply t120_text. apply gv_arr. apply ge_more; [assumption|apply gv_string; Props_rapid.str|assumption|]. apply ge_one; [assumption| |assumption].
      apply gv_arr. apply ge_one; [assumption|now apply gv_number|assumption].
    + exact F.
    + apply names120.
    + apply names120.
    + now left.
    + vm_compute. discriminate.
Qed.
Example C120_example_yaml : exists r,
  from_yaml (Some (ymembers [("b", YSeq [YInt 1; YInt 2]); ("a", YStr "x")])) GNone = (Ok true, GMap r) /\ mfind "b" r = Some (GVInt [1; 2]).
Proof.
  destruct (C120_yaml [("b", YSeq [YInt 1; YInt 2]); ("a", YStr "x")] GNone) as (r & R1 & R2 & _).
  - split; discriminate.
  - constructor; [intros [E|[]]; discriminate E|]. constructor; [intros []|constructor].
  - intros k x [E|[E|[]]]; injection E as <- <-; reflexivity.
  - exists r. split; [exact R1|]. exact (R2 _ _ (or_introl eq_refl)).
Qed.
Example C120_example_yaml_fails : fst (from_yaml (Some (ymembers [("b", YSeq [YStr "x"; YSeq [YInt 1]]); ("a", YStr "x")])) GNone) <> Ok true.
Proof.
  apply (C120_yaml_fails _ GNone "b" (YSeq [YStr "x"; YSeq [YInt 1]])).
  - split; discriminate.
  - constructor; [intros [E|[]]; discriminate E|]. constructor; [intros []|constructor].
  - now left.
  - vm_compute. discriminate.
Qed.

Print Assumptions C120_json.
Print Assumptions C120_json_fails.
Print Assumptions C120_yaml.
Print Assumptions C120_yaml_fails.
