(** Property C92: the order of the members of a document does not matter. *)
From Coq Require Import ZArith Bool Lia Ascii String List Permutation.
From Verif Require Import Base F64 StrMap Value WfDec MBasic MMap MJson MYaml SJson SDocs LCopy LDocs.
Import ListNotations.
Local Open Scope Z_scope.

(** * Specification. *)

(** The same document with the members of its objects, at any depth, in another order.  The
    names in an object are different as C strings. *)
Inductive reordered : json -> json -> Prop :=
| RSame j : reordered j j
| RArr l l' : Forall2 reordered l l' -> reordered (JArr l) (JArr l')
| RObj m m1 m' : NoDup (map (fun kv => cstr (fst kv)) m) ->
    Forall2 (fun kv kv' => fst kv = fst kv' /\ reordered (snd kv) (snd kv')) m m1 ->
    Permutation m1 m' -> reordered (JObj m) (JObj m').
(** The same for YAML; the keys are different. *)
Inductive yreordered : yaml -> yaml -> Prop :=
| YRSame y : yreordered y y
| YRSeq l l' : Forall2 yreordered l l' -> yreordered (YSeq l) (YSeq l')
| YRMap m m1 m' : NoDup (map fst m) ->
    Forall2 (fun kv kv' => fst kv = fst kv' /\ yreordered (snd kv) (snd kv')) m m1 ->
    Permutation m1 m' -> yreordered (YMap m) (YMap m').

(** * Keyed updates of a map. *)

Definition slot (k : string) (acc : list (string * gc)) : gc := match mfind k acc with Some e => e | None => GNone end.
Fixpoint updates (m : list (string * (gc -> gc))) (acc : list (string * gc)) : list (string * gc) :=
  match m with
  | [] => acc
  | (k, f) :: m' => updates m' (mset k (f (slot k acc)) acc)
  end.
Lemma updates_sorted m : forall acc, msorted acc -> msorted (updates m acc).
Proof. induction m as [|(k, f) m IH]; intros acc H; [exact H|]. cbn [updates]. apply IH. now apply mset_sorted. Qed.
Lemma updates_other m : forall acc k, ~ In k (map fst m) -> mfind k (updates m acc) = mfind k acc.
Proof.
  induction m as [|(k0, f) m IH]; intros acc k H; [reflexivity|]. cbn [updates]. cbn [map fst In] in H.
  rewrite IH by tauto. apply mfind_mset_other. intros ->. tauto.
Qed.
Lemma updates_at m : forall acc k f, NoDup (map fst m) -> In (k, f) m -> mfind k (updates m acc) = Some (f (slot k acc)).
Proof.
  induction m as [|(k0, f0) m IH]; intros acc k f Hn Hin; [destruct Hin|]. cbn [updates]. cbn [map fst] in Hn. inversion Hn as [|? ? N1 N2]; subst.
  destruct Hin as [E|Hin].
  - injection E as -> ->. rewrite updates_other by exact N1. apply mfind_mset_same.
  - rewrite (IH _ k f N2 Hin). unfold slot at 1. rewrite mfind_mset_other; [reflexivity|]. intros ->. apply N1.
    change k0 with (fst (k0, f)). now apply in_map.
Qed.
(** Two lists of updates of different keys that do the same to the old content. *)
Lemma updates_same m m' acc : msorted acc -> NoDup (map fst m) -> NoDup (map fst m') ->
  (forall k f, In (k, f) m -> exists f', In (k, f') m' /\ f (slot k acc) = f' (slot k acc)) ->
  (forall k, In k (map fst m') -> In k (map fst m)) -> updates m acc = updates m' acc.
Proof.
  intros Hs N N' H1 H2. apply StrMap.map_ext; [now apply updates_sorted|now apply updates_sorted|]. intros k.
  destruct (in_dec string_dec k (map fst m)) as [Hin|Hout].
  - apply in_map_iff in Hin as ((k0, f) & E & Hin). cbn [fst] in E. subst k0. destruct (H1 k f Hin) as (f' & Hin' & E).
    rewrite (updates_at m acc k f N Hin), (updates_at m' acc k f' N' Hin'). now f_equal.
  - rewrite !updates_other; [reflexivity| |exact Hout]. intros H. apply Hout. now apply H2.
Qed.

Lemma slot_wfm k acc : Forall (fun kv => wfm (snd kv)) acc -> wfm (slot k acc).
Proof.
  intros H. unfold slot. destruct (mfind k acc) as [e|] eqn:E; [|exact I]. apply mfind_in in E. rewrite Forall_forall in H. exact (H _ E).
Qed.
Lemma old_map_wfm g : wfm g -> msorted (old_map g) /\ Forall (fun kv => wfm (snd kv)) (old_map g).
Proof. destruct g; intros H; try (split; constructor). now apply wfm_map in H. Qed.
Lemma alloc_wfm n g : wfm g -> Forall wfm (alloc_vec n g).
Proof.
  intros H. assert (Hv : Forall wfm (old_vec g)) by (destruct g; try constructor; now apply wfm_vec in H).
  unfold alloc_vec, valloc. destruct (0 <? n); [|exact Hv]. unfold resize.
  apply Forall_app. split; [|apply Forall_forall; intros x Hx; apply repeat_spec in Hx; now subst].
  apply Forall_forall. intros x Hx. rewrite Forall_forall in Hv. apply Hv. rewrite <- (firstn_skipn (Z.to_nat n)). apply in_or_app. now left.
Qed.
Lemma same_length {A} (R : A -> A -> Prop) l l' : Forall2 R l l' -> length l = length l'.
Proof. induction 1; cbn; congruence. Qed.
(** Permuted lists of pairs related one by one. *)
Lemma match_in {A B} (R : A -> A -> Prop) (Q : B -> B -> Prop) (m m1 : list (A * B)) kv :
  Forall2 (fun a b => R (fst a) (fst b) /\ Q (snd a) (snd b)) m m1 -> In kv m -> exists kv', In kv' m1 /\ R (fst kv) (fst kv') /\ Q (snd kv) (snd kv').
Proof.
  induction 1 as [|a b m m1 H F IH]; intros Hin; [destruct Hin|]. destruct Hin as [<-|Hin].
  - exists b. split; [now left|exact H].
  - destruct (IH Hin) as (kv' & K & K'). exists kv'. split; [now right|exact K'].
Qed.
Lemma match_names {A B} (Q : B -> B -> Prop) (m m1 : list (A * B)) :
  Forall2 (fun a b => fst a = fst b /\ Q (snd a) (snd b)) m m1 -> map fst m = map fst m1.
Proof. induction 1 as [|a b m m1 H F IH]; [reflexivity|]. cbn [map]. destruct H. congruence. Qed.

(** * JSON. *)

Definition json_updates (m : list (string * json)) : list (string * (gc -> gc)) := map (fun kv => (cstr (fst kv), decode_json (snd kv))) m.
Lemma decode_members_updates m : forall acc, decode_members m acc = updates (json_updates m) acc.
Proof. induction m as [|(k, x) m IH]; intros acc; [reflexivity|]. cbn [decode_members json_updates map updates fst snd]. apply IH. Qed.
Lemma json_updates_names m : map fst (json_updates m) = map (fun kv => cstr (fst kv)) m.
Proof. unfold json_updates. rewrite map_map. reflexivity. Qed.

Lemma decode_reordered j : forall j' g, reordered j j' -> wfm g -> decode_json j g = decode_json j' g.
Proof.
  induction j as [j Ha Ho | l IH | m IH] using json_nest_ind; intros j' g H Hg.
  - inversion H; subst; [reflexivity|now contradiction (Ha l)|now contradiction (Ho m)].
  - inversion H as [|? l' F|]; subst; [reflexivity|]. rewrite !decode_arr. f_equal.
    assert (El : zlen l = zlen l') by (unfold zlen; f_equal; exact (same_length _ _ _ F)). rewrite <- El.
    pose proof (alloc_wfm (zlen l) g Hg) as Hv. revert Hv. generalize (alloc_vec (zlen l) g). clear El Hg H.
    induction F as [|a b l l' R F IHF]; intros [|e v] Hv; try reflexivity. inversion IH; inversion Hv; subst.
    cbn [decode_all]. f_equal; auto.
  - inversion H as [| |? m1 m' N F P]; subst; [reflexivity|]. rewrite !decode_obj. f_equal.
    destruct (old_map_wfm g Hg) as [Hs Hw]. rewrite !decode_members_updates. clear H.
    assert (En : map (fun kv => cstr (fst kv)) m = map (fun kv => cstr (fst kv)) m1).
    { apply match_names in F. rewrite <- (map_map fst cstr m), <- (map_map fst cstr m1). congruence. }
    assert (Pn : Permutation (map (fun kv => cstr (fst kv)) m) (map (fun kv => cstr (fst kv)) m')) by (rewrite En; now apply Permutation_map).
    apply updates_same; rewrite ?json_updates_names; [exact Hs|exact N|now apply (Permutation_NoDup Pn)| |].
    + intros k f Hin. apply in_map_iff in Hin as ((k0, x) & E & Hin). injection E as <- <-. cbn [fst snd].
      destruct (match_in eq reordered m m1 (k0, x) F Hin) as ((k1, x') & Hin' & E & R). cbn [fst snd] in *. subst k1.
      exists (decode_json x'). split.
      * apply in_map_iff. exists (k0, x'). split; [reflexivity|]. now apply (Permutation_in _ P).
      * rewrite Forall_forall in IH. apply (IH (k0, x) Hin x' _ R). now apply slot_wfm.
    + intros k Hk. apply (Permutation_in _ (Permutation_sym Pn)). exact Hk.
Qed.

(** * C92. *)

(** from_json gives the same result and the same container, whatever the container held before. *)
Theorem C92_json j j' g : reordered j j' -> wfm g -> from_json (Some j) g = from_json (Some j') g.
Proof. intros R Hg. unfold from_json. now rewrite (decode_reordered j j' g R Hg). Qed.

(** * YAML. *)

Lemma yreordered_all (P : yaml -> Prop) (Pseq : forall l l', length l = length l' -> P (YSeq l) -> P (YSeq l'))
  (Pmap : forall m m', Permutation (map fst m) (map fst m') -> P (YMap m) -> P (YMap m')) y :
  forall y', yreordered y y' -> yall P y -> yall P y'.
Proof.
  induction y as [y Hs Hm | l IH | m IH] using yaml_nest_ind; intros y' R Hy.
  - inversion R; subst; [exact Hy|now contradiction (Hs l)|now contradiction (Hm m)].
  - inversion R as [|? l' F|]; subst; [exact Hy|]. apply yall_seq in Hy as [H0 Hy]. apply yall_seq. split.
    + apply (Pseq l); [exact (same_length _ _ _ F)|exact H0].
    + clear H0 R. induction F as [|a b l l' R F IHF]; constructor; inversion IH; inversion Hy; subst; auto.
  - inversion R as [| |? m1 m' N F Pm]; subst; [exact Hy|]. apply yall_map in Hy as [H0 Hy]. apply yall_map. split.
    + apply (Pmap m); [|exact H0]. rewrite (match_names _ _ _ F). now apply Permutation_map.
    + apply (Permutation_Forall Pm). clear H0 R N Pm. induction F as [|a b m m1 [E R] F IHF]; constructor; inversion IH; inversion Hy; subst; auto.
Qed.

Definition yname (k : yaml) : string := match k with YStr s => s | _ => EmptyString end.
Definition yaml_updates (m : list (yaml * yaml)) : list (string * (gc -> gc)) := map (fun kv => (yname (fst kv), fun g => snd (YAML_to_GC (snd kv) g))) m.
Lemma yaml_members_updates m : Forall (fun kv => exists s, fst kv = YStr s) m -> Forall (fun kv => yall short_seq (snd kv) /\ yall string_keys (snd kv)) m ->
  forall acc, yaml_members m acc = (Ok tt, updates (yaml_updates m) acc).
Proof.
  induction m as [|(k, x) m IH]; intros Hk Hx acc; [reflexivity|]. inversion Hk as [|? ? (s & Es) Hk']; inversion Hx as [|? ? [X1 X2] Hx']; subst.
  cbn [fst snd] in *. subst k. cbn [yaml_members key_text yaml_updates map updates fst snd yname].
  fold (slot s acc). destruct (yaml_outcome x X1 (slot s acc)) as [[_ E]|[K _]]; [|now contradiction K].
  destruct (YAML_to_GC x (slot s acc)) as [r e']. cbn [fst] in E. subst r. cbn [snd]. now apply IH.
Qed.
Lemma yaml_reordered y : yall short_seq y -> yall string_keys y -> forall y' g, yreordered y y' -> wfm g -> YAML_to_GC y g = YAML_to_GC y' g.
Proof.
  assert (S1 : forall l l', length l = length l' -> short_seq (YSeq l) -> short_seq (YSeq l')) by (intros l l' E H; cbn in *; unfold zlen in *; now rewrite <- E).
  assert (S2 : forall m m', Permutation (map fst m) (map fst m') -> short_seq (YMap m) -> short_seq (YMap m')) by (intros; exact I).
  assert (K1 : forall l l', length l = length l' -> string_keys (YSeq l) -> string_keys (YSeq l')) by (intros; exact I).
  assert (K2 : forall m m', Permutation (map fst m) (map fst m') -> string_keys (YMap m) -> string_keys (YMap m')).
  { intros m m' P H. cbn in *. rewrite <- (Forall_map fst (fun k => exists s, k = YStr s)) in *. now apply (Permutation_Forall P). }
  induction y as [y Hs Hm | l IH | m IH] using yaml_nest_ind; intros Sy Ky y' g R Hg.
  - inversion R; subst; [reflexivity|now contradiction (Hs l)|now contradiction (Hm m)].
  - inversion R as [|? l' F|]; subst; [reflexivity|]. rewrite !yaml_seq.
    assert (El : zlen l = zlen l') by (unfold zlen; f_equal; exact (same_length _ _ _ F)). rewrite <- El.
    apply yall_seq in Sy as [_ Sy]. apply yall_seq in Ky as [_ Ky].
    assert (G : forall v, Forall wfm v -> yaml_all l v = yaml_all l' v).
    { clear El R. induction F as [|a b l l' R F IHF]; intros v Hv; [reflexivity|].
      inversion IH; inversion Sy; inversion Ky; subst. destruct v as [|e v]; [reflexivity|]. inversion Hv; subst.
      cbn [yaml_all]. rewrite (H1 H5 H9 b e R) by assumption. destruct (YAML_to_GC b e) as [[[]| | |] e']; try reflexivity. now rewrite (IHF H2 H6 H10 v). }
    rewrite G; [reflexivity|now apply alloc_wfm].
  - inversion R as [| |? m1 m' N F P]; subst; [reflexivity|]. rewrite !yaml_map.
    pose proof (yreordered_all _ S1 S2 _ _ R Sy) as Sy'. pose proof (yreordered_all _ K1 K2 _ _ R Ky) as Ky'.
    apply yall_map in Sy as [_ Sy]. apply yall_map in Ky as [Ky0 Ky]. apply yall_map in Sy' as [_ Sy']. apply yall_map in Ky' as [Ky0' Ky'].
    cbn [string_keys] in *. destruct (old_map_wfm g Hg) as [Hs Hw].
    assert (A : forall m, Forall (fun kv => yall short_seq (snd kv)) m -> Forall (fun kv => yall string_keys (snd kv)) m ->
      Forall (fun kv : yaml * yaml => yall short_seq (snd kv) /\ yall string_keys (snd kv)) m).
    { intros m0 X Y. rewrite Forall_forall in *. auto. }
    rewrite !yaml_members_updates by auto.
    assert (Pn : Permutation (map fst m) (map fst m')) by (rewrite (match_names _ _ _ F); now apply Permutation_map).
    assert (Nn : forall m0, map fst (yaml_updates m0) = map yname (map fst m0)) by (intros m0; unfold yaml_updates; rewrite !map_map; reflexivity).
    assert (ND : NoDup (map yname (map fst m))).
    { clear - N Ky0. induction m as [|(k, x) m IH]; [constructor|]. cbn [map fst] in *. inversion N; inversion Ky0 as [|? ? (s & Es) Hk]; subst. cbn [fst] in Es. subst k.
      constructor; [|auto]. intros Hin. apply in_map_iff in Hin as (k & E & Hin). apply H1.
      apply in_map_iff in Hin as ((k', x') & E' & Hin'). cbn [fst] in E'. subst k'. rewrite Forall_forall in Hk. destruct (Hk _ Hin') as (s' & Es'). cbn [fst] in Es'. subst k.
      cbn [yname] in E. subst s'. apply in_map_iff. exists (YStr s, x'). split; [reflexivity|exact Hin']. }
    rewrite (updates_same (yaml_updates m) (yaml_updates m')); [reflexivity|exact Hs|rewrite Nn; exact ND| | |].
    + rewrite Nn. now apply (Permutation_NoDup (Permutation_map yname Pn)).
    + intros k f Hin. apply in_map_iff in Hin as ((k0, x) & E & Hin). injection E as <- <-. cbn [fst snd].
      destruct (match_in eq yreordered m m1 (k0, x) F Hin) as ((k1, x') & Hin' & E & R'). cbn [fst snd] in *. subst k1.
      eexists. split.
      * apply in_map_iff. exists (k0, x'). split; [reflexivity|]. now apply (Permutation_in _ P).
      * cbn [snd]. rewrite Forall_forall in IH, Sy, Ky. f_equal. apply (IH (k0, x) Hin (Sy _ Hin) (Ky _ Hin) x' _ R'). now apply slot_wfm.
    + intros k. rewrite !Nn. apply Permutation_in. apply Permutation_map. now apply Permutation_sym.
Qed.
(** The same for from_yaml, when the keys are strings. *)
Theorem C92_yaml y y' g : yreordered y y' -> yall string_keys y -> yall short_seq y -> wfm g -> from_yaml (Some y) g = from_yaml (Some y') g.
Proof. intros R K S Hg. unfold from_yaml. now rewrite (yaml_reordered y S K y' g R Hg). Qed.

(** Members in another order at two depths, over a map that is already there; and members with
    the same name, where the order does matter. *)
Definition doc1 : json := JObj [("b"%string, JArr [JObj [("x"%string, JInt 1); ("y"%string, JStr "s"%string)]]); ("a"%string, JNull)].
Definition doc2 : json := JObj [("a"%string, JNull); ("b"%string, JArr [JObj [("y"%string, JStr "s"%string); ("x"%string, JInt 1)]])].
Definition held : gc := GMap [("b"%string, GVec [GMap [("x"%string, GMap []); ("z"%string, GInt 3)]]); ("c"%string, GBool true)].
Lemma doc_reordered : reordered doc1 doc2.
Proof.
  eapply RObj; [| |apply perm_swap].
  - constructor; [intros [H|[]]; discriminate H|constructor; [intros []|constructor]].
  - constructor; [|constructor; [|constructor]]; (split; [reflexivity|]); [|apply RSame].
    apply RArr. constructor; [|constructor]. eapply RObj; [| |apply perm_swap].
    + constructor; [intros [H|[]]; discriminate H|constructor; [intros []|constructor]].
    + constructor; [|constructor; [|constructor]]; (split; [reflexivity|]); apply RSame.
Qed.
Example C92_example : reordered doc1 doc2 /\ wfm held /\
  from_json (Some doc2) held = (Ok true,
    GMap [("a"%string, GNone);
          ("b"%string, GVec [GMap [("x"%string, GInt 1); ("y"%string, GStr "s"%string); ("z"%string, GInt 3)]]);
          ("c"%string, GBool true)]) /\
  from_json (Some (JObj [("a"%string, JInt 1); ("a"%string, JInt 2)])) GNone <> from_json (Some (JObj [("a"%string, JInt 2); ("a"%string, JInt 1)])) GNone.
Proof.
  split; [exact doc_reordered|]. split; [apply wf_wfm; wfd|]. split; [vm_compute; reflexivity|]. vm_compute. discriminate.
Qed.
Definition ydoc1 : yaml := YMap [(YStr "b"%string, YSeq [YInt 1; YFlt 0]); (YStr "a"%string, YNull)].
Definition ydoc2 : yaml := YMap [(YStr "a"%string, YNull); (YStr "b"%string, YSeq [YInt 1; YFlt 0])].
Example C92_yaml_example : yreordered ydoc1 ydoc2 /\ yall string_keys ydoc1 /\ yall short_seq ydoc1 /\
  from_yaml (Some ydoc2) held = from_yaml (Some ydoc1) held.
Proof.
  assert (R : yreordered ydoc1 ydoc2).
  { eapply YRMap; [| |apply perm_swap].
    - constructor; [intros [H|[]]; discriminate H|constructor; [intros []|constructor]].
    - constructor; [|constructor; [|constructor]]; (split; [reflexivity|]); apply YRSame. }
  assert (K : yall string_keys ydoc1). { cbn. split; [constructor; [eexists; reflexivity|constructor; [eexists; reflexivity|constructor]]|]. tauto. }
  assert (S : yall short_seq ydoc1). { cbn. unfold zlen. cbn. split; [exact I|]. split; [split; [lia|]|]; tauto. }
  split; [exact R|]. split; [exact K|]. split; [exact S|]. symmetry. apply C92_yaml; auto. apply wf_wfm. wfd.
Qed.

Print Assumptions C92_json.
Print Assumptions C92_yaml.
