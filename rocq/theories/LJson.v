(** Lemmas about the JSON reader. *)
From Coq Require Import ZArith Bool Lia Ascii String List.
From Verif Require Import Base F64 StrMap Value MBasic SGet SPromote MCollapse SCollapse MJson SJson.
Import ListNotations.
Local Open Scope Z_scope.

Definition fresh (g : gc) : Prop := (forall v, g <> GVec v) /\ (forall m, g <> GMap m).
Lemma fresh_vec g : fresh g -> old_vec g = [].
Proof. intros [H _]. destruct g; try reflexivity. now contradiction (H v). Qed.
Lemma fresh_map g : fresh g -> old_map g = [].
Proof. intros [_ H]. destruct g; try reflexivity. now contradiction (H m). Qed.
Lemma fresh_none : fresh GNone.
Proof. split; discriminate. Qed.

Lemma decode_int_none z g : decode_int z g = decode_int z GNone.
Proof. reflexivity. Qed.

(** Decoding into a container that is neither a VECTOR nor a MAP does not depend on it. *)
Lemma decode_fresh j g : fresh g -> decode_json j g = decode_json j GNone.
Proof.
  intros F. destruct j; try reflexivity.
  - rewrite !decode_arr. unfold alloc_vec. now rewrite (fresh_vec g F).
  - rewrite !decode_obj. now rewrite (fresh_map g F).
Qed.

Lemma resize_nil {A} (d : A) n : resize d n [] = repeat d n.
Proof. unfold resize. rewrite firstn_nil. cbn. now rewrite Nat.sub_0_r. Qed.
Lemma alloc_vec_none n : 0 <= n -> alloc_vec n GNone = repeat GNone (Z.to_nat n).
Proof.
  intros H. unfold alloc_vec, valloc. cbn [old_vec]. destruct (Z.ltb_spec 0 n); [apply resize_nil|].
  replace n with 0 by lia. reflexivity.
Qed.
Lemma decode_all_none l : decode_all l (repeat GNone (length l)) = map (fun j => decode_json j GNone) l.
Proof. induction l as [|a l IH]; [reflexivity|]. cbn [length repeat decode_all map]. now rewrite IH. Qed.
Lemma decode_arr_none l : decode_json (JArr l) GNone = GVec (map (fun j => decode_json j GNone) l).
Proof.
  rewrite decode_arr. f_equal. rewrite alloc_vec_none by (unfold zlen; lia).
  replace (Z.to_nat (zlen l)) with (length l) by (unfold zlen; lia). apply decode_all_none.
Qed.

(** Maps of values and insertion. *)
Definition vmap {A B} (f : A -> B) (m : list (string * A)) : list (string * B) :=
  map (fun kv => (fst kv, f (snd kv))) m.
Lemma vmap_keys {A B} (f : A -> B) m : map fst (vmap f m) = map fst m.
Proof. unfold vmap. rewrite map_map. reflexivity. Qed.
Lemma vmap_mset {A B} (f : A -> B) k v m : vmap f (mset k v m) = mset k (f v) (vmap f m).
Proof.
  induction m as [|(k', v') m IH]; [reflexivity|]. cbn [mset vmap map fst snd].
  destruct (String.compare k k'); [reflexivity|reflexivity|]. cbn [vmap map fst snd]. f_equal. exact IH.
Qed.
Lemma mfind_none_key {A} k (m : list (string * A)) : ~ In k (map fst m) -> mfind k m = None.
Proof.
  intros H. destruct (mfind k m) eqn:E; [|reflexivity]. exfalso. apply H. apply mfind_key_in. now exists a.
Qed.
Lemma mset_keys {A} k (v : A) m x : In x (map fst (mset k v m)) <-> x = k \/ In x (map fst m).
Proof.
  rewrite <- !mfind_key_in. destruct (string_dec x k) as [->|N].
  - rewrite mfind_mset_same. split; [now left|]. intros _. now exists v.
  - rewrite mfind_mset_other by assumption. split; [now right|]. intros [->|H]; [easy|assumption].
Qed.

(** The members of an object with different plain names decoded into entries without them. *)
Lemma decode_members_fold m : forall acc, NoDup (map fst m) -> Forall no_nul (map fst m) ->
  (forall k, In k (map fst m) -> ~ In k (map fst acc)) ->
  decode_members m acc = fold_left (fun acc kv => mset (fst kv) (snd kv) acc) (vmap (fun j => decode_json j GNone) m) acc.
Proof.
  induction m as [|(k, x) m IH]; intros acc Hd Hn Hk; [reflexivity|].
  cbn [decode_members vmap map fold_left fst snd]. cbn [map fst] in Hd, Hn, Hk.
  apply NoDup_cons_iff in Hd as (Hd1 & Hd2). pose proof (Forall_inv Hn) as Hn1. apply Forall_inv_tail in Hn.
  rewrite (cstr_id k Hn1), (mfind_none_key k acc) by (apply Hk; now left).
  apply IH; [assumption|assumption|]. intros k' H. rewrite mset_keys. intros [->|H']; [easy|].
  apply (Hk k'); [now right|assumption].
Qed.
Lemma decode_obj_none m : distinct_names (JObj m) -> plain_strings (JObj m) ->
  decode_json (JObj m) GNone = GMap (by_key (vmap (fun j => decode_json j GNone) m)).
Proof.
  intros Hd Hp. rewrite decode_obj. f_equal. apply decode_members_fold; [exact Hd|exact Hp|]. intros k _ H. exact H.
Qed.

Lemma vmap_fold {A B} (f : A -> B) m : forall acc,
  vmap f (fold_left (fun acc kv => mset (fst kv) (snd kv) acc) m acc) =
  fold_left (fun acc kv => mset (fst kv) (snd kv) acc) (vmap f m) (vmap f acc).
Proof.
  induction m as [|(k, x) m IH]; intros acc; [reflexivity|].
  change (vmap f ((k, x) :: m)) with ((k, f x) :: vmap f m). cbn [fold_left fst snd].
  etransitivity; [apply IH|]. f_equal. apply vmap_mset.
Qed.
Lemma vmap_by_key {A B} (f : A -> B) m : vmap f (by_key m) = by_key (vmap f m).
Proof. apply (vmap_fold f m []). Qed.
Lemma vmap_ext {A B} (f g : A -> B) m : Forall (fun kv => f (snd kv) = g (snd kv)) m -> vmap f m = vmap g m.
Proof. induction 1 as [|(k, x) m H _ IH]; [reflexivity|]. cbn [vmap map fst snd] in *. rewrite H. f_equal. exact IH. Qed.
Lemma vmap_vmap {A B C} (f : A -> B) (g : B -> C) m : vmap g (vmap f m) = vmap (fun x => g (f x)) m.
Proof. unfold vmap. rewrite map_map. reflexivity. Qed.

Lemma fold_mset_sorted {A} (m : list (string * A)) : forall acc, msorted acc ->
  msorted (fold_left (fun acc kv => mset (fst kv) (snd kv) acc) m acc).
Proof. induction m as [|(k, x) m IH]; intros acc H; [assumption|]. cbn [fold_left]. apply IH. now apply mset_sorted. Qed.
Lemma by_key_sorted {A} (m : list (string * A)) : msorted (by_key m).
Proof. apply fold_mset_sorted. constructor. Qed.
Lemma mset_forall {A} (P : string * A -> Prop) k v m : Forall P m -> P (k, v) -> Forall P (mset k v m).
Proof.
  intros H Hk. induction H as [|(k', v') m H1 H2 IH]; cbn [mset]; [constructor; [assumption|constructor]|].
  destruct (String.compare k k'); repeat (constructor; try assumption).
Qed.
Lemma fold_mset_forall {A} (P : string * A -> Prop) m : Forall P m -> forall acc, Forall P acc ->
  Forall P (fold_left (fun acc kv => mset (fst kv) (snd kv) acc) m acc).
Proof.
  induction 1 as [|(k, x) m H _ IH]; intros acc Ha; [assumption|]. cbn [fold_left fst snd]. apply IH. now apply mset_forall.
Qed.
Lemma by_key_forall {A} (P : string * A -> Prop) m : Forall P m -> Forall P (by_key m).
Proof. intros H. now apply fold_mset_forall. Qed.

Definition jwf (j : json) : Prop := jall ranged j /\ jall plain_strings j /\ jall distinct_names j.

Lemma decode_int_cases z : - 2^63 <= z < 2^31 \/ 2^32 <= z < 2^63 ->
  decode_int z GNone = (if (- 2^31 <=? z) && (z <? 2^31) then GInt z else GLong z).
Proof.
  intros H. unfold decode_int. destruct (_ && _) eqn:E; [reflexivity|].
  apply andb_false_iff in E.
  replace ((0 <=? z) && (z <? 2^32)) with false.
  - replace ((- 2^63 <=? z) && (z <? 2^63)) with true; [reflexivity|].
    symmetry. apply andb_true_iff. split; [apply Z.leb_le | apply Z.ltb_lt]; lia.
  - symmetry. apply andb_false_iff. destruct E as [E|E]; [left; apply Z.leb_gt in E; apply Z.leb_gt; lia|].
    apply Z.ltb_ge in E. right. apply Z.ltb_ge. lia.
Qed.

Lemma decode_data j : jall plain_strings j -> jall distinct_names j -> jall signed_int j ->
  data_of (decode_json j GNone) = json_data j.
Proof.
  induction j as [j Ha Ho | l IH | m IH] using json_nest_ind; intros Hp Hd Hs.
  - apply jall_here in Hp. apply jall_here in Hs. destruct j; try reflexivity.
    + cbn [decode_json]. cbn [signed_int] in Hs. rewrite (decode_int_cases z Hs). destruct (_ && _); reflexivity.
    + cbn [decode_json set_string data_of json_data]. now rewrite (cstr_id _ Hp).
    + now contradiction (Ha l).
    + now contradiction (Ho m).
  - apply jall_arr in Hp as [_ Hp]. apply jall_arr in Hd as [_ Hd]. apply jall_arr in Hs as [_ Hs].
    rewrite decode_arr_none. cbn [data_of json_data]. f_equal. rewrite map_map.
    induction l as [|a l IHl]; [reflexivity|]. inversion IH; inversion Hp; inversion Hd; inversion Hs; subst.
    cbn [map]. f_equal; auto.
  - apply jall_obj in Hp as [Hp0 Hp]. apply jall_obj in Hd as [Hd0 Hd]. apply jall_obj in Hs as [_ Hs].
    rewrite decode_obj_none by assumption. cbn [data_of json_data]. f_equal.
    change (vmap data_of (by_key (vmap (fun j => decode_json j GNone) m)) = by_key (vmap json_data m)).
    rewrite vmap_by_key, vmap_vmap. f_equal. apply vmap_ext. rewrite Forall_forall in *. auto.
Qed.

Lemma decode_int_wf z : - 2^63 <= z < 2^64 -> wf (decode_int z GNone).
Proof.
  intros H. unfold decode_int.
  destruct (_ && _) eqn:E1; [apply andb_true_iff in E1 as [A B]; apply Z.leb_le in A; apply Z.ltb_lt in B; split; lia|].
  destruct ((0 <=? z) && _) eqn:E2; [apply to_i32_range|].
  destruct ((- 2^63 <=? z) && _) eqn:E3; [apply andb_true_iff in E3 as [A B]; apply Z.leb_le in A; apply Z.ltb_lt in B; split; lia|].
  apply to_i64_range.
Qed.

Lemma decode_wf j : jall ranged j -> jall plain_strings j -> jall distinct_names j -> wf (decode_json j GNone).
Proof.
  induction j as [j Ha Ho | l IH | m IH] using json_nest_ind; intros Hr Hp Hd.
  - apply jall_here in Hr. destruct j; try exact I.
    + now apply decode_int_wf.
    + exact Hr.
    + now contradiction (Ha l).
    + now contradiction (Ho m).
  - apply jall_arr in Hr as [_ Hr]. apply jall_arr in Hp as [_ Hp]. apply jall_arr in Hd as [_ Hd].
    rewrite decode_arr_none. apply wf_vec. apply Forall_forall. intros g Hg. apply in_map_iff in Hg as (j & <- & Hj).
    rewrite Forall_forall in *. auto.
  - apply jall_obj in Hr as [_ Hr]. apply jall_obj in Hp as [Hp0 Hp]. apply jall_obj in Hd as [Hd0 Hd].
    rewrite decode_obj_none by assumption. apply wf_map. split; [apply by_key_sorted|].
    apply by_key_forall. apply Forall_forall. intros g Hg. apply in_map_iff in Hg as (j & <- & Hj). cbn [snd].
    rewrite Forall_forall in *. auto.
Qed.

(** What is decoded is what readers produce. *)
Lemma everywhere_intro (P : gc -> Prop) g : (forall v, g <> GVec v) -> (forall m, g <> GMap m) -> P g -> everywhere P g.
Proof.
  intros Hv Hm H. destruct g; split; try exact I; try exact H; [now contradiction (Hv v)|now contradiction (Hm m)].
Qed.
Section Everywhere.
  Variable Q : json -> Prop.
  Variable P : gc -> Prop.
  Hypothesis Hflat : forall j, (forall l, j <> JArr l) -> (forall m, j <> JObj m) -> Q j -> P (decode_json j GNone).
  Hypothesis Harr : forall l, Q (JArr l) -> P (GVec (map (fun j => decode_json j GNone) l)).
  Hypothesis Hobj : forall m, P (GMap m).
  Lemma decode_everywhere j : jall plain_strings j -> jall distinct_names j -> jall Q j -> everywhere P (decode_json j GNone).
  Proof.
    induction j as [j Ha Ho | l IH | m IH] using json_nest_ind; intros Hp Hd Hq.
    - apply jall_here in Hq. pose proof (Hflat j Ha Ho Hq) as H. apply everywhere_intro; [| |assumption].
      + destruct j; try discriminate; [|now contradiction (Ha l)]. cbn [decode_json]. unfold decode_int.
        repeat (destruct (_ && _); try discriminate).
      + destruct j; try discriminate; [|now contradiction (Ho m)]. cbn [decode_json]. unfold decode_int.
        repeat (destruct (_ && _); try discriminate).
    - apply jall_arr in Hq as [Hq0 Hq]. apply jall_arr in Hp as [_ Hp]. apply jall_arr in Hd as [_ Hd].
      rewrite decode_arr_none. apply everywhere_vec. split; [now apply Harr|]. apply Forall_forall. intros g Hg.
      apply in_map_iff in Hg as (j & <- & Hj). rewrite Forall_forall in *. auto.
    - apply jall_obj in Hq as [Hq0 Hq]. apply jall_obj in Hp as [Hp0 Hp]. apply jall_obj in Hd as [Hd0 Hd].
      rewrite decode_obj_none by assumption. apply everywhere_map. split; [apply Hobj|].
      apply by_key_forall. apply Forall_forall. intros g Hg. apply in_map_iff in Hg as (j & <- & Hj). cbn [snd].
      rewrite Forall_forall in *. auto.
  Qed.
End Everywhere.

Lemma decode_tag_flat j : (forall l, j <> JArr l) -> (forall m, j <> JObj m) ->
  In (tag_of (decode_json j GNone)) [TNone; TBool; TInt; TLong; TReal; TStr].
Proof.
  intros Ha Ho. destruct j; try (cbn; tauto); [|now contradiction (Ha l)|now contradiction (Ho m)].
  cbn [decode_json]. unfold decode_int. repeat (destruct (_ && _); try (cbn; tauto)).
Qed.
Lemma decode_parsed j : jall plain_strings j -> jall distinct_names j -> parsed (decode_json j GNone).
Proof.
  intros Hp Hd. apply (decode_everywhere (fun _ => True)); try assumption.
  - intros k Ha Ho _. pose proof (decode_tag_flat k Ha Ho) as H. unfold parsed_node. cbn in *. tauto.
  - intros l _. unfold parsed_node. cbn. tauto.
  - intros m. unfold parsed_node. cbn. tauto.
  - clear. induction j as [j Ha Ho | l IH | m IH] using json_nest_ind.
    + destruct j; cbn; auto; [now contradiction (Ha l)|now contradiction (Ho m)].
    + apply jall_arr. auto.
    + apply jall_obj. auto.
Qed.

Lemma exact_unrounded j : jall exact_ints j -> jall unrounded_doc j.
Proof.
  induction j as [j Ha Ho | l IH | m IH] using json_nest_ind; intros H.
  - destruct j; cbn; auto; [now contradiction (Ha l)|now contradiction (Ho m)].
  - apply jall_arr in H as [_ H]. apply jall_arr. split; [|rewrite Forall_forall in *; auto].
    right. intros a Ia. rewrite Forall_forall in H. specialize (H a Ia).
    destruct a; cbn [jmerging]; try (constructor; [exact I|constructor]); try (now constructor).
    + constructor; [|constructor]. apply jall_here in H. exact H.
    + apply jall_arr in H as [_ H]. eapply Forall_impl; [|exact H]. intros x Hx. now apply jall_here in Hx.
  - apply jall_obj in H as [_ H]. apply jall_obj. split; [exact I|]. rewrite Forall_forall in *. auto.
Qed.
(** A vector of containers made from documents one by one. *)
Lemma unrounded_from {T} (d : T -> json) (f : T -> gc) l : unrounded_doc (JArr (map d l)) ->
  (forall a, In a l -> forall x, In x (merging (f a)) -> exists k, In k (jmerging (d a)) /\
     (no_jreal k -> no_real x) /\ (jlong_ok k -> long_ok x)) ->
  unrounded_node (GVec (map f l)).
Proof.
  intros H Hf. cbn [unrounded_node unrounded_doc] in *.
  destruct H as [H|H]; [left|right]; intros c Hc; apply in_map_iff in Hc as (a & <- & Ha); apply Forall_forall; intros x Hx;
    destruct (Hf a Ha x Hx) as (k & Hk & H1 & H2); specialize (H (d a) (in_map d l a Ha)); rewrite Forall_forall in H; auto.
Qed.
Lemma decode_unrounded j : jall plain_strings j -> jall distinct_names j -> jall signed_int j -> jall unrounded_doc j ->
  unrounded (decode_json j GNone).
Proof.
  intros Hp Hd Hs He.
  assert (Leaf : forall k x, (forall l, k <> JArr l) -> (forall m, k <> JObj m) -> signed_int k -> x = decode_json k GNone ->
            (no_jreal k -> no_real x) /\ (jlong_ok k -> long_ok x)).
  { intros k x Ha Ho Hk ->. destruct k; try (split; intros; exact I).
    - cbn [decode_json]. rewrite (decode_int_cases z Hk). destruct (_ && _) eqn:E; [split; intros; exact I|]. split; [intros; exact I|].
      cbn [long_ok jlong_ok]. intros [R|R]; [|assumption].
      apply andb_false_iff in E as [E|E]; [apply Z.leb_gt in E|apply Z.ltb_ge in E]; lia.
    - split; [intros H; exact H|intros; exact I]. }
  assert (H : jall (fun j => unrounded_doc j /\ match j with JArr l => forall a, In a l -> signed_int a /\
                 match a with JArr w => Forall signed_int w | _ => True end | _ => True end) j).
  { clear Hp Hd Leaf. induction j as [j Ha Ho | l IH | m IH] using json_nest_ind.
    - apply jall_here in He. destruct j; cbn; auto; [now contradiction (Ha l)|now contradiction (Ho m)].
    - apply jall_arr in Hs as [? Hs], He as [? He]. apply jall_arr. split; [|rewrite Forall_forall in *; auto].
      split; [assumption|]. intros a Ia. rewrite Forall_forall in Hs. specialize (Hs a Ia).
      split; [now apply jall_here in Hs|]. destruct a; try exact I. apply jall_arr in Hs as [_ Hs].
      eapply Forall_impl; [|exact Hs]. intros x Hx. now apply jall_here in Hx.
    - apply jall_obj in Hs as [? Hs], He as [? He]. apply jall_obj. split; [easy|]. rewrite Forall_forall in *. auto. }
  apply (decode_everywhere _ _) with (4 := Hp) (5 := Hd) (6 := H); try (intros; exact I).
  - intros k Ha Ho _. pose proof (decode_tag_flat k Ha Ho) as T. destruct (decode_json k GNone); try exact I.
    cbn in T. exfalso. intuition discriminate.
  - intros l (Hu & Hsg). apply (unrounded_from (fun j => j)); [now rewrite map_id|]. intros a Ia x Hx. destruct (Hsg a Ia) as (S1 & S2).
    destruct a as [ | | z | | | w | m].
    + destruct Hx.
    + exists (JBool b). split; [now left|]. destruct Hx as [<-|[]]. split; intros; exact I.
    + exists (JInt z). split; [now left|]. apply Leaf; try discriminate; [exact S1|].
      cbn [decode_json] in *. rewrite (decode_int_cases z S1) in *. destruct (_ && _); destruct Hx as [<-|[]]; reflexivity.
    + exists (JDbl x0). split; [now left|]. destruct Hx as [<-|[]]. split; [intros K; exact K|intros; exact I].
    + exists (JStr s). split; [now left|]. destruct Hx as [<-|[]]. split; intros; exact I.
    + rewrite decode_arr_none in Hx. cbn [merging elems] in Hx. apply in_map_iff in Hx as (k & <- & Hk). exists k. split; [exact Hk|].
      destruct (k) eqn:Ek; try (rewrite <- Ek in *; apply Leaf; subst; try discriminate; [rewrite Forall_forall in S2; now apply S2|reflexivity]).
      * rewrite decode_arr_none. split; intros; exact I.
      * rewrite decode_obj. split; intros; exact I.
    + rewrite decode_obj in Hx. destruct Hx.
Qed.

Lemma zlen_map {A B} (f : A -> B) l : zlen (map f l) = zlen l.
Proof. unfold zlen. now rewrite map_length. Qed.

Lemma decode_unmixed j : jall plain_strings j -> jall distinct_names j -> jall not_jmixed j -> unmixed (decode_json j GNone).
Proof.
  intros Hp Hd Hm. apply (decode_everywhere not_jmixed); try assumption; try (intros; exact I).
  - intros k Ha Ho _. pose proof (decode_tag_flat k Ha Ho) as H. destruct (decode_json k GNone); try exact I.
    cbn in H. exfalso. intuition discriminate.
  - intros l (H1 & H2) a b Ia Ib Sa Sb. apply in_map_iff in Ia as (ja & <- & Ja), Ib as (jb & <- & Jb).
    destruct jb as [ | | | | | lb | mb]; try (unfold sequence in Sb; cbn in Sb; exfalso; intuition discriminate).
    { exfalso. pose proof (decode_tag_flat (JInt z) ltac:(discriminate) ltac:(discriminate)) as T.
      unfold sequence in Sb. cbn in T, Sb. destruct (tag_of _); intuition discriminate. }
    rewrite decode_arr_none. cbn [elems].
    assert (Eb : zlen (elems (GVec (map (fun j => decode_json j GNone) lb))) = zlen lb) by (cbn [elems]; rewrite !zlen_map; reflexivity).
    cbn [elems] in Eb. rewrite Eb.
    destruct lb as [|b1 [|b2 lb]].
    + destruct ja; try (intros Z; unfold zlen in Z; cbn in Z; discriminate).
      * exfalso. apply H2. auto.
      * cbn [decode_json]. unfold decode_int. repeat (destruct (_ && _)); intros Z; unfold zlen in Z; cbn in Z; discriminate.
      * rewrite decode_arr_none in Sa. unfold scalar in Sa. cbn in Sa. exfalso. intuition discriminate.
      * unfold scalar in Sa. cbn in Sa. exfalso. intuition discriminate.
    + specialize (H1 ja b1 Ja Jb). destruct ja; try contradiction.
      * unfold zlen; cbn. discriminate.
      * rewrite decode_arr_none in Sa. unfold scalar in Sa. cbn in Sa. exfalso. intuition discriminate.
      * unfold scalar in Sa. cbn in Sa. exfalso. intuition discriminate.
    + assert (zlen (elems (decode_json ja GNone)) <= 1).
      { destruct ja; try (unfold zlen; cbn; lia).
        - cbn [decode_json]. unfold decode_int. repeat (destruct (_ && _)); unfold zlen; cbn; lia.
        - rewrite decode_arr_none in Sa. unfold scalar in Sa. cbn in Sa. exfalso. intuition discriminate. }
      unfold zlen at 2. cbn [length]. lia.
Qed.
