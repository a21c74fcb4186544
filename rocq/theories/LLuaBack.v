(** Proofs about writing to Lua and reading back. *)
From Coq Require Import ZArith Bool Lia Ascii String List Permutation.
From Verif Require Import Base F64 StrMap Value MBasic SPromote SCollapse LCollapse SJson LJson LJson2 LToJson MLua SLua LLua LLuaRead.
Import ListNotations.
Local Open Scope Z_scope.

(** Without nil the tables are filled in order. *)
Lemma nums_entries l : forall i t, Forall (fun v => v <> LNil) l -> 0 <= i -> i + zlen l < 2^31 -> full t -> only_keys (upto i) t ->
  nums i l t = t ++ entries (i + 1) l.
Proof.
  induction l as [|v l IH]; intros i t N Hi L F O; [symmetry; apply app_nil_r|]. inversion N; subst. rewrite zlen_cons in L.
  pose proof (zlen_nonneg l). cbn [nums entries]. rewrite to_i32_id by (unfold int32; lia).
  assert (Z : tget (LInt (i + 1)) t = LNil).
  { destruct (is_nil (tget (LInt (i + 1)) t)) eqn:E; [now apply is_nil_spec|]. destruct (O (LInt (i + 1))) as (j & Ej & B).
    - intros E'. rewrite E' in E. discriminate.
    - injection Ej as <-. lia. }
  rewrite tset_fresh by (auto using key_int). destruct (is_nil v) eqn:E; [apply is_nil_spec in E; contradiction|].
  rewrite IH; try assumption; try lia.
  - now rewrite <- app_assoc.
  - apply Forall_app. split; [assumption|]. constructor; [assumption|constructor].
  - intros k Hk. rewrite tget_app in Hk by assumption. destruct (is_nil (tget k t)) eqn:E'.
    + cbn [tget] in Hk. destruct (key_eqb k (LInt (i + 1))) eqn:Q; [|now contradiction Hk]. apply key_eqb_eq in Q. exists (i + 1). split; [assumption|lia].
    + destruct (O k) as (j & -> & B); [|exists j; split; [reflexivity|lia]]. intros Q. rewrite Q in E'. discriminate.
Qed.
Lemma nums_all l : Forall (fun v => v <> LNil) l -> zlen l < 2^31 -> nums 0 l [] = entries 1 l.
Proof. intros N L. rewrite nums_entries; auto; try lia; try constructor. intros k H. now contradiction H. Qed.
Lemma names_entries m : forall t, Forall (fun kv => snd kv <> LNil) m -> NoDup (map fst m) -> full t ->
  (forall k, In k (map fst m) -> tget (LStr k) t = LNil) -> names m t = t ++ named_entries m.
Proof.
  induction m as [|(k, v) m IH]; intros t N D F Z; [symmetry; apply app_nil_r|]. inversion N; subst. inversion D; subst. cbn [fst snd] in *.
  cbn [names named_entries map fst snd]. rewrite tset_fresh; [|assumption|apply key_str|apply Z; now left].
  destruct (is_nil v) eqn:E; [apply is_nil_spec in E; contradiction|]. rewrite IH; try assumption.
  - now rewrite <- app_assoc.
  - apply Forall_app. split; [assumption|]. constructor; [assumption|constructor].
  - intros k' I. rewrite tget_app, Z by (auto; now right). cbn [is_nil tget]. destruct (key_eqb (LStr k') (LStr k)) eqn:Q; [|reflexivity].
    apply key_eqb_eq in Q. injection Q as ->. contradiction.
Qed.

Lemma show_vec v : everywhere showable_node (GVec v) -> no_null_node (GVec v) -> show (GVec v) = LTab (entries 1 (map show v)).
Proof.
  intros Hs Hn. apply everywhere_vec in Hs as [L Hs]. cbn [showable_node no_null_node] in *. cbn [show]. rewrite nums_all; [reflexivity| |now rewrite zlen_map].
  apply Forall_map, Forall_forall. intros e I. rewrite Forall_forall in Hs, Hn. specialize (Hs e I). specialize (Hn e I).
  apply everywhere_here in Hs. destruct e; cbn in Hs; try contradiction; discriminate.
Qed.
Lemma show_map m : wf (GMap m) -> everywhere showable_node (GMap m) -> no_null_node (GMap m) ->
  show (GMap m) = LTab (named_entries (vmap show m)).
Proof.
  intros Hw Hs Hn. apply wf_map in Hw as [So _]. apply everywhere_map in Hs as [K Hs]. cbn [showable_node no_null_node] in *. cbn [show].
  assert (E : map (fun kv => (cstr (fst kv), show (snd kv))) m = vmap show m).
  { apply List.map_ext_in. intros kv Hkv. rewrite cstr_id; [reflexivity|]. rewrite Forall_forall in K. apply K. now apply in_map. }
  rewrite E, names_entries; [reflexivity| | |constructor|reflexivity].
  - apply Forall_map, Forall_forall. intros (k, e) I. rewrite Forall_forall in Hs, Hn. specialize (Hs _ I). specialize (Hn _ I).
    apply everywhere_here in Hs. cbn [snd] in *. destruct e; cbn in Hs; try contradiction; discriminate.
  - rewrite vmap_keys. now apply msorted_nodup.
Qed.
Lemma entries_data l : l <> [] -> lua_data (LTab (entries 1 l)) = DList (map lua_data l).
Proof.
  intros N. cbn [lua_data]. assert (A : named (entries 1 l) = false) by (destruct l; [easy|reflexivity]).
  rewrite A. rewrite <- (entries_values 1 l) at 2. now rewrite map_map.
Qed.
Lemma named_data m : lua_data (LTab (named_entries m)) = DMap (by_key (vmap lua_data m)).
Proof.
  cbn [lua_data]. assert (A : named (named_entries m) = true).
  { unfold named, named_entries. apply forallb_forall. intros kv I. apply in_map_iff in I as (? & <- & _). reflexivity. }
  rewrite A. unfold named_entries. rewrite map_map. reflexivity.
Qed.
Lemma list_data {A} (f : A -> lua) (d : A -> dat) l : l <> [] -> zlen l < 2^31 -> (forall a, In a l -> f a <> LNil /\ lua_data (f a) = d a) ->
  LTab (nums 0 (map f l) []) = LTab (entries 1 (map f l)) /\ lua_data (LTab (nums 0 (map f l) [])) = DList (map d l).
Proof.
  intros N L H. assert (E : nums 0 (map f l) [] = entries 1 (map f l)).
  { apply nums_all; [|now rewrite zlen_map]. apply Forall_map, Forall_forall. intros a I. now apply H. }
  rewrite E. split; [reflexivity|]. rewrite entries_data by (intros Q; apply map_eq_nil in Q; contradiction). rewrite map_map. f_equal. apply List.map_ext_in. intros a I. now apply H.
Qed.
Lemma show_data g : wf g -> everywhere showable_node g -> everywhere no_null_node g -> everywhere nonempty_node g -> lua_data (show g) = data_of g.
Proof.
  assert (LF : forall n, int64 n -> representable n -> lua_data (LNum (f_of_Z n)) = d_int n).
  { intros n I R. cbn [lua_data]. apply fis_data, representable_fis; assumption. }
  assert (IF : forall n, int32 n -> lua_data (LNum (f_of_Z n)) = d_int n).
  { intros n I. apply fis_data, int32_exact, I. }
  induction g as [g Hv Hm | v IH | m IH] using gc_nest_ind; intros Hw Hs Hn He.
  - apply everywhere_here in Hs, He. destruct g; cbn [showable_node nonempty_node wf] in Hs, He, Hw; try contradiction; cbn [show data_of];
      try (exfalso; now apply (Hv v)); try (exfalso; now apply (Hm m)).
    + reflexivity.
    + destruct b; reflexivity.
    + now apply IF.
    + now apply LF.
    + reflexivity.
    + now rewrite cstr_id.
    + apply (list_data (fun i => LNum (f_of_Z i))); auto. intros a I. rewrite Forall_forall in Hw. split; [discriminate|]. apply IF; auto.
    + destruct Hs as [Hs Hr]. apply (list_data (fun i => LNum (f_of_Z i))); auto. intros a I. rewrite Forall_forall in Hw, Hr. split; [discriminate|]. apply LF; auto.
    + apply (list_data LNum); auto. intros a I. split; [discriminate|reflexivity].
    + destruct Hs as [Hs Hr]. apply (list_data (fun s => LStr (cstr s))); auto. intros a I. rewrite Forall_forall in Hr. rewrite cstr_id by auto.
      split; [discriminate|reflexivity].
  - rewrite show_vec by (try assumption; now apply everywhere_here in Hn).
    apply everywhere_vec in Hs as [_ Hs], Hn as [_ Hn], He as [Ne He]. apply wf_vec in Hw. cbn [nonempty_node] in Ne.
    rewrite entries_data by (intros Q; apply map_eq_nil in Q; contradiction). cbn [data_of]. rewrite map_map. f_equal. apply List.map_ext_in. intros e I.
    rewrite Forall_forall in *. auto.
  - rewrite show_map by (try assumption; now apply everywhere_here in Hn).
    apply everywhere_map in Hs as [_ Hs], Hn as [_ Hn], He as [_ He]. apply wf_map in Hw as [So Hw].
    rewrite named_data, vmap_vmap. cbn [data_of].
    assert (E : vmap (fun x => lua_data (show x)) m = vmap data_of m).
    { apply vmap_ext. rewrite Forall_forall in *. intros kv I. auto. }
    rewrite E, by_key_id; [reflexivity|]. unfold msorted in *. now rewrite vmap_keys.
Qed.

(** The values shown can be read. *)
Lemma lall_flat (P : lua -> Prop) v : (forall t, v <> LTab t) -> P v -> lall P v.
Proof. intros N H. destruct v; split; try exact H; try exact I. now contradiction (N t). Qed.
Lemma list_ok_flat l : Forall (fun v => exists x, v = LNum x) l \/ Forall is_str l -> list_ok l.
Proof.
  intros H a v c ->. assert (Hv : (exists x, v = LNum x) \/ is_str v).
  { destruct H as [H|H]; apply Forall_app in H as [_ H]; inversion H; auto. }
  destruct Hv as [[x ->]|[s ->]]; exact I.
Qed.
Lemma entries_readable l : l <> [] -> zlen l < 2^32 -> list_ok l -> Forall (lall readable_node) l -> lall readable_node (LTab (entries 1 l)).
Proof.
  intros N L O H. apply lall_tab. split; [right; exists l; auto|].
  apply (Forall_map snd). now rewrite entries_values.
Qed.
Lemma number_range n : int64 n -> representable n -> readable_node (LNum (f_of_Z n)).
Proof.
  intros I R. destruct (number_ok (LInt n) (conj I R)) as [Hr _]; [left; eauto|]. exact Hr.
Qed.
Lemma int32_representable n : int32 n -> int64 n /\ representable n.
Proof.
  unfold int32, int64. intros H. split; [lia|]. exists (f_of_Z n). apply f_of_Z_exact. lia.
Qed.
Lemma show_tab g : showable_node g -> is_tab (show g) <-> is_compound g.
Proof.
  intros H. split; [|destruct g; cbn; try contradiction; eexists; reflexivity].
  destruct g; cbn in H; try contradiction; intros [t Ht]; try discriminate; exact I.
Qed.
Lemma show_str g : showable_node g -> is_str (show g) <-> is_gstr g.
Proof.
  intros H. split; [|intros [s ->]; eexists; reflexivity].
  destruct g; cbn in H; try contradiction; intros [t Ht]; try discriminate. eexists; reflexivity.
Qed.
Lemma show_bool g : showable_node g -> is_bool (show g) <-> is_gbool g.
Proof.
  intros H. split; [|intros [s ->]; eexists; reflexivity].
  destruct g; cbn in H; try contradiction; intros [t Ht]; try discriminate. eexists; reflexivity.
Qed.
Lemma Exists_show (P : lua -> Prop) (Q : gc -> Prop) l : Forall showable_node l -> (forall g, showable_node g -> Q g -> P (show g)) ->
  Exists Q l -> Exists P (map show l).
Proof.
  intros F H E. apply Exists_exists in E as (g & I & E). apply Exists_exists. exists (show g). split; [now apply in_map|].
  rewrite Forall_forall in F. auto.
Qed.
Lemma list_ok_show v : Forall showable_node v -> (forall a e c, v = (a ++ e :: c)%list -> gfits_after a e) -> list_ok (map show v).
Proof.
  intros F G a x c E.
  assert (X : exists a' e c', v = a' ++ e :: c' /\ a = map show a' /\ x = show e).
  { clear F G. revert a E. induction v as [|e v IH]; intros a E; [destruct a; discriminate|]. destruct a as [|y a].
    - injection E as <- _. exists [], e, v. auto.
    - cbn [map app] in E. injection E as <- E. destruct (IH a E) as (a' & e' & c' & -> & -> & ->). exists (e :: a'), e', c'. auto. }
  destruct X as (a' & e & c' & -> & -> & ->). destruct (G a' e c' eq_refl) as [G1 G2]. clear E G.
  apply Forall_app in F as [Fa F]. inversion F as [|? ? Fe _]; subst.
  assert (B : is_bool (show e) -> Forall is_bool (map show a')).
  { intros B. apply show_bool in B; [|assumption]. specialize (G1 B). apply Forall_map. rewrite Forall_forall in *. intros g I. apply show_bool; auto. }
  assert (T : is_tab (show e) -> map show a' = [] \/ Exists is_tab (map show a') \/
     (Exists is_str (map show a') /\ Exists (fun u => ~ is_str u) (map show a'))).
  { intros B'. apply show_tab in B'; [|assumption]. destruct (G2 B') as [->|[X|[X Y]]].
    - left; reflexivity.
    - right; left. revert X. apply Exists_show; [assumption|]. intros g Hg. now apply show_tab.
    - right; right. split; [revert X|revert Y]; (apply Exists_show; [assumption|]); intros g Hg; now rewrite show_str. }
  destruct (show e); try exact I; [apply B|apply T]; eexists; reflexivity.
Qed.
Lemma show_readable g : wf g -> everywhere showable_node g -> everywhere no_null_node g -> everywhere rereadable_node g -> g <> GNone ->
  lall readable_node (show g).
Proof.
  assert (LF : forall n, int64 n -> representable n -> lall readable_node (LNum (f_of_Z n))).
  { intros n I R. apply lall_flat; [discriminate|]. now apply number_range. }
  assert (LL : forall (A : Type) (f : A -> lua) l, l <> [] -> zlen l < 2^31 ->
     (forall a, In a l -> lall readable_node (f a)) -> (Forall (fun v => exists x, v = LNum x) (map f l) \/ Forall is_str (map f l)) ->
     lall readable_node (LTab (nums 0 (map f l) []))).
  { intros A f l N L H K. rewrite nums_all.
    - apply entries_readable.
      + intros Q. apply map_eq_nil in Q. contradiction.
      + rewrite zlen_map. lia.
      + now apply list_ok_flat.
      + apply Forall_map, Forall_forall. exact H.
    - destruct K as [K|K]; (eapply Forall_impl; [|exact K]); intros v [x ->]; discriminate.
    - now rewrite zlen_map. }
  assert (NF : forall (A : Type) (f : A -> Z) l, Forall (fun v => exists x, v = LNum x) (map (fun a => LNum (f a)) l)).
  { intros A f l. apply Forall_map, Forall_forall. intros a _. eexists; reflexivity. }
  induction g as [g Hv Hm | v IH | m IH] using gc_nest_ind; intros Hw Hs Hn He N0.
  - apply everywhere_here in Hs, He. destruct g; cbn [showable_node rereadable_node wf] in Hs, He, Hw; try contradiction; cbn [show];
      try (exfalso; now apply (Hv v)); try (exfalso; now apply (Hm m)).
    + apply lall_flat; [discriminate|exact I].
    + apply LF; now apply int32_representable.
    + now apply LF.
    + apply lall_flat; [discriminate|]. split; assumption.
    + rewrite cstr_id by assumption. apply lall_flat; [discriminate|assumption].
    + apply LL; auto. intros a I. rewrite Forall_forall in Hw. apply LF; now apply int32_representable, Hw.
    + destruct Hs as [Hs Hr]. apply LL; auto. intros a I. rewrite Forall_forall in Hw, Hr. apply LF; auto.
    + destruct He as [He Hr]. apply LL; auto. intros a I. rewrite Forall_forall in Hw, Hr. apply lall_flat; [discriminate|]. split; [now apply Hw|now apply Hr].
    + destruct Hs as [Hs Hr]. apply LL; auto.
      * intros a I. rewrite Forall_forall in Hr. rewrite cstr_id by auto. apply lall_flat; [discriminate|]. now apply Hr.
      * right. apply Forall_map, Forall_forall. intros s _. eexists; reflexivity.
  - rewrite show_vec by (try assumption; now apply everywhere_here in Hn).
    apply everywhere_vec in Hs as [Hl Hs], Hn as [Hn0 Hn], He as [[Ne Ho] He]. apply wf_vec in Hw. cbn [showable_node no_null_node] in Hl, Hn0.
    apply entries_readable.
    + intros Q. apply map_eq_nil in Q. contradiction.
    + rewrite zlen_map. lia.
    + apply list_ok_show; [|exact Ho]. eapply Forall_impl; [|exact Hs]. intros g. apply everywhere_here.
    + apply Forall_map. rewrite Forall_forall in *. intros e I. apply IH; auto.
  - rewrite show_map by (try assumption; now apply everywhere_here in Hn).
    apply everywhere_map in Hs as [Hl Hs], Hn as [Hn0 Hn], He as [Ne He]. apply wf_map in Hw as [So Hw]. cbn [showable_node no_null_node rereadable_node] in *.
    apply lall_tab. split.
    + left. exists (vmap show m). split; [intros Q; apply map_eq_nil in Q; contradiction|]. split; [reflexivity|].
      rewrite vmap_keys. split; [now apply msorted_nodup|assumption].
    + unfold named_entries. apply Forall_map. cbn [snd]. apply Forall_map. cbn [snd]. rewrite Forall_forall in *. intros e I. apply IH; auto.
Qed.

(** Slots. *)
Lemma most_entries l i n : Forall (fun v => lslots v <= n) l -> 0 <= n -> most_tab (entries i l) <= n.
Proof.
  intros H P. revert i. induction H as [|v l Hv _ IH]; intros i; [exact P|]. cbn [entries most_tab]. fold most_tab. specialize (IH (i + 1)). lia.
Qed.
Lemma most_named m n : Forall (fun kv => lslots (snd kv) <= n) m -> 0 <= n -> most_tab (named_entries m) <= n.
Proof.
  intros H P. induction H as [|(k, v) m Hv _ IH]; [exact P|]. cbn [named_entries map fst snd most_tab]. fold most_tab.
  cbn [snd] in Hv. unfold named_entries in IH. lia.
Qed.
Lemma most_vec_in v e : In e v -> slots e <= most_vec v.
Proof. induction v as [|a v IH]; [easy|]. cbn [most_vec]. fold most_vec. intros [<-|I]; [lia|]. specialize (IH I). lia. Qed.
Lemma most_map_in m kv : In kv m -> slots (snd kv) < most_map m.
Proof. induction m as [|(k, a) v IH]; [easy|]. cbn [most_map]. fold most_map. intros [<-|I]; [cbn [snd]; lia|]. specialize (IH I). lia. Qed.
Lemma show_slots g : wf g -> everywhere showable_node g -> everywhere no_null_node g -> lslots (show g) <= 2 * slots g.
Proof.
  assert (LL : forall (A : Type) (f : A -> lua) (l : list A), zlen l < 2^31 -> (forall a, f a <> LNil /\ lslots (f a) = 0) ->
     lslots (LTab (nums 0 (map f l) [])) <= 2 * list_slots l).
  { intros A f l L H. rewrite nums_all; [| |now rewrite zlen_map].
    - destruct l as [|a l]; [cbn; lia|]. rewrite lslots_tab by discriminate. enough (most_tab (entries 1 (map f (a :: l))) <= 0) by (cbn [list_slots]; lia).
      apply most_entries; [|lia]. apply Forall_map, Forall_forall. intros b _. destruct (H b) as [_ ->]. lia.
    - apply Forall_map, Forall_forall. intros a _. apply H. }
  induction g as [g Hv Hm | v IH | m IH] using gc_nest_ind; intros Hw Hs Hn.
  - apply everywhere_here in Hs. destruct g; cbn [showable_node] in Hs; try contradiction; cbn [show slots];
      try (exfalso; now apply (Hv v)); try (exfalso; now apply (Hm m)); try (cbn [lslots]; lia).
    + apply LL; auto. intros a. split; [discriminate|reflexivity].
    + destruct Hs as [Hs _]. apply LL; auto. intros a. split; [discriminate|reflexivity].
    + apply LL; auto. intros a. split; [discriminate|reflexivity].
    + destruct Hs as [Hs _]. apply LL; auto. intros a. split; [discriminate|reflexivity].
  - rewrite show_vec by (try assumption; now apply everywhere_here in Hn).
    apply everywhere_vec in Hs as [_ Hs], Hn as [_ Hn]. apply wf_vec in Hw. rewrite slots_vec. pose proof (most_vec_nonneg v).
    destruct v as [|a v]; [cbn [map entries lslots]; lia|]. rewrite lslots_tab by discriminate.
    enough (most_tab (entries 1 (map show (a :: v))) <= 2 * most_vec (a :: v)) by lia.
    apply most_entries; [|lia]. apply Forall_map. rewrite Forall_forall in *. intros e I. pose proof (most_vec_in (a :: v) e I).
    specialize (IH e I (Hw e I) (Hs e I) (Hn e I)). lia.
  - rewrite show_map by (try assumption; now apply everywhere_here in Hn).
    apply everywhere_map in Hs as [_ Hs], Hn as [_ Hn]. apply wf_map in Hw as [_ Hw]. rewrite slots_map. pose proof (most_map_nonneg m).
    destruct m as [|a m]; [cbn [vmap named_entries map lslots]; lia|]. rewrite lslots_tab by discriminate.
    enough (most_tab (named_entries (vmap show (a :: m))) <= 2 * most_map (a :: m)) by lia.
    apply most_named; [|lia]. apply Forall_map. cbn [snd]. rewrite Forall_forall in *. intros e I. pose proof (most_map_in (a :: m) e I).
    specialize (IH e I (Hw e I) (Hs e I) (Hn e I)). lia.
Qed.

(** The order in which a table with string keys is traversed does not matter. *)
Lemma by_key_perm {A} (m m' : list (string * A)) : NoDup (map fst m) -> Permutation m m' -> by_key m = by_key m'.
Proof.
  intros D P. assert (D' : NoDup (map fst m')) by (eapply Permutation_NoDup; [|exact D]; now apply Permutation_map).
  apply map_ext; try apply by_key_sorted. intros k. rewrite !by_key_find by assumption.
  assert (G : forall (m m' : list (string * A)), NoDup (map fst m) -> Permutation m m' -> forall p, find (fun kx => String.eqb (fst kx) k) m = Some p -> find (fun kx => String.eqb (fst kx) k) m' = Some p).
  { clear. intros m m' D P p E. apply find_some in E as [I E]. cbn in E. apply String.eqb_eq in E.
    assert (I' : In p m') by (eapply Permutation_in; eassumption).
    assert (D' : NoDup (map fst m')) by (eapply Permutation_NoDup; [|exact D]; now apply Permutation_map).
    clear - E I' D'. induction m' as [|q m' IH]; [easy|]. cbn [find]. destruct (String.eqb_spec (fst q) k) as [Q|Q].
    - destruct I' as [->|I']; [reflexivity|]. exfalso. cbn [map] in D'. apply NoDup_cons_iff in D' as [D' _]. apply D'. rewrite Q, <- E. now apply in_map.
    - destruct I' as [->|I']; [contradiction|]. apply IH; [assumption|]. now inversion D'. }
  destruct (find _ m) as [p|] eqn:E.
  - now rewrite (G m m' D P p E).
  - destruct (find _ m') as [p|] eqn:E'; [|reflexivity]. rewrite (G m' m D' (Permutation_sym P) p E') in E. discriminate.
Qed.
