(** Property C112: what a JSON text gave can be turned into bytes and back. *)
From Coq Require Import ZArith Bool Lia Ascii String List.
From Verif Require Import Base F64 StrMap Value MBasic WfDec SGet SPromote MCollapse SCollapse LCollapse MNum MText MJson SJson LJson MJson2 MRapid MSerialize SSerialize LSerialize Props_serialize.
From Verif Require LCapi3 LOps LOps2 LRound.
Import ListNotations.
Local Open Scope Z_scope.

(** A container without pointers and complex numbers and without NUL bytes in strings and keys. *)
Definition textual_node (g : gc) : Prop := parsed_node g /\ strings_here no_nul g.
Definition textual : gc -> Prop := everywhere textual_node.

Lemma here P g : everywhere P g -> P g.
Proof. destruct g; cbn [everywhere]; tauto. Qed.
Lemma leaf_textual g : (forall v, g <> GVec v) -> (forall m, g <> GMap m) -> textual_node g -> textual g.
Proof. apply everywhere_flat. Qed.
Lemma textual_vec v : textual (GVec v) <-> Forall textual v.
Proof.
  unfold textual. rewrite everywhere_vec. split; [tauto|]. intros H. split; [|exact H]. split; [|exact I]. unfold parsed_node. cbn. tauto.
Qed.
Lemma textual_map m : textual (GMap m) <-> Forall (fun kv => no_nul (fst kv) /\ textual (snd kv)) m.
Proof.
  unfold textual. rewrite everywhere_map. rewrite !Forall_forall. unfold textual_node at 1. cbn [strings_here]. rewrite Forall_forall. split.
  - intros ((_ & A) & B) kv K. split; [apply A; now apply in_map|now apply B].
  - intros H. split; [split; [unfold parsed_node; cbn; tauto|]|intros kv K; now apply H]. intros k K. apply in_map_iff in K as (kv & <- & K). now apply H.
Qed.
Ltac leaf := apply leaf_textual; [discriminate|discriminate|split; [unfold parsed_node; cbn; tauto|try exact I]].

(** Collapse. *)
Lemma overwrite_keeps r g : textual g -> (forall g', r = Ok g' -> textual g') -> textual (snd (overwrite r g)).
Proof. destruct r; cbn [overwrite snd]; auto. Qed.
Lemma strings_no_nul v : Forall textual v -> forall t, strings_of v = Ok t -> Forall no_nul t.
Proof.
  induction 1 as [|e v He _ IH]; intros t E; cbn [strings_of] in E; [apply Ok_inj in E; subst; constructor|].
  apply bind_ok in E as (s & E1 & E). apply bind_ok in E as (r & E2 & E). apply Ok_inj in E. subst t. constructor; [|now apply IH].
  destruct e; try discriminate E1. apply Ok_inj in E1. subst. apply here in He. apply He.
Qed.
Lemma collapse_vec_keeps v : Forall textual v -> textual (snd (collapse_vec v)).
Proof.
  intros H. pose proof (proj2 (textual_vec v) H) as G. unfold collapse_vec. cbv zeta.
  destruct (scan_max v scan0) as (_ & _ & M). cbv zeta in M.
  assert (N : max_sub (fold_left scan_step v scan0) <> TComplex /\ max_sub (fold_left scan_step v scan0) <> TVComplex).
  { destruct M as [->|(e & He & ->)]; [split; discriminate|]. rewrite Forall_forall in H. apply H in He. apply here in He.
    destruct He as [He _]. unfold parsed_node in He. split; intros X; rewrite X in He; cbn in He; intuition discriminate. }
  clear M. destruct (negb _); [exact G|]. destruct (all_string _).
  { apply overwrite_keeps; [exact G|]. intros g' E. apply bind_ok in E as (t & E1 & E2). apply (strings_no_nul v H) in E1.
    unfold set_vstr in E2. apply bind_ok in E2 as (w & E2 & E3). apply Ok_inj in E3. subst g'. leaf. cbn [strings_here].
    eapply LCapi3.copy_into_all; [exact E2|exact E1|]. unfold alloc_vstr. apply LOps.valloc_all; [exact (fun X => X)|constructor]. }
  destruct (max_sub _); try exact G; try (exfalso; now apply N); apply overwrite_keeps; try exact G; intros g' E; apply bind_ok in E as (t & E1 & E2).
  all: first [ unfold set_vbool, set_vint, set_vlong, set_vreal in E2; apply bind_ok in E2 as (w & _ & E2)
             | unfold set_mint, set_mlong, set_mreal in E2; apply bind_ok in E2 as (w & _ & E2) | idtac ]; apply Ok_inj in E2; subst g'; leaf.
Qed.
Lemma collapse_keeps g : textual g -> textual (snd (collapse g)).
Proof.
  induction g as [g Hv Hm | v IH | m IH] using gc_nest_ind; intros H.
  - destruct g; try exact H; nested_contra Hv Hm.
  - destruct v as [|e v]; [exact H|]. rewrite collapse_vec_eq. apply textual_vec in H.
    assert (A : Forall textual (snd (collapse_all (e :: v)))).
    { generalize dependent (e :: v). clear e v. intros l IH H. induction IH as [|a l Ha _ IHl]; cbn [collapse_all]; [constructor|]. inversion H; subst.
      specialize (Ha H2). specialize (IHl H3). destruct (collapse a) as [[] a']; cbn [snd] in *; try (constructor; assumption).
      destruct (collapse_all l) as [r l']. cbn [snd] in *. now constructor. }
    destruct (collapse_all (e :: v)) as [[] v']; cbn [snd] in *; try (now apply textual_vec). now apply collapse_vec_keeps.
  - rewrite collapse_map_eq. apply textual_map in H.
    assert (A : Forall (fun kv => no_nul (fst kv) /\ textual (snd kv)) (snd (collapse_entries m))).
    { induction IH as [|[k a] l Ha _ IHl]; cbn [collapse_entries]; [constructor|]. inversion H; subst. cbn [snd fst] in *. destruct H2 as [Hk H2].
      specialize (Ha H2). specialize (IHl H3). destruct (collapse a) as [[] a']; cbn [snd] in *; try (constructor; [now split|assumption]).
      destruct (collapse_entries l) as [r l']. cbn [snd] in *. constructor; [now split|assumption]. }
    destruct (collapse_entries m) as [r m']. now apply textual_map.
Qed.

(** The reader. *)
Lemma cstr_no_nul s : no_nul (cstr s).
Proof.
  unfold no_nul. induction s as [|c s IH]; [exact (fun X => X)|]. cbn [cstr]. destruct (Ascii.eqb c Ascii.zero) eqn:E; [exact (fun X => X)|].
  cbn [list_ascii_of_string In]. intros [->|X]; [now rewrite Ascii.eqb_refl in E|now apply IH].
Qed.
Lemma none_textual : textual GNone.
Proof. leaf. Qed.
Lemma decode_int_textual z g : textual (decode_int z g).
Proof. unfold decode_int. destruct (_ && _); [leaf|]. destruct (_ && _); [leaf|]. destruct (_ && _); leaf. Qed.
Lemma decode_keeps j : forall g, textual g -> textual (decode_json j g).
Proof.
  induction j as [j Ha Ho | l IH | m IH] using json_nest_ind; intros g Hg.
  - destruct j; [leaf|leaf|apply decode_int_textual|leaf| |now contradiction (Ha l)|now contradiction (Ho m)].
    cbn [decode_json set_string]. leaf. cbn [strings_here]. apply cstr_no_nul.
  - rewrite decode_arr. apply textual_vec.
    assert (V : Forall textual (alloc_vec (zlen l) g)).
    { unfold alloc_vec. apply LOps.valloc_all; [apply none_textual|]. destruct g; try constructor. now apply textual_vec. }
    generalize dependent (alloc_vec (zlen l) g). induction IH as [|x l Ex _ IHl]; intros v V; [destruct v; exact V|].
    destruct v as [|e v]; [exact V|]. cbn [decode_all]. inversion V; subst. constructor; [now apply Ex | now apply IHl].
  - rewrite decode_obj. apply textual_map.
    assert (F : Forall (fun kv => no_nul (fst kv) /\ textual (snd kv)) (old_map g)) by (destruct g; try constructor; now apply textual_map).
    generalize dependent (old_map g). induction IH as [|[k x] m Ex _ IHl]; intros acc F; cbn [decode_members]; [exact F|].
    apply IHl. apply LJson.mset_forall; [exact F|]. cbn [fst snd] in *. split; [apply cstr_no_nul|]. apply Ex.
    destruct (mfind (cstr k) acc) as [e|] eqn:E; [|apply none_textual]. apply mfind_in in E. rewrite Forall_forall in F. apply (F _ E).
Qed.
Lemma read_keeps t g : textual g -> textual (snd (from_json_text t g)).
Proof.
  intros H. unfold from_json_text. destruct (rapidjson t) as [j|]; [|exact H]. cbn [from_json]. unfold MJson.finish.
  pose proof (collapse_keeps _ (decode_keeps j g H)) as C. destruct (collapse (decode_json j g)) as [r g']. exact C.
Qed.

(** Valid textual containers can be stored. *)
Lemma textual_bytes hard g : wf g -> textual g -> zlen (enc g) < 2^31 -> (hard = true -> no_empty_string g) ->
  exists n, mem_size g = Ok n /\
    forall buf, n <= zlen buf < 2^31 ->
      exists buf', serialize hard g (zlen buf) buf 0 = (Ok n, buf') /\
        forall old fuel, (depth g < fuel)%nat -> de_serialize fuel (zlen buf') buf' old = (Ok n, g).
Proof.
  intros W T L HE.
  assert (Sub : forall Q : gc -> Prop, (forall g, textual_node g -> Q g) -> everywhere Q g) by (intros Q HQ; exact (LRound.everywhere_impl _ _ HQ g T)).
  assert (NP : no_pointer g) by (apply Sub; intros h [H _]; unfold parsed_node in H; split; intros X; rewrite X in H; cbn in H; intuition discriminate).
  assert (NC : no_mat_complex g) by (apply Sub; intros h [H _]; unfold parsed_node in H; intros X; rewrite X in H; cbn in H; intuition discriminate).
  assert (NN : nul_free g) by (apply Sub; intros h [_ H]; exact H).
  destruct (C32_mem_size_partial hard g L NC HE) as (n & Em & S). exists n. split; [exact Em|].
  intros buf B. destruct (S buf B) as (bytes & Lb & Es). exists (bytes ++ skipn (Z.to_nat n) buf). split; [exact Es|].
  intros old fuel D. assert (L2 : zlen (bytes ++ skipn (Z.to_nat n) buf) = zlen buf).
  { rewrite zlen_app, Lb. unfold zlen in *. rewrite skipn_length. lia. }
  destruct (C34_round_trip_partial hard g old buf n (bytes ++ skipn (Z.to_nat n) buf) [] fuel W (enc_short g L) NP NC NN ltac:(lia) Es) as (R & _); [rewrite app_nil_r; lia|assumption|].
  now rewrite app_nil_r in R.
Qed.

(** * C112: what was read from JSON can be stored as bytes and restored.
    [hard] is about empty strings, see MSerialize.v. *)
(** Reading any number of texts one after the other, some of which may be refused or fail. *)
Fixpoint read_all (ts : list text) (g : gc) : gc :=
  match ts with [] => g | t :: ts' => read_all ts' (snd (from_json_text t g)) end.
Theorem C112_bytes : forall hard ts g, g = read_all ts GNone -> zlen (enc g) < 2^31 ->
  (hard = true -> no_empty_string g) ->
  exists n, mem_size g = Ok n /\
    forall buf, n <= zlen buf < 2^31 ->
      exists buf', serialize hard g (zlen buf) buf 0 = (Ok n, buf') /\
        forall old fuel, (depth g < fuel)%nat -> de_serialize fuel (zlen buf') buf' old = (Ok n, g).
Proof.
  intros hard ts g E L HE.
  assert (K : forall ts g, wf g -> textual g -> wf (read_all ts g) /\ textual (read_all ts g)).
  { clear. induction ts as [|t ts IH]; intros g W T; [now split|]. cbn [read_all]. apply IH; [now apply LOps2.json_text_ok|now apply read_keeps]. }
  destruct (K ts GNone I none_textual) as [W T]. rewrite <- E in W, T. now apply textual_bytes.
Qed.
Example C112_example : exists g, g = read_all [txt "[1,2.5"; quoted "{'a':[[1,2],[3,4]],'b\u0000c':[1.5,2]}"; quoted "{'a':null,'z':'x'}"] GNone /\
  g = GMap [("a"%string, GNone); ("b"%string, GVReal [4609434218613702656; 4611686018427387904]); ("z"%string, GStr "x")] /\ zlen (enc g) < 2^31 /\ depth g = 1%nat.
Proof. eexists. split; [reflexivity|]. split; [vm_compute; reflexivity|]. split; vm_compute; reflexivity. Qed.
Print Assumptions C112_bytes.
