(** Property C116: what was read from YAML, TOML and JSON documents can be turned into bytes and back. *)
From Coq Require Import ZArith Bool Lia Ascii String List.
From Verif Require Import Base F64 StrMap Value MBasic MMap WfDec SGet SPromote MCollapse SCollapse LCollapse MNum MText MJson SJson LJson LBuild MRapid MYaml MToml SDocs LDocs SOps
  MSerialize SSerialize LSerialize Props_serialize Props_stored.
From Verif Require LCapi3 LOps LOps2 LRound.
Import ListNotations.
Local Open Scope Z_scope.

(** No NUL byte in the strings and names of a document. *)
Definition clean (j : json) : Prop :=
  match j with JStr s => no_nul s | JObj m => Forall no_nul (map fst m) | _ => True end.

Lemma int64_textual z g : textual (decode_int64 z g).
Proof. unfold decode_int64. destruct (_ && _); leaf. Qed.
Lemma find_textual k acc : Forall (fun kv => no_nul (fst kv) /\ textual (snd kv)) acc -> textual (match mfind k acc with Some e => e | None => GNone end).
Proof. intros F. destruct (mfind k acc) as [e|] eqn:E; [|apply none_textual]. apply mfind_in in E. rewrite Forall_forall in F. apply (F _ E). Qed.
Lemma old_map_textual g : textual g -> Forall (fun kv => no_nul (fst kv) /\ textual (snd kv)) (old_map g).
Proof. intros H. destruct g; try constructor. now apply textual_map. Qed.
Lemma old_vec_textual g : textual g -> Forall textual (old_vec g).
Proof. intros H. destruct g; try constructor. now apply textual_vec. Qed.
Lemma yaml_keeps y : jall clean (yaml_doc y) -> forall g, textual g -> textual (snd (YAML_to_GC y g)).
Proof.
  induction y as [y Ha Ho | l IH | m IH] using yaml_nest_ind; intros C g Hg.
  - destruct y; try leaf; [apply int64_textual| |now contradiction (Ha l)|now contradiction (Ho m)]. cbn [strings_here]. exact (proj1 C).
  - cbn [yaml_doc] in C. apply jall_arr in C as [_ C]. rewrite Forall_map in C. rewrite yaml_seq.
    assert (V : Forall textual (alloc_vec (to_u32 (zlen l)) g)) by (apply LOps.valloc_all; [apply none_textual|now apply old_vec_textual]).
    enough (Q : forall v, Forall textual v -> Forall textual (snd (yaml_all l v))).
    { specialize (Q _ V). destruct (yaml_all l _) as [r v]. now apply textual_vec. }
    clear V. induction IH as [|x l Ex _ IHl]; intros v V; [destruct v; exact V|]. destruct v as [|e v]; [exact V|].
    inversion C; inversion V; subst. cbn [yaml_all]. specialize (Ex ltac:(assumption) e ltac:(assumption)). specialize (IHl ltac:(assumption) v ltac:(assumption)).
    destruct (YAML_to_GC x e) as [[] e']; cbn [snd] in *; try (constructor; assumption).
    destruct (yaml_all l v) as [r w]. cbn [snd] in *. constructor; assumption.
  - cbn [yaml_doc] in C. apply jall_obj in C as [C0 C]. cbn [clean] in C0. rewrite map_map in C0. cbn [fst] in C0. rewrite Forall_map in C0, C. cbn [snd] in C. rewrite yaml_map.
    enough (Q : forall acc, Forall (fun kv => no_nul (fst kv) /\ textual (snd kv)) acc -> Forall (fun kv => no_nul (fst kv) /\ textual (snd kv)) (snd (yaml_members m acc))).
    { specialize (Q _ (old_map_textual g Hg)). destruct (yaml_members m _) as [r acc]. now apply textual_map. }
    clear g Hg. induction IH as [|[k x] m Ex _ IHl]; intros acc F; [exact F|]. cbn [yaml_members]. inversion C; inversion C0; subst. cbn [fst snd] in *.
    destruct (key_text k) as [s| | |] eqn:K; try exact F. assert (Ns : no_nul s) by (destruct k; try discriminate K; apply Ok_inj in K; subst s; assumption).
    specialize (Ex ltac:(assumption) _ (find_textual s acc F)). destruct (YAML_to_GC x _) as [[] e']; cbn [snd] in Ex |- *;
      try (apply LJson.mset_forall; [exact F|now split]). apply IHl; [assumption|assumption|]. apply LJson.mset_forall; [exact F|now split].
Qed.
Lemma caught_keeps rg : textual (snd rg) -> textual (snd (caught rg)).
Proof. destruct rg as [[] g]; exact (fun H => H). Qed.
Lemma then_collapse_keeps rg : textual (snd rg) -> textual (snd (then_collapse rg)).
Proof. destruct rg as [[] g]; try exact (fun H => H). apply collapse_keeps. Qed.

Lemma with_idx_keeps {A} i (f : gc -> out A * gc) g : (forall e, textual e -> textual (snd (f e))) -> textual g -> textual (snd (with_idx i f g)).
Proof.
  intros F Hg. unfold with_idx. cbv zeta. pose proof (LOps.check_resize_all textual GNone i _ none_textual (old_vec_textual g Hg)) as W.
  destruct (znth i _) as [e|] eqn:E; [|now apply textual_vec].
  pose proof (F e (LOps.znth_all textual _ _ _ W E)) as He. destruct (f e) as [r e']. cbn [snd] in *. apply textual_vec. now apply LCapi3.Forall_lset.
Qed.
Lemma put_text_keeps k s g : no_nul (cstr k) -> no_nul s -> textual g -> textual (snd (put_text k s g)).
Proof.
  intros K N H. unfold put_text, with_key. cbv zeta. cbn [snd]. apply textual_map. apply LJson.mset_forall; [now apply old_map_textual|].
  cbn [fst snd]. split; [exact K|]. leaf. exact N.
Qed.
Lemma toml_keeps t : jall clean (toml_doc t) -> forall g, textual g -> textual (snd (TOML_to_GC t g)).
Proof.
  induction t as [t Ha Ho | l IH | m IH] using toml_nest_ind; intros C g Hg.
  - destruct t; try leaf; [|apply int64_textual| | | |now contradiction (Ho m)|now contradiction (Ha l)].
    + exact (proj1 C).
    + cbn [toml_doc] in C. apply jall_obj in C as [_ C]. inversion C; subst. apply put_text_keeps; [apply cstr_no_nul|exact (proj1 H1)|exact Hg].
    + cbn [toml_doc] in C. apply jall_obj in C as [_ C]. inversion C; subst. apply put_text_keeps; [apply cstr_no_nul|exact (proj1 H1)|exact Hg].
    + cbn [toml_doc] in C. apply jall_obj in C as [_ C]. inversion C; subst. apply put_text_keeps; [apply cstr_no_nul|exact (proj1 H1)|exact Hg].
  - cbn [toml_doc] in C. apply jall_arr in C as [_ C]. rewrite Forall_map in C. rewrite toml_arr.
    assert (Q : forall i g, textual g -> textual (snd (toml_items l i g))).
    { clear g Hg. induction IH as [|x l Ex _ IHl]; intros i g Hg; [exact Hg|]. inversion C; subst. specialize (IHl ltac:(assumption)). cbn [toml_items].
      pose proof (with_idx_keeps (to_u32 i) (TOML_to_GC x) g (Ex ltac:(assumption)) Hg) as W.
      destruct (with_idx _ _ _) as [[u| | |] g']; cbn [snd] in *; try exact W. now apply IHl. }
    assert (W0 : textual (set_vector_sz 0 g)) by (apply textual_vec; apply LOps.valloc_all; [apply none_textual|now apply old_vec_textual]).
    destruct (tables_only l); [now apply Q|]. destruct (forallb is_string l) eqn:E.
    { cbn [snd]. leaf. cbn [strings_here]. apply Forall_app. split.
      - apply LOps.valloc_all; [exact (fun X => X)|]. destruct g; try constructor. apply here in Hg. exact (proj2 Hg).
      - rewrite Forall_forall in *. intros x Hx. apply in_map_iff in Hx as (y & <- & Hy). rewrite forallb_forall in E. pose proof (E y Hy) as F.
        destruct y; try discriminate. exact (proj1 (C _ Hy)). }
    destruct (forallb is_integer l); [leaf|]. destruct (forallb is_float l); [leaf|]. now apply Q.
  - cbn [toml_doc] in C. apply jall_obj in C as [C0 C]. cbn [clean] in C0. rewrite map_map in C0. cbn [fst] in C0. rewrite Forall_map in C0, C. cbn [snd] in C. rewrite toml_tbl.
    enough (Q : forall acc, Forall (fun kv => no_nul (fst kv) /\ textual (snd kv)) acc -> Forall (fun kv => no_nul (fst kv) /\ textual (snd kv)) (snd (toml_members m acc))).
    { specialize (Q _ (old_map_textual g Hg)). destruct (toml_members m _) as [r acc]. now apply textual_map. }
    clear g Hg. induction IH as [|[k x] m Ex _ IHl]; intros acc F; [exact F|]. cbn [toml_members]. inversion C; inversion C0; subst. cbn [fst snd] in *.
    specialize (Ex ltac:(assumption) _ (find_textual k acc F)). destruct (TOML_to_GC x _) as [[] e']; cbn [snd] in Ex |- *;
      try (apply LJson.mset_forall; [exact F|now split]). apply IHl; [assumption|assumption|]. apply LJson.mset_forall; [exact F|now split].
Qed.

(** Reading any number of documents of all kinds one after the other. *)
Inductive document : Type := DJson (t : text) | DYaml (d : option yaml) | DToml (d : option (list (string * toml))).
Definition read_doc (d : document) (g : gc) : gc :=
  match d with DJson t => snd (from_json_text t g) | DYaml y => snd (from_yaml y g) | DToml m => snd (from_toml m g) end.
Fixpoint read_docs (ds : list document) (g : gc) : gc := match ds with [] => g | d :: ds' => read_docs ds' (read_doc d g) end.
(** Numbers of 64 bits, no NUL bytes.  (Nothing is needed of JSON texts.) *)
Definition clean_doc (d : document) : Prop :=
  let ok j := jall tree_fits j /\ jall clean j in
  match d with DYaml (Some y) => ok (yaml_doc y) | DToml (Some m) => ok (toml_doc (TTbl m)) | _ => True end.
Lemma doc_keeps d g : clean_doc d -> wf g -> textual g -> wf (read_doc d g) /\ textual (read_doc d g).
Proof.
  intros C W T. destruct d as [t|[y|]|[m|]]; cbn [read_doc clean_doc] in *; try now split.
  - split; [now apply LOps2.json_text_ok|now apply read_keeps].
  - destruct C as [C1 C2]. split; [now apply LOps2.from_yaml_ok|]. cbn [from_yaml]. now apply caught_keeps, then_collapse_keeps, yaml_keeps.
  - destruct C as [C1 C2]. split; [now apply LOps2.from_toml_ok|]. cbn [from_toml]. now apply caught_keeps, then_collapse_keeps, toml_keeps.
Qed.

(** * C116: whatever documents were read into a new container, and whatever the readers reported, the container
    can be stored as bytes and restored. *)
Theorem C116_bytes : forall hard ds g, Forall clean_doc ds -> g = read_docs ds GNone -> zlen (enc g) < 2^31 ->
  (hard = true -> no_empty_string g) ->
  exists n, mem_size g = Ok n /\
    forall buf, n <= zlen buf < 2^31 ->
      exists buf', serialize hard g (zlen buf) buf 0 = (Ok n, buf') /\
        forall old fuel, (depth g < fuel)%nat -> de_serialize fuel (zlen buf') buf' old = (Ok n, g).
Proof.
  intros hard ds g Cs E L HE.
  assert (K : forall ds g, Forall clean_doc ds -> wf g -> textual g -> wf (read_docs ds g) /\ textual (read_docs ds g)).
  { clear. induction ds as [|t ds IH]; intros g C W T; [now split|]. inversion C; subst. cbn [read_docs]. apply IH; [assumption|now apply doc_keeps|now apply doc_keeps]. }
  destruct (K ds GNone Cs I none_textual) as [W T]. rewrite <- E in W, T. now apply textual_bytes.
Qed.
(** A YAML document, a TOML document over it (its array is appended), a rejected text and a document that fails in the middle. *)
Example C116_example :
  let ds := [DYaml (Some (YMap [(YStr "a"%string, YSeq [YInt 1; YFlt 4609434218613702656]); (YStr "z"%string, YStr "x"%string)]));
             DToml (Some [("n"%string, TArr [TIntN 3; TIntN 4]); ("d"%string, TDate "2020-01-02"%string)]);
             DYaml None; DJson (txt "[1,"); DYaml (Some (YMap [(YStr "z"%string, YBool true); (YInt 1, YNull)]))] in
  Forall clean_doc ds /\ exists g, g = read_docs ds GNone /\ zlen (enc g) < 2^31 /\
  g = GMap [("a"%string, GVReal [f_of_Z 1; 4609434218613702656]); ("d"%string, GMap [("$date"%string, GStr "2020-01-02"%string)]);
            ("n"%string, GVInt [3; 4]); ("z"%string, GBool true)].
Proof.
  cbv zeta. split.
  - assert (f64 4609434218613702656) by (unfold f64; lia). assert (forall z, 0 <= z < 10 -> int64 z) by (unfold int64; lia).
    assert (NN : forall s, existsb (Ascii.eqb Ascii.zero) (list_ascii_of_string s) = false -> no_nul s).
    { intros s E X. apply Bool.not_true_iff_false in E. apply E. apply existsb_exists. eexists. split; [exact X|apply Ascii.eqb_refl]. }
    repeat apply Forall_cons; try apply Forall_nil; try exact I; split;
      cbn [yaml_doc toml_doc key_name map fst snd jall tree_fits clean]; repeat match goal with |- _ /\ _ => split | |- True => exact I end;
      try assumption; try (apply H0; lia); repeat apply Forall_cons; try apply Forall_nil; apply NN; exact eq_refl.
  - eexists. split; [reflexivity|]. split; vm_compute; reflexivity.
Qed.
Print Assumptions C116_bytes.
