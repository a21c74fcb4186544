(** Properties C75 and C76: writing YAML, and reading back what was written. *)
From Coq Require Import ZArith Bool Lia Ascii String List.
From Verif Require Import Base F64 StrMap Value WfDec MBasic SCopy SGet SPromote MCollapse SCollapse MNum LNum LNum2 MText MJson SJson LJson
  SJsonText LJson2Lex LJson2Doc LBuild SToJson MToJson LToJson LRound Props_tojson MYaml SDocs LDocs Props_docs MToYaml SToYaml LToYaml Props_totoml.
Import ListNotations.
Local Open Scope Z_scope.

(** * C75: to_yaml writes a YAML document with the structure and the data of the container.

    Full statement: for every container the text is a YAML document whose tree has the data of
    the container.  False in the code: see the theorems called refuted. *)
Theorem C75_valid_partial : forall P SP k g, (1 <= P)%nat -> wf g -> everywhere yaml_node g ->
  exists t y, yaml_of P SP (spaces k) g = Ok t /\ ynode k t y /\ yaml_text t y /\ doc P g (yaml_doc y).
Proof.
  intros P SP k g HP W N. destruct (to_yaml_written P SP HP g W N k) as (t & y & E & H & _ & D).
  exists t, y. unfold yaml_of. rewrite E. split; [reflexivity|]. split; [assumption|]. split; [|assumption]. eapply ynode_le; [exact H|lia].
Qed.
Theorem C75_data_partial : forall P SP k g, (1 <= P)%nat -> wf g -> everywhere yaml_node g -> everywhere (exact_node P) g ->
  exists t y, yaml_of P SP (spaces k) g = Ok t /\ yaml_text t y /\ json_data (yaml_doc y) = data_of g.
Proof.
  intros P SP k g HP W N X. destruct (C75_valid_partial P SP k g HP W N) as (t & y & E & _ & H & D).
  exists t, y. split; [assumption|]. split; [assumption|]. now apply (doc_data P).
Qed.

(** Containers with different data that are written alike: no reader can tell them apart.  An
    empty map or vector and an empty container; keys with line ends; an integer after a pointer;
    and reals with more digits than the precision of the stream. *)
Definition written_alike (P : nat) (g g' : gc) : Prop :=
  value_ok g /\ value_ok g' /\ data_of g <> data_of g' /\ exists t, yaml_of P 12 [] g = Ok t /\ yaml_of P 12 [] g' = Ok t.
Theorem C75_alike_refuted :
  written_alike 17 (GMap []) GNone /\ written_alike 17 (GVec []) GNone /\
  written_alike 17 (GMap [(String "k" (": 1" ++ String (ch 10) "x"), GInt 2)])%string (GMap [("k", GInt 1); ("x", GInt 2)])%string /\
  written_alike 17 (GVec [GPtr 255; GInt 16]) (GVec [GPtr 255; GPtr 16]) /\
  written_alike 6 (GReal (f_of_Z 1234567)) (GReal (f_of_Z 1234570)).
Proof.
  split; [|split; [|split; [|split]]].
  1-4: split; [vok|]; split; [vok|]; split; [vm_compute; discriminate|]; eexists; split; vm_compute; reflexivity.
  split; [vok|]. split; [vok|]. split; [|eexists; split; vm_compute; reflexivity].
  intros E. apply (f_equal (fun d => match d with DNum re _ => Some re | _ => None end)) in E. revert E. vm_compute. discriminate.
Qed.

(** Texts that are not documents of the part of YAML above: empty vectors of numbers, complex
    numbers, infinities. *)
Definition not_yaml (r : out text) : Prop := exists t, r = Ok t /\ forall n y, ~ ynode n t y.
Lemma ynode_flow n t y : ynode n (t ++ [line_end]) y -> match t with [] => False | c :: _ => c <> line_end end -> exists j, jval false t j.
Proof.
  intros H Hc. inversion H as [n0 u j Hj Ho E1 E2|? m u l L Hs E1 E2|? m u l L Hs E1 E2]; subst.
  - apply app_inj_tail in E2 as [-> _]. now exists j.
  - destruct t as [|c t]; [easy|]. injection E2 as E2 _. now destruct Hc.
  - destruct t as [|c t]; [easy|]. injection E2 as E2 _. now destruct Hc.
Qed.
Lemma flow_start c t j : jval false (c :: t) j -> forallb num_char (c :: t) = true \/ In c (txt "ntf[{") \/ c = ch 34.
Proof.
  intros H. inversion H as [E|E|E|t0 j0 Hn E|t0 s Hs E|w0 _ E|t0 l _ E|w0 _ E|t0 m _ E]; subst;
    try (right; left; cbn; tauto).
  - left. now apply number_chars in Hn.
  - right. right. remember (c :: t) as z eqn:Ez. destruct Hs. now injection Ez as <- _.
Qed.
Ltac no_flow t0 := exists (t0 ++ [line_end]); split; [vm_compute; reflexivity|]; intros n y H;
  apply ynode_flow in H; [|discriminate]; destruct H as (j & H); apply flow_start in H as [H|[H|H]]; vm_compute in H; intuition discriminate.
Theorem C75_text_refuted :
  not_yaml (yaml_of 17 12 [] (GVInt [])) /\ not_yaml (yaml_of 17 12 [] (GComplex (f_of_Z 1, f_of_Z 2))) /\
  not_yaml (yaml_of 17 12 [] (GReal (2047 * 2^52))).
Proof. split; [no_flow (txt " ]")|]. split; [no_flow (txt "1+2i")|no_flow (txt "inf")]. Qed.

(** Complex numbers are outside of the claims above; what is written for them is exactly this:
    a single one with the digits of stream_number_precision, the real part alone if the
    imaginary part is zero or not a number, and (re,im) with the precision of the stream inside
    vectors. *)
Definition commas (l : list text) : text :=
  match l with [] => [] | a :: l' => a ++ concat (map (fun b => txt ", " ++ b) l') end.
Lemma put_list_commas {A} (f : A -> text) pre a v :
  put_list f pre (a :: v) = pre ++ f a ++ concat (map (fun b => txt ", " ++ f b) v).
Proof.
  revert pre a. induction v as [|b v IH]; intros pre a; [reflexivity|].
  change (put_list f pre (a :: b :: v)) with (pre ++ f a ++ put_list f (txt ", ") (b :: v)).
  rewrite IH. cbn [map concat]. now rewrite <- !app_assoc.
Qed.
Theorem C75_complex : forall P SP prefix re im v, v <> [] ->
  let single := yaml_of P SP prefix (GComplex (re, im)) in
  (gt0 im = true -> single = Ok (print_g SP re ++ txt "+" ++ print_g SP im ++ txt "i" ++ [line_end])) /\
  (lt0 im = true -> single = Ok (print_g SP re ++ txt "-" ++ print_g SP (fneg im) ++ txt "i" ++ [line_end])) /\
  (gt0 im = false -> lt0 im = false -> single = Ok (print_g SP re ++ [line_end])) /\
  yaml_of P SP prefix (GVComplex v) =
    Ok (txt "[ " ++ commas (map (fun c => txt "(" ++ print_g P (fst c) ++ txt "," ++ print_g P (snd c) ++ txt ")") v) ++ txt " ]" ++ [line_end]).
Proof.
  intros P SP prefix re im v Hv single.
  assert (X : gt0 im = true -> lt0 im = false).
  { unfold gt0, lt0. destruct (fsign im); cbn [negb andb]; [discriminate|reflexivity]. }
  unfold single, yaml_of. cbn [to_yaml]. unfold cplx_text. cbn [fst snd].
  split; [|split; [|split]].
  - intros G. rewrite (X G), G. cbn [bind]. f_equal. rewrite <- !app_assoc. cbn [txt app]. rewrite <- !app_assoc. reflexivity.
  - intros L. destruct (gt0 im) eqn:G; [now rewrite (X eq_refl) in L|]. rewrite L. cbn [bind]. f_equal. rewrite <- !app_assoc. cbn [txt app]. rewrite <- !app_assoc. reflexivity.
  - intros -> ->. cbn [bind]. f_equal. rewrite !app_nil_r. reflexivity.
  - cbn [bind]. f_equal. unfold put_vec. rewrite <- app_assoc. destruct v as [|a v]; [easy|]. rewrite put_list_commas, <- app_assoc.
    cbn [commas map]. rewrite map_map.
    change (txt "(" ++ print_g P (fst a) ++ txt "," ++ print_g P (snd a) ++ txt ")") with (put_cplx P a).
    rewrite <- !app_assoc. reflexivity.
Qed.
Example C75_complex_ex : gt0 (f_of_Z 2) = true /\ lt0 (f_of_Z (-2)) = true /\ gt0 0 = false /\ lt0 0 = false.
Proof. split; [|split; [|split]]; vm_compute; reflexivity. Qed.

(** * C76: what to_yaml writes can be read back with from_yaml.

    Full statement: for every container the tree of the text written is read as a container
    with the same data.  Proved under the conditions of C75, at most 18 digits, longs that are
    doubles, and no vectors that mix scalars with one-element vectors. *)
Scheme ynode_mut := Induction for ynode Sort Prop with yseq_mut := Induction for yseq Sort Prop with ymap_mut := Induction for ymap Sort Prop.
Lemma ynode_f64 n t y : ynode n t y -> jall double_literals (yaml_doc y).
Proof.
  revert n t y.
  apply (ynode_mut (fun _ _ y _ => jall double_literals (yaml_doc y)) (fun _ _ l _ => Forall (fun y => jall double_literals (yaml_doc y)) l)
    (fun _ _ m _ => Forall (fun kv => jall double_literals (yaml_doc (snd kv))) m)).
  - intros n t j H _. rewrite flow_doc. exact (proj1 (json_f64 false) _ _ H).
  - intros n m t l _ _ IH. cbn [yaml_doc]. apply jall_arr. split; [exact I|]. now apply Forall_map.
  - intros n m t l _ _ IH. cbn [yaml_doc]. apply jall_obj. split; [exact I|]. now apply Forall_map.
  - auto.
  - auto.
  - auto.
  - auto.
Qed.
Theorem C76_round_trip_partial : forall P SP k g old, (1 <= P <= 18)%nat -> wf g -> everywhere yaml_node g -> everywhere (exact_node P) g ->
  everywhere not_mixed_data g -> exact_longs g -> weight g < 2^30 -> fresh old ->
  exists t y g', yaml_of P SP (spaces k) g = Ok t /\ yaml_text t y /\ from_yaml (Some y) old = (Ok true, g') /\ wf g' /\ data_of g' = data_of g.
Proof.
  intros P SP k g old HP W N X M L S F.
  destruct (to_yaml_written P SP ltac:(lia) g W N k) as (t & y & E & H & Ky & D).
  assert (NJ : everywhere json_node g) by (revert N; apply everywhere_impl; now intros a [Ha _]).
  pose proof (back_ints P g (yaml_doc y) ltac:(lia) W NJ X L D) as B.
  pose proof (doc_size P g (yaml_doc y) W NJ D) as Sz.
  destruct (C48_yaml_document_partial y old F Ky) as (g' & E' & W' & E2).
  - pose proof (jall_and _ _ _ B (ynode_f64 _ _ _ H)) as B5. revert B5. apply jall_impl.
    intros i ((I1 & _) & I2). destruct i; try exact I; assumption.
  - now apply (doc_names P g).
  - lia.
  - apply exact_unrounded. revert B. apply jall_impl. tauto.
  - now apply (doc_unmixed P g).
  - exists t, y, g'. unfold yaml_of. rewrite E. split; [reflexivity|]. split; [eapply ynode_le; [exact H|lia]|].
    split; [assumption|]. split; [assumption|]. rewrite E2. now apply (doc_data P).
Qed.
(** Not in general: what is written alike cannot be read back as both, and a long next to a real
    is rounded to a double. *)
Theorem C76_alike_refuted : forall read : text -> dat, exists g t, value_ok g /\ yaml_of 17 12 [] g = Ok t /\ read t <> data_of g.
Proof.
  intros read. destruct C75_alike_refuted as ((V & V' & Nd & t & E & E') & _).
  assert (Dec : {read t = data_of (GMap [])} + {read t <> data_of (GMap [])}).
  { cbn [data_of]. destruct (read t) as [ | | | | |m]; try (right; discriminate). destruct m; [left; reflexivity|right; discriminate]. }
  destruct Dec as [Q|Q]; [exists GNone, t; split; [assumption|split; [assumption|congruence]]|exists (GMap []), t; auto].
Qed.

Definition g75 : gc := GMap [("a"%string, GVReal [f_of_Z 1; f_of_Z (-2)]); ("b_1"%string, GVec [GStr "x""y: #"%string; GNone; GMap [("k"%string, GBool true)]]);
  ("c"%string, GMInt (Mat 2 2 [1; 2; 3; 4])); ("d"%string, GVLong [2^40; 4])].
Definition start_ok (c : ascii) : bool :=
  ((65 <=? byte c) && (byte c <=? 90) || (97 <=? byte c) && (byte c <=? 122))%N || Ascii.eqb c "_" || Ascii.eqb c "$".
Definition char_ok (c : ascii) : bool := start_ok c || ((48 <=? byte c) && (byte c <=? 57))%N || Ascii.eqb c "." || Ascii.eqb c "-".
Definition key_ok (k : string) : bool :=
  match txt k with c :: t => start_ok c && forallb char_ok t && (zlen t <? 1024) && negb (existsb (String.eqb k) reserved) | [] => false end.
Lemma start_key c : start_ok c = true -> key_start c.
Proof.
  intros H. unfold start_ok in H. unfold key_start. rewrite !orb_true_iff, !andb_true_iff, !N.leb_le, !Ascii.eqb_eq in H. tauto.
Qed.
Lemma char_key c : char_ok c = true -> key_char c.
Proof.
  intros H. unfold char_ok in H. unfold key_char. rewrite !orb_true_iff, !andb_true_iff, !N.leb_le, !Ascii.eqb_eq in H.
  pose proof (start_key c). tauto.
Qed.
Lemma key_ok_yaml k : key_ok k = true -> yaml_key k.
Proof.
  unfold key_ok, yaml_key. destruct (txt k) as [|c t] eqn:E; [discriminate|].
  rewrite !andb_true_iff. intros [[[H1 H2] H3] H4]. split.
  - exists c, t. split; [reflexivity|]. split; [now apply start_key|]. split; [|now apply Z.ltb_lt].
    rewrite forallb_forall in H2. apply Forall_forall. intros d Hd. apply char_key. auto.
  - intros K. apply negb_true_iff in H4. rewrite <- not_true_iff_false in H4. apply H4. apply existsb_exists. exists k. split; [assumption|apply String.eqb_refl].
Qed.
Example C75_example : (exists t, yaml_of 6 12 (spaces 2) g75 = Ok t) /\ wf g75 /\ everywhere yaml_node g75 /\ everywhere (exact_node 6) g75 /\
  everywhere not_mixed_data g75 /\ exact_longs g75 /\ weight g75 < 2^30 /\ fresh GNone.
Proof.
  split; [eexists; vm_compute; reflexivity|]. split; [unfold g75; wfd|]. unfold g75, exact_longs.
  split; [every; split; cbn [json_node fst mrows mcols]; try exact I; try discriminate; try (split; [lia|split; lia])|].
  - split; [discriminate|]. every; apply plain_dec; reflexivity.
  - every; apply key_ok_yaml; reflexivity.
  - split; [discriminate|]. every; vm_compute; reflexivity.
  - apply clean_dec. reflexivity.
  - split; [discriminate|]. every. apply plain_dec. reflexivity.
  - every; apply key_ok_yaml; reflexivity.
  - split; [every; cbn [exact_node]; try exact I; every; left; apply dec_digits_int; vm_compute; congruence|].
    split; [every; cbn [not_mixed_data]; try exact I; intros a b d Ha Hb Hs Hd; cbn [In] in Hb;
            destruct Hb as [<-|[<-|[<-|[]]]]; discriminate Hd|].
    split; [|split; [vm_compute; reflexivity|]].
    + every; cbn [longs_representable]; try exact I. every.
      * exists (f_of_Z (2^40)). split; [unfold f64; vm_compute; split; congruence|vm_compute; reflexivity].
      * exists (f_of_Z 4). split; [unfold f64; vm_compute; split; congruence|vm_compute; reflexivity].
    + split; discriminate.
Qed.

Print Assumptions C75_valid_partial.
Print Assumptions C75_data_partial.
Print Assumptions C75_alike_refuted.
Print Assumptions C75_text_refuted.
Print Assumptions C75_complex.
Print Assumptions C76_round_trip_partial.
Print Assumptions C76_alike_refuted.
