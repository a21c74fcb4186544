(** Properties C45 and C46: reading JSON documents with from_json. *)
From Coq Require Import ZArith Bool Lia Ascii String List.
From Verif Require Import Base F64 StrMap Value WfDec MBasic SGet SPromote MCollapse SCollapse LCollapse LCollapse2 Props_collapse MJson SJson LJson LJson2.
Import ListNotations.
Local Open Scope Z_scope.

(** * C45: JSON integers keep their value.

    Full statement: for every document whose integer literals are in [-2^63, 2^64), from_json
    succeeds and the data of the container are the data of the document, [json_data].  False in
    the code: unsigned literals are stored in signed types, and collapse changes some
    documents (see C37). *)

(** A literal is stored as a number equal to it exactly when it is in [-2^63, 2^31) or in
    [2^32, 2^63), whatever the container held before. *)
Theorem C45_literal : forall z g, - 2^63 <= z < 2^64 ->
  exists r, from_json (Some (JInt z)) g = (Ok true, r) /\
    (data_of r = d_int z <-> (- 2^63 <= z < 2^31 \/ 2^32 <= z < 2^63)).
Proof.
  intros z g Hz. exists (decode_int z GNone). split.
  { cbn [from_json decode_json]. rewrite decode_int_none. unfold finish, decode_int. repeat (destruct (_ && _)); reflexivity. }
  split.
  - intros E. assert (Hf : 0 < fone) by (apply Z.pow_pos_nonneg; lia).
    assert (Inj : forall a, d_int a = d_int z -> a = z) by (intros a Ea; injection Ea as Ea; apply Z.mul_reg_r in Ea; lia).
    revert E. unfold decode_int.
    destruct (_ && _) eqn:E1; [apply andb_true_iff in E1 as [A B]; apply Z.leb_le in A; apply Z.ltb_lt in B; lia|].
    destruct ((0 <=? z) && _) eqn:E2.
    { intros E. cbn [set_uint data_of] in E. apply Inj in E. pose proof (to_i32_range z) as R. unfold int32 in R.
      apply andb_true_iff in E2 as [A B]. apply Z.leb_le in A. apply Z.ltb_lt in B. lia. }
    destruct ((- 2^63 <=? z) && _) eqn:E3.
    { intros _. apply andb_true_iff in E3 as [A B]. apply Z.leb_le in A. apply Z.ltb_lt in B.
      apply andb_false_iff in E1, E2. destruct E1 as [E1|E1]; [apply Z.leb_gt in E1; lia|]. apply Z.ltb_ge in E1.
      destruct E2 as [E2|E2]; [apply Z.leb_gt in E2; lia|]. apply Z.ltb_ge in E2. lia. }
    intros E. cbn [set_ulong data_of] in E. apply Inj in E. pose proof (to_i64_range z) as R. unfold int64 in R.
    apply andb_false_iff in E3. destruct E3 as [E3|E3]; [apply Z.leb_gt in E3; lia|]. apply Z.ltb_ge in E3. lia.
  - intros H. rewrite (decode_int_cases z H). destruct (_ && _); reflexivity.
Qed.

(** What remains of the full statement: all documents with different member names, without
    zero characters in strings, with integers that fit the signed types, without arrays that
    mix scalars with one-element arrays (or null with empty ones), and without arrays that hold
    both reals and 64-bit integers that are not exactly doubles; fewer than 2^31 values in all. *)
Theorem C45_document_partial : forall j,
  jall ranged j -> jall plain_strings j -> jall distinct_names j -> jsize j < 2^31 ->
  jall signed_int j -> jall unrounded_doc j -> jall not_jmixed j ->
  exists g, from_json (Some j) GNone = (Ok true, g) /\ wf g /\ data_of g = json_data j.
Proof.
  intros j Hr Hp Hd Hn Hs He Hm. cbn [from_json]. unfold finish.
  pose proof (decode_wf j Hr Hp Hd) as W. pose proof (decode_unmixed j Hp Hd Hm) as U.
  pose proof (decode_weight j Hp Hd) as Ew.
  destruct (C39_never_fails_partial _ W ltac:(rewrite Ew; exact Hn) U (decode_parsed j Hp Hd)) as (g & E).
  exists g. rewrite E. split; [reflexivity|].
  destruct (C37_exact_partial _ _ _ W ltac:(rewrite Ew; exact Hn) U (decode_unrounded j Hp Hd Hs He) E (or_introl eq_refl)) as (W' & D).
  split; [assumption|]. rewrite D. now apply decode_data.
Qed.
(** Without the last two conditions: integers next to reals may be rounded to the nearest
    double, and in mixed arrays a number may become a one-element list or null an empty list;
    nothing else changes.  This also holds when collapse throws half way. *)
Definition no_subnormal (j : json) : Prop := match j with JDbl x => no_tiny (GReal x) | _ => True end.
Theorem C45_general_partial : forall j r g,
  jall ranged j -> jall plain_strings j -> jall distinct_names j -> jsize j < 2^31 ->
  jall signed_int j -> jall no_subnormal j ->
  from_json (Some j) GNone = (r, g) -> r = Ok true \/ r = Throw ->
  sim true true (json_data j) (data_of g).
Proof.
  intros j r g Hr Hp Hd Hn Hs Ht. cbn [from_json]. unfold finish.
  destruct (collapse _) as [r0 g0] eqn:E. intros E0 Hc. injection E0 as E0 <-.
  pose proof (decode_wf j Hr Hp Hd) as W. rewrite <- (decode_data j Hp Hd Hs).
  apply (C37_general_partial _ r0 _ W); [rewrite decode_weight by assumption; exact Hn| |exact E|].
  - apply (decode_everywhere no_subnormal); try assumption; try (intros; exact I).
    intros k Ha Ho Hk. destruct k; try exact I; [|exact Hk]. cbn [decode_json]. unfold decode_int. repeat (destruct (_ && _)); exact I.
  - destruct r0 as [[]| | |]; cbn in E0; destruct Hc; subst; auto; discriminate.
Qed.
Definition doc1 : json :=
  JObj [("n"%string, JArr [JInt (2^53 + 1); JInt 7]); ("m"%string, JArr [JArr [JInt 1; JInt 2]; JArr [JInt 3; JInt (-4)]]);
        ("o"%string, JObj [("k"%string, JInt (- 2^63)); ("a"%string, JNull)]); ("r"%string, JArr [JDbl f_one; JStr "x"%string])].
Lemma rep_int z x : f64 x -> fis x z -> representable z.
Proof. intros H1 H2. now exists x. Qed.
Example C45_example : jall ranged doc1 /\ jall plain_strings doc1 /\ jall distinct_names doc1 /\ jsize doc1 < 2^31 /\
  jall signed_int doc1 /\ jall unrounded_doc doc1 /\ jall not_jmixed doc1 /\ jall no_subnormal doc1.
Proof.
  unfold doc1.
  assert (N : forall s, existsb (Ascii.eqb zero) (list_ascii_of_string s) = false -> no_nul s).
  { intros s H Hin. assert (existsb (Ascii.eqb zero) (list_ascii_of_string s) = true); [|congruence].
    apply existsb_exists. exists zero. split; [assumption|apply Ascii.eqb_refl]. }
  split; [cbn [jall ranged snd]; repeat match goal with |- _ /\ _ => split | |- True => exact I end; try (vm_compute; congruence);
          try (split; vm_compute; congruence)|].
  split; [cbn [jall plain_strings snd map fst]; repeat match goal with |- _ /\ _ => split | |- True => exact I
            | |- Forall _ _ => constructor | |- no_nul _ => apply N; reflexivity end|].
  split; [cbn [jall distinct_names snd map fst]; repeat match goal with |- _ /\ _ => split | |- True => exact I
            | |- NoDup _ => constructor end; cbn; intuition discriminate|].
  split; [vm_compute; reflexivity|].
  split; [cbn [jall signed_int snd]; repeat match goal with |- _ /\ _ => split | |- True => exact I end; lia|].
  split; [cbn [jall unrounded_doc snd]; repeat match goal with |- _ /\ _ => split | |- True => exact I end;
          try (left; intros a Ha; cbn in Ha; intuition subst; cbn [jmerging]; repeat (constructor; [exact I|]); constructor; fail);
          right; intros a Ha; cbn in Ha; intuition subst; cbn [jmerging]; repeat (constructor; [exact I|]); constructor|].
  split; [cbn [jall not_jmixed snd]; repeat match goal with |- _ /\ _ => split | |- True => exact I end;
          try (intros a b Ha Hb; cbn in Hb; intuition discriminate); intros [H1 H2]; cbn in H1, H2; intuition discriminate|].
  cbn [jall no_subnormal snd]; repeat match goal with |- _ /\ _ => split | |- True => exact I end.
  cbn [no_tiny]. intros (v & E & _ & L). vm_compute in E. apply Some_inj in E. rewrite <- E in L. vm_compute in L. discriminate.
Qed.
Theorem C45_refuted :
  (exists g, from_json (Some (JInt (2^31))) GNone = (Ok true, g) /\ data_of g = d_int (- 2^31)) /\
  (exists g, from_json (Some (JArr [JInt 1; JInt (2^64 - 1)])) GNone = (Ok true, g) /\ data_of g = DList [d_int 1; d_int (-1)]) /\
  (exists g, from_json (Some (JArr [JInt (2^53 + 1); JDbl f_one])) GNone = (Ok true, g) /\
     data_of g = DList [d_int (2^53); d_int 1]).
Proof.
  split; [|split]; eexists; (split; [vm_compute; reflexivity|]); vm_compute; reflexivity.
Qed.

(** * C46: reading a document replaces the container.

    Full statement: from_json d g = from_json d GNone for every [d] and [g]. *)

(** False: members of an old map survive, and an empty array leaves an old vector as it is. *)
Theorem C46_refuted :
  from_json (Some (JObj [("b"%string, JInt 2)])) (GMap [("a"%string, GInt 1)]) =
    (Ok true, GMap [("a"%string, GInt 1); ("b"%string, GInt 2)]) /\
  from_json (Some (JArr [])) (GVec [GStr "x"%string]) = (Ok true, GVStr ["x"%string]) /\
  from_json (Some (JArr [])) GNone = (Ok true, GVec []).
Proof. vmc. Qed.
(** Exactly when it holds for the container before the final collapse: when the document hides
    the old content. *)
Theorem C46_decode_iff : forall j g, jall plain_strings j -> jall distinct_names j -> wfm g ->
  decode_json j g = decode_json j GNone <-> hides j g.
Proof. intros j g Hp Hd. now apply decode_over. Qed.
Theorem C46_partial : forall j g, jall plain_strings j -> jall distinct_names j -> wfm g -> hides j g ->
  from_json (Some j) g = from_json (Some j) GNone.
Proof. intros j g Hp Hd Hg H. cbn [from_json]. f_equal. now apply decode_over. Qed.
(** In particular when the container holds neither a VECTOR nor a MAP, for every document. *)
Theorem C46_flat : forall d g, (forall v, g <> GVec v) -> (forall m, g <> GMap m) ->
  d <> None -> from_json d g = from_json d GNone.
Proof. intros [j|] g Hv Hm H; [|easy]. cbn [from_json]. f_equal. apply decode_fresh. now split. Qed.
(** Reading the same document again gives the same result, also after a failed collapse. *)
Theorem C46_again : forall j r g, jall ranged j -> jall plain_strings j -> jall distinct_names j ->
  from_json (Some j) GNone = (r, g) -> from_json (Some j) g = (r, g).
Proof.
  intros j r g Hr Hp Hd E. rewrite <- E. apply C46_partial; try assumption.
  - cbn [from_json] in E. unfold finish in E. destruct (collapse _) as [r0 g0] eqn:E0. injection E as _ <-.
    apply (collapse_wfm _ _ _ (wf_wfm _ (decode_wf j Hr Hp Hd)) E0).
  - cbn [from_json] in E. unfold finish in E. destruct (collapse _) as [r0 g0] eqn:E0. injection E as _ <-.
    apply hides_again; try assumption. right. eauto.
Qed.
(** JSON_to_GC clears first, so it does replace. *)
Theorem C46_wrapper : forall d g g', JSON_to_GC d g = JSON_to_GC d g'.
Proof. reflexivity. Qed.
Theorem C46_wrapper_error : forall g, JSON_to_GC None g = (Ok false, GNone).
Proof. reflexivity. Qed.
Example C46_example : exists g, wfm g /\ hides doc1 g /\ g <> GNone /\ (exists m, g = GMap m) /\ from_json (Some doc1) g = from_json (Some doc1) GNone.
Proof.
  exists (GMap [("m"%string, GVec [GInt 5]); ("o"%string, GMap [("k"%string, GReal 0)]); ("r"%string, GVec [GNone; GNone; GMap []])]).
  split; [cbn; repeat split; repeat constructor|]. split; [|split; [discriminate|split; [eexists; reflexivity|vm_compute; reflexivity]]].
  cbn. repeat split; try discriminate; intros k H; tauto.
Qed.

Print Assumptions C45_literal.
Print Assumptions C45_document_partial.
Print Assumptions C45_general_partial.
Print Assumptions C45_refuted.
Print Assumptions C46_refuted.
Print Assumptions C46_decode_iff.
Print Assumptions C46_partial.
Print Assumptions C46_flat.
Print Assumptions C46_again.
Print Assumptions C46_wrapper.
Print Assumptions C46_wrapper_error.
