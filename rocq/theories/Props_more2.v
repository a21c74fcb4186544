(** More about properties C15, C31, C34, C43, C71 and C98: wrong types, missing members, and the
    overloads for vectors of bytes. *)
From Coq Require Import ZArith Bool Lia Ascii String List.
From Verif Require Import Base F64 StrMap Value WfDec MBasic MGet SGet MMap SMap LMap MMat MRef MSerialize SSerialize LSerialize MText MJson SJson SJsonText SRapid LRapidUtf
  MRapid Props_serialize Props_map Props_rapid.
Import ListNotations.
Local Open Scope Z_scope.

(** * C15: what the const operator[] does. *)
Theorem C15_const_lookup_effect : forall g k, wf g -> no_nul k ->
  (forall e, has_entry k e g -> const_idx_key k g = (Ok e, g)) /\
  (tag_of g = TMap -> ~ has_key k g -> exists g', const_idx_key k g = (Ok GNone, g') /\ tag_of g' = TMap /\ has_entry k GNone g' /\
     forall k' e, k' <> k -> has_entry k' e g' <-> has_entry k' e g) /\
  (tag_of g <> TMap -> const_idx_key k g = (Throw, g)).
Proof.
  intros g k Hw Hk. destruct g as [ | | | | | | | | | | | | | | | | | | | v | m];
    try (split; [intros e (? & E & _); discriminate|]; split; [discriminate|reflexivity]).
  apply wf_map in Hw as [Hs _]. cbn [const_idx_key tag_of]. rewrite cstr_id by assumption. split; [|split; [|intros C; now contradiction C]].
  - intros e He. apply has_entry_map in He; [|assumption]. now rewrite He.
  - intros _ H. rewrite has_key_map in H by assumption. unfold mhas in H. destruct (mfind k m) eqn:F; [now contradiction H|].
    eexists. split; [reflexivity|]. pose proof (mset_sorted k GNone m Hs) as Hs'. split; [reflexivity|]. split.
    + apply has_entry_map; [assumption|]. apply mfind_mset_same.
    + intros k' e N. rewrite !has_entry_map by assumption. rewrite mfind_mset_other by auto. reflexivity.
Qed.
Example C15_effect_example : wf smap1 /\ no_nul "c" /\ tag_of smap1 = TMap /\ ~ has_key "c" smap1.
Proof.
  split; [exact smap1_wf|]. split; [exact no_nul_c|]. split; [reflexivity|]. intros (e & m & E & H). injection E as <-.
  destruct H as [H|[H|[]]]; discriminate.
Qed.

(** * C31: entry (i,j) of what is not a matrix of that type. *)
Theorem C31_other_type : forall i j g,
  (tag_of g <> TMInt -> get_int_at2 i j g = Throw) /\ (tag_of g <> TMLong -> get_long_at2 i j g = Throw) /\
  (tag_of g <> TMReal -> get_real_at2 i j g = Throw) /\ (tag_of g <> TMComplex -> get_complex_at2 i j g = Throw).
Proof. intros i j g. destruct g; cbn; repeat split; try reflexivity; intros H; now contradiction H. Qed.

(** * C71: the map of a container, through the non-const getter. *)
Theorem C71_map : forall g, (forall m, g = GMap m -> rread (ref_map g) = (Ok m, g) /\ forall m', rwrite m' (ref_map g) = (Ok tt, GMap m')) /\
  (tag_of g <> TMap -> rread (ref_map g) = (Throw, g)).
Proof.
  intros g. split; [intros m ->; split; reflexivity|]. destruct g; try reflexivity. intros H. now contradiction H.
Qed.

(** * C43: without headers or without data nothing is written. *)
Theorem C43_incomplete : forall P delim g, wf g -> ~ has_key "headers" g \/ ~ has_key "data" g -> write_formatted_data P delim g = Throw.
Proof.
  intros P delim g Hw H. unfold write_formatted_data, exists_key.
  destruct g as [ | | | | | | | | | | | | | | | | | | | v | m]; try reflexivity. apply wf_map in Hw as [Hs _].
  change (cstr k_headers) with "headers"%string. change (cstr k_data) with "data"%string. rewrite !has_key_map in H by assumption.
  destruct (mhas "headers" m); [|reflexivity]. destruct (mhas "data" m); [|reflexivity]. exfalso. destruct H as [H|H]; now contradiction H.
Qed.

(** * C34: the overloads for vectors of bytes. *)
Lemma to_i32_len (buf : list Z) : zlen buf < 2^31 -> to_i32 (zlen buf) = zlen buf.
Proof. intros H. apply to_i32_id. unfold int32. pose proof (zlen_nonneg buf). lia. Qed.
Theorem C34_vectors_partial : forall hard g old buf n buf' fuel, wf g -> short g ->
  no_pointer g -> no_mat_complex g -> nul_free g -> (depth g < fuel)%nat ->
  zlen buf < 2^31 -> zlen buf' < 2^31 -> serialize_vector hard g buf = (Ok n, buf') ->
  de_serialize_vector fuel buf' old = (Ok n, g).
Proof.
  intros hard g old buf n buf' fuel W S N M U D B B' E. unfold serialize_vector in E. rewrite to_i32_len in E by assumption.
  destruct (C34_round_trip_partial hard g old buf n buf' [] fuel W S N M U B E) as (R & _); [rewrite app_nil_r; assumption|assumption|].
  rewrite app_nil_r in R. unfold de_serialize_vector. rewrite to_i32_len; assumption.
Qed.
(** A vector of 2^31 + 8 bytes or more is taken to have a negative size: there is room for the type and
    the length of a string, but not for its characters. *)
Lemma put_huge bs st : 0 <= wpos st -> wpos st + zlen bs <= zlen (wbuf st) -> 0 < zlen bs -> - 2^31 <= wavail st - zlen bs -> wavail st < 0 -> zlen bs <= 2^31 ->
  put bs st = (Ok tt, W (firstn (Z.to_nat (wpos st)) (wbuf st) ++ bs ++ skipn (Z.to_nat (wpos st + zlen bs)) (wbuf st)) (wpos st + zlen bs) (wavail st - zlen bs)).
Proof.
  intros H0 H1 H2 H3 H4 H5. unfold put. assert (U : to_u32 (wavail st) = wavail st + 2^32).
  { unfold to_u32. rewrite <- (Z.mod_add (wavail st) 1) by lia. rewrite Z.mod_small; lia. }
  rewrite U. destruct (Z.leb_spec (zlen bs) (wavail st + 2^32)); [|lia]. unfold store.
  destruct (Z.leb_spec 0 (wpos st)); [|lia]. destruct (Z.leb_spec (wpos st + zlen bs) (zlen (wbuf st))); [|lia]. cbn [andb].
  unfold chk32. destruct (Z.leb_spec (- 2^31) (wavail st - zlen bs)); [|lia]. destruct (Z.ltb_spec (wavail st - zlen bs) (2^31)); [|lia]. reflexivity.
Qed.
Theorem C32_huge_refuted : forall hard (buf : list Z), 2^31 + 8 <= zlen buf < 2^32 ->
  mem_size (GStr "a") = Ok 10 /\ fst (serialize_vector hard (GStr "a") buf) = Throw.
Proof.
  intros hard buf H. split; [vm_compute; reflexivity|]. unfold serialize_vector.
  assert (D : to_i32 (zlen buf) = zlen buf - 2^32).
  { unfold to_i32. replace (zlen buf + 2^31) with (zlen buf + 2^31 - 2^32 + 1 * 2^32) by lia. rewrite Z.mod_add, Z.mod_small; lia. }
  rewrite D. cbn [serialize tag_of]. unfold put_str. change (to_i32 (slen "a" + 1)) with 2.
  unfold wseq. unfold put_i32.
  assert (L : forall z, zlen (bytes_le 4 z) = 4) by reflexivity.
  rewrite put_huge; rewrite ?L; cbn [wpos wavail wbuf]; try lia.
  rewrite put_huge; rewrite ?L; cbn [wpos wavail wbuf]; try lia.
  - destruct (Z.leb_spec 2 (zlen buf - 2^32 - 4 - 4)); [lia|reflexivity].
  - rewrite !zlen_app, L. unfold zlen at 1 2. rewrite firstn_length, skipn_length. unfold zlen in H. lia.
Qed.

(** * C98: JSON_to_GC reads the text as from_json reads it into an empty container. *)
Theorem C98_wrapper : forall t g, JSON_text_to_GC t g = from_json_text t GNone.
Proof. reflexivity. Qed.

Print Assumptions C15_const_lookup_effect.
Print Assumptions C31_other_type.
Print Assumptions C71_map.
Print Assumptions C43_incomplete.
Print Assumptions C34_vectors_partial.
Print Assumptions C32_huge_refuted.
Print Assumptions C98_wrapper.
