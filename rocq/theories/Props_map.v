(** C13-C21: maps, alternative keys, get_if_exists, indexing and nested writes. *)
From Coq Require Import ZArith Bool Lia Ascii String List Sorted.
From Verif Require Import Base F64 StrMap Value MBasic MGet SGet LGet MMap SMap LMap.
Import ListNotations.
Local Open Scope Z_scope.

Definition smap1 : gc := GMap [("a"%string, GInt 1); ("b"%string, GStr "x")].
Lemma smap1_wf : wf smap1.
Proof.
  apply wf_map. split; [repeat constructor|].
  repeat constructor; vm_compute; congruence.
Qed.
Lemma no_nul_a : no_nul "a". Proof. vm_compute. intuition congruence. Qed.
Lemma no_nul_b : no_nul "b". Proof. vm_compute. intuition congruence. Qed.
Lemma no_nul_c : no_nul "c". Proof. vm_compute. intuition congruence. Qed.

(** C13.  m[k] followed by any operation on the returned element: the element under k
    becomes what the operation made of it (of an empty element if k was new); every other
    key, the number of keys and their order are as expected. *)
Theorem C13_insert_lookup : forall A (f : gc -> out A * gc) g k r g',
  wf g -> tag_of g = TMap -> no_nul k -> with_key k f g = (r, g') ->
  (forall e, has_entry k e g -> call_key k g' = Ok (snd (f e))) /\
  (~ has_key k g -> call_key k g' = Ok (snd (f GNone))) /\
  (forall k', no_nul k' -> k' <> k -> call_key k' g' = call_key k' g) /\
  (has_key k g -> length (get_keys g') = length (get_keys g)) /\
  (~ has_key k g -> length (get_keys g') = S (length (get_keys g))) /\
  (forall x, In x (get_keys g') <-> x = k \/ In x (get_keys g)) /\
  StronglySorted slt (get_keys g').
Proof.
  intros A f g k r g' Hw Ht Hk H.
  destruct g as [ | | | | | | | | | | | | | | | | | | | v | m]; try discriminate.
  apply wf_map in Hw as [Hs _]. rewrite with_key_spec in H by assumption.
  injection H as <- <-. cbn [call_key get_keys]. rewrite cstr_id by assumption.
  rewrite mfind_mset_same.
  repeat apply conj.
  - intros e He. apply has_entry_map in He; [|assumption]. now rewrite He.
  - intros He. rewrite has_key_map in He by assumption. unfold mhas in He.
    destruct (mfind k m); [now contradiction He|reflexivity].
  - intros k' Hk' N. rewrite cstr_id by assumption. now rewrite mfind_mset_other.
  - intros He. rewrite has_key_map in He by assumption.
    rewrite !map_length, mset_length by assumption. now rewrite He.
  - intros He. rewrite has_key_map in He by assumption.
    rewrite !map_length, mset_length by assumption. now destruct (mhas k m).
  - intros x. apply mset_keys_iff.
  - now apply mset_sorted.
Qed.

Example C13_example : wf smap1 /\ tag_of smap1 = TMap /\ no_nul "c" /\
  with_key "c" (fun _ => (Ok tt, GLong 3)) smap1 =
    (Ok tt, GMap [("a"%string, GInt 1); ("b"%string, GStr "x"); ("c"%string, GLong 3)]).
Proof. split; [exact smap1_wf|]. split; [reflexivity|]. split; [exact no_nul_c|reflexivity]. Qed.

(** C14. *)
Theorem C14_erase : forall g k, wf g ->
  (tag_of g = TMap ->
     exists g', erase k g = (Ok tt, g') /\ tag_of g' = TMap /\ ~ has_key k g' /\
       (forall k' e, k' <> k -> has_entry k' e g' <-> has_entry k' e g) /\
       (~ has_key k g -> g' = g)) /\
  (tag_of g <> TMap -> erase k g = (Throw, g)).
Proof.
  intros g k Hw. destruct g as [ | | | | | | | | | | | | | | | | | | | v | m];
    try (split; [discriminate|reflexivity]).
  apply wf_map in Hw as [Hs _]. split; [intros _|intros C; now contradiction C].
  pose proof (merase_sorted k m Hs) as Hs'.
  exists (GMap (merase k m)). split; [reflexivity|]. split; [reflexivity|]. split; [|split].
  - rewrite has_key_map by assumption. unfold mhas. rewrite mfind_merase_same by assumption. discriminate.
  - intros k' e N. rewrite !has_entry_map by assumption. now rewrite mfind_merase_other.
  - rewrite has_key_map by assumption. unfold mhas. intros H. f_equal. apply merase_id.
    destruct (mfind k m); [now contradiction H|reflexivity].
Qed.

Example C14_example : wf smap1 /\ has_key "a" smap1 /\
  erase "a" smap1 = (Ok tt, GMap [("b"%string, GStr "x")]).
Proof.
  split; [exact smap1_wf|]. split; [|reflexivity]. exists (GInt 1). eexists. split; [reflexivity|]. now left.
Qed.

(** C15.  Three operations declared const change the container: operator[](key), erase and
    push_bool (for push_bool see Props_push). *)
Theorem C15_const_lookup_refuted : exists g k, wf g /\ snd (const_idx_key k g) <> g.
Proof. exists smap1, "c"%string. split; [exact smap1_wf|]. vm_compute. discriminate. Qed.

Theorem C15_const_erase_refuted : exists g k, wf g /\ snd (erase k g) <> g.
Proof. exists smap1, "a"%string. split; [exact smap1_wf|]. vm_compute. discriminate. Qed.

(** The const operator[](key) leaves the container unchanged exactly when the key is there
    (or the container is not a map). *)
Theorem C15_const_lookup_iff_partial : forall g k, wf g -> no_nul k ->
  (snd (const_idx_key k g) = g <-> (tag_of g = TMap -> has_key k g)).
Proof.
  intros g k Hw Hk. destruct g as [ | | | | | | | | | | | | | | | | | | | v | m];
    try (split; [intros _ C; discriminate | reflexivity]).
  apply wf_map in Hw as [Hs _]. cbn [const_idx_key tag_of]. rewrite has_key_map by assumption.
  rewrite cstr_id by assumption. unfold mhas. destruct (mfind k m) as [e|] eqn:E; cbn [snd].
  - split; reflexivity.
  - split; [|intros H; now specialize (H eq_refl)]. intros H. injection H as H. exfalso.
    pose proof (mset_length k GNone m Hs) as L. unfold mhas in L. rewrite E, H in L. lia.
Qed.

(** C16. *)
Theorem C16_must_exists : forall ks g, wf g ->
  (forall k, must_exists ks g = Ok k <->
     has_key k g /\ exists pre post, ks = pre ++ k :: post /\ forall x, In x pre -> ~ has_key x g) /\
  (must_exists ks g = Throw <-> forall k, In k ks -> ~ has_key k g).
Proof.
  intros ks g Hw. destruct g as [ | | | | | | | | | | | | | | | | | | | v | m];
    try (split; [intros k; split; [discriminate | intros [(? & ? & E & _) _]; discriminate]
                |split; [intros _ k _ (? & ? & E & _); discriminate | reflexivity]]).
  apply wf_map in Hw as [Hs _].
  assert (K : forall k, ~ has_key k (GMap m) <-> mfind k m = None).
  { intros k. rewrite has_key_map by assumption. unfold mhas.
    destruct (mfind k m); split; try easy; try (intros H; now contradiction H). }
  cbn [must_exists]. split.
  - intros k. rewrite has_key_map by assumption. unfold mhas. split.
    + destruct (first_key ks m) as [[k' e]|] eqn:E; [|discriminate]. intros [= ->].
      apply first_key_some in E as (pre & post & -> & Hp & He). rewrite He. split; [reflexivity|].
      exists pre, post. split; [reflexivity|]. intros x Hx. apply K. auto.
    + intros [Hk (pre & post & -> & Hp)]. destruct (mfind k m) as [e|] eqn:E; [|discriminate].
      rewrite (proj2 (first_key_some (pre ++ k :: post) m k e)); [reflexivity|].
      exists pre, post. repeat split; auto. intros x Hx. apply K. auto.
  - destruct (first_key ks m) as [[k' e]|] eqn:E.
    + split; [discriminate|]. intros H. exfalso.
      apply first_key_some in E as (pre & post & -> & Hp & He).
      apply (H k'); [apply in_elt|]. rewrite has_key_map by assumption. unfold mhas. now rewrite He.
    + split; [|reflexivity]. intros _ k Hk. apply K. revert k Hk. now apply first_key_none.
Qed.

(** The alternatives forms of get_map_T and operator() read through that key. *)
Theorem C16_reads_through : forall A (get : gc -> out A) ks g, wf g ->
  (forall k e, must_exists ks g = Ok k -> has_entry k e g ->
     get_map_any get ks g = get e /\ call_keys ks g = Ok e) /\
  (must_exists ks g = Throw -> get_map_any get ks g = Throw /\ call_keys ks g = Throw).
Proof.
  intros A get ks g Hw. destruct g as [ | | | | | | | | | | | | | | | | | | | v | m];
    try (split; [discriminate | split; reflexivity]).
  apply wf_map in Hw as [Hs _]. unfold get_map_any. cbn [must_exists call_keys].
  destruct (first_key ks m) as [[k' e']|] eqn:E; split; try discriminate; try (split; reflexivity).
  intros k e [= ->] He. apply has_entry_map in He; [|assumption].
  apply first_key_some in E as (pre & post & -> & Hp & He'). cbn [bind map_at].
  rewrite He in *. injection He' as ->. split; reflexivity.
Qed.

Example C16_example : must_exists ["z"; "b"; "a"]%string smap1 = Ok "b"%string /\
  get_map_any get_string ["z"; "b"]%string smap1 = Ok "x"%string /\
  must_exists ["z"]%string smap1 = Throw.
Proof. repeat split. Qed.

(** Single-key and nested-path reads. *)
Theorem C16_get_map_single : forall g k, wf g -> no_nul k ->
  (forall e, has_entry k e g ->
     get_map_bool k g = get_bool e /\ get_map_int k g = get_as_int e /\
     get_map_number k g = get_number e /\ get_map_string k g = get_string e /\
     get_map_vec_real k g = get_vec_real e /\ get_map_vec_complex k g = get_vec_complex e /\
     get_map_vec_string k g = get_vec_string e) /\
  (~ has_key k g ->
     get_map_bool k g = Throw /\ get_map_int k g = Throw /\ get_map_number k g = Throw /\
     get_map_string k g = Throw /\ get_map_vec_real k g = Throw /\
     get_map_vec_complex k g = Throw /\ get_map_vec_string k g = Throw).
Proof.
  intros g k Hw Hk. apply wf_wfm in Hw.
  unfold get_map_bool, get_map_int, get_map_number, get_map_string, get_map_vec_real,
    get_map_vec_complex, get_map_vec_string, get_map_c.
  destruct g as [ | | | | | | | | | | | | | | | | | | | v | m];
    try (split; [intros e (? & E & _); discriminate | intros _; repeat split]).
  apply wfm_sorted in Hw. cbn [exists_key map_at]. rewrite cstr_id by assumption. split.
  - intros e He. apply has_entry_map in He; [|assumption]. unfold mhas. rewrite He. repeat split.
  - intros H. rewrite has_key_map in H by assumption. destruct (mhas k m); [now contradiction H|].
    repeat split.
Qed.

(** C17.  bool and string: true exactly when the key holds a value of that type. *)
Theorem C17_bool_string : forall g k, wf g -> no_nul k ->
  (forall b, gie_bool k g = Ok (Some b) <-> has_entry k (GBool b) g) /\
  ((~ exists b, has_entry k (GBool b) g) -> gie_bool k g = Ok None) /\
  (forall s, gie_string k g = Ok (Some s) <-> has_entry k (GStr s) g) /\
  ((~ exists s, has_entry k (GStr s) g) -> gie_string k g = Ok None).
Proof.
  intros g k Hw Hk. apply wf_wfm in Hw. unfold gie_bool, gie_string.
  destruct g as [ | | | | | | | | | | | | | | | | | | | v | m];
    try (repeat apply conj;
         first [ intros _; reflexivity
               | intros x; split; [discriminate | intros (? & E & _); discriminate] ]; fail).
  apply wfm_sorted in Hw. cbn [if_map]. rewrite cstr_id by assumption.
  repeat apply conj.
  - intros b. rewrite has_entry_map by assumption. destruct (mfind k m) as [[]|]; split; congruence.
  - intros H. destruct (mfind k m) as [[]|] eqn:E; try reflexivity. exfalso. apply H.
    eexists. apply has_entry_map; [assumption|exact E].
  - intros b. rewrite has_entry_map by assumption. destruct (mfind k m) as [[]|]; split; congruence.
  - intros H. destruct (mfind k m) as [[]|] eqn:E; try reflexivity. exfalso. apply H.
    eexists. apply has_entry_map; [assumption|exact E].
Qed.

(** real and complex. *)
Theorem C17_real_complex : forall g k, wf g -> no_nul k ->
  (forall e, has_entry k e g -> no_tiny e ->
     (exists x, gie_real k g = Ok (Some x) /\ real_conv e x) \/
     (gie_real k g = Ok None /\ forall x, ~ real_conv e x)) /\
  (forall e, has_entry k e g ->
     (exists c, gie_complex k g = Ok (Some c) /\ cplx_of e c) \/
     (gie_complex k g = Ok None /\ forall c, ~ cplx_of e c)) /\
  (~ has_key k g -> gie_real k g = Ok None /\ gie_complex k g = Ok None).
Proof.
  intros g k Hw Hk. split; [|split].
  - intros e He Ht. now apply gie_real_cases.
  - intros e He. now apply gie_complex_cases.
  - intros H. split; apply (if_map_spec k g); auto using wf_wfm.
Qed.

(** Integer targets: the value is stored when it is an integer in range, nothing happens when
    the entry is missing or is no (non-negative) integer. *)
Theorem C17_integers_partial : forall g k e, wf g -> no_nul k -> has_entry k e g -> no_tiny e ->
  (forall n, denotes e n -> int32 n -> gie_int k g = Ok (Some n)) /\
  (forall n, denotes e n -> int64 n -> gie_long k g = Ok (Some n)) /\
  (forall n, denotes e n -> uint32 n -> gie_uint k g = Ok (Some n)) /\
  (forall n, denotes e n -> uint64 n -> gie_ulong k g = Ok (Some n)) /\
  ((forall n, ~ denotes e n) -> gie_int k g = Ok None /\ gie_long k g = Ok None) /\
  ((forall n, denotes e n -> n < 0) -> gie_uint k g = Ok None /\ gie_ulong k g = Ok None).
Proof.
  intros g k e Hw Hk He Ht. pose proof (has_entry_wf k e g Hw He) as Hwe.
  pose proof (wf_wfm g Hw) as Hm.
  rewrite (gie_int_as k e g Hm Hk He), (gie_long_as k e g Hm Hk He),
    (gie_uint_as k e g Hm Hk He), (gie_ulong_as k e g Hm Hk He).
  repeat apply conj.
  - intros n Hd Hr. now rewrite (get_as_int_in e n).
  - intros n Hd Hr. now rewrite (get_as_long_in e n).
  - intros n Hd Hr. now rewrite (get_as_uint_in e n).
  - intros n Hd Hr. now rewrite (get_as_ulong_in e n).
  - intros Hn. now rewrite get_as_int_none, get_as_long_none.
  - intros Hn. now rewrite get_as_uint_none, get_as_ulong_none.
Qed.

Theorem C17_missing : forall g k, wf g -> no_nul k -> ~ has_key k g ->
  gie_int k g = Ok None /\ gie_uint k g = Ok None /\ gie_long k g = Ok None /\
  gie_ulong k g = Ok None.
Proof.
  intros g k Hw Hk H. apply wf_wfm in Hw.
  repeat apply conj; apply (if_map_spec k g); auto.
Qed.

(** The integer targets do report success with a wrong number: the long 2^32 is "found" as
    the int 0; and a large real is undefined behaviour. *)
Theorem C17_lossy_refuted : exists g k e n, wf g /\ has_entry k e g /\
  gie_int k g = Ok (Some n) /\ ~ denotes e n.
Proof.
  exists (GMap [("a"%string, GLong (2^32))]), "a"%string, (GLong (2^32)), 0.
  split. { apply wf_map. split; repeat constructor; vm_compute; congruence. }
  split. { eexists. split; [reflexivity|]. now left. }
  vmc.
Qed.

Example C17_example : has_entry "a" (GInt 1) smap1 /\ gie_ulong "a" smap1 = Ok (Some 1) /\
  gie_int "b" smap1 = Ok None /\ gie_string "b" smap1 = Ok (Some "x"%string).
Proof. split; [|repeat split]. eexists. split; [reflexivity|]. now left. Qed.

(** C18.  The template form reads the first key for which the single-key form succeeds. *)
Theorem C18_alternatives : forall A (get : string -> gc -> out (option A)) ks g,
  (forall v, gie_list get ks g = Ok (Some v) <->
     exists pre k post, ks = pre ++ k :: post /\ (forall x, In x pre -> get x g = Ok None) /\
                        get k g = Ok (Some v)) /\
  (gie_list get ks g = Ok None <-> forall k, In k ks -> get k g = Ok None).
Proof. intros. apply gie_list_spec. Qed.

(** The bool overload has its test inverted: it never succeeds on a bool, and on any other
    present value it reads the wrong union member. *)
Theorem C18_bool_never_succeeds_refuted : forall ks g b, gie_bool_list ks g <> Ok (Some b).
Proof. exact gie_bool_list_never. Qed.

Theorem C18_bool_refuted : exists g k b, wf g /\ no_nul k /\ has_entry k (GBool b) g /\
  gie_bool_list [k] g = Ok None /\ gie_bool k g = Ok (Some b) /\
  gie_bool_list ["b"%string] g = Undef.
Proof.
  exists (GMap [("a"%string, GBool true); ("b"%string, GInt 3)]), "a"%string, true.
  split. { apply wf_map. split; repeat constructor; vm_compute; congruence. }
  split; [exact no_nul_a|].
  split. { eexists. split; [reflexivity|]. now left. }
  repeat split.
Qed.

Example C18_example : gie_list gie_int ["b"; "a"]%string smap1 = Ok (Some 1).
Proof. reflexivity. Qed.

(** C19.  g[i] followed by any operation on the returned element. *)
Theorem C19_index_grows : forall A (f : gc -> out A * gc) g i,
  0 <= i < 2^32 - 1 -> g = GNone \/ tag_of g = TVec ->
  exists r w, with_idx i f g = (r, GVec w) /\
    zlen w = Z.max (zlen (old_vec g)) (i + 1) /\
    (forall j, 0 <= j -> j <> i -> nth_error w (Z.to_nat j) =
       if j <? zlen (old_vec g) then nth_error (old_vec g) (Z.to_nat j)
       else if j <=? i then Some GNone else None) /\
    nth_error w (Z.to_nat i) =
      Some (snd (f (match nth_error (old_vec g) (Z.to_nat i) with Some e => e | None => GNone end))).
Proof.
  intros A f g i Hi _. rewrite with_idx_spec by assumption. do 2 eexists. split; [reflexivity|].
  destruct (check_resize_grow GNone i (old_vec g) Hi) as [_ L]. split; [|split].
  - unfold zlen in *. now rewrite lset_length.
  - intros j Hj N. rewrite lset_nth_other by lia. rewrite check_resize_nth by assumption.
    destruct (Nat.ltb_spec (Z.to_nat j) (length (old_vec g))),
      (Z.ltb_spec j (zlen (old_vec g))); unfold zlen in *; try lia; [reflexivity|].
    destruct (Nat.leb_spec (Z.to_nat j) (Z.to_nat i)), (Z.leb_spec j i); try lia; reflexivity.
  - now apply slot_lset.
Qed.

(** The largest index wraps to zero in CHECK_RESIZE: the vector is emptied and the access is
    out of bounds. *)
Theorem C19_last_index_refuted : forall A (f : gc -> out A * gc) v, zlen v <= 2^32 - 1 ->
  with_idx (2^32 - 1) f (GVec v) = (Undef, GVec []).
Proof.
  intros A f v Hv. unfold with_idx, check_resize. cbn [old_vec].
  rewrite (proj2 (Z.leb_le _ _)) by lia.
  change (Z.to_nat (to_u32 (2^32 - 1 + 1))) with O. unfold resize. cbn [firstn app].
  reflexivity.
Qed.

(** On a container of any other type operator[](i) silently discards the content. *)
Theorem C19_other_type_discarded : forall A (f : gc -> out A * gc) g i,
  tag_of g <> TVec -> with_idx i f g = with_idx i f GNone.
Proof. intros A f g i H. destruct g; try reflexivity. now contradiction H. Qed.

Example C19_example :
  with_idx 2 (fun _ => (Ok tt, GInt 5)) (GVec [GStr "x"]) =
    (Ok tt, GVec [GStr "x"; GNone; GInt 5]).
Proof. reflexivity. Qed.

(** C20. *)
Theorem C20_checked_index : forall g i, 0 <= i ->
  (forall e, call_idx i g = Ok e <-> exists v, g = GVec v /\ nth_error v (Z.to_nat i) = Some e) /\
  ((~ exists v e, g = GVec v /\ nth_error v (Z.to_nat i) = Some e) -> call_idx i g = Throw).
Proof. intros. now apply call_idx_spec. Qed.

(** The non-const form throws in the same cases and changes nothing when it throws. *)
Theorem C20_checked_index_ref : forall A (f : gc -> out A * gc) g i, 0 <= i ->
  (call_idx i g = Throw -> call_idx_with i f g = (Throw, g)) /\
  (forall e, call_idx i g = Ok e ->
     exists v, g = GVec v /\
       call_idx_with i f g = (fst (f e), GVec (lset (Z.to_nat i) (snd (f e)) v))).
Proof.
  intros A f g i Hi. destruct g as [ | | | | | | | | | | | | | | | | | | | v | m];
    try (split; [reflexivity|discriminate]).
  cbn [call_idx call_idx_with]. unfold raw_at. destruct (i <? zlen v) eqn:L; cbn [gc_assert].
  - destruct (znth i v) as [a|]; split; try discriminate. intros e [= ->]. exists v.
    split; [reflexivity|]. now destruct (f e).
  - split; [reflexivity|discriminate].
Qed.

Example C20_example : call_idx 1 (GVec [GNone; GInt 4]) = Ok (GInt 4) /\
  call_idx 2 (GVec [GNone; GInt 4]) = Throw /\ call_idx 0 smap1 = Throw.
Proof. repeat split. Qed.

(** C21.  Any chain of operator[], any container: what is written is read back. *)
Theorem C21_write_read : forall p g v, Forall step_ok p ->
  read_path p (snd (with_path p (fun _ => (Ok tt, v)) g)) = Ok v.
Proof. intros. now apply path_write_read. Qed.

(** Any chain that diverges reads what it read before; a read that failed fails still, or
    finds one of the empty elements created by growing a vector. *)
Theorem C21_frame : forall p q g v, wf g -> Forall step_ok p -> Forall step_ok q ->
  diverge p q -> compatible p g ->
  (forall e, read_path q g = Ok e ->
     read_path q (snd (with_path p (fun _ => (Ok tt, v)) g)) = Ok e) /\
  (read_path q g = Throw ->
     read_path q (snd (with_path p (fun _ => (Ok tt, v)) g)) = Throw \/
     read_path q (snd (with_path p (fun _ => (Ok tt, v)) g)) = Ok GNone).
Proof. intros. apply path_frame; auto using wf_wfm. Qed.

Example C21_example :
  let p := [SKey "a"; SIdx 1; SKey "b"]%string in
  let q := [SKey "a"; SIdx 0]%string in
  let g := GMap [("a"%string, GVec [GStr "x"])] in
  Forall step_ok p /\ Forall step_ok q /\ diverge p q /\ compatible p g /\
  read_path q g = Ok (GStr "x") /\
  snd (with_path p (fun _ => (Ok tt, GInt 7)) g) =
    GMap [("a"%string, GVec [GStr "x"; GMap [("b"%string, GInt 7)]])].
Proof.
  cbv zeta. split; [|split; [|split; [|split]]].
  - repeat constructor; try exact no_nul_a; try exact no_nul_b; vm_compute; congruence.
  - repeat constructor; try exact no_nul_a; vm_compute; congruence.
  - apply div_step, div_idx. discriminate.
  - cbn [compatible]. right. eexists. split; [reflexivity|]. intros e [[= <-]|[]].
    right. eexists. split; [reflexivity|]. intros e H. discriminate.
  - split; reflexivity.
Qed.

Print Assumptions C13_insert_lookup.
Print Assumptions C14_erase.
Print Assumptions C15_const_lookup_iff_partial.
Print Assumptions C16_must_exists.
Print Assumptions C16_reads_through.
Print Assumptions C16_get_map_single.
Print Assumptions C17_bool_string.
Print Assumptions C17_real_complex.
Print Assumptions C17_integers_partial.
Print Assumptions C18_alternatives.
Print Assumptions C19_index_grows.
Print Assumptions C19_last_index_refuted.
Print Assumptions C20_checked_index.
Print Assumptions C21_write_read.
Print Assumptions C21_frame.
