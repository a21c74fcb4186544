(** C56-C58 and additional parts of C09, C16, C20 and C21: sized setters, keys, free_pointer,
    get_value<double>, exists, checked access by key, reads along a list of keys. *)
From Coq Require Import ZArith Bool Lia Ascii String List Sorted.
From Verif Require Import Base F64 StrMap Value WfDec MBasic MGet SGet LGet MMap SMap LMap.
Import ListNotations.
Local Open Scope Z_scope.

(** [new] has [n] elements: those of [old] as far as they go, then [d]. *)
Definition resized {A} (d : A) (n : Z) (old new : list A) : Prop :=
  zlen new = n /\
  forall i, (i < length new)%nat ->
    nth_error new i = match nth_error old i with Some x => Some x | None => Some d end.

Lemma resize_resized {A} (d : A) n (old : list A) : 0 <= n -> resized d n old (resize d (Z.to_nat n) old).
Proof.
  intros Hn. split; [unfold zlen; rewrite resize_length; lia|].
  intros i Hi. rewrite resize_length in Hi. rewrite resize_nth.
  rewrite (proj2 (Nat.ltb_lt _ _)) by assumption.
  destruct (nth_error old i) as [x|] eqn:E.
  - assert (L : (i < length old)%nat) by (apply nth_error_Some; congruence).
    now rewrite (proj2 (Nat.ltb_lt _ _) L).
  - apply nth_error_None in E. now rewrite (proj2 (Nat.ltb_ge _ _) E).
Qed.

(** C56.  set_vec_T(n) and set_vector(n) with n > 0: n elements, the first ones kept if the
    container held a vector of this type, the others value-initialised. *)
Theorem C56_sized_vectors : forall n g, 0 < n < 2^32 ->
  (exists v, set_vptr_sz n g = GVPtr v /\ resized 0 n (match g with GVPtr w => w | _ => [] end) v) /\
  (exists v, set_vbool_sz n g = GVBool v /\ resized false n (match g with GVBool w => w | _ => [] end) v) /\
  (exists v, set_vint_sz n g = GVInt v /\ resized 0 n (match g with GVInt w => w | _ => [] end) v) /\
  (exists v, set_vlong_sz n g = GVLong v /\ resized 0 n (match g with GVLong w => w | _ => [] end) v) /\
  (exists v, set_vreal_sz n g = GVReal v /\ resized 0 n (match g with GVReal w => w | _ => [] end) v) /\
  (exists v, set_vcomplex_sz n g = GVComplex v /\ resized (0, 0) n (match g with GVComplex w => w | _ => [] end) v) /\
  (exists v, set_vstr_sz n g = GVStr v /\ resized EmptyString n (match g with GVStr w => w | _ => [] end) v) /\
  (exists v, set_vector_sz n g = GVec v /\ resized GNone n (match g with GVec w => w | _ => [] end) v).
Proof.
  intros n g Hn.
  assert (V : forall A (d : A) old, resized d n old (valloc d n old)).
  { intros A d old. unfold valloc. rewrite (proj2 (Z.ltb_lt 0 n)) by lia. apply resize_resized. lia. }
  repeat apply conj; eexists; (split; [reflexivity|apply V]).
Qed.

(** With n = 0, the default, the old vector is kept as it is. *)
Theorem C56_default_size : forall g,
  set_vptr_sz 0 g = GVPtr (match g with GVPtr w => w | _ => [] end) /\
  set_vbool_sz 0 g = GVBool (match g with GVBool w => w | _ => [] end) /\
  set_vint_sz 0 g = GVInt (match g with GVInt w => w | _ => [] end) /\
  set_vlong_sz 0 g = GVLong (match g with GVLong w => w | _ => [] end) /\
  set_vreal_sz 0 g = GVReal (match g with GVReal w => w | _ => [] end) /\
  set_vcomplex_sz 0 g = GVComplex (match g with GVComplex w => w | _ => [] end) /\
  set_vstr_sz 0 g = GVStr (match g with GVStr w => w | _ => [] end) /\
  set_vector_sz 0 g = GVec (match g with GVec w => w | _ => [] end) /\
  set_map0 g = GMap (match g with GMap m => m | _ => [] end).
Proof. intros g. repeat apply conj; reflexivity. Qed.

(** set_mat_T(nr,nc): the dimensions; the elements in storage order (columns one after the
    other) are kept as far as they go, which keeps the position of an element only if the
    number of rows is the same. *)
Theorem C56_sized_matrices : forall nr nc g, 0 <= nr -> 0 <= nc -> nr * nc < 2^32 ->
  (exists m, set_mint_sz nr nc g = GMInt m /\ mrows m = nr /\ mcols m = nc /\
     resized 0 (nr * nc) (match g with GMInt w => mdata w | _ => [] end) (mdata m)) /\
  (exists m, set_mlong_sz nr nc g = GMLong m /\ mrows m = nr /\ mcols m = nc /\
     resized 0 (nr * nc) (match g with GMLong w => mdata w | _ => [] end) (mdata m)) /\
  (exists m, set_mreal_sz nr nc g = GMReal m /\ mrows m = nr /\ mcols m = nc /\
     resized 0 (nr * nc) (match g with GMReal w => mdata w | _ => [] end) (mdata m)) /\
  (exists m, set_mcomplex_sz nr nc g = GMComplex m /\ mrows m = nr /\ mcols m = nc /\
     resized (0, 0) (nr * nc) (match g with GMComplex w => mdata w | _ => [] end) (mdata m)).
Proof.
  intros nr nc g H1 H2 H3.
  assert (V : forall A (d : A) old, mrows (mresize d nr nc old) = nr /\ mcols (mresize d nr nc old) = nc /\
                resized d (nr * nc) old (mdata (mresize d nr nc old))).
  { intros A d old. unfold mresize. cbn [mrows mcols mdata]. split; [reflexivity|]. split; [reflexivity|].
    unfold to_u32. rewrite Z.mod_small by nia. apply resize_resized. nia. }
  repeat apply conj; eexists; (split; [reflexivity|apply V]).
Qed.

Example C56_example :
  set_vint_sz 3 (GVInt [7]) = GVInt [7; 0; 0] /\ set_vint_sz 1 (GVInt [7; 8]) = GVInt [7] /\
  set_vint_sz 2 (GStr "x"%string) = GVInt [0; 0] /\
  set_mint_sz 2 2 (GMInt (Mat 3 1 [1; 2; 3])) = GMInt (Mat 2 2 [1; 2; 3; 0]).
Proof. vmc. Qed.

(** C57.  get_keys(vec): every key of the map once, in increasing order, nothing for other
    containers. *)
Theorem C57_keys : forall g, wf g ->
  (forall k, In k (get_keys g) <-> has_key k g) /\ StronglySorted slt (get_keys g) /\
  NoDup (get_keys g) /\ (tag_of g <> TMap -> get_keys g = []).
Proof.
  intros g Hw. apply wf_wfm in Hw. split; [intros k; apply get_keys_in|].
  destruct g as [ | | | | | | | | | | | | | | | | | | | v | m];
    try (cbn [get_keys]; split; [constructor|split; [constructor|reflexivity]]).
  apply wfm_sorted in Hw. cbn [get_keys]. split; [exact Hw|]. split; [now apply msorted_nodup|].
  intros H. now contradiction H.
Qed.

(** The keys separated by ", ". *)
Fixpoint joined (l : list string) : string :=
  match l with
  | [] => EmptyString
  | [k] => k
  | k :: l' => (k ++ ", " ++ joined l')%string
  end.
Lemma str_app_nil s : (s ++ "")%string = s.
Proof. induction s as [|c s IH]; cbn; [reflexivity|now rewrite IH]. Qed.
Lemma str_app_assoc a b c : (a ++ (b ++ c))%string = ((a ++ b) ++ c)%string.
Proof. induction a as [|x a IH]; cbn; [reflexivity|now rewrite IH]. Qed.
Lemma drop_last_app s c : drop_last (s ++ String c "")%string = s.
Proof.
  induction s as [|x s IH]; [reflexivity|].
  change ((String x s ++ String c "")%string) with (String x (s ++ String c "")).
  destruct s as [|y s]; [reflexivity|].
  change (drop_last (String x (String y s ++ String c ""))) with
    (String x (drop_last (String y s ++ String c ""))). now rewrite IH.
Qed.
Lemma keys_fold (m : list (string * gc)) : forall r,
  fold_left (fun r kv => (r ++ fst kv ++ ", ")%string) m r =
  match m with [] => r | _ => (r ++ joined (map fst m) ++ ", ")%string end.
Proof.
  induction m as [|(k, e) m IH]; intros r; [reflexivity|].
  cbn [fold_left fst map]. rewrite IH. destruct m as [|(k', e') m']; [reflexivity|].
  change (joined (k :: map fst ((k', e') :: m'))) with (k ++ ", " ++ joined (map fst ((k', e') :: m')))%string.
  now rewrite !str_app_assoc.
Qed.
Theorem C57_keys_string : forall g, get_keys_string g = joined (get_keys g).
Proof.
  intros g. destruct g as [ | | | | | | | | | | | | | | | | | | | v | m]; try reflexivity.
  unfold get_keys_string, get_keys. cbv zeta. rewrite keys_fold.
  destruct m as [|(k, e) m']; [reflexivity|].
  change ("" ++ joined (map fst ((k, e) :: m')) ++ ", ")%string with
    (joined (map fst ((k, e) :: m')) ++ ", ")%string.
  replace (joined (map fst ((k, e) :: m')) ++ ", ")%string with
    ((joined (map fst ((k, e) :: m')) ++ ",") ++ " ")%string by (now rewrite <- str_app_assoc).
  now rewrite drop_last_app, drop_last_app.
Qed.

Example C57_example : let g := GMap [("a"%string, GInt 1); ("b"%string, GNone)] in
  wf g /\ get_keys g = ["a"; "b"]%string /\ get_keys_string g = "a, b"%string.
Proof. cbv zeta. split; [wfd|vmc]. Qed.

(** C58.  free_pointer empties a container that holds a pointer or nothing; any other
    container is left as it is and an exception is thrown. *)
Theorem C58_free_pointer : forall g,
  (tag_of g = TPtr \/ tag_of g = TNone -> free_pointer g = (Ok tt, GNone)) /\
  (tag_of g <> TPtr -> tag_of g <> TNone -> free_pointer g = (Throw, g)).
Proof.
  intros g. destruct g; split; try reflexivity; cbn [tag_of]; intros H; try (now destruct H as [H|H]);
    try (now contradiction H); intros H'; now contradiction H'.
Qed.
Example C58_example : free_pointer (GPtr 5) = (Ok tt, GNone) /\ free_pointer (GInt 5) = (Throw, GInt 5).
Proof. split; reflexivity. Qed.

(** C09 for get_value<double>. *)
Theorem C09_value_double : forall g, wf g -> no_tiny g ->
  (forall x, get_value_double g = Ok x -> real_conv g x) /\
  ((exists x, get_value_double g = Ok x) \/ (get_value_double g = Throw /\ forall x, ~ real_conv g x)).
Proof.
  intros g Hw Ht.
  assert (N : get_value_double g = match g with GComplex (re, im) => gc_assert (is_zero0 im) (Ok re)
                                   | _ => get_number g end) by (destruct g; reflexivity).
  rewrite N. clear N.
  destruct g as [ | | b | i | l | r | (re, im) | s | | | | | | | | m | m | m | m | v | m];
    try (split; [intros x H; discriminate H |
                 right; split; [reflexivity|intros x [H|(y & H & _)]; [exact H|discriminate H]]]);
    try (split; [intros x Hx; left; now apply get_number_ok | left; eexists; reflexivity]).
  cbn [wf no_tiny] in Hw, Ht. destruct Hw as [_ Hw]. destruct Ht as [_ Ht].
  destruct (zero0_or im Hw Ht) as [(F & ->)|(F & ->)]; cbn [gc_assert].
  - split; [|left; now eexists]. intros x Hx. apply Ok_inj in Hx as <-. right. now exists im.
  - split; [intros x Hx; discriminate|right]. split; [reflexivity|].
    intros x [[]|(y & E & Hy)]. injection E as _ <-. contradiction.
Qed.
Example C09_value_double_example : get_value_double (GComplex (f_of_Z 3, 0)) = Ok (f_of_Z 3) /\
  get_value_double (GComplex (f_of_Z 3, f_of_Z 1)) = Throw.
Proof. vmc. Qed.

(** C16: exists(key) and exists(alternatives). *)
Theorem C16_exists : forall g, wf g ->
  (forall k, no_nul k -> exists_key k g = true <-> has_key k g) /\
  (forall ks, Forall no_nul ks -> exists_any ks g = true <-> exists k, In k ks /\ has_key k g).
Proof.
  intros g Hw. apply wf_wfm in Hw.
  destruct g as [ | | | | | | | | | | | | | | | | | | | v | m];
    try (split; [intros k _; split; [discriminate|intros (? & ? & E & _); discriminate]
                |intros ks _; split; [discriminate|intros (? & _ & ? & ? & E & _); discriminate]]).
  apply wfm_sorted in Hw. cbn [exists_key exists_any]. split.
  - intros k Hk. rewrite cstr_id by assumption. now rewrite has_key_map.
  - intros ks Hks. rewrite existsb_exists. rewrite Forall_forall in Hks. split.
    + intros (k & Hin & H). exists k. split; [assumption|]. rewrite has_key_map by assumption.
      rewrite cstr_id in H; auto.
    + intros (k & Hin & H). exists k. split; [assumption|]. rewrite cstr_id by auto.
      now rewrite has_key_map in H.
Qed.
(** With a zero character in the key, get_map_bool tests one key and reads another. *)
Theorem C16_map_bool_any_key : forall k g b, wf g ->
  (get_map_bool k g = Ok b <-> has_key (cstr k) g /\ has_entry k (GBool b) g).
Proof.
  intros k g b Hw. apply wf_wfm in Hw. unfold get_map_bool.
  destruct g as [ | | | | | | | | | | | | | | | | | | | v | m];
    try (split; [discriminate|intros ((? & ? & E & _) & _); discriminate]).
  apply wfm_sorted in Hw. cbn [exists_key map_at]. rewrite has_key_map, has_entry_map by assumption.
  destruct (mhas (cstr k) m); cbn [gc_assert]; [|split; [discriminate|intros [H _]; discriminate]].
  destruct (mfind k m) as [e|] eqn:E; cbn [bind]; [|split; [discriminate|intros [_ H]; discriminate]].
  split.
  - intros H. split; [reflexivity|]. destruct e; cbn in H; try discriminate. now injection H as ->.
  - intros [_ H]. injection H as ->. reflexivity.
Qed.

Lemma mset_same_keys k e' e (m : list (string * gc)) : msorted m -> mfind k m = Some e ->
  map fst (mset k e' m) = map fst m.
Proof.
  induction m as [|(k1, e1) m IH]; intros Hs He; [discriminate|].
  apply msorted_inv in Hs as [Hs Hf].
  cbn [mfind] in He. cbn [mset]. destruct (String.compare k k1) eqn:E.
  - apply String.compare_eq_iff in E. now subst k1.
  - exfalso. rewrite mfind_notin in He; [discriminate|].
    rewrite Forall_forall in *. intros x Hx. apply (slt_trans k k1); auto.
  - cbn [map fst]. f_equal. now apply IH.
Qed.
(** C20: operator()(key) used for writing. *)
Theorem C20_checked_key_ref : forall A (f : gc -> out A * gc) k g, wf g -> no_nul k ->
  (~ has_key k g -> call_key k g = Throw /\ call_key_with k f g = (Throw, g)) /\
  (forall e, has_entry k e g -> call_key k g = Ok e /\
     exists g', call_key_with k f g = (fst (f e), g') /\ get_keys g' = get_keys g /\
       has_entry k (snd (f e)) g' /\ forall k' e', k' <> k -> (has_entry k' e' g' <-> has_entry k' e' g)).
Proof.
  intros A f k g Hw Hk. apply wf_wfm in Hw.
  destruct g as [ | | | | | | | | | | | | | | | | | | | v | m];
    try (split; [intros _; split; reflexivity|intros e (? & E & _); discriminate]).
  apply wfm_sorted in Hw. cbn [call_key call_key_with]. rewrite cstr_id by assumption. split.
  - intros H. rewrite has_key_map in H by assumption. unfold mhas in H.
    destruct (mfind k m); [now contradiction H|]. split; reflexivity.
  - intros e He. rewrite has_entry_map in He by assumption. rewrite He.
    split; [reflexivity|]. destruct (f e) as [r e'] eqn:Ef. cbn [fst snd].
    exists (GMap (mset k e' m)). pose proof (mset_sorted k e' m Hw) as Hs'.
    split; [reflexivity|]. split; [|split].
    + cbn [get_keys]. now apply (mset_same_keys k e' e).
    + rewrite has_entry_map by assumption. apply mfind_mset_same.
    + intros k' e1 N. rewrite !has_entry_map by assumption. now rewrite mfind_mset_other.
Qed.

Example C20_key_example :
  call_key_with "b" (fun e => (Ok tt, GInt 5)) (GMap [("a"%string, GInt 1); ("b"%string, GNone)]) =
    (Ok tt, GMap [("a"%string, GInt 1); ("b"%string, GInt 5)]) /\
  call_key_with "c" (fun e => (Ok tt, GInt 5)) (GMap [("a"%string, GInt 1)]) =
    (Throw, GMap [("a"%string, GInt 1)]).
Proof. split; reflexivity. Qed.

(** C21: get_map_T({k1, k2, ...}), reads along a list of keys. *)
Inductive leads : list string -> gc -> gc -> Prop :=
| leads_here g : leads [] g g
| leads_key k ks g e e' : has_entry k e g -> leads ks e e' -> leads (k :: ks) g e'.

Theorem C21_key_list : forall A (get : gc -> out A) ks g, wf g -> Forall no_nul ks ->
  (forall e, leads ks g e -> get_map_path get ks g = get e) /\
  ((~ exists e, leads ks g e) -> get_map_path get ks g = Throw).
Proof.
  intros A get ks g Hw Hks. unfold get_map_path. revert g Hw. induction ks as [|k ks IH]; intros g Hw.
  - split; [intros e H; inversion H; subst; reflexivity|].
    intros H. exfalso. apply H. exists g. constructor.
  - inversion Hks as [|? ? Hk Hks']; subst. cbn [map_walk].
    destruct (C16_exists g Hw) as [X _]. specialize (X k Hk).
    destruct (C20_checked_key_ref A (fun e => (Throw, e)) k g Hw Hk) as [C1 C2].
    destruct (exists_key k g) eqn:E; cbn [gc_assert].
    + destruct (proj1 X eq_refl) as (e & He). destruct (C2 e He) as [-> _]. cbn [bind].
      destruct (IH Hks' e (has_entry_wf k e g Hw He)) as [I1 I2]. split.
      * intros e' H. inversion H as [|? ? ? e1 ? He1 Hl]; subst.
        rewrite (has_entry_fun k e1 e g (wf_wfm _ Hw) He1 He) in Hl. now apply I1.
      * intros H. apply I2. intros (e' & Hl). apply H. exists e'. now apply (leads_key k ks g e).
    + assert (N : ~ has_key k g) by (intros H; apply X in H; discriminate). split.
      * intros e' H. exfalso. inversion H as [|? ? ? e1 ? He1 Hl]; subst. apply N. now exists e1.
      * intros _. reflexivity.
Qed.
Example C21_key_list_example :
  let g := GMap [("a"%string, GMap [("b"%string, GStr "x"%string)])] in
  wf g /\ leads ["a"; "b"]%string g (GStr "x"%string) /\
  get_map_path get_string ["a"; "b"]%string g = Ok "x"%string /\
  get_map_path get_string ["a"; "c"]%string g = Throw.
Proof.
  cbv zeta. split; [wfd|]. split; [|split; reflexivity].
  eapply leads_key; [eexists; split; [reflexivity|now left]|].
  eapply leads_key; [eexists; split; [reflexivity|now left]|]. constructor.
Qed.

Print Assumptions C56_sized_vectors.
Print Assumptions C56_default_size.
Print Assumptions C56_sized_matrices.
Print Assumptions C57_keys.
Print Assumptions C57_keys_string.
Print Assumptions C58_free_pointer.
Print Assumptions C09_value_double.
Print Assumptions C16_exists.
Print Assumptions C16_map_bool_any_key.
Print Assumptions C20_checked_key_ref.
Print Assumptions C21_key_list.
