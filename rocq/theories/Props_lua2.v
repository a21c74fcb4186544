(** Properties C49 (continued), C68 and C69: data going to Lua and coming back. *)
From Coq Require Import ZArith Bool Lia Ascii String List Permutation.
From Verif Require Import Base F64 StrMap Value WfDec MBasic MMap MRef SPromote SCollapse SJson LJson LRound Props_tojson
  MLua SLua LLua LLuaRead LLuaBack Props_lua.
Import ListNotations.
Local Open Scope Z_scope.

(** * C49: the value has the same data. *)
Theorem C49_data_partial : forall cap g st, wf g -> everywhere showable_node g -> everywhere no_null_node g -> everywhere nonempty_node g ->
  zlen st + slots g <= cap -> exists v, GC_to_lua cap g st = Ok (v :: st) /\ lua_data v = data_of g.
Proof.
  intros cap g st Hw Hs Hn He Hc. exists (show g). split; [|now apply show_data].
  rewrite show_ok by (eapply everywhere_impl; [|exact Hs]; apply showable_ends).
  destruct (Z.leb_spec (zlen st + slots g) cap); [reflexivity|lia].
Qed.

(** * C68: reading a Lua value into a container stores its data.

    Full statement: for every Lua value [v] made of booleans, numbers, strings and tables,
    and every container [g] and stack [st], Lua_global_to_GC succeeds, the data of the
    container are those of the value, and the stack is as before.  False in the code, see the
    [_refuted] theorems: the value (or nothing of the stack) is left on the stack, a boolean
    after other elements throws, a table after other elements erases them, empty tables become
    null, integers go through doubles, numbers beyond 64 bits are undefined. *)
Definition left_over (v : lua) (st : list lua) : list lua := match v with LTab _ => [] | _ => v :: st end.
Theorem C68_partial : forall cap v st g, lall readable_node v -> zlen st + 1 + lslots v <= cap ->
  exists r, Lua_global_to_GC cap v st g = (Ok tt, r, left_over v st) /\ wf r /\ data_of r = lua_data v.
Proof.
  intros cap v st g Ha Hc. pose proof (lall_here _ _ Ha) as R. unfold Lua_global_to_GC. rewrite push_spec.
  assert (C : zlen st + 1 <= cap).
  { destruct v as [| | | | |t|]; try (cbn [lslots] in Hc; lia). destruct t; [cbn [lslots] in Hc; lia|].
    rewrite lslots_tab in Hc by discriminate. pose proof (most_tab_nonneg (p :: t)). lia. }
  destruct (Z.leb_spec (zlen st + 1) cap); [|lia]. clear C. destruct v as [|b|z|x|s|t|]; try (destruct R; fail); cbn [lua_to_GC left_over].
  - exists (GBool b). split; [reflexivity|]. split; [exact I|reflexivity].
  - destruct (number_ok (LInt z) R ltac:(eauto)) as [I E]. destruct (put_number_ok _ (clear g) I) as (e & Pe & We & De).
    exists e. rewrite Pe. split; [reflexivity|]. split; [assumption|congruence].
  - destruct (number_ok (LNum x) R ltac:(eauto)) as [I E]. destruct (put_number_ok _ (clear g) I) as (e & Pe & We & De).
    exists e. rewrite Pe. split; [reflexivity|]. split; [assumption|congruence].
  - exists (GStr s). rewrite (cstr_id s R). split; [reflexivity|]. split; [exact I|reflexivity].
  - destruct (read_table (LTab t) Ha ltac:(now exists t) cap (1 + zlen st)) as (e & E & W & D); [lia|].
    exists e. unfold clear. rewrite E. split; [reflexivity|]. split; assumption.
Qed.
(** Nothing of the old content of the container matters. *)
Theorem C68_replaces : forall cap v st g g', v <> LNil -> zlen st + 1 <= cap ->
  Lua_global_to_GC cap v st g = Lua_global_to_GC cap v st g'.
Proof.
  intros cap v st g g' N C. unfold Lua_global_to_GC. rewrite push_spec. destruct (Z.leb_spec (zlen st + 1) cap); [|lia].
  destruct v; try reflexivity. contradiction.
Qed.
(** A missing global (nil) throws and leaves the container alone; functions throw and leave it
    empty. *)
Theorem C68_nil : forall cap st g, zlen st + 1 <= cap -> Lua_global_to_GC cap LNil st g = (Throw, g, LNil :: st).
Proof.
  intros cap st g C. unfold Lua_global_to_GC. rewrite push_spec. destruct (Z.leb_spec (zlen st + 1) cap); [reflexivity|lia].
Qed.
Theorem C68_function : forall cap st g, zlen st + 1 <= cap -> Lua_global_to_GC cap LOther st g = (Throw, GNone, LOther :: st).
Proof.
  intros cap st g C. unfold Lua_global_to_GC. rewrite push_spec. destruct (Z.leb_spec (zlen st + 1) cap); [reflexivity|lia].
Qed.
(** Lua does not say in which order it goes through the entries with string keys: the data are
    the same in every order. *)
Theorem C68_any_order : forall cap m m' st g, lall readable_node (LTab (named_entries m)) -> NoDup (map fst m) -> Permutation m m' ->
  zlen st + 1 + lslots (LTab (named_entries m)) <= cap ->
  exists r r', Lua_global_to_GC cap (LTab (named_entries m)) st g = (Ok tt, r, []) /\
    Lua_global_to_GC cap (LTab (named_entries m')) st g = (Ok tt, r', []) /\ data_of r = data_of r'.
Proof.
  intros cap m m' st g Ha D P C.
  destruct (C68_partial cap _ st g Ha C) as (r & E & W & Dr).
  assert (P2 : Permutation (named_entries m) (named_entries m')) by now apply Permutation_map.
  assert (Ha' : lall readable_node (LTab (named_entries m'))).
  { apply lall_tab in Ha as [Hn Ha]. apply lall_tab. split.
    - cbn [readable_node] in *. destruct Hn as [(n & N & E1 & D1 & K)|(l & N & E1 & _)].
      + left. exists m'. assert (n = m).
        { clear - E1. unfold named_entries in E1. revert m E1. induction n as [|(k, v) n IH]; intros [|(k', v') m] E1; try discriminate; [reflexivity|].
          cbn [map fst snd] in E1. injection E1 as -> -> E1. f_equal. now apply IH. }
        subst n. split; [intros ->; apply N; apply Permutation_nil; now apply Permutation_sym|]. split; [reflexivity|].
        split; [eapply Permutation_NoDup; [|exact D]; now apply Permutation_map|].
        eapply Permutation_Forall; [|exact K]. now apply Permutation_map.
      + exfalso. destruct l; [easy|]. destruct m as [|(k, v) m]; discriminate.
    - eapply Permutation_Forall; [exact P2|exact Ha]. }
  assert (C' : zlen st + 1 + lslots (LTab (named_entries m')) <= cap).
  { enough (lslots (LTab (named_entries m')) <= lslots (LTab (named_entries m))) by lia.
    destruct m' as [|kv' m']; [apply Permutation_sym, Permutation_nil in P; subst; lia|].
    destruct m as [|kv m]; [now apply Permutation_nil in P|]. rewrite !lslots_tab by discriminate.
    enough (most_tab (named_entries (kv' :: m')) <= most_tab (named_entries (kv :: m))) by lia.
    apply most_named; [|apply most_tab_nonneg]. apply Forall_forall. intros p I. apply Permutation_sym in P. apply (Permutation_in _ P) in I.
    change (snd p) with (snd (LStr (fst p), snd p)). apply most_tab_in. unfold named_entries. apply in_map_iff. now exists p. }
  destruct (C68_partial cap _ st g Ha' C') as (r' & E' & W' & Dr').
  exists r, r'. split; [exact E|]. split; [exact E'|]. rewrite Dr, Dr', !named_data. f_equal. apply by_key_perm.
  - now rewrite vmap_keys.
  - now apply Permutation_map.
Qed.

(** Where it fails. *)
(** A boolean after a number: the call throws half way. *)
Theorem C68_bool_refuted :
  Lua_global_to_GC 20 (LTab [(LInt 1, LInt 0); (LInt 2, LBool true)]) [] GNone =
    (Throw, GVec [GLong 0; GBool false], [LTab [(LInt 1, LInt 0); (LInt 2, LBool true)]]).
Proof. vmc. Qed.
(** A table after any number of booleans: they are all lost, the call succeeds. *)
Lemma bools_loop cap used (l : list bool) : forall done, zlen (done ++ l) < 2^32 -> l <> [] -> used + 2 <= cap ->
  forall t, table_entries cap used (entries (zlen done + 1) (map LBool l) ++ t) (match done with [] => GNone | _ => GVBool done end) =
  table_entries cap used t (GVBool (done ++ l)).
Proof.
  induction l as [|b l IH]; intros done L N C t; [easy|]. pose proof (zlen_nonneg done). pose proof (zlen_nonneg l).
  assert (L' : zlen done + 1 + zlen l < 2^32).
  { unfold zlen in *. rewrite app_length in L. cbn [length] in L. lia. }
  cbn [map entries app table_entries]. destruct (Z.ltb_spec (used + 1) cap); [|lia].
  assert (E : table_entry cap used (LInt (zlen done + 1)) (LBool b) (match done with [] => GNone | _ => GVBool done end) = (Ok tt, GVBool (done ++ [b]))).
  { cbn [table_entry]. unfold push_vec_element. cbn [tointeger]. replace (zlen done + 1 - 1) with (zlen done) by lia.
    rewrite to_u32_id by (unfold uint32; lia). destruct done; [apply put_bool_first|]. apply put_bool_end. lia. }
  rewrite E. clear E. destruct l as [|c l]; [reflexivity|].
  specialize (IH (done ++ [b])). rewrite <- app_assoc in IH. cbn [app] in IH.
  replace (zlen (done ++ [b]) + 1) with (zlen done + 1 + 1) in IH by (unfold zlen; rewrite app_length; cbn [length]; lia).
  rewrite <- IH; try assumption; try discriminate. destruct done; reflexivity.
Qed.
Theorem C68_table_refuted : forall l, l <> [] -> zlen l + 1 < 2^32 -> exists st,
  Lua_global_to_GC 20 (LTab (entries 1 (map LBool l) ++ [(LInt (zlen l + 1), LTab [(LInt 1, LBool true)])])) [] GNone =
    (Ok tt, GVec (repeat GNone (length l) ++ [GVBool [true]]), st).
Proof.
  intros l N L. pose proof (zlen_nonneg l). unfold Lua_global_to_GC. cbn [push zlen length Z.of_nat Z.ltb Z.compare].
  cbn [lua_to_GC clear]. rewrite lua_table. replace (1 + zlen (@nil lua) <? 20) with true by reflexivity.
  pose proof (bools_loop 20 (1 + zlen (@nil lua)) l []) as E. cbn [app] in E. change (zlen (@nil bool) + 1) with 1 in E.
  rewrite E by (try assumption; try lia; vm_compute; congruence). clear E. cbn [table_entries].
  replace (1 + zlen (@nil lua) + 1 <? 20) with true by reflexivity.
  assert (E : table_entry 20 (1 + zlen (@nil lua)) (LInt (zlen l + 1)) (LTab [(LInt 1, LBool true)]) (GVBool l) =
    (Ok tt, GVec (repeat GNone (length l) ++ [GVBool [true]]))).
  { cbn [table_entry]. unfold push_vec_element. cbn [tointeger]. replace (zlen l + 1 - 1) with (zlen l) by lia.
    rewrite to_u32_id by (unfold uint32; lia). unfold with_idx. cbn [old_vec].
    assert (R : check_resize GNone (zlen l) [] = repeat GNone (length l) ++ [GNone]).
    { unfold check_resize. destruct (Z.leb_spec (zlen (@nil gc)) (zlen l)) as [A|A]; [|unfold zlen in A; cbn in A; lia].
      rewrite to_u32_id by (unfold uint32; lia). rewrite resize_nil. replace (Z.to_nat (zlen l + 1)) with (length l + 1)%nat by (unfold zlen; lia).
      apply repeat_app. }
    rewrite R. assert (Z : zlen l = zlen (repeat GNone (length l))) by (unfold zlen; now rewrite repeat_length).
    rewrite Z, znth_end. change (lua_table_to_GC 20 (1 + zlen (@nil lua) + 2) (LTab [(LInt 1, LBool true)]) GNone) with (@Ok unit tt, GVBool [true]).
    cbv beta iota. now rewrite lset_end. }
  rewrite E. eexists. reflexivity.
Qed.
(** Tables with both kinds of keys, empty tables, numbers that are not doubles, numbers beyond
    64 bits (infinity). *)
Theorem C68_mixed_keys_refuted :
  Lua_global_to_GC 20 (LTab [(LInt 1, LInt 0); (LStr "k"%string, LInt 0)]) [] GNone = (Ok tt, GMap [("k"%string, GLong 0)], []).
Proof. vmc. Qed.
Theorem C68_empty_refuted : forall g, Lua_global_to_GC 20 (LTab []) [] g = (Ok tt, GNone, []).
Proof. reflexivity. Qed.
Theorem C68_integer_refuted :
  Lua_global_to_GC 20 (LInt (2^53 + 1)) [] GNone = (Ok tt, GLong (2^53), [LInt (2^53 + 1)]).
Proof. vmc. Qed.
Theorem C68_infinity_refuted : forall g, fst (fst (Lua_global_to_GC 20 (LNum (2047 * 2^52)) [] g)) = Undef.
Proof. intros g. vm_compute. reflexivity. Qed.
(** After a table the whole stack is gone, whatever was on it. *)
Theorem C68_stack_refuted : forall cap v st g r, is_tab v -> lall readable_node v -> zlen st + 1 + lslots v <= cap ->
  Lua_global_to_GC cap v st g = r -> snd r = [].
Proof.
  intros cap v st g r [t ->] Ha C <-. destruct (C68_partial cap _ st g Ha C) as (r & -> & _). reflexivity.
Qed.

(** * C69: a container handed to Lua and read back has the same data.

    Full statement: for every container [g].  False as far as C49 and C68 are. *)
Theorem C69_partial : forall cap g st h, wf g -> everywhere showable_node g -> everywhere no_null_node g ->
  everywhere rereadable_node g -> g <> GNone -> zlen st + 1 + 2 * slots g <= cap ->
  exists v, Lua_GC_to_global cap g st = Ok (v, st) /\
  exists r st', Lua_global_to_GC cap v st h = (Ok tt, r, st') /\ wf r /\ data_of r = data_of g.
Proof.
  intros cap g st h Hw Hs Hn Hr N C. pose proof (slots_pos g).
  assert (He : everywhere nonempty_node g).
  { eapply everywhere_impl; [|exact Hr]. intros e. destruct e; cbn; tauto. }
  exists (show g). split.
  - unfold Lua_GC_to_global. rewrite show_ok by (eapply everywhere_impl; [|exact Hs]; apply showable_ends).
    destruct (Z.leb_spec (zlen st + slots g) cap); [reflexivity|lia].
  - pose proof (show_slots g Hw Hs Hn).
    destruct (C68_partial cap (show g) st h) as (r & E & W & D); [now apply show_readable|lia|].
    exists r. eexists. split; [exact E|]. split; [assumption|]. rewrite D. now apply show_data.
Qed.
(** A list of booleans next to a list of numbers. *)
Theorem C69_refuted : exists g r, GC_to_lua 20 g [] = Ok [r] /\ wf g /\
  fst (fst (Lua_global_to_GC 20 r [] GNone)) = Throw.
Proof.
  exists (GVec [GInt 0; GBool true]). eexists. split; [vm_compute; reflexivity|]. split; [wfd|]. vm_compute. reflexivity.
Qed.
(** The kind of vector may change although the data do not. *)
Theorem C69_kind_refuted : GC_to_lua 20 (GVInt [0; 0]) [] = Ok [LTab [(LInt 1, LNum f_zero); (LInt 2, LNum f_zero)]] /\
  Lua_global_to_GC 20 (LTab [(LInt 1, LNum f_zero); (LInt 2, LNum f_zero)]) [] GNone = (Ok tt, GVLong [0; 0], []).
Proof. vmc. Qed.

(** Concrete cases that meet the hypotheses. *)
Definition v68 : lua := LTab (named_entries
  [("list"%string, LTab (entries 1 [LBool true; LInt 5; LNum (f_of_Z 2); LStr "a"%string; LTab (entries 1 [LInt 7])]));
   ("name"%string, LStr "x"%string)]).
Lemma small_int z : Z.abs z <= 2^53 -> readable_node (LInt z).
Proof. intros H. split; [unfold int64; lia|]. exists (f_of_Z z). now apply f_of_Z_exact. Qed.
Example C68_ex : lall readable_node v68 /\ zlen (@nil lua) + 1 + lslots v68 <= 20.
Proof.
  split; [|vmc]. apply lall_tab. split.
  { left. eexists. split; [|split; [reflexivity|]]; [discriminate|]. split.
    - repeat constructor; cbn; intuition discriminate.
    - cbn [map fst]. every; vm_compute; intuition discriminate. }
  cbn [named_entries map fst snd]. every; cbn [snd].
  - apply entries_readable; [discriminate|vmc| |].
    + intros a v c E. destruct a as [|a0 [|a1 [|a2 [|a3 [|a4 a]]]]]; cbn [app] in E; injection E as; subst; cbn [fits_after]; try exact I.
      * constructor.
      * right; right. split; [do 3 apply Exists_cons_tl; apply Exists_cons_hd; eexists; reflexivity|].
        apply Exists_cons_hd. intros [? ?]. discriminate.
      * destruct a; discriminate.
    + every; try (apply lall_flat; [discriminate|]); try exact I.
      * apply small_int. lia.
      * apply number_range; [unfold int64; lia|]. exists (f_of_Z 2). apply f_of_Z_exact. lia.
      * vm_compute; intuition discriminate.
      * apply entries_readable; [discriminate|vmc| |].
        -- intros a v c E. destruct a as [|a0 [|a1 a]]; [injection E as <- <-; exact I|discriminate|discriminate].
        -- every. apply lall_flat; [discriminate|]. apply small_int. lia.
  - apply lall_flat; [discriminate|]. vm_compute; intuition discriminate.
Qed.
Example C69_ex : exists g, wf g /\ everywhere showable_node g /\ everywhere no_null_node g /\ everywhere rereadable_node g /\
  g <> GNone /\ zlen (@nil lua) + 1 + 2 * slots g <= 20.
Proof.
  exists (GMap [("a"%string, GVec [GVInt [1; 2]; GLong 7; GStr "s"%string]); ("b"%string, GVStr ["x"; "yz"]%string)]).
  split; [wfd|]. split; [|split; [|split; [|split; [discriminate|vmc]]]].
  - every; cbn [showable_node map fst]; try exact I.
    + every; vm_compute; intuition discriminate.
    + vmc.
    + vmc.
    + exists (f_of_Z 7). apply f_of_Z_exact. lia.
    + vm_compute; intuition discriminate.
    + split; [vmc|]. every; vm_compute; intuition discriminate.
  - every; cbn [no_null_node]; try exact I; every; discriminate.
  - every; cbn [rereadable_node]; try exact I; try discriminate.
    split; [discriminate|]. intros a e c E. split.
    + intros [b ->]. destruct a as [|a0 [|a1 [|a2 [|a3 a]]]]; cbn [app] in E; try discriminate; injection E as; discriminate.
    + intros K. destruct a as [|a0 [|a1 [|a2 [|a3 a]]]]; cbn [app] in E; try discriminate; injection E as; subst; try contradiction.
      now left.
Qed.

Print Assumptions C49_data_partial.
Print Assumptions C68_partial.
Print Assumptions C68_replaces.
Print Assumptions C68_nil.
Print Assumptions C68_function.
Print Assumptions C68_any_order.
Print Assumptions C68_bool_refuted.
Print Assumptions C68_table_refuted.
Print Assumptions C68_mixed_keys_refuted.
Print Assumptions C68_empty_refuted.
Print Assumptions C68_integer_refuted.
Print Assumptions C68_infinity_refuted.
Print Assumptions C68_stack_refuted.
Print Assumptions C69_partial.
Print Assumptions C69_refuted.
Print Assumptions C69_kind_refuted.
