(** Property C101: calling a Lua function. *)
From Coq Require Import ZArith Bool Lia Ascii String List.
From Verif Require Import Base F64 StrMap Value WfDec SGet MBasic MMap SMap LMap SPromote SCollapse SJson LJson LRound Props_tojson MLua SLua LLua LLuaRead LLuaBack Props_lua Props_lua2.
Import ListNotations.
Local Open Scope Z_scope.

(** * C101: LuaInterpreter::call hands the arguments to the function and stores what it returns.

    Full statement: for every map [io] with a string "function" and "args", the function of that
    name is run on a value with the data of the arguments; what it returns is stored in [res]; if
    it fails, or there is no such function, an exception is thrown and [res] is as before; the Lua
    stack is as before.  False in the code: see C49 and C68 for the values, and the stack keeps the
    returned value or the message of the error (C101_stack_refuted, C101_exhausted_refuted). *)
Definition call_of (name : string) (args io : gc) : Prop := has_entry "function" (GStr name) io /\ has_entry "args" args io.

Lemma call_start cap global run io st res name args : wf io -> no_nul name -> call_of name args io ->
  interpreter_call cap global run io st res = lua_call cap (run name) (global name) args st res.
Proof.
  intros Hw Hn [(m & E & H1) (m' & E' & H2)]. rewrite E in E'. injection E' as <-. subst io. apply wf_map in Hw as [Hs _].
  unfold interpreter_call. cbn [call_key]. change (cstr "function") with "function"%string. change (cstr "args") with "args"%string.
  assert (mfind "function" m = Some (GStr name)) as -> by (apply has_entry_map; [assumption|now exists m]).
  assert (mfind "args" m = Some args) as -> by (apply has_entry_map; [assumption|now exists m]).
  cbn. now rewrite cstr_id.
Qed.
Lemma pushed cap args st fn : everywhere showable_node args -> zlen st + 1 + slots args <= cap ->
  (do st1 <- push cap fn st ; GC_to_lua cap args st1) = Ok (show args :: fn :: st).
Proof.
  intros Hs Hc. pose proof (slots_pos args). rewrite push_spec. destruct (Z.leb_spec (zlen st + 1) cap); [|lia]. cbn [bind].
  rewrite show_ok by (eapply everywhere_impl; [|exact Hs]; apply showable_ends). rewrite zlen_cons.
  destruct (Z.leb_spec (zlen st + 1 + slots args) cap); [reflexivity|lia].
Qed.
Theorem C101_partial : forall cap global run io name args st res, wf io -> no_nul name -> call_of name args io ->
  global name = LOther -> everywhere showable_node args -> everywhere no_null_node args -> everywhere nonempty_node args -> zlen st + 1 + slots args <= cap ->
  exists a, lua_data a = data_of args /\
    (forall v, run name a = Some v -> lall readable_node v -> zlen st + 1 + lslots v <= cap ->
       exists r, interpreter_call cap global run io st res = (Ok tt, r, left_over v st) /\ wf r /\ data_of r = lua_data v) /\
    (run name a = Some LNil -> interpreter_call cap global run io st res = (Ok tt, GNone, LNil :: st)) /\
    (run name a = None -> exists msg, interpreter_call cap global run io st res = (Throw, res, msg :: st)).
Proof.
  intros cap global run io name args st res Hw Hn Hc Hg Hs H0 H1 Hp. exists (show args).
  assert (Wa : wf args) by (destruct Hc as [_ (m & -> & H)]; apply wf_map in Hw as [_ Hw]; rewrite Forall_forall in Hw; exact (Hw _ H)).
  split; [now apply show_data|]. rewrite (call_start _ _ _ _ _ _ name args) by assumption. unfold lua_call. rewrite pushed by assumption. rewrite Hg.
  split; [|split].
  - intros v Ev Hv Hl. rewrite Ev. destruct (C68_partial cap v st res Hv Hl) as (r & E & W & D). exists r. split; [|now split].
    rewrite <- E. unfold Lua_global_to_GC. rewrite push_spec. pose proof (lall_here _ _ Hv) as R. pose proof (slots_pos args).
    destruct (Z.leb_spec (zlen st + 1) cap); [|lia]. destruct v; (reflexivity || destruct R).
  - intros ->. reflexivity.
  - intros ->. eexists. reflexivity.
Qed.
(** No such function: an exception, and [res] is as before. *)
Theorem C101_no_function : forall cap global run io name args st res, wf io -> no_nul name -> call_of name args io ->
  global name <> LOther -> everywhere showable_node args -> zlen st + 1 + slots args <= cap ->
  exists msg, interpreter_call cap global run io st res = (Throw, res, msg :: st).
Proof.
  intros cap global run io name args st res Hw Hn Hc Hg Hs Hp. rewrite (call_start _ _ _ _ _ _ name args) by assumption.
  unfold lua_call. rewrite pushed by assumption. eexists. destruct (global name); try reflexivity. now contradiction Hg.
Qed.
(** Without a string "function" or without "args": an exception, nothing else happens. *)
Theorem C101_incomplete : forall cap global run io st res, wf io ->
  (~ exists name args, call_of name args io) -> interpreter_call cap global run io st res = (Throw, res, st).
Proof.
  intros cap global run io st res Hw H. unfold interpreter_call. destruct io as [| | | | | | | | | | | | | | | | | | | |m]; try reflexivity.
  apply wf_map in Hw as [Hs _]. cbn [call_key]. change (cstr "function") with "function"%string. change (cstr "args") with "args"%string.
  destruct (mfind "function" m) as [f|] eqn:F; [|reflexivity]. cbn [bind]. destruct f; try reflexivity. cbn.
  destruct (mfind "args" m) as [a|] eqn:A; [|reflexivity]. exfalso. apply H. eexists. exists a.
  split; apply has_entry_map; eassumption.
Qed.
(** Every failing call leaves a message on the stack, until there is no room for the next call. *)
Theorem C101_stack_refuted : forall cap io name args st res, wf io -> no_nul name -> call_of name args io ->
  everywhere showable_node args -> zlen st + 1 + slots args <= cap ->
  zlen (snd (interpreter_call cap (fun _ => LNil) (fun _ _ => None) io st res)) = zlen st + 1.
Proof.
  intros cap io name args st res Hw Hn Hc Hs Hp. destruct (C101_no_function cap (fun _ => LNil) (fun _ _ => None) io name args st res Hw Hn Hc) as [msg ->]; try assumption; [discriminate|].
  cbn [snd]. rewrite zlen_cons. lia.
Qed.
(** The stack after [n] calls. *)
Fixpoint calls (n : nat) (call : list lua -> out unit * gc * list lua) (st : list lua) : list lua :=
  match n with O => st | S n' => calls n' call (snd (call st)) end.
Theorem C101_exhausted_refuted : forall cap io name args st res, wf io -> no_nul name -> call_of name args io ->
  everywhere showable_node args -> zlen st <= cap ->
  let call := fun st => interpreter_call cap (fun _ => LNil) (fun _ _ => None) io st res in
  exists n, (n <= Z.to_nat cap)%nat /\ fst (fst (call (calls n call st))) = Undef.
Proof.
  intros cap io name args st res Hw Hn Hc Hs Hl call.
  assert (G : forall k st, zlen st + Z.of_nat k = cap -> exists n, (n <= k)%nat /\ fst (fst (call (calls n call st))) = Undef).
  { induction k as [|k IH]; intros st' E; destruct (Z.le_gt_cases (zlen st' + 1 + slots args) cap) as [L|L].
    - pose proof (slots_pos args). lia.
    - exists O. split; [lia|]. cbn [calls]. unfold call. rewrite (call_start _ _ _ _ _ _ name args) by assumption. unfold lua_call.
      rewrite push_spec. destruct (Z.leb_spec (zlen st' + 1) cap); [|reflexivity]. cbn [bind].
      rewrite show_ok by (eapply everywhere_impl; [|exact Hs]; apply showable_ends). rewrite zlen_cons.
      destruct (Z.leb_spec (zlen st' + 1 + slots args) cap); [lia|reflexivity].
    - destruct (IH (snd (call st'))) as (n & Hn' & E').
      + unfold call. rewrite (C101_stack_refuted cap io name args st' res) by assumption. lia.
      + exists (S n). split; [lia|exact E'].
    - exists O. split; [lia|]. cbn [calls]. unfold call. rewrite (call_start _ _ _ _ _ _ name args) by assumption. unfold lua_call.
      rewrite push_spec. destruct (Z.leb_spec (zlen st' + 1) cap); [|reflexivity]. cbn [bind].
      rewrite show_ok by (eapply everywhere_impl; [|exact Hs]; apply showable_ends). rewrite zlen_cons.
      destruct (Z.leb_spec (zlen st' + 1 + slots args) cap); [lia|reflexivity]. }
  pose proof (zlen_nonneg st). destruct (G (Z.to_nat (cap - zlen st)) st ltac:(lia)) as (n & Hn' & E). exists n. split; [lia|exact E].
Qed.

Definition io101 : gc := GMap [("args"%string, GMap [("x"%string, GReal (f_of_Z 2))]); ("function"%string, GStr "f"%string)].
Example C101_example : wf io101 /\ no_nul "f" /\ call_of "f" (GMap [("x"%string, GReal (f_of_Z 2))]) io101 /\
  everywhere showable_node (GMap [("x"%string, GReal (f_of_Z 2))]) /\ everywhere no_null_node (GMap [("x"%string, GReal (f_of_Z 2))]) /\
  everywhere nonempty_node (GMap [("x"%string, GReal (f_of_Z 2))]) /\ zlen (@nil lua) + 1 + slots (GMap [("x"%string, GReal (f_of_Z 2))]) <= 20 /\
  lall readable_node (LTab (entries 1 [LInt 7])).
Proof.
  split; [unfold io101; wfd|]. split; [vm_compute; intuition discriminate|].
  split; [split; eexists; (split; [reflexivity|]); cbn; tauto|].
  split; [every; cbn; try exact I; every; vm_compute; intuition discriminate|].
  split; [every; cbn; try exact I; every; discriminate|].
  split; [every; cbn; try exact I; discriminate|]. split; [vmc|].
  apply entries_readable; [discriminate|vmc| |].
  - intros a v c E. destruct a as [|a0 [|a1 a]]; [injection E as <- <-; exact I|discriminate|discriminate].
  - every. apply lall_flat; [discriminate|]. apply small_int. lia.
Qed.

Print Assumptions C101_partial.
Print Assumptions C101_no_function.
Print Assumptions C101_incomplete.
Print Assumptions C101_stack_refuted.
Print Assumptions C101_exhausted_refuted.
