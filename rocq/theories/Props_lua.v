(** Properties C49, C68 and C69: the exchange of values with Lua. *)
From Coq Require Import ZArith Bool Lia Ascii String List.
From Verif Require Import Base F64 StrMap Value WfDec MBasic MMap MRef SCollapse SJson LRound Props_tojson MLua SLua LLua.
Import ListNotations.
Local Open Scope Z_scope.

(** * C49: one value on the Lua stack, which describes the data.

    Full statement: for every container [g] and every stack [st], GC_to_lua ends with
    [v :: st] where [shows g v].  False in the code: VEC_BOOL pushes a table and a nil,
    pointers, complex numbers and matrices become nil, longs are rounded to doubles, and the
    room on the stack is never checked. *)

(** Exactly one value is pushed, at every depth, when there is no VEC_BOOL; the number of
    stack slots needed is exactly [slots g]. *)
Theorem C49_one_value_partial : forall cap g st, everywhere ends_node g -> zlen st + slots g <= cap ->
  exists v, GC_to_lua cap g st = Ok (v :: st).
Proof.
  intros cap g st He Hc. exists (show g). rewrite show_ok by assumption.
  destruct (Z.leb_spec (zlen st + slots g) cap); [reflexivity|lia].
Qed.
Theorem C49_room_refuted : forall cap g st, everywhere ends_node g -> cap < zlen st + slots g ->
  GC_to_lua cap g st = Undef.
Proof.
  intros cap g st He Hc. rewrite show_ok by assumption.
  destruct (Z.leb_spec (zlen st + slots g) cap); [lia|reflexivity].
Qed.
(** Deep containers need more slots than the 20 that Lua grants. *)
Fixpoint deep (n : nat) : gc := match n with O => GNone | S n' => GVec [deep n'] end.
Lemma deep_ends n : everywhere ends_node (deep n).
Proof. induction n as [|n IH]; cbn; repeat (split; try lia); assumption. Qed.
Lemma deep_slots n : slots (deep n) = 1 + Z.of_nat n.
Proof. induction n as [|n IH]; [reflexivity|]. cbn [deep]. rewrite slots_vec. cbn [most_vec]. rewrite IH. lia. Qed.
Theorem C49_depth_refuted : forall cap n st, 0 <= cap -> cap <= Z.of_nat n -> GC_to_lua cap (deep n) st = Undef.
Proof.
  intros cap n st H1 H2. apply C49_room_refuted; [apply deep_ends|]. rewrite deep_slots. pose proof (zlen_nonneg st). lia.
Qed.

(** That value shows the data. *)
Lemma showable_ends g : showable_node g -> ends_node g.
Proof. destruct g; cbn; intuition lia. Qed.
Theorem C49_describes_partial : forall cap g st, wf g -> everywhere showable_node g -> zlen st + slots g <= cap ->
  exists v, GC_to_lua cap g st = Ok (v :: st) /\ shows g v.
Proof.
  intros cap g st Hw Hs Hc. exists (show g). split; [|now apply show_shows].
  rewrite show_ok by (eapply everywhere_impl; [|exact Hs]; apply showable_ends).
  destruct (Z.leb_spec (zlen st + slots g) cap); [reflexivity|lia].
Qed.
(** The global variable gets that value and the stack is as before. *)
Theorem C49_global_partial : forall cap g st, wf g -> everywhere showable_node g -> zlen st + slots g <= cap ->
  exists v, Lua_GC_to_global cap g st = Ok (v, st) /\ shows g v.
Proof.
  intros cap g st Hw Hs Hc. destruct (C49_describes_partial cap g st Hw Hs Hc) as (v & E & S).
  exists v. unfold Lua_GC_to_global. rewrite E. split; [reflexivity|assumption].
Qed.
(** The value shown determines the data: the table of a vector and of a map give back every
    element, and different booleans, numbers and strings have different values. *)
Theorem C49_shows_vector : forall l v, shows (GVec l) v ->
  exists t, v = LTab t /\ forall i e, znth i l = Some e -> shows e (tget (LInt (i + 1)) t).
Proof.
  intros l v (t & -> & _ & H). exists t. split; [reflexivity|]. intros i e.
  assert (G : forall l j i, (fix all (l : list gc) (i : Z) : Prop :=
           match l with [] => True | e :: l' => shows e (tget (LInt i) t) /\ all l' (i + 1) end) l j ->
           znth i l = Some e -> shows e (tget (LInt (i + j)) t)).
  { clear. induction l as [|a l IH]; intros j i H E; unfold znth in E; destruct (Z.ltb_spec i 0); try discriminate;
      destruct (Z.to_nat i) as [|n] eqn:En; cbn in E; try discriminate; destruct H as [Ha H].
    - injection E as ->. replace (i + j) with j by lia. exact Ha.
    - replace (i + j) with (i - 1 + (j + 1)) by lia. apply (IH _ (i - 1) H). unfold znth.
      destruct (Z.ltb_spec (i - 1) 0); [lia|]. replace (Z.to_nat (i - 1)) with n by lia. exact E. }
  intros E. now apply (G l 1 i).
Qed.

(** Where the property fails. *)
Theorem C49_vec_bool_refuted : forall cap v st, zlen v < 2^32 -> zlen st + 2 <= cap ->
  exists t, GC_to_lua cap (GVBool v) st = Ok (LNil :: t :: st) /\
            Lua_GC_to_global cap (GVBool v) st = Ok (LNil, t :: st).
Proof.
  intros cap v st Hv Hc. exists (LTab (nums 0 (map LBool v) [])).
  assert (E : GC_to_lua cap (GVBool v) st = Ok (LNil :: LTab (nums 0 (map LBool v) []) :: st)).
  { cbn [GC_to_lua]. rewrite table_of_spec by (unfold zlen in *; now rewrite map_length).
    assert (list_slots (map LBool v) <= 2) by (destruct v; cbn; lia).
    destruct (Z.leb_spec (zlen st + list_slots (map LBool v)) cap); [|lia]. cbn [bind]. rewrite push_spec, zlen_cons.
    destruct (Z.leb_spec (zlen st + 1 + 1) cap); [reflexivity|lia]. }
  split; [exact E|]. unfold Lua_GC_to_global. now rewrite E.
Qed.
(** A map with a VEC_BOOL: Lua error, which aborts the program. *)
Theorem C49_map_vec_bool_refuted : forall cap k v st, zlen v < 2^32 -> zlen st + 4 <= cap ->
  GC_to_lua cap (GMap [(k, GVBool v)]) st = Throw.
Proof.
  intros cap k v st Hv Hc. rewrite lua_map, push_spec. destruct (Z.leb_spec (zlen st + 1) cap); [|lia].
  cbn [bind map_items]. rewrite push_spec, zlen_cons. destruct (Z.leb_spec (zlen st + 1 + 1) cap); [|lia]. cbn [bind].
  destruct (C49_vec_bool_refuted cap v (LStr (cstr k) :: LTab [] :: st)) as (t & E & _);
    [assumption | rewrite !zlen_cons; lia|]. rewrite E. reflexivity.
Qed.
(** A list with a VEC_BOOL: the next elements go to the table of the booleans. *)
Theorem C49_nested_vec_bool_refuted :
  GC_to_lua 20 (GVec [GVBool [true; false]; GStr "x"%string]) [] =
    Ok [LTab [(LInt 2, LStr "x"%string)]; LTab []].
Proof. vmc. Qed.
(** No value shows a pointer, a complex number or a matrix; Lua gets nil. *)
Theorem C49_unsupported_refuted : forall cap g st,
  match g with GPtr _ | GVPtr _ | GComplex _ | GVComplex _ | GMInt _ | GMLong _ | GMReal _ | GMComplex _ => True | _ => False end ->
  zlen st + 1 <= cap -> GC_to_lua cap g st = Ok (LNil :: st).
Proof.
  intros cap g st Hg Hc. destruct g; try contradiction; cbn [GC_to_lua]; rewrite push_spec;
    destruct (Z.leb_spec (zlen st + 1) cap); (reflexivity || lia).
Qed.
(** Two longs, one value. *)
Theorem C49_long_refuted : GC_to_lua 20 (GLong (2^53 + 1)) [] = GC_to_lua 20 (GLong (2^53)) [].
Proof. vmc. Qed.

Example C49_one_value_ex : exists g, everywhere ends_node g /\ zlen (@nil lua) + slots g <= 20 /\ slots g = 5.
Proof.
  exists (GVec [GComplex (0, 0); GMap [("a"%string, GVec [GNone]); ("b"%string, GVInt [1])]]).
  split; [every|]; vmc.
Qed.
Example C49_describes_ex : exists g, wf g /\ everywhere showable_node g /\ zlen (@nil lua) + slots g <= 20.
Proof.
  exists (GMap [("a"%string, GVec [GNone; GLong 7; GVInt [-1; 5]]); ("b"%string, GVStr ["x"; "yz"]%string)]).
  split; [wfd|]. split; [|vmc].
  every; cbn [showable_node map fst]; try exact I.
  - every; vm_compute; intuition discriminate.
  - vmc.
  - exists (f_of_Z 7). apply f_of_Z_exact. lia.
  - vmc.
  - split; [vmc|]. every; vm_compute; intuition discriminate.
Qed.

Print Assumptions C49_one_value_partial.
Print Assumptions C49_room_refuted.
Print Assumptions C49_depth_refuted.
Print Assumptions C49_describes_partial.
Print Assumptions C49_global_partial.
Print Assumptions C49_shows_vector.
Print Assumptions C49_vec_bool_refuted.
Print Assumptions C49_map_vec_bool_refuted.
Print Assumptions C49_nested_vec_bool_refuted.
Print Assumptions C49_unsupported_refuted.
Print Assumptions C49_long_refuted.
