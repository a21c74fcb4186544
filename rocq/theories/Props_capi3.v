(** Properties C96, C97: the C interface before a container is selected, and its test data. *)
From Coq Require Import ZArith Bool Lia Ascii String List.
From Verif Require Import Base F64 MNum StrMap Value MBasic MGet MMap MMat MPromote MRef MCapi SCapi LCapi LCapi2 LCapi3 Props_capi.
Import ListNotations.
Local Open Scope Z_scope.

(** * C96: calls made before any container was selected do nothing and say so; status codes. *)

(** The calls that select a container. *)
Definition selects (k : ccall) : bool :=
  match k with New _ | Select _ | MemPtr _ | FillForTest _ => true | Delete _ | Do _ => false end.
(** The result types in include/GenericContainer/GenericContainerInterface_C.h: functions
    that return a status, and getters of int, double, complex and char const *. *)
Inductive sort : Type := Status | IntGetter | RealGetter | ComplexGetter | TextGetter.
Definition sort_of (k : call) : sort :=
  match k with
  | GetType | GetBool | GetInt | GetLong | GetBoolAtPos _ | GetIntAtPos _ | GetVectorSize | GetNumRows | GetNumCols => IntGetter
  | GetReal | GetComplexRe | GetComplexIm | GetRealAtPos _ | GetComplexRealAtPos _ | GetComplexImagAtPos _
  | GetRealAtCoor _ _ | GetComplexRealAtCoor _ _ | GetComplexImagAtCoor _ _ => RealGetter
  | GetComplex | GetComplexAtPos _ | GetComplexAtCoor _ _ => ComplexGetter
  | GetTypeName | GetString | GetStringAtPos _ | GetNextKey => TextGetter
  | _ => Status
  end.
(** What is returned: the status GENERIC_CONTAINER_BAD_HEAD, which is 4; zero, but -1 as the
    type; a null pointer, but the empty text as the name of the type. *)
Definition nothing_selected (k : ccall) : rv :=
  match k with
  | Do GetType => VInt (-1)
  | Do GetTypeName => VStr (Some EmptyString)
  | Do k => match sort_of k with
            | Status => VInt 4 | IntGetter => VInt 0 | RealGetter => VReal 0 | ComplexGetter => VCplx (0, 0) | TextGetter => VStr None
            end
  | _ => VInt 0
  end.
Theorem C96_nothing_selected : forall h, Forall (fun k => selects k = false) h ->
  run h cstate0 = (map (fun k => Ret (Ok (nothing_selected k))) h, cstate0).
Proof.
  induction h as [|k h IH]; intros H; [reflexivity|]. inversion H as [|? ? Hk Hh]; subst. cbn [run map].
  assert (E : exec k cstate0 = (Ret (Ok (nothing_selected k)), cstate0)).
  { destruct k as [n|n|n|n|n|k]; try discriminate Hk; [reflexivity|]. destruct k; reflexivity. }
  rewrite E, (IH Hh). reflexivity.
Qed.
(** Once a container was selected there is always an active one, also after it was deleted. *)
Lemma select_active n s : exists i, c_active (select n s) = Some i.
Proof. unfold select. destruct (mfind (cstr n) (c_names s)); eexists; reflexivity. Qed.
Lemma stays_active k s i : c_active s = Some i -> exists j, c_active (snd (exec k s)) = Some j.
Proof.
  intros H. destruct k as [n|n|n|n|n|k]; cbn [exec snd]; try apply select_active; [eauto| |].
  - cbv zeta. destruct (select_active n s) as [j Ej]. rewrite Ej. destruct (nth_error _ j); cbn [snd set_heap c_active]; eauto.
  - rewrite H. destruct (nth_error _ i); [destruct (xexec k e)|]; cbn [snd set_heap c_active]; eauto.
Qed.
Theorem C96_selected : forall h, existsb selects h = true -> exists i, c_active (after h) = Some i.
Proof.
  intros h. unfold after. generalize cstate0.
  assert (G : forall h s i, c_active s = Some i -> exists j, c_active (snd (run h s)) = Some j).
  { clear. induction h as [|k h IH]; intros s i H; cbn [run]; [eauto|]. destruct (stays_active k s i H) as [j Ej]. destruct (exec k s) as [r s1].
    destruct (IH s1 j Ej) as [j' E']. destruct (run h s1). eauto. }
  induction h as [|k h IH]; intros s H; [discriminate H|]. cbn [existsb] in H. cbn [run]. destruct (exec k s) as [r s1] eqn:E.
  apply orb_true_iff in H as [H|H].
  - assert (A : exists i, c_active s1 = Some i).
    { replace s1 with (snd (exec k s)) by now rewrite E. destruct k as [n|n|n|n|n|k]; try discriminate H; cbn [exec]; try apply select_active.
      cbv zeta. destruct (select_active n s) as [j Ej]. rewrite Ej. destruct (nth_error _ j); cbn [snd set_heap c_active]; eauto. }
    destruct A as [i Ei]. destruct (G h s1 i Ei) as [j Ej]. destruct (run h s1). eauto.
  - destruct (IH s1 H) as [j Ej]. destruct (run h s1). eauto.
Qed.
(** The numbers of the status codes: on a new container, after any history, moving into a
    member of what is not a map or vector gives BAD_TYPE = 1, popping the root OK = 0,
    popping again and storing NO_DATA = 2, moving when there is nothing current BAD_HEAD = 4. *)
Theorem C96_codes : forall h name key pos a, mfind (cstr name) (c_names (after h)) = None ->
  fst (run [New name; Do (PushMapPosition key); Do (PushVectorPosition pos); Do InitMapKey; Do PopHead; Do PopHead;
            Do (PushMapPosition key); Do (PushVectorPosition pos); Do InitMapKey; Do (SetInt a); Do ResetHead] (after h))
  = map (fun z => Ret (Ok (VInt z))) [0; 1; 1; 1; 0; 2; 4; 4; 4; 2; 2].
Proof.
  intros h name key pos a H. generalize dependent (after h). intros s H. cbn [run exec]. unfold select. rewrite H. cbn [c_active c_heap].
  assert (N : forall x, nth_error (lset (length (c_heap s)) x (c_heap s ++ [explorer0])) (length (c_heap s)) = Some x).
  { intros x. apply lset_nth_same. rewrite app_length. cbn [length]. lia. }
  assert (L : forall x y, lset (length (c_heap s)) x (lset (length (c_heap s)) y (c_heap s ++ [explorer0])) = lset (length (c_heap s)) x (c_heap s ++ [explorer0])).
  { intros x y. generalize (c_heap s ++ [explorer0]), (length (c_heap s)). induction l as [|b l IH]; intros [|n]; cbn [lset]; try reflexivity. now rewrite IH. }
  rewrite nth_error_app2 by lia. rewrite Nat.sub_diag. cbn [nth_error].
  repeat (cbn [xexec top_call x_push_key x_push_pos x_init_key x_pop x_reset on_top x_head x_data x_map x_it x_next explorer0 find cid Nat.eqb value gc_try set_heap c_active c_heap c_names fst];
          rewrite ?L, ?N).
  reflexivity.
Qed.
Example C96_example :
  run [Do (SetInt 1); Do GetInt; Delete "a"; Do GetString; Do GetTypeName]%string cstate0 =
    (map (fun r => Ret (Ok r)) [VInt 4; VInt 0; VInt 0; VStr None; VStr (Some EmptyString)], cstate0) /\
  mfind (cstr "b") (c_names (after [New "a"; Do (SetInt 1)]%string)) = None.
Proof. vmc. Qed.

(** * C97: GC_fill_for_test leaves the same test data whatever the container held before. *)

(** The test data (src/GenericContainerInterface_C.cc:249-313). *)
Definition key (s : string) : step := SKey s.
Definition test_scalars : list (list step * gc) :=
  [([SIdx 0], GInt 1);
   ([SIdx 2; key "pippo"], GInt 13); ([SIdx 2; key "pluto"], GInt 1); ([SIdx 2; key "paperino"], GInt 3);
   ([SIdx 2; key "aaa"], GStr "stringa1"); ([SIdx 2; key "bbb"], GStr "stringa2");
   ([SIdx 4], GReal (f_of_Q 13 10)); ([SIdx 5], GStr "pippo");
   ([SIdx 6; key "aaa"], GInt 123); ([SIdx 6; key "bbb"], GReal (f_of_Q 34 10));
   ([SIdx 7; SIdx 0], GInt 123); ([SIdx 7; SIdx 1], GReal (f_of_Q 314 100)); ([SIdx 7; SIdx 2], GStr "nonna papera");
   ([SIdx 10], GBool true)]%string.
(** [l] ends with [e]. *)
Definition ends_with {A} (e l : list A) : Prop := exists u, l = u ++ e.
Definition two (b : Z) : cplx := (f_of_Z b, f_zero).
Record test_data (g : gc) : Prop := {
  td_size : exists v, g = GVec v /\ length v = 11%nat;
  td_scalars : Forall (fun pv => sub (fst pv) g = Some (snd pv)) test_scalars;
  td_real : exists v, sub [SIdx 1] g = Some (GVReal v) /\ length v = 10%nat /\ nth_error v 2 = Some (f_of_Z 123);
  td_string : exists v, sub [SIdx 3] g = Some (GVStr v) /\ ends_with ["string1"; "string2"; "string3"; "string4"]%string v;
  td_int : exists v, sub [SIdx 6; key "vector"] g = Some (GVInt v) /\ ends_with [12; 10; 1] v;
  td_complex : exists v, sub [SIdx 7; SIdx 3] g = Some (GVComplex v) /\ ends_with [two 1; two 2; two 3; (f_of_Z (-12), f_of_Z 2)] v;
  td_mat : exists m, sub [SIdx 8] g = Some (GMReal m) /\ mrows m = 2 /\ mcols m = 2 /\ mat_get m 1 1 = Ok (f_of_Z 2) /\ mat_get m 0 1 = Ok (f_of_Z 3);
  td_cmat : exists m, sub [SIdx 9] g = Some (GMComplex m) /\ mrows m = 2 /\ mcols m = 2 /\
    mat_get m 1 1 = Ok (f_of_Z 2, f_of_Z 2) /\ mat_get m 0 1 = Ok (f_of_Z 1, f_of_Z (-1)) }.

Lemma mat22 {A} (l : list A) (x y d : A) : let m := Mat 2 2 (lset 2 x (lset 3 y (mdata (mresize d 2 2 l)))) in mat_get m 1 1 = Ok y /\ mat_get m 0 1 = Ok x.
Proof.
  assert (E : exists a b c e, mdata (mresize d 2 2 l) = [a; b; c; e]).
  { unfold mresize. cbn [mdata]. replace (Z.to_nat (to_u32 (2 * 2))) with 4%nat by reflexivity.
    pose proof (resize_length d 4 l) as R. destruct (resize d 4 l) as [|a [|b [|c [|e [|? ?]]]]]; try discriminate R. eauto. }
  destruct E as (a & b & c & e & ->). split; reflexivity.
Qed.
Ltac step_down := cbn [fst snd sub]; unfold znth; cbn [Z.ltb Z.compare Z.to_nat];
  change (Pos.to_nat 1) with 1%nat; change (Pos.to_nat 2) with 2%nat; change (Pos.to_nat 4) with 4%nat; change (Pos.to_nat 5) with 5%nat;
  change (Pos.to_nat 6) with 6%nat; change (Pos.to_nat 7) with 7%nat; change (Pos.to_nat 10) with 10%nat; cbn [nth_error].
Lemma fill_data g : test_data (fill_value g).
Proof.
  unfold fill_value. cbv zeta. set (v := resize GNone 11 (old_vec g)). clearbody v.
  assert (K : forall (k k' : string), String.eqb k' k = false -> k' <> k) by (intros k k' E ->; now rewrite String.eqb_refl in E).
  constructor.
  - eexists. split; reflexivity.
  - unfold test_scalars, key.
    repeat (apply Forall_cons; [step_down;
      repeat (rewrite mfind_mset_same || rewrite mfind_mset_other by (apply K; reflexivity)); try reflexivity|]). apply Forall_nil.
  - eexists. split; [reflexivity|]. split; [now rewrite lset_length, resize_length|]. apply lset_nth_same. rewrite resize_length. lia.
  - eexists. split; [reflexivity|]. eexists. reflexivity.
  - eexists. split; [unfold key; step_down; rewrite mfind_mset_same; reflexivity|]. eexists. reflexivity.
  - eexists. split; [reflexivity|]. eexists. reflexivity.
  - eexists. split; [reflexivity|]. do 2 (split; [reflexivity|]). apply mat22.
  - eexists. split; [reflexivity|]. do 2 (split; [reflexivity|]). apply mat22.
Qed.
Lemma overwrite_root g x : x_data (overwrite_at (cid (x_data x)) g x) = fst (label (cid (x_data x)) g (x_next x)).
Proof.
  unfold overwrite_at. destruct (label _ _ _) as [c n]. cbn [x_data fst].
  destruct (x_data x); [rewrite store_leaf|rewrite store_vec|rewrite store_map]; cbn [cid]; now rewrite Nat.eqb_refl.
Qed.
Theorem C97_test_data_partial : forall h name, exists x, named name (after (h ++ [FillForTest name])) = Some x /\
  active name (after (h ++ [FillForTest name])) /\ test_data (value (x_data x)).
Proof.
  intros h name. unfold after. rewrite run_app. pose proof (run_inv h _ cinv0) as I. generalize dependent (snd (run h cstate0)). intros s I.
  cbn [run exec]. cbv zeta.
  assert (S : exists i x, c_active (select name s) = Some i /\ mfind (cstr name) (c_names (select name s)) = Some i /\ nth_error (c_heap (select name s)) i = Some x).
  { destruct I as (D & F & Ms). unfold select. destruct (mfind (cstr name) (c_names s)) as [i|] eqn:E; cbn [c_active c_names c_heap].
    - rewrite Forall_forall in F. pose proof (F _ (mfind_in _ _ _ E)) as L. cbn [snd] in L. apply nth_error_Some in L.
      destruct (nth_error (c_heap s) i) as [x|] eqn:Ex; [|congruence]. exists i, x. auto.
    - exists (length (c_heap s)), explorer0. rewrite mfind_mset_same. split; [reflexivity|]. split; [reflexivity|].
      rewrite nth_error_app2, Nat.sub_diag by lia. reflexivity. }
  destruct S as (i & x & Ea & En & Ex). rewrite Ea, Ex. cbn [snd]. unfold named, active. cbn [set_heap c_names c_heap c_active]. rewrite En.
  eexists. split; [apply lset_nth_same, nth_error_Some; congruence|]. split; [exists i; auto|].
  rewrite overwrite_root. pose proof (label_ok (cid (x_data x)) (fill_value (value (x_data x))) (x_next x)) as (_ & L2 & _). rewrite L2. apply fill_data.
Qed.
(** But it is not the same when the function is called twice: the second call keeps the four
    strings, the three integers and the four complex numbers of the first and adds to them. *)
Theorem C97_again_refuted : exists name x y v w, named name (after [FillForTest name]) = Some x /\ named name (after [FillForTest name; FillForTest name]) = Some y /\
  sub [SIdx 3] (value (x_data x)) = Some (GVStr v) /\ sub [SIdx 3] (value (x_data y)) = Some (GVStr w) /\ length v = 4%nat /\ length w = 8%nat.
Proof. exists "a"%string. do 4 eexists. split; [vm_compute; reflexivity|]. split; [vm_compute; reflexivity|]. split; [vm_compute; reflexivity|]. split; [vm_compute; reflexivity|]. split; reflexivity. Qed.

Print Assumptions C96_nothing_selected.
Print Assumptions C96_selected.
Print Assumptions C96_codes.
Print Assumptions C97_test_data_partial.
Print Assumptions C97_again_refuted.
