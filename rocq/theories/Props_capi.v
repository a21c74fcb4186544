(** C50-C53: the C interface. *)
From Coq Require Import ZArith Bool Lia Ascii String List Sorted.
From Verif Require Import Base F64 StrMap Value MBasic MGet MMap MMat MPromote MRef MCapi SCapi LCapi LCapi2 LCapi3.
Import ListNotations.
Local Open Scope Z_scope.

(** ** C50: the cursor stays valid *)

(** Histories without GC_fill_for_test and GC_get_next_key. *)
Definition plain (k : ccall) : Prop :=
  match k with FillForTest _ => False | Do GetNextKey => False | _ => True end.

Lemma plain_step k s t : nsees s t -> plain k -> exists o t', nexec k t = Some (o, t').
Proof.
  intros (E1 & E2 & F & A & B) P. destruct k as [name|name|name|name|name|k]; cbn [nexec]; eauto; [contradiction|].
  rewrite <- E2. destruct (c_active s) as [i|]; [|eauto]. specialize (A i eq_refl).
  destruct (nth_error (n_all t) i) as [[[g cur] it]|] eqn:Ni.
  - destruct k; try contradiction; cbn [iexec]; destruct (sexec _ (g, cur)); eauto.
  - apply nth_error_None in Ni. rewrite <- (F2_length _ _ _ F) in Ni. lia.
Qed.
Lemma plain_run ks : forall s t, nsees s t -> Forall plain ks -> exists os t', nrun ks t = Some (os, t').
Proof.
  induction ks as [|k ks IH]; intros s t H P; cbn [nrun]; [eauto|]. inversion P; subst.
  destruct (plain_step k s t H) as (o & t1 & E); [assumption|]. rewrite E. destruct (nexec_ok _ _ _ _ _ H E) as (s1 & _ & H1).
  destruct (IH s1 t1 H1) as (os & t2 & E2); [assumption|]. rewrite E2. eauto.
Qed.

(** After any such history, whatever containers were created, selected and deleted: no call
    has followed a pointer to an object that is gone, and the stack of every container is a
    chain of objects inside it, the first its root and each a direct element of the one
    before, or it is empty. *)
Theorem C50_chain_partial ks : Forall plain ks ->
  let '(rs, s) := run ks cstate0 in
  ~ In Dangling rs /\
  Forall (fun x => x_head x = [] \/ exists p c, reaches (x_data x) (rev (x_head x)) p c) (c_heap s).
Proof.
  intros P. destruct (plain_run ks _ _ nstate0_ok P) as (os & t & E).
  destruct (run_ok ks _ _ _ _ nstate0_ok E) as (s & R & (_ & _ & F & _)). rewrite R. split.
  - intros H. apply in_map_iff in H. destruct H as (o & H & _). discriminate.
  - clear -F. induction F as [|x [[g cur] it] l l' (_ & (Hv & _)) F IH]; constructor; auto.
    destruct Hv as [_ Hv]. cbn [fst snd] in Hv. destruct cur as [p|]; [right|left]; eauto.
Qed.
(** Every history, also with these two calls: as long as GC_get_next_key is used only while
    the map it runs over (and what encloses it) was not changed, and GC_fill_for_test only
    with the cursor at the root, all results are those of the machine that works with values
    and paths instead of pointers. *)
Theorem C50_paths_partial ks os t : nrun ks nstate0 = Some (os, t) -> fst (run ks cstate0) = map Ret os.
Proof. intros E. destruct (run_ok ks _ _ _ _ nstate0_ok E) as (s & R & _). now rewrite R. Qed.
(** What that machine says in the main cases. *)
Theorem C50_set_get g p e : sub p g = Some e -> forall i,
  let s := snd (sexec (SetInt i) (g, Some p)) in
  sub p (fst s) = Some (GInt i) /\ sexec GetInt s = (Ok (VInt i), s).
Proof.
  intros H i. assert (forall p g e x, sub p g = Some e -> sub p (put p x g) = Some x) as A.
  { clear. induction p as [|[k|n] p IH]; intros g e x.
    - cbn. destruct x; auto.
    - destruct g; cbn [sub put]; try discriminate. destruct (mfind k m) as [y|] eqn:E; [|discriminate]. intros S.
      cbn [sub]. destruct (mfind_split _ _ _ E) as (m1 & m2 & -> & N). rewrite mupd_app_mid, mfind_app_mid by assumption. eauto.
    - destruct g; cbn [sub put]; try discriminate. destruct (znth n v) as [y|] eqn:E; [|discriminate]. intros S.
      cbn [sub]. destruct (znth_split' _ _ _ E) as (l1 & l2 & -> & L & N). rewrite lset_app_mid, znth_app_mid by assumption. eauto. }
  unfold sexec. cbn [top_call]. rewrite H. cbn [fst snd sets set_int]. rewrite (A _ _ _ _ H). split; [reflexivity|].
  cbn -[put sub]. unfold set_int. rewrite (put_same _ _ _ (A _ _ _ (GInt i) H)). reflexivity.
Qed.

(** False as stated: GC_fill_for_test while the cursor is on an element, and GC_get_next_key
    after the map was replaced. *)
Theorem C50_fill_refuted :
  fst (run [New "a"; Do (SetVector 1); Do (PushVectorPosition 0); FillForTest "a"; Do GetType]%string cstate0)
  = [Ret (Ok c_ok); Ret (Ok c_ok); Ret (Ok c_ok); Ret (Ok c_ok); Dangling].
Proof. vmc. Qed.
Theorem C50_iterator_refuted :
  fst (run [New "a"; Do SetMap; Do (PushMapPosition "k"); Do PopHead; Do InitMapKey; Do (SetInt 1); Do GetNextKey]%string cstate0)
  = [Ret (Ok c_ok); Ret (Ok c_ok); Ret (Ok c_ok); Ret (Ok c_ok); Ret (Ok c_ok); Ret (Ok c_ok); Dangling].
Proof. vmc. Qed.

Example C50_ex :
  Forall plain [New "a"; Do SetMap; Do (PushMapPosition "x"); Do (SetVector 2); Do (PushVectorPosition 5); Do (SetInt 3); Do PopHead;
                Select "b"; Delete "a"; Do (SetInt 1)]%string /\
  exists t, nrun [New "a"; Do SetMap; Do (PushMapPosition "x"); Do PopHead; Do InitMapKey; Do GetNextKey; Do (PushMapPosition "x"); Do (SetInt 1);
                  Do PopHead; Do GetNextKey]%string nstate0
            = Some (map Ok [c_ok; c_ok; c_ok; c_ok; c_ok; VStr (Some "x"%string); c_ok; c_ok; c_ok; VStr (Some EmptyString)], t).
Proof. split; [repeat constructor|]. eexists. vm_compute. reflexivity. Qed.

(** ** C51: named containers are independent *)

(** The container a name stands for. *)
Definition named (name : string) (s : cstate) : option explorer :=
  match mfind (cstr name) (c_names s) with Some i => nth_error (c_heap s) i | None => None end.
(** [k] is a call with the name [name]. *)
Definition mentions (name : string) (k : ccall) : Prop :=
  match k with
  | New n | Select n | MemPtr n | Delete n | FillForTest n => cstr n = cstr name
  | Do _ => False
  end.
(** The active container is the one called [name]. *)
Definition active (name : string) (s : cstate) : Prop :=
  exists i, c_active s = Some i /\ mfind (cstr name) (c_names s) = Some i.
(** The state after a history. *)
Definition after (ks : list ccall) : cstate := snd (run ks cstate0).

Definition cinv (s : cstate) : Prop :=
  NoDup (map snd (c_names s)) /\ Forall (fun ni => (snd ni < length (c_heap s))%nat) (c_names s) /\ msorted (c_names s).
Lemma mset_new_names (m : list (string * nat)) k n : mfind k m = None ->
  NoDup (map snd m) -> Forall (fun ni => (snd ni < n)%nat) m -> NoDup (map snd (mset k n m)).
Proof.
  intros H D F. destruct (mset_absent k n m H) as (m1 & m2 & -> & ->). rewrite map_app in *. cbn [map snd].
  apply NoDup_Add with (a := n) (l := map snd m1 ++ map snd m2); [apply Add_app|]. split; [exact D|].
  intros X. rewrite <- map_app in X. apply in_map_iff in X. destruct X as (y & Ey & Iy). rewrite Forall_forall in F. apply F in Iy. lia.
Qed.
Lemma merase_names (m : list (string * nat)) k : NoDup (map snd m) -> NoDup (map snd (merase k m)).
Proof.
  induction m as [|[k' v] t IH]; cbn [merase map]; intros D; [exact D|]. inversion D as [|? ? D1 D2]; subst. cbn [snd] in D1.
  assert (NoDup (v :: map snd (merase k t))) as G.
  { constructor; [|auto]. intros X. apply D1. apply in_map_iff in X. destruct X as (y & <- & Iy). apply in_map. eapply merase_incl; eauto. }
  destruct (String.compare k k'); [exact D2|exact G|exact G].
Qed.
Lemma select_inv name s : cinv s -> cinv (select name s).
Proof.
  intros (D & F & S). unfold select. destruct (mfind (cstr name) (c_names s)) eqn:E; [split; auto|].
  split; [|split]; cbn [c_names c_heap].
  - now apply mset_new_names.
  - apply mset_forall; cbn [snd]; rewrite app_length; cbn; [lia|]. eapply Forall_impl; [|exact F]. cbn. intros; lia.
  - now apply mset_sorted.
Qed.
Lemma set_heap_inv i x s : cinv s -> cinv (set_heap i x s).
Proof. intros (D & F & S). split; [|split]; cbn [set_heap c_names c_heap]; auto. now rewrite lset_length. Qed.
Lemma exec_inv k s : cinv s -> cinv (snd (exec k s)).
Proof.
  intros H. destruct k as [name|name|name|name|name|k]; cbn [exec snd]; try now apply select_inv.
  - destruct H as (D & F & S). split; [|split]; cbn [c_names c_heap]; [now apply merase_names | now apply merase_forall | now apply merase_sorted].
  - pose proof (select_inv name s H) as H1. cbn zeta. destruct (c_active _); [|exact H1]. destruct (nth_error _ _); [|exact H1]. now apply set_heap_inv.
  - destruct (c_active s); [|exact H]. destruct (nth_error _ _); [|exact H]. destruct (xexec k e). now apply set_heap_inv.
Qed.
Lemma run_inv ks : forall s, cinv s -> cinv (snd (run ks s)).
Proof.
  induction ks as [|k ks IH]; intros s H; cbn [run]; [exact H|]. pose proof (exec_inv k s H) as H1. destruct (exec k s) as [r s1].
  specialize (IH s1 H1). destruct (run ks s1). exact IH.
Qed.
Lemma cinv0 : cinv cstate0.
Proof. split; [|split]; constructor. Qed.
Lemma run_app k1 k2 : forall s, snd (run (k1 ++ k2) s) = snd (run k2 (snd (run k1 s))).
Proof.
  induction k1 as [|k t IH]; intros s; cbn [app run]; [reflexivity|]. destruct (exec k s) as [r s1]. specialize (IH s1).
  destruct (run (t ++ k2) s1), (run t s1). exact IH.
Qed.

Lemma names_inj (l : list (string * nat)) a b i : NoDup (map snd l) -> mfind a l = Some i -> mfind b l = Some i -> a = b.
Proof.
  intros D H1 H2. apply mfind_in in H1, H2. revert D H1 H2. induction l as [|[k n] t IH]; cbn [map snd]; intros D H1 H2; [destruct H1|].
  inversion D as [|? ? X D2]; subst. destruct H1 as [H1|H1], H2 as [H2|H2].
  - congruence.
  - injection H1 as -> ->. exfalso. apply X. apply in_map_iff. now exists (b, i).
  - injection H2 as -> ->. exfalso. apply X. apply in_map_iff. now exists (a, i).
  - auto.
Qed.
(** Different names never stand for the same container. *)
Theorem C51_distinct ks n1 n2 i :
  mfind (cstr n1) (c_names (after ks)) = Some i -> mfind (cstr n2) (c_names (after ks)) = Some i -> cstr n1 = cstr n2.
Proof.
  pose proof (run_inv ks _ cinv0) as (D & _). fold (after ks) in D. now apply names_inj.
Qed.

Lemma nth_lset_other {A} i j (x : A) l : i <> j -> nth_error (lset i x l) j = nth_error l j.
Proof. revert i j. induction l as [|a t IH]; intros [|i] [|j] H; cbn; auto; try contradiction. Qed.
Lemma select_named name n s x : cinv s -> cstr n <> cstr name -> named name s = Some x -> ~ active name s ->
  named name (select n s) = Some x /\ ~ active name (select n s).
Proof.
  intros (D & F & S) Ne H Ha. unfold named, active, select in *. destruct (mfind (cstr n) (c_names s)) as [j|] eqn:En; cbn [c_names c_heap c_active].
  - split; [exact H|]. intros (i & E1 & E2). injection E1 as ->. apply Ne. exact (names_inj _ _ _ _ D En E2).
  - rewrite mfind_mset_other by congruence. destruct (mfind (cstr name) (c_names s)) as [i|] eqn:E; [|discriminate]. split.
    + rewrite nth_error_app1; [exact H|]. apply nth_error_Some. now rewrite H.
    + intros (i' & E1 & E2). injection E1 as <-. injection E2 as ->. assert (nth_error (c_heap s) (length (c_heap s)) = None) as Z by now apply nth_error_None.
      congruence.
Qed.
Lemma exec_named name k s x : cinv s -> ~ mentions name k -> named name s = Some x -> ~ active name s ->
  named name (snd (exec k s)) = Some x /\ ~ active name (snd (exec k s)).
Proof.
  intros I M H Ha. destruct k as [n|n|n|n|n|k]; cbn [mentions exec snd] in *; try now apply select_named.
  - unfold named, active in *. cbn [c_names c_heap c_active]. rewrite mfind_merase_other by congruence. auto.
  - destruct (select_named name n s x I M H Ha) as [H1 A1]. cbn zeta. destruct (c_active (select n s)) as [i|] eqn:Ei; [|auto].
    destruct (nth_error (c_heap (select n s)) i) as [y|]; [|auto]. cbn [snd].
    unfold named, active in *. cbn [set_heap c_names c_heap c_active]. rewrite Ei in *.
    destruct (mfind (cstr name) (c_names (select n s))) as [j|] eqn:Ej; [|discriminate]. split; [|exact A1].
    rewrite nth_lset_other; [exact H1|]. intros ->. apply A1. eauto.
  - destruct (c_active s) as [i|] eqn:Ei; [|auto]. destruct (nth_error (c_heap s) i) as [y|]; [|auto]. destruct (xexec k y) as [r y']. cbn [snd].
    unfold named, active in *. cbn [set_heap c_names c_heap c_active]. rewrite Ei in *.
    destruct (mfind (cstr name) (c_names s)) as [j|] eqn:Ej; [|discriminate]. split; [|exact Ha].
    rewrite nth_lset_other; [exact H|]. intros ->. apply Ha. eauto.
Qed.
(** While another container is active and the name is not used, the named container keeps its
    value, its cursor and its iterator. *)
Theorem C51_independent h ks name x :
  named name (after h) = Some x -> ~ active name (after h) -> Forall (fun k => ~ mentions name k) ks ->
  named name (after (h ++ ks)) = Some x.
Proof.
  unfold after. rewrite run_app. pose proof (run_inv h _ cinv0) as I. generalize dependent (snd (run h cstate0)). clear h.
  induction ks as [|k ks IH]; intros s I H Ha M; cbn [run snd]; [exact H|]. inversion M; subst.
  destruct (exec_named name k s x I) as [H1 A1]; try assumption. pose proof (exec_inv k s I) as I1. destruct (exec k s) as [r s1]. cbn [snd] in *.
  specialize (IH s1 I1 H1 A1 ltac:(assumption)). destruct (run ks s1). exact IH.
Qed.

(** Selecting the name again gives the same container, unless it was deleted in between. *)
Definition deletes (name : string) (k : ccall) : Prop := match k with Delete n => cstr n = cstr name | _ => False end.
Lemma exec_index name k s i : ~ deletes name k -> mfind (cstr name) (c_names s) = Some i ->
  mfind (cstr name) (c_names (snd (exec k s))) = Some i.
Proof.
  intros M H. assert (forall n, mfind (cstr name) (c_names (select n s)) = Some i) as A.
  { intros n. unfold select. destruct (mfind (cstr n) (c_names s)) eqn:E; [exact H|]. cbn [c_names]. rewrite mfind_mset_other; [exact H|]. congruence. }
  destruct k as [n|n|n|n|n|k]; cbn [deletes exec snd] in *; auto.
  - cbn [c_names]. rewrite mfind_merase_other by congruence. exact H.
  - cbn zeta. destruct (c_active (select n s)); [|apply A]. destruct (nth_error (c_heap (select n s)) n0); apply A.
  - destruct (c_active s); [|exact H]. destruct (nth_error (c_heap s) n); [|exact H]. destruct (xexec k e). exact H.
Qed.
Lemma run_index name ks : forall s i, Forall (fun k => ~ deletes name k) ks -> mfind (cstr name) (c_names s) = Some i ->
  mfind (cstr name) (c_names (snd (run ks s))) = Some i.
Proof.
  induction ks as [|k ks IH]; intros s i M H; cbn [run snd]; [exact H|]. inversion M; subst.
  pose proof (exec_index name k s i ltac:(assumption) H) as H1. destruct (exec k s) as [r s1]. cbn [snd] in H1.
  specialize (IH s1 i ltac:(assumption) H1). destruct (run ks s1). exact IH.
Qed.
Theorem C51_reselect h ks name : Forall (fun k => ~ deletes name k) ks ->
  exists i, c_active (after (h ++ [Select name])) = Some i /\
            c_active (after (h ++ [Select name] ++ ks ++ [Select name])) = Some i /\
            (forall j, c_active (after (h ++ [New name])) = Some j -> j = i).
Proof.
  intros M. unfold after. rewrite !run_app. cbn [run exec snd]. set (s := snd (run h cstate0)).
  assert (exists i, c_active (select name s) = Some i /\ mfind (cstr name) (c_names (select name s)) = Some i) as (i & A & F).
  { unfold select. destruct (mfind (cstr name) (c_names s)) as [j|] eqn:E; cbn [c_active c_names]; [eauto|]. rewrite mfind_mset_same. eauto. }
  exists i. split; [exact A|]. split.
  - pose proof (run_index name ks (select name s) i M F) as F'. unfold select at 1. rewrite F'. reflexivity.
  - rewrite A. congruence.
Qed.
Example C51_ex :
  named "a" (after [New "a"; Do (SetInt 4); New "b"]%string) = Some (X (CLeaf 0 (GInt 4)) [O] None None 1) /\
  ~ active "a" (after [New "a"; Do (SetInt 4); New "b"]%string) /\
  Forall (fun k => ~ mentions "a" k) [Do (SetString "z"); Delete "b"; Select "c"; Do GetInt]%string.
Proof.
  split; [vmc|]. split.
  - intros (i & H1 & H2). vm_compute in H1, H2. congruence.
  - repeat constructor; cbn; try tauto; discriminate.
Qed.

(** ** C52: exceptions do not leave the C functions: refuted *)

(** GC_get_int on a string. *)
Theorem C52_refuted :
  fst (run [New "a"; Do (SetString "x"); Do GetInt]%string cstate0) = [Ret (Ok c_ok); Ret (Ok c_ok); Ret Throw].
Proof. vmc. Qed.
(** The functions that do not catch: all getters, and GC_set_vector_of_*. *)
Definition uncaught (k : call) : bool :=
  match k with
  | GetType | GetTypeName | GetBool | GetInt | GetLong | GetReal | GetComplex | GetComplexRe | GetComplexIm | GetString
  | GetBoolAtPos _ | GetIntAtPos _ | GetRealAtPos _ | GetComplexAtPos _ | GetComplexRealAtPos _ | GetComplexImagAtPos _
  | GetStringAtPos _ | GetRealAtCoor _ _ | GetComplexAtCoor _ _ | GetComplexRealAtCoor _ _ | GetComplexImagAtCoor _ _
  | SetVecBool _ _ | SetVecInt _ _ | SetVecReal _ _ | SetVecComplex _ _ _ | SetVecString _ _
  | GetVectorSize | GetNumRows | GetNumCols => true
  | _ => false
  end.
(** All other functions never let an exception out, in any state. *)
Theorem C52_status_partial k s s' : exec k s = (Ret Throw, s') -> exists u, k = Do u /\ uncaught u = true.
Proof.
  destruct k as [n|n|n|n|n|k]; cbn [exec]; try discriminate.
  - cbn zeta. destruct (c_active (select n s)); [|discriminate]. destruct (nth_error _ _); discriminate.
  - intros H. exists k. split; [reflexivity|]. destruct (c_active s); [|discriminate]. destruct (nth_error (c_heap s) n) as [x|]; [|discriminate].
    destruct (xexec k x) as [r x'] eqn:E. injection H as -> _. clear -E.
    destruct k; try reflexivity; exfalso; unfold xexec in E; cbn [top_call] in E;
      unfold on_top, x_pop, x_reset, x_push_pos, x_push_key, x_init_key, x_next_key in E;
      repeat match type of E with
      | (match ?m with _ => _ end) = _ => destruct m
      | (let '(_, _) := ?m in _) = _ => destruct m
      end; try discriminate; cbn [gc_try] in E; repeat match type of E with context [match ?o with _ => _ end] => destruct o end; discriminate.
Qed.
(** They do when every position has been popped. *)
Theorem C52_popped u s i x : uncaught u = true -> c_active s = Some i -> nth_error (c_heap s) i = Some x -> x_head x = [] ->
  fst (exec (Do u) s) = Ret Throw.
Proof.
  intros U A N H. cbn [exec]. rewrite A, N. destruct u; try discriminate U; unfold xexec; cbn [top_call]; unfold on_top; rewrite H; reflexivity.
Qed.
(** At a position whose value is [e], a scalar getter throws exactly when the container is
    neither empty nor of its type. *)
Definition own_type (u : call) (e : gc) : bool :=
  match u, e with
  | (GetBool | GetInt | GetLong | GetReal | GetComplex | GetComplexRe | GetComplexIm | GetString), GNone => true
  | GetBool, GBool _ | GetInt, GInt _ | GetLong, GLong _ | GetReal, GReal _ | GetString, GStr _ => true
  | (GetComplex | GetComplexRe | GetComplexIm), GComplex _ => true
  | _, _ => false
  end.
Theorem C52_scalar_getters u g p e :
  In u [GetBool; GetInt; GetLong; GetReal; GetComplex; GetComplexRe; GetComplexIm; GetString] -> sub p g = Some e ->
  (fst (sexec u (g, Some p)) = Throw <-> own_type u e = false).
Proof.
  intros H S. repeat (destruct H as [<-|H]; [unfold sexec; cbn [top_call]; rewrite S; destruct e; cbn; split; congruence|]). contradiction.
Qed.

(** ** C53: GC_init_map_key and GC_get_next_key *)

(** The j-th answer over a map with keys [keys]: the j-th key as a C string, then "". *)
Definition answer (keys : list string) (j : nat) : out rv := Ok (VStr (Some (nth j (map cstr keys) EmptyString))).
(** The results of the GC_get_next_key calls among [cs], whose results are [os]. *)
Fixpoint next_keys (cs : list call) (os : list (out rv)) : list (out rv) :=
  match cs, os with
  | GetNextKey :: cs', o :: os' => o :: next_keys cs' os'
  | _ :: cs', _ :: os' => next_keys cs' os'
  | _, _ => []
  end.
Lemma nrun_app k1 k2 : forall s os t, nrun (k1 ++ k2) s = Some (os, t) ->
  exists o1 o2 s1, nrun k1 s = Some (o1, s1) /\ nrun k2 s1 = Some (o2, t) /\ os = o1 ++ o2.
Proof.
  induction k1 as [|k k1 IH]; intros s os t; cbn [app nrun].
  - intros H. exists [], os, s. auto.
  - destruct (nexec k s) as [[o s1]|]; [|discriminate]. destruct (nrun (k1 ++ k2) s1) as [[os1 s2]|] eqn:E; [|discriminate].
    intros H. apply Some_inj in H. injection H as <- <-. destruct (IH _ _ _ E) as (a & b & s3 & H1 & H2 & ->). rewrite H1.
    exists (o :: a), b, s3. auto.
Qed.
Lemma nth_lset_same {A} i (x y : A) l : nth_error l i = Some y -> nth_error (lset i x l) i = Some x.
Proof. revert i. induction l as [|a t IH]; intros [|i]; cbn; try discriminate; auto. Qed.
Lemma answers_shift keys n : map (answer (tl keys)) (seq 0 n) = map (answer keys) (seq 1 n).
Proof.
  rewrite <- seq_shift, map_map. apply List.map_ext. intros j. unfold answer. destruct keys; cbn; [destruct j|]; reflexivity.
Qed.
Lemma iterate_from cs : forall t i st p keys os t',
  n_active t = Some i -> nth_error (n_all t) i = Some (st, Live p keys) -> ~ In InitMapKey cs ->
  nrun (map Do cs) t = Some (os, t') ->
  next_keys cs os = map (answer keys) (seq 0 (length (next_keys cs os))).
Proof.
  assert (forall cs t i st os t', n_active t = Some i -> nth_error (n_all t) i = Some (st, Lost) -> ~ In InitMapKey cs ->
    nrun (map Do cs) t = Some (os, t') -> next_keys cs os = []) as L.
  { clear cs. intros cs. induction cs as [|c cs IH]; intros t i st os t' A N K R; cbn [map nrun nexec] in R; [destruct os; reflexivity|].
    rewrite A, N in R. destruct (iexec c (st, Lost)) as [[o st1]|] eqn:E; [|discriminate].
    destruct (nrun (map Do cs) _) as [[os1 t2]|] eqn:R1; [|discriminate]. apply Some_inj in R. injection R as <- <-.
    assert (exists s1, st1 = (s1, Lost) /\ c <> GetNextKey) as (s1 & -> & Nk).
    { destruct st as [g cur]. destruct c; cbn [iexec] in E; try discriminate; try (exfalso; apply K; now left);
        destruct (sexec _ (g, cur)); apply Some_inj in E; injection E as <- <-; eexists; split; try reflexivity; discriminate. }
    assert (next_keys (c :: cs) (o :: os1) = next_keys cs os1) as -> by (destruct c; try reflexivity; contradiction).
    eapply IH; [| |intros X; apply K; now right|exact R1]; [reflexivity|]. cbn [n_all]. eapply nth_lset_same; eauto. }
  induction cs as [|c cs IH]; intros t i st p keys os t' A N K R; cbn [map nrun nexec] in R; [destruct os; reflexivity|].
  rewrite A, N in R. destruct (iexec c (st, Live p keys)) as [[o st1]|] eqn:E; [|discriminate].
  destruct (nrun (map Do cs) _) as [[os1 t2]|] eqn:R1; [|discriminate]. apply Some_inj in R. injection R as <- <-.
  assert (K' : ~ In InitMapKey cs) by (intros X; apply K; now right).
  assert (Z : forall s', nth_error (lset i s' (n_all t)) i = Some s') by (intros; eapply nth_lset_same; eauto).
  assert (c = GetNextKey \/ c <> GetNextKey) as [->|Nk] by (destruct c; auto; right; discriminate).
  - assert (o = answer keys 0 /\ exists s1, st1 = (s1, Live p (tl keys))) as (-> & s1 & ->).
    { destruct st as [g cur]. cbn [iexec] in E. destruct keys; apply Some_inj in E; injection E as <- <-; cbn; eauto. }
    pose proof (IH _ i s1 p (tl keys) os1 t2 (eq_refl : n_active (SCapi.N (n_names t) (lset i (s1, Live p (tl keys)) (n_all t)) (Some i)) = Some i) (Z _) K' R1) as IH'.
    cbn [next_keys length seq map]. f_equal. rewrite <- answers_shift. exact IH'.
  - assert (next_keys (c :: cs) (o :: os1) = next_keys cs os1) as -> by (destruct c; try reflexivity; contradiction).
    assert (exists s1, st1 = (s1, Live p keys) \/ st1 = (s1, Lost)) as (s1 & [->| ->]).
    { destruct st as [g cur]. destruct c; try contradiction; cbn [iexec] in E; try (exfalso; apply K; now left);
        destruct (sexec _ (g, cur)) as [oo ss]; apply Some_inj in E; injection E as <- <-; exists ss;
        destruct cur; auto; match goal with |- context [if ?b then _ else _] => destruct b end; auto. }
    + eapply IH; [| |exact K'|exact R1]; [reflexivity|apply Z].
    + rewrite (L cs (SCapi.N (n_names t) (lset i (s1, Lost) (n_all t)) (Some i)) i s1 os1 t2); [reflexivity|reflexivity|apply Z|exact K'|exact R1].
Qed.

(** After any history [h] that ends with the cursor of the active container on a map [m], and
    GC_init_map_key, the calls of GC_get_next_key in the calls [cs] that follow return the keys of [m] in order,
    each once, and then "" for ever, also with other calls in between; the machine of C50 gives
    a result as long as no call in between changed the map or a container around it. *)
Theorem C53_iteration h os1 t i g p it m cs os t' :
  nrun h nstate0 = Some (os1, t) -> n_active t = Some i -> nth_error (n_all t) i = Some ((g, Some p), it) -> sub p g = Some (GMap m) ->
  ~ In InitMapKey cs ->
  nrun (h ++ Do InitMapKey :: map Do cs) nstate0 = Some (os1 ++ Ok c_ok :: os, t') ->
  StronglySorted slt (map fst m) /\
  fst (run (h ++ Do InitMapKey :: map Do cs) cstate0) = map Ret (os1 ++ Ok c_ok :: os) /\
  next_keys cs os = map (answer (map fst m)) (seq 0 (length (next_keys cs os))).
Proof.
  intros H A N S K R. split; [|split].
  - pose proof (nrun_wf _ nstate0 _ _ (Forall_nil _) H) as W. pose proof (nth_error_Forall _ _ _ _ W N) as Wg. unfold iwf in Wg. cbn [fst] in Wg.
    pose proof (sub_wfm _ _ _ Wg S) as Wm. apply wfm_map in Wm. apply Wm.
  - now apply (C50_paths_partial _ _ t').
  - destruct (nrun_app _ _ _ _ _ R) as (o1 & o2 & s1 & R1 & R2 & E). rewrite H in R1. apply Some_inj in R1. injection R1 as <- <-.
    apply app_inv_head in E. subst o2. cbn [nrun nexec] in R2. rewrite A, N in R2. cbn [iexec sexec top_call] in R2. rewrite S in R2.
    destruct (nrun (map Do cs) _) as [[os2 t2]|] eqn:R3; [|discriminate]. apply Some_inj in R2. injection R2 as -> ->.
    eapply iterate_from; [| |exact K|exact R3]; [reflexivity|]. cbn [n_all]. eapply nth_lset_same; eauto.
Qed.
(** In particular, nothing but GC_get_next_key, any number of times. *)
Theorem C53_keys h os1 t i g p it m n :
  nrun h nstate0 = Some (os1, t) -> n_active t = Some i -> nth_error (n_all t) i = Some ((g, Some p), it) -> sub p g = Some (GMap m) ->
  StronglySorted slt (map fst m) /\
  fst (run (h ++ Do InitMapKey :: map Do (repeat GetNextKey n)) cstate0)
  = map Ret (os1 ++ Ok c_ok :: map (answer (map fst m)) (seq 0 n)).
Proof.
  intros H A N S.
  assert (forall n t st p keys, n_active t = Some i -> nth_error (n_all t) i = Some (st, Live p keys) ->
    exists t', nrun (map Do (repeat GetNextKey n)) t = Some (map (answer keys) (seq 0 n), t')) as L.
  { clear. induction n as [|n IH]; intros t st p keys A N; cbn [repeat map nrun nexec seq]; [eauto|]. rewrite A, N.
    assert (exists s1, iexec GetNextKey (st, Live p keys) = Some (answer keys 0, (s1, Live p (tl keys)))) as (s1 & ->).
    { destruct st as [g cur]. cbn [iexec]. destruct keys; cbn; eauto. }
    edestruct (IH (SCapi.N (n_names t) (lset i (s1, Live p (tl keys)) (n_all t)) (Some i)) s1 p (tl keys)) as (t' & E);
      [reflexivity|cbn [n_all]; eapply nth_lset_same; eauto|].
    exists t'. match goal with |- context [nrun ?a ?b] => replace (nrun a b) with (Some (map (answer (tl keys)) (seq 0 n), t')) by (symmetry; exact E) end.
    now rewrite answers_shift. }
  edestruct (L n (SCapi.N (n_names t) (lset i ((g, Some p), Live p (map fst m)) (n_all t)) (n_active t)) (g, Some p) p (map fst m)) as (t' & E);
    [exact A | cbn [n_all]; eapply nth_lset_same; eauto|].
  assert (nrun (h ++ Do InitMapKey :: map Do (repeat GetNextKey n)) nstate0 = Some (os1 ++ Ok c_ok :: map (answer (map fst m)) (seq 0 n), t')) as R.
  { assert (forall k1 k2 s o1 s1 o2 s2, nrun k1 s = Some (o1, s1) -> nrun k2 s1 = Some (o2, s2) -> nrun (k1 ++ k2) s = Some (o1 ++ o2, s2)) as App.
    { clear. induction k1 as [|k k1 IH]; intros k2 s o1 s1 o2 s2; cbn [app nrun].
      - intros X Y. apply Some_inj in X. injection X as <- <-. exact Y.
      - destruct (nexec k s) as [[o s3]|]; [|discriminate]. destruct (nrun k1 s3) as [[os3 s4]|] eqn:Z; [|discriminate].
        intros X Y. apply Some_inj in X. injection X as <- <-. rewrite (IH _ _ _ _ _ _ Z Y). reflexivity. }
    apply (App _ _ _ _ t _ _ H). cbn [nrun nexec]. rewrite A, N. cbn [iexec sexec top_call]. rewrite S. rewrite <- A.
    match goal with |- context [nrun ?a ?b] => replace (nrun a b) with (Some (map (answer (map fst m)) (seq 0 n), t')) by (symmetry; exact E) end. reflexivity. }
  split.
  - pose proof (nrun_wf _ nstate0 _ _ (Forall_nil _) H) as W. pose proof (nth_error_Forall _ _ _ _ W N) as Wg. unfold iwf in Wg. cbn [fst] in Wg.
    pose proof (sub_wfm _ _ _ Wg S) as Wm. apply wfm_map in Wm. apply Wm.
  - now apply (C50_paths_partial _ _ t').
Qed.
Example C53_ex :
  exists os1 t it, nrun [New "a"; Do SetMap; Do (PushMapPosition "y"); Do PopHead; Do (PushMapPosition "x"); Do PopHead]%string nstate0 = Some (os1, t) /\
    n_active t = Some O /\ nth_error (n_all t) 0 = Some ((GMap [("x", GNone); ("y", GNone)]%string, Some []), it).
Proof. do 3 eexists. split; [vm_compute; reflexivity|]. split; reflexivity. Qed.

Print Assumptions C50_chain_partial.
Print Assumptions C50_paths_partial.
Print Assumptions C50_set_get.
Print Assumptions C50_fill_refuted.
Print Assumptions C50_iterator_refuted.
Print Assumptions C51_distinct.
Print Assumptions C51_independent.
Print Assumptions C51_reselect.
Print Assumptions C52_refuted.
Print Assumptions C52_status_partial.
Print Assumptions C52_popped.
Print Assumptions C52_scalar_getters.
Print Assumptions C53_iteration.
Print Assumptions C53_keys.
