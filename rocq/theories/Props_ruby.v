(** C86-C89: the Ruby interface. *)
From Coq Require Import ZArith Bool Lia Ascii String List.
From Verif Require Import Base F64 StrMap Value SGet SPromote SCollapse MBasic MGet MMap MMat MPromote MRef MCapi SCapi
  LCapi LCapi2 LPromote LCollapse MRuby SRuby Props_mat Props_capi Props_capi2 LRuby LRuby2.
Import ListNotations.
Local Open Scope Z_scope.

Lemma root_sees x it : x_head x = [cid (x_data x)] ->
  isees x ((value (x_data x), Some []), Lost) /\ (it = Lost -> isees x ((value (x_data x), Some []), it)).
Proof.
  intros H. assert (isees x ((value (x_data x), Some []), Lost)) as A.
  { split; [|exact I]. split; [reflexivity|]. cbn [snd fst]. rewrite H. cbn [rev app]. exists (x_data x). constructor. }
  split; [exact A|now intros ->].
Qed.
Lemma sees_root x g : sees x (g, Some []) -> value (x_data x) = g /\ x_head x = [cid (x_data x)].
Proof.
  intros [V (c & R)]. cbn [fst snd] in *. split; [exact V|]. inversion R as [c0 E1 E2 E3| |]; subst.
  rewrite <- (rev_involutive (x_head x)). rewrite <- E1 || rewrite <- E2 || idtac. reflexivity || (rewrite <- E1; reflexivity).
Qed.

(** A method that selects the object and then runs [p]. *)
Lemma on_object {A} id s g (p : prog A) o s1 : holds_at_root id s g -> runs p (g, Some []) o s1 ->
  exists i x', mfind (cstr id) (c_names s) = Some i /\ (i < length (c_heap s))%nat /\
    prun (ck (Select id) p) s = (o, C (c_names s) (lset i x' (c_heap s)) (Some i)) /\ sane x' /\ sees x' s1.
Proof.
  intros (i & x & M & Nx & Sx & V & H) R. subst g. destruct (R Lost) as (it & E).
  destruct (irun_prun p (C (c_names s) (c_heap s) (Some i)) i x _ o (s1, it) eq_refl Nx Sx (proj1 (root_sees x Lost H)) E) as (x' & P & S' & V').
  exists i, x'. split; [exact M|]. split; [apply nth_error_Some; congruence|]. split; [|split; [exact S'|apply V']].
  unfold ck. cbn [prun exec]. unfold select. rewrite M. unfold c_ok. cbv iota beta. rewrite P. reflexivity.
Qed.
Lemma on_object_root {A} id s g (p : prog A) o g' : holds_at_root id s g -> runs p (g, Some []) o (g', Some []) ->
  exists s', prun (ck (Select id) p) s = (o, s') /\ holds_at_root id s' g'.
Proof.
  intros H R. destruct (on_object id s g p o _ H R) as (i & x' & M & L & P & S & V). eexists. split; [exact P|].
  exists i, x'. cbn [c_names c_heap]. split; [exact M|]. destruct (sees_root _ _ V) as [V1 V2].
  split; [|split; [exact S|split; assumption]].
  destruct (nth_error (c_heap s) i) as [y|] eqn:E; [eapply nth_lset; exact E|]. apply nth_error_None in E. lia.
Qed.

(** ** C86: load stores the data *)

(** A new object is empty. *)
Theorem C86_new id s : mfind (cstr id) (c_names s) = None ->
  exists s', prun (rb_new id) s = (Ok tt, s') /\ holds_at_root id s' GNone.
Proof.
  intros M. eexists. split; [reflexivity|]. cbn [snd]. unfold select. rewrite M. exists (length (c_heap s)), explorer0. cbn [c_names c_heap].
  split; [apply mfind_mset_same|]. split; [rewrite nth_error_app2, Nat.sub_diag by lia; reflexivity|].
  split; [exact (proj1 explorer0_ok)|]. split; reflexivity.
Qed.
(** Loading a value whose texts and numbers fit, into an object whose content it replaces: the
    object then holds the same data, and the next call finds the cursor at the root. *)
Theorem C86_load_partial id s g r : holds_at_root id s g -> storable r -> replaces r g ->
  exists g' s', prun (rb_load id r) s = (Ok tt, s') /\ holds_at_root id s' g' /\ data_of g' = rdat r.
Proof.
  intros H St Rp. assert (sub [] g = Some g) as S0 by (now destruct g).
  destruct (from_rb_runs r g [] g St S0 Rp) as (e' & (D & _) & R). cbn [put] in R.
  destruct (on_object_root _ _ _ _ _ _ H R) as (s' & P & H'). exists e', s'. auto.
Qed.
(** An Array of integers over a vector of integers: the new elements come after the old ones. *)
Theorem C86_append_refuted id s v l : holds_at_root id s (GVInt v) -> l <> [] -> Forall int32 l ->
  exists s', prun (rb_load id (RArr (map RInt l))) s = (Ok tt, s') /\ holds_at_root id s' (GVInt (v ++ l)).
Proof.
  intros H N F. assert (runs (from_rb (RArr (map RInt l))) (GVInt v, Some []) (Ok tt) (GVInt (v ++ l), Some [])) as R.
  { destruct l as [|z l]; [contradiction|]. change (from_rb (RArr (map RInt (z :: l)))) with (add_to_vector from_rb (map RInt (z :: l))).
    cbn [add_to_vector map]. eapply runs_ck; [discriminate|reflexivity|]. cbn [put].
    change (RInt z :: map RInt l) with (map RInt (z :: l)) at 2. generalize (from_vector from_rb (RInt z :: map RInt l)). intros fb.
    generalize (z :: l), F. clear. intros l. revert v. induction l as [|z l IH]; intros v F; cbn [map add_elems].
    - rewrite app_nil_r. apply runs_ret.
    - inversion F; subst. rewrite ffi_int_in by assumption. eapply runs_ck; [discriminate|reflexivity|]. cbn [put].
      replace (v ++ z :: l) with ((v ++ [z]) ++ l) by (now rewrite <- app_assoc). now apply IH. }
  exact (on_object_root _ _ _ _ _ _ H R).
Qed.
(** A Hash over a map: the old entries stay; an Array that begins with a text and has a number
    after it: an exception; nil: nothing happens. *)
Definition session (ps : list (prog unit)) : out unit * cstate := prun (fold_right (fun p q => pbind p (fun _ => q)) (PRet tt) ps) cstate0.
Definition content (id : string) (s : cstate) : option gc := option_map (fun x => value (x_data x)) (named id s).
Theorem C86_merge_refuted :
  let '(o, s) := session [rb_new "1"; rb_load "1" (RHash [("a", RInt 1)]); rb_load "1" (RHash [("b", RInt 2)])]%string in
  o = Ok tt /\ content "1" s = Some (GMap [("a", GInt 1); ("b", GInt 2)])%string.
Proof. vmc. Qed.
Theorem C86_text_refuted :
  fst (session [rb_new "1"; rb_load "1" (RArr [RStr "a"; RInt 1])]%string) = Throw /\
  fst (session [rb_new "1"; rb_load "1" (RArr [RInt 1; RStr "a"])]%string) = Ok tt.
Proof. vmc. Qed.
Theorem C86_nil_refuted :
  let '(o, s) := session [rb_new "1"; rb_load "1" (RInt 5); rb_load "1" RNil]%string in
  o = Ok tt /\ content "1" s = Some (GInt 5).
Proof. vmc. Qed.

(** ** C87: get_data gives the content *)

(** Containers without a map. *)
Theorem C87_read_partial id s g fuel : holds_at_root id s g -> small g -> has_map g = false -> (nesting g < fuel)%nat ->
  exists s', prun (rb_get_data fuel id) s = (Ok (rb_of g), s') /\ holds_at_root id s' g.
Proof.
  intros H Sm N L. assert (sub [] g = Some g) as S0 by (now destruct g).
  destruct (to_rb_runs fuel g g [] S0 Sm) as (o & s' & R & [[-> [D|D]]|(-> & -> & D)]); [congruence|lia|].
  exact (on_object_root _ _ _ _ _ _ H R).
Qed.
(** The value is the content, for the types that Ruby has. *)
Theorem C87_same_data g : faithful g -> has_map g = false -> small g /\ rdat (rb_of g) = data_of g.
Proof. intros F N. split; [now apply faithful_small|now apply faithful_back]. Qed.
(** A container with a map in it: get_data never ends. *)
Theorem C87_map_refuted id s g : holds_at_root id s g -> small g -> has_map g = true ->
  forall fuel, fst (prun (rb_get_data fuel id) s) = Diverge.
Proof.
  intros H Sm N fuel. assert (sub [] g = Some g) as S0 by (now destruct g).
  destruct (to_rb_runs fuel g g [] S0 Sm) as (o & s' & R & [[-> _]|(-> & _ & D)]); [|congruence].
  destruct (on_object _ _ _ _ _ _ H R) as (i & x' & _ & _ & P & _). unfold rb_get_data. now rewrite P.
Qed.
(** Other types: nil. *)
Theorem C87_nil_refuted id s g : holds_at_root id s g ->
  In (tag_of g) [TPtr; TComplex; TVPtr; TVLong; TMInt; TMLong] ->
  exists s', prun (rb_get_data 1 id) s = (Ok RNil, s').
Proof.
  intros H T. assert (rb_of g = RNil /\ small g /\ has_map g = false /\ nesting g = O) as (E & Sm & N & Z).
  { destruct g; cbn [tag_of In] in T; try (exfalso; intuition discriminate);
      (split; [reflexivity|split; [exact I|split; reflexivity]]). }
  destruct (C87_read_partial id s g 1 H Sm N) as (s' & P & _); [lia|]. rewrite E in P. eauto.
Qed.

(** ** C88: what was loaded comes back *)

Lemma prun_bind {A B} (p : prog A) (f : A -> prog B) : forall s,
  prun (pbind p f) s = match prun p s with
                       | (Ok a, s') => prun (f a) s'
                       | (Throw, s') => (Throw, s')
                       | (Undef, s') => (Undef, s')
                       | (Diverge, s') => (Diverge, s')
                       end.
Proof.
  induction p as [a| | |k g IH]; intros s; cbn [pbind prun]; try reflexivity.
  destruct (exec k s) as [[[v| | |]|] s1]; try reflexivity. apply IH.
Qed.
Theorem C88_round_trip_partial id s g r : holds_at_root id s g -> storable r -> replaces r g -> has_hash r = false ->
  exists n, forall fuel, (n <= fuel)%nat ->
    exists r' s', prun (pbind (rb_load id r) (fun _ => rb_get_data fuel id)) s = (Ok r', s') /\ rdat r' = rdat r.
Proof.
  intros H St Rp N. assert (sub [] g = Some g) as S0 by (now destruct g).
  destruct (from_rb_runs r g [] g St S0 Rp) as (e & (D & F & M) & R). cbn [put] in R.
  destruct (on_object_root _ _ _ _ _ _ H R) as (s1 & P & H'). rewrite N in M.
  exists (S (nesting e)). intros fuel L. destruct (C87_same_data e F M) as [Sm Ed].
  destruct (C87_read_partial id s1 e fuel H' Sm M ltac:(lia)) as (s2 & P2 & _).
  exists (rb_of e), s2. split; [|congruence]. rewrite prun_bind. unfold rb_load. now rewrite P.
Qed.
(** With a Hash anywhere in the value, reading it back never ends. *)
Theorem C88_hash_refuted id s g r : holds_at_root id s g -> storable r -> replaces r g -> has_hash r = true ->
  forall fuel, fst (prun (pbind (rb_load id r) (fun _ => rb_get_data fuel id)) s) = Diverge.
Proof.
  intros H St Rp N fuel. assert (sub [] g = Some g) as S0 by (now destruct g).
  destruct (from_rb_runs r g [] g St S0 Rp) as (e & (D & F & M) & R). cbn [put] in R.
  destruct (on_object_root _ _ _ _ _ _ H R) as (s1 & P & H'). rewrite prun_bind. unfold rb_load. rewrite P.
  apply (C87_map_refuted id s1 e H'); [now apply faithful_small|congruence].
Qed.
(** The kinds may change: booleans come back as integers, Symbols as Strings, integers beside
    floats as floats. *)
Theorem C88_kind_refuted :
  fst (prun (pbind (rb_new "1") (fun _ => pbind (rb_load "1" (RArr [RNil; RBool true; RSym "a"; RArr [RInt 1; RFloat 0]])) (fun _ => rb_get_data 3 "1")))%string cstate0)
  = Ok (RArr [RNil; RInt 1; RStr "a"; RArr [RFloat (f_of_Z 1); RFloat 0]])%string.
Proof. vmc. Qed.

(** ** C89: objects and calls do not disturb each other *)

(** A load that succeeds, of any value, leaves the cursor at the root. *)
Theorem C89_back_partial id s g r s' : holds_at_root id s g -> prun (rb_load id r) s = (Ok tt, s') ->
  exists g', holds_at_root id s' g'.
Proof.
  intros H P. assert (sub [] g = Some g) as S0 by (now destruct g).
  destruct (from_rb_back r g [] g S0) as (o & s1 & R & B).
  destruct (on_object _ _ _ _ _ _ H R) as (i & x' & _ & _ & P' & _). unfold rb_load in P. rewrite P in P'. injection P' as <- _.
  destruct (B eq_refl) as (g' & e' & -> & _).
  destruct (on_object_root _ _ _ _ _ _ H R) as (s2 & P2 & H2). rewrite P in P2. injection P2 as <-. eauto.
Qed.

Inductive only_do {A} : prog A -> Prop :=
| od_ret a : only_do (PRet a)
| od_raise : only_do PRaise
| od_loop : only_do PLoop
| od_call k f : (forall v, only_do (f v)) -> only_do (PCall (Do k) f).
Lemma od_bind {A B} (p : prog A) (f : A -> prog B) : only_do p -> (forall a, only_do (f a)) -> only_do (pbind p f).
Proof. induction 1; intros Hf; cbn [pbind]; try constructor; auto. Qed.
Lemma od_ck {A} k (p : prog A) : only_do p -> only_do (ck (Do k) p).
Proof. intros H. constructor. intros [[| |]| | | |]; try constructor. exact H. Qed.
Lemma od_nock {A} k (p : prog A) : only_do p -> only_do (nock (Do k) p).
Proof. intros H. now constructor. Qed.
Lemma od_int {A} z (p : prog A) : only_do p -> only_do (ffi_int z p).
Proof. intros H. unfold ffi_int. destruct (_ && _); [exact H|constructor]. Qed.
Lemma od_str {A} z (p : prog A) : only_do p -> only_do (ffi_str z p).
Proof. intros H. unfold ffi_str. destruct (String.eqb _ _); [exact H|constructor]. Qed.
Lemma od_from r : only_do (from_rb r).
Proof.
  induction r as [|b|z|x|t|t|l IH|m IH] using rb_nest_ind; cbn [from_rb].
  - constructor.
  - apply od_ck. constructor.
  - apply od_int, od_ck. constructor.
  - apply od_ck. constructor.
  - apply od_str, od_ck. constructor.
  - apply od_str, od_ck. constructor.
  - destruct l as [|x l]; [apply od_ck; constructor|]. change (only_do (add_to_vector from_rb (x :: l))).
    assert (only_do (from_vector from_rb (x :: l))) as V.
    { apply od_int, od_nock. generalize 0. induction IH as [|y t Hy Ht IHt]; intros i; cbn [from_elems]; [constructor|].
      apply od_ck, od_bind; [exact Hy|]. intros _. apply od_ck, IHt. }
    assert (forall t, only_do (add_elems (from_vector from_rb (x :: l)) t)) as W.
    { induction t as [|y t IHt]; cbn [add_elems]; [constructor|]. destruct y; try exact V; try apply od_int; try apply od_str; now apply od_ck. }
    destruct x; cbn [add_to_vector]; try exact V; apply od_ck, W.
  - apply od_nock. induction IH as [|[k v] t Hv Ht IHt]; cbn [from_entries]; [constructor|].
    apply od_str, od_ck, od_bind; [exact Hv|]. intros _. apply od_ck, IHt.
Qed.
Lemma od_ask k : only_do (ask k).
Proof. constructor. intros v. constructor. Qed.
Lemma od_each {A B} (body : A -> prog B) l : (forall a, only_do (body a)) -> only_do (each body l).
Proof. intros H. induction l as [|a t IH]; cbn [each]; [constructor|]. apply od_bind; [apply H|]. intros b. apply od_bind; [exact IH|]. intros; constructor. Qed.
Lemma od_ask_int {A} k (f : Z -> prog A) : (forall z, only_do (f z)) -> only_do (ask_int k f).
Proof. intros H. constructor. intros [z| | | |]; try constructor. apply H. Qed.
Lemma od_to fuel : only_do (to_rb fuel).
Proof.
  induction fuel as [|n IH]; cbn [to_rb]; [constructor|]. constructor. intros v.
  assert (only_do (nock (Do GetTypeName) (PRet RNil))) as D by (apply od_nock; constructor).
  assert (forall re im, only_do (ask_pair re im)) as Pr.
  { intros re im. apply od_bind; [apply od_ask|]. intros a. apply od_bind; [apply od_ask|]. intros b. constructor. }
  destruct v as [| | |[t|]|]; try exact D.
  repeat match goal with |- only_do (if ?c then _ else _) => destruct c end; try apply od_ask; try exact D.
  all: try (apply od_ask_int; intros z; apply od_bind; [apply od_each; intros i; first [apply od_ask | apply Pr]|intros; constructor]).
  - apply od_ask_int. intros nr. apply od_ask_int. intros nc. apply od_bind; [|intros; constructor]. apply od_each. intros i.
    apply od_bind; [|intros; constructor]. apply od_each. intros j. apply od_ask.
  - apply od_ask_int. intros nr. apply od_ask_int. intros nc. apply od_bind; [|intros; constructor]. apply od_each. intros i.
    apply od_bind; [|intros; constructor]. apply od_each. intros j. apply Pr.
  - apply od_ask_int. intros z. apply od_bind; [|intros; constructor]. apply od_each. intros i. apply od_ck, od_bind; [exact IH|]. intros r. apply od_ck. constructor.
  - apply od_ck. apply od_bind.
    + clear -n. induction n as [|n IHn]; cbn [MRuby.next_keys]; [constructor|]. constructor. intros [| | |[k|]|]; try constructor. apply od_bind; [exact IHn|]. intros; constructor.
    + intros keys. apply od_bind; [|intros; constructor]. apply od_each. intros k. apply od_ck, od_bind; [exact IH|]. intros r. apply od_ck. constructor.
Qed.
Lemma only_do_named {A} (p : prog A) name x : only_do p -> forall s, cinv s -> named name s = Some x -> ~ active name s ->
  named name (snd (prun p s)) = Some x.
Proof.
  induction 1 as [| | |k f H IH]; intros s I N Na; cbn [prun snd]; auto.
  destruct (exec_named name (Do k) s x I (fun F => F) N Na) as [N1 A1]. pose proof (exec_inv (Do k) s I) as I1.
  destruct (exec (Do k) s) as [[[v| | |]|] s1]; cbn [snd] in *; auto.
Qed.
(** After any history, load and get_data on one object, whether they succeed or not, leave every
    other object as it is, its cursor included. *)
Theorem C89_others ks id name x : cstr id <> cstr name -> named name (after ks) = Some x ->
  (forall r, named name (snd (prun (rb_load id r) (after ks))) = Some x) /\
  (forall fuel, named name (snd (prun (rb_get_data fuel id) (after ks))) = Some x).
Proof.
  intros Ne N. pose proof (run_inv ks _ cinv0) as I. fold (after ks) in I.
  assert (forall A (p : prog A), only_do p -> named name (snd (prun (ck (Select id) p) (after ks))) = Some x) as G.
  { intros A p D. unfold ck. cbn [prun exec]. unfold c_ok. cbv iota beta.
    apply only_do_named; [exact D|now apply select_inv| |].
    - unfold named, select in *. destruct (mfind (cstr name) (c_names (after ks))) as [j|] eqn:Ej; [|discriminate].
      destruct (mfind (cstr id) (c_names (after ks))) as [i|] eqn:Ei; cbn [c_names c_heap]; [now rewrite Ej|].
      rewrite mfind_mset_other by congruence. rewrite Ej. rewrite nth_error_app1; [exact N|]. apply nth_error_Some. congruence.
    - intros (i & A1 & A2). unfold select in A1, A2.
      destruct (mfind (cstr id) (c_names (after ks))) as [j|] eqn:Ej; cbn [c_active c_names] in A1, A2; injection A1 as <-.
      + apply Ne. eapply names_inj; [apply I|exact Ej|exact A2].
      + rewrite mfind_mset_other in A2 by congruence. destruct I as (_ & F & _). rewrite Forall_forall in F. apply mfind_in in A2. apply F in A2. cbn [snd] in A2. lia. }
  split; [intros r; apply G, od_from|intros fuel; apply G, od_to].
Qed.
(** After a load that failed, the next load goes to the place where the first one stopped. *)
Theorem C89_failed_refuted :
  let s1 := snd (session [rb_new "1"; rb_load "1" (RHash [("a", RArr [RNil; RInt (2^40)])])]%string) in
  fst (session [rb_new "1"; rb_load "1" (RHash [("a", RArr [RNil; RInt (2^40)])])]%string) = Throw /\
  fst (prun (rb_load "1" (RInt 7)) s1) = Ok tt /\
  content "1" (snd (prun (rb_load "1" (RInt 7)) s1)) = Some (GMap [("a", GVec [GNone; GInt 7])])%string /\
  fst (prun (rb_get_data 9 "1") (snd (prun (rb_load "1" (RInt 7)) s1))) = Ok (RInt 7).
Proof. cbv zeta. repeat split; vm_compute; reflexivity. Qed.

(** ** Cases that meet the hypotheses *)

Definition sample : rb :=
  RArr [RInt 1; RStr "x"; RArr [RBool true; RInt 7; RFloat 0]; RArr []; RNil; RArr [RNil; RArr [RStr "u"; RSym "v"]]]%string.
Lemma fresh_object : holds_at_root "1" (snd (prun (rb_new "1") cstate0)) GNone.
Proof. destruct (C86_new "1" cstate0 eq_refl) as (s' & E & H). rewrite E. exact H. Qed.
Lemma sample_ok : storable sample.
Proof.
  unfold sample. cbn [storable all_of lead is_scalar is_text forallb andb].
  repeat match goal with |- _ /\ _ => split | |- True => exact I end; try (cbv; congruence); try discriminate;
    try (intros _; reflexivity); try (vm_compute; intuition discriminate).
Qed.
Example C86_case : storable sample /\ replaces sample GNone /\ replaces sample (GMap []) /\ replaces (RInt 3) (GVec [GNone]) /\
  storable (RHash [("b", sample); ("a", RHash [])])%string.
Proof.
  split; [exact sample_ok|]. split; [discriminate|]. split; [discriminate|]. split; [discriminate|].
  cbn [storable all_of map fst snd]. split; [|split; [|split; [exact sample_ok|]]].
  - constructor; [cbn; intuition discriminate|]. constructor; [intros []|constructor].
  - split; [vm_compute; intuition discriminate|]. split; [vm_compute; intuition discriminate|exact I].
  - split; [|exact I]. split; [constructor|]. split; exact I.
Qed.
Example C87_case : small (GVec [GMReal (Mat 2 1 [7; 8]); GVComplex [(1, 2)]; GVec []]) /\
  rb_of (GVec [GMReal (Mat 2 1 [7; 8]); GVComplex [(1, 2)]; GVec []])
  = RArr [RArr [RArr [RFloat 7]; RArr [RFloat 8]]; RArr [RArr [RFloat 1; RFloat 2]]; RArr []] /\
  small (GVec [GInt 1; GMap []]) /\ has_map (GVec [GInt 1; GMap []]) = true.
Proof.
  cbn [small all_of]. unfold msize, mat_ok. cbn [mrows mcols mdata].
  repeat match goal with |- _ /\ _ => split | |- True => exact I end; try (cbv; congruence).
Qed.
Example C88_case : holds_at_root "1" (snd (prun (rb_new "1") cstate0)) GNone /\ storable sample /\ replaces sample GNone /\ has_hash sample = false.
Proof. split; [exact fresh_object|]. split; [exact sample_ok|]. split; [discriminate|reflexivity]. Qed.
Example C89_case : exists x, cstr "1" <> cstr "2" /\ named "2" (after [New "2"; Do (SetInt 5)]%string) = Some x /\
  fst (prun (rb_load "1" (RHash [("a", RNil)])) (after [New "2"; Do (SetInt 5)]))%string = Ok tt.
Proof. eexists. split; [discriminate|]. split; [vm_compute; reflexivity|vm_compute; reflexivity]. Qed.

Print Assumptions C86_load_partial.
Print Assumptions C87_read_partial.
Print Assumptions C87_map_refuted.
Print Assumptions C88_round_trip_partial.
Print Assumptions C89_back_partial.
Print Assumptions C89_others.
