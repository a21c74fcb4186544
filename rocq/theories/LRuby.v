(** Proofs about the Ruby interface: running its methods on values and positions. *)
From Coq Require Import ZArith Bool Lia Ascii String List.
From Verif Require Import Base F64 StrMap Value SGet SPromote SCollapse MBasic MGet MMap MMat MPromote MRef MCapi SCapi
  LCapi LCapi2 LPromote LCollapse MRuby SRuby Props_mat Props_capi Props_capi2.
Import ListNotations.
Local Open Scope Z_scope.

Lemma rb_nest_ind (P : rb -> Prop) :
  P RNil -> (forall b, P (RBool b)) -> (forall z, P (RInt z)) -> (forall x, P (RFloat x)) ->
  (forall s, P (RStr s)) -> (forall s, P (RSym s)) ->
  (forall l, Forall P l -> P (RArr l)) ->
  (forall m, Forall (fun kv => P (snd kv)) m -> P (RHash m)) -> forall r, P r.
Proof.
  intros H1 H2 H3 H4 H5 H6 H7 H8. fix IH 1. intros [|b|z|x|t|t|l|m].
  - exact H1.
  - apply H2.
  - apply H3.
  - apply H4.
  - apply H5.
  - apply H6.
  - apply H7. induction l as [|a l IHl]; constructor; [apply IH|exact IHl].
  - apply H8. induction m as [|[k v] m IHm]; constructor; [apply IH|exact IHm].
Qed.
Lemma all_of_Forall {A} (P : A -> Prop) l : all_of P l <-> Forall P l.
Proof.
  induction l as [|a t IH]; cbn [all_of]; split; intros H; auto.
  - constructor; [tauto|]. apply IH. tauto.
  - inversion H; subst. split; [assumption|]. now apply IH.
Qed.

(** ** Programs on values and positions *)

Fixpoint irun {A} (p : prog A) (t : istate) : option (out A * istate) :=
  match p with
  | PRet a => Some (Ok a, t)
  | PRaise => Some (Throw, t)
  | PLoop => Some (Diverge, t)
  | PCall (Do k) f =>
      match iexec k t with
      | Some (Ok v, t') => irun (f v) t'
      | Some (Diverge, t') => Some (Diverge, t')
      | Some (_, t') => Some (Undef, t')
      | None => None
      end
  | PCall _ _ => None
  end.

Lemma nth_lset {A} (l : list A) : forall i x y, nth_error l i = Some x -> nth_error (lset i y l) i = Some y.
Proof. induction l as [|a t IH]; intros [|i] x y H; cbn in *; try discriminate; eauto. Qed.
Lemma lset_twice {A} (l : list A) : forall i x y, lset i y (lset i x l) = lset i y l.
Proof. induction l as [|a t IH]; intros [|i] x y; cbn; try reflexivity. now rewrite IH. Qed.
Lemma lset_id {A} (l : list A) : forall i x, nth_error l i = Some x -> lset i x l = l.
Proof. induction l as [|a t IH]; intros [|i] x H; cbn in *; try discriminate; [congruence|]. now rewrite IH. Qed.

Lemma irun_prun {A} (p : prog A) : forall s i x t o t',
  c_active s = Some i -> nth_error (c_heap s) i = Some x -> sane x -> isees x t -> irun p t = Some (o, t') ->
  exists x', prun p s = (o, set_heap i x' s) /\ sane x' /\ isees x' t'.
Proof.
  induction p as [a| | |k f IH]; intros s i x t o t' Ha Hx Hs Hv E; cbn [irun] in E.
  1-3: injection E as <- <-; exists x; split; [|split; assumption]; cbn [prun]; f_equal; destruct s as [a1 a2 a3];
       unfold set_heap; cbn in *; now rewrite lset_id.
  destruct k as [| | | | |k]; try discriminate.
  destruct (iexec k t) as [[o1 t1]|] eqn:E1; [|discriminate].
  destruct (explorer_istep _ _ _ _ _ Hs Hv E1) as (x1 & X1 & S1 & V1).
  cbn [prun exec]. rewrite Ha, Hx, X1.
  destruct o1 as [v| | |]; try (injection E as <- <-; exists x1; split; [reflexivity|split; assumption]).
  destruct (IH v (set_heap i x1 s) i x1 t1 o t') as (x2 & R & S2 & V2); auto.
  { cbn. eapply nth_lset; eassumption. }
  exists x2. split; [|auto]. rewrite R. f_equal. unfold set_heap. cbn. now rewrite lset_twice.
Qed.

(** Whatever the iterator over keys, the program gives [o] and ends in [s']. *)
Definition runs {A} (p : prog A) (s : sstate) (o : out A) (s' : sstate) : Prop :=
  forall it, exists it', irun p (s, it) = Some (o, (s', it')).

Lemma runs_ret {A} (a : A) s : runs (PRet a) s (Ok a) s.
Proof. intros it. now exists it. Qed.
Lemma runs_raise {A} s : runs (@PRaise A) s Throw s.
Proof. intros it. now exists it. Qed.
Lemma runs_loop {A} s : runs (@PLoop A) s Diverge s.
Proof. intros it. now exists it. Qed.
Lemma iexec_sexec k s it : k <> GetNextKey ->
  exists it', iexec k (s, it) = Some (fst (sexec k s), (snd (sexec k s), it')).
Proof.
  intros N. destruct s as [g cur]. destruct (sexec k (g, cur)) as [o s'] eqn:E.
  destruct k; try contradiction; cbn [iexec fst snd]; rewrite E; eauto.
Qed.
Lemma runs_call {A} k (f : rv -> prog A) s v s1 o s2 : k <> GetNextKey ->
  sexec k s = (Ok v, s1) -> runs (f v) s1 o s2 -> runs (PCall (Do k) f) s o s2.
Proof.
  intros N E R it. destruct (iexec_sexec k s it N) as (it1 & E1). rewrite E in E1. cbn [fst snd] in E1.
  destruct (R it1) as (it2 & E2). exists it2. cbn [irun]. now rewrite E1.
Qed.
Lemma runs_ck {A} k (p : prog A) s s1 o s2 : k <> GetNextKey ->
  sexec k s = (Ok c_ok, s1) -> runs p s1 o s2 -> runs (ck (Do k) p) s o s2.
Proof. intros N E R. eapply runs_call; eauto. Qed.
Lemma irun_bind {A B} (p : prog A) (f : A -> prog B) : forall t,
  irun (pbind p f) t =
  match irun p t with
  | Some (Ok a, t') => irun (f a) t'
  | Some (Throw, t') => Some (Throw, t')
  | Some (Undef, t') => Some (Undef, t')
  | Some (Diverge, t') => Some (Diverge, t')
  | None => None
  end.
Proof.
  induction p as [a| | |k g IH]; intros t; cbn [pbind irun]; try reflexivity.
  destruct k as [| | | | |k]; try reflexivity.
  destruct (iexec k t) as [[[v| | |] t1]|]; try reflexivity. apply IH.
Qed.
Lemma runs_bind {A B} (p : prog A) (f : A -> prog B) s a s1 o s2 :
  runs p s (Ok a) s1 -> runs (f a) s1 o s2 -> runs (pbind p f) s o s2.
Proof.
  intros R1 R2 it. destruct (R1 it) as (it1 & E1). destruct (R2 it1) as (it2 & E2). exists it2. now rewrite irun_bind, E1.
Qed.
Lemma runs_bind_fail {A B} (p : prog A) (f : A -> prog B) s o s1 :
  runs p s o s1 -> (forall a, o <> Ok a) -> runs (pbind p f) s (match o with Throw => Throw | Undef => Undef | _ => Diverge end) s1.
Proof.
  intros R1 N it. destruct (R1 it) as (it1 & E1). exists it1. rewrite irun_bind, E1. destruct o; try reflexivity. now destruct (N a).
Qed.
Lemma runs_each {A B} (body : A -> prog B) (f : A -> B) s l :
  (forall a, In a l -> runs (body a) s (Ok (f a)) s) -> runs (each body l) s (Ok (map f l)) s.
Proof.
  induction l as [|a t IH]; intros H; cbn [each map]; [apply runs_ret|].
  eapply runs_bind; [apply H; now left|]. eapply runs_bind; [apply IH; intros; apply H; now right|]. apply runs_ret.
Qed.

(** ** Positions *)

Lemma sub_app p q g e : sub p g = Some e -> sub (p ++ q) g = sub q e.
Proof.
  revert g e. induction p as [|[k|n] p IH]; intros g e H; cbn [app] in *.
  - cbn in H. destruct g; injection H as <-; reflexivity.
  - destruct g; cbn [sub] in *; try discriminate. destruct (mfind k m); [auto|discriminate].
  - destruct g; cbn [sub] in *; try discriminate. destruct (znth n v); [auto|discriminate].
Qed.
Lemma put_app p q g e x : sub p g = Some e -> put (p ++ q) x g = put p (put q x e) g.
Proof.
  revert g e. induction p as [|[k|n] p IH]; intros g e H; cbn [app] in *.
  - cbn in H. destruct g; injection H as <-; reflexivity.
  - destruct g; cbn [sub put] in *; try discriminate. destruct (mfind k m); [|discriminate]. now rewrite (IH _ _ H).
  - destruct g; cbn [sub put] in *; try discriminate. destruct (znth n v); [|discriminate]. now rewrite (IH _ _ H).
Qed.
Lemma put_put p : forall g e x y, sub p g = Some e -> put p x (put p y g) = put p x g.
Proof.
  induction p as [|[k|n] p IH]; intros g e x y H; [reflexivity| |]; destruct g; cbn [sub put] in *; try discriminate.
  - destruct (mfind k m) as [a|] eqn:E; [|discriminate]. destruct (mfind_split _ _ _ E) as (m1 & m2 & -> & N).
    rewrite mupd_app_mid by assumption. cbn [put]. rewrite mfind_app_mid, !mupd_app_mid by assumption. now rewrite (IH _ _ _ _ H).
  - destruct (znth n v) as [a|] eqn:E; [|discriminate]. destruct (znth_split' _ _ _ E) as (l1 & l2 & -> & L & N).
    rewrite lset_app_mid by assumption. cbn [put]. rewrite znth_app_mid by assumption. rewrite !lset_app_mid by assumption.
    now rewrite (IH _ _ _ _ H).
Qed.
Lemma pop_back p st g : sexec PopHead (g, Some (p ++ [st])) = (Ok c_ok, (g, Some p)).
Proof.
  unfold sexec. cbn [top_call]. destruct (p ++ [st]) eqn:E; [now destruct p|]. rewrite <- E. now rewrite removelast_last.
Qed.
Lemma push_pos g p v i : sub p g = Some (GVec v) -> 0 <= i < zlen v -> zlen v < 2^31 ->
  sexec (PushVectorPosition i) (g, Some p) = (Ok c_ok, (g, Some (p ++ [SIdx i]))).
Proof.
  intros S H L. unfold sexec. cbn [top_call]. rewrite S. rewrite (u31 i) by lia.
  rewrite (proj2 (Z.ltb_lt i (2^32 - 1))) by lia. rewrite (proj2 (Z.leb_gt (zlen v) i)) by lia. now rewrite (put_same _ _ _ S).
Qed.
Lemma znth_nth {A} i (l : list A) : znth (Z.of_nat i) l = nth_error l i.
Proof. unfold znth. rewrite (proj2 (Z.ltb_ge _ _)) by lia. now rewrite Nat2Z.id. Qed.

(** ** get_data *)

Lemma getter k e r g p : answer k e r -> sub p g = Some e -> k <> GetNextKey ->
  runs (ask k) (g, Some p) (Ok (rb_of_rv r)) (g, Some p).
Proof. intros A S N. eapply runs_call; [exact N|exact (C64_getters_partial k e r g p A S)|]. apply runs_ret. Qed.
Lemma ask_int_runs {A} k e z (f : Z -> prog A) g p o s : answer k e (VInt z) -> sub p g = Some e -> k <> GetNextKey ->
  runs (f z) (g, Some p) o s -> runs (ask_int k f) (g, Some p) o s.
Proof. intros H S N R. eapply runs_call; [exact N|exact (C64_getters_partial k e _ g p H S)|]. exact R. Qed.

Lemma map_seq_nth {A B} (f : Z -> B) (h : A -> B) (l : list A) :
  (forall i x, nth_error l i = Some x -> f (Z.of_nat i) = h x) ->
  map f (zseq (zlen l)) = map h l.
Proof.
  intros H. unfold zseq, zlen. rewrite Nat2Z.id, map_map.
  assert (forall n, (forall i x, nth_error l i = Some x -> f (Z.of_nat (n + i)) = h x) ->
            map (fun x => f (Z.of_nat x)) (seq n (length l)) = map h l) as G.
  { clear. induction l as [|a t IH]; intros n H; cbn [length seq map]; [reflexivity|]. f_equal.
    - rewrite <- (H O a eq_refl). f_equal. f_equal. lia.
    - apply IH. intros i x E. rewrite <- (H (S i) x E). f_equal. f_equal. lia. }
  apply (G O). exact H.
Qed.
Lemma zseq_in n i : In i (zseq n) -> 0 <= i < n.
Proof. unfold zseq. intros H. apply in_map_iff in H as (k & <- & H). apply in_seq in H. lia. Qed.

Lemma each_index {A} (body : Z -> prog rb) (v : list A) (h : A -> rb) s : zlen v < 2^31 ->
  (forall i x, holds i v x -> runs (body i) s (Ok (h x)) s) ->
  runs (each body (zseq (zlen v))) s (Ok (map h v)) s.
Proof.
  intros B H. pose (f := fun i => match znth i v with Some x => h x | None => RNil end).
  assert (map f (zseq (zlen v)) = map h v) as M.
  { apply map_seq_nth. intros i x E. unfold f. now rewrite znth_nth, E. }
  rewrite <- M. apply runs_each. intros i Hi. apply zseq_in in Hi. unfold f.
  destruct (znth i v) as [x|] eqn:E; [apply H; split; [lia|assumption]|].
  exfalso. unfold znth in E. destruct (Z.ltb_spec i 0); [lia|]. apply nth_error_None in E. unfold zlen in Hi. lia.
Qed.
Lemma to_array_runs {A} (gt : Z -> call) e (v : list A) (h : A -> rb) g p : sub p g = Some e ->
  answer GetVectorSize e (VInt (zlen v)) -> zlen v < 2^31 ->
  (forall i x, holds i v x -> exists r, answer (gt i) e r /\ h x = rb_of_rv r) -> (forall i, gt i <> GetNextKey) ->
  runs (to_array gt) (g, Some p) (Ok (RArr (map h v))) (g, Some p).
Proof.
  intros S L B H N. eapply ask_int_runs; [exact L|exact S|discriminate|].
  eapply runs_bind; [|apply runs_ret]. apply each_index; [exact B|]. intros i x Hx.
  destruct (H i x Hx) as (r & An & Er). rewrite Er. eapply getter; eauto.
Qed.
Lemma pair_runs re im e a b g p : sub p g = Some e -> answer re e (VReal a) -> answer im e (VReal b) ->
  re <> GetNextKey -> im <> GetNextKey ->
  runs (ask_pair re im) (g, Some p) (Ok (rpair (a, b))) (g, Some p).
Proof.
  intros S A1 A2 N1 N2. eapply runs_bind; [exact (getter _ _ _ _ _ A1 S N1)|]. eapply runs_bind; [exact (getter _ _ _ _ _ A2 S N2)|].
  apply runs_ret.
Qed.
Lemma to_matrix_runs {A} (cell : Z -> Z -> prog rb) e (m : mat A) (h : A -> rb) g p : sub p g = Some e -> msize m ->
  answer GetNumRows e (VInt (mrows m)) -> answer GetNumCols e (VInt (mcols m)) ->
  (forall i j x, inside m i j x -> runs (cell i j) (g, Some p) (Ok (h x)) (g, Some p)) ->
  runs (to_matrix cell) (g, Some p) (Ok (rows h m)) (g, Some p).
Proof.
  intros S (K & R & C) A1 A2 H. eapply ask_int_runs; [exact A1|exact S|discriminate|]. eapply ask_int_runs; [exact A2|exact S|discriminate|].
  unfold rows. eapply runs_bind; [|apply runs_ret].
  apply (runs_each _ (fun i => RArr (map (fun j => match entry m i j with Some x => h x | None => RNil end)
                              (map Z.of_nat (seq 0 (Z.to_nat (mcols m))))))). intros i Hi. apply zseq_in in Hi.
  eapply runs_bind; [|apply runs_ret].
  apply (runs_each _ (fun j => match entry m i j with Some x => h x | None => RNil end)). intros j Hj. apply zseq_in in Hj.
  destruct (entry_in m i j K Hi Hj) as (x & E & _). rewrite E. apply H. split; [exact K|].
  split; [lia|]. split; [lia|]. split; [lia|]. split; [lia|exact E].
Qed.

Lemma next_keys_loop n : forall s p ks, exists it, irun (MRuby.next_keys n) (s, Live p ks) = Some (Diverge, (s, it)).
Proof.
  induction n as [|n IH]; intros [g cur] p ks; cbn [MRuby.next_keys irun]; [eauto|].
  destruct ks as [|k ks]; cbn [iexec]; rewrite irun_bind.
  - destruct (IH (g, cur) p []) as (t & ->). eauto.
  - change (gc * option (list step))%type with sstate. destruct (IH (g, cur) p ks) as (t & ->). eauto.
Qed.

(** GC_to_hash at a position: the value of the container there, or no end; the latter only if
    there is a map or the nesting exceeds the fuel. *)
Definition read_at (fuel : nat) (e : gc) (s : sstate) (o : out rb) (s' : sstate) : Prop :=
  (o = Diverge /\ (has_map e = true \/ (fuel <= nesting e)%nat)) \/
  (o = Ok (rb_of e) /\ s' = s /\ has_map e = false).

Lemma each_pos_runs n g p v1 v2 :
  (forall e g p, sub p g = Some e -> small e -> exists o s', runs (to_rb n) (g, Some p) o s' /\ read_at n e (g, Some p) o s') ->
  sub p g = Some (GVec (v1 ++ v2)) -> zlen (v1 ++ v2) < 2^31 -> Forall small v2 ->
  exists o s', runs (each (fun i => ck (Do (PushVectorPosition i)) (pbind (to_rb n) (fun r => ck (Do PopHead) (PRet r))))
                      (map Z.of_nat (seq (length v1) (length v2)))) (g, Some p) o s' /\
    ((o = Diverge /\ (existsb has_map v2 = true \/ (S n <= nesting (GVec v2))%nat)) \/
     (o = Ok (map rb_of v2) /\ s' = (g, Some p) /\ existsb has_map v2 = false)).
Proof.
  intros IH. revert v1. induction v2 as [|e v2 IHv]; intros v1 S L F.
  - exists (Ok []), (g, Some p). split; [apply runs_ret|]. right. auto.
  - inversion F as [|? ? F1 F2]; subst. cbn [length seq map each].
    assert (sexec (PushVectorPosition (Z.of_nat (length v1))) (g, Some p) = (Ok c_ok, (g, Some (p ++ [SIdx (Z.of_nat (length v1))])))) as E1.
    { eapply push_pos; [exact S| |exact L]. unfold zlen. rewrite app_length. cbn [length]. lia. }
    assert (sub (p ++ [SIdx (Z.of_nat (length v1))]) g = Some e) as E2.
    { rewrite (sub_app _ _ _ _ S). cbn [sub]. rewrite znth_nth, nth_error_app2, Nat.sub_diag by lia. cbn. now destruct e. }
    destruct (IH e g _ E2 F1) as (o & s' & R & [[-> D]|(-> & -> & D)]).
    + exists Diverge, s'. split.
      * change (@Diverge (list rb)) with (match @Diverge rb with Throw => Throw | Undef => Undef | _ => @Diverge (list rb) end).
        apply runs_bind_fail; [|discriminate]. eapply runs_ck; [discriminate|exact E1|].
        change (@Diverge rb) with (match @Diverge rb with Throw => Throw | Undef => Undef | _ => @Diverge rb end) at 1.
        apply runs_bind_fail; [exact R|discriminate].
      * left. split; [reflexivity|]. cbn [existsb nesting fold_right]. destruct D as [->|D]; [now left|right; lia].
    + destruct (IHv (v1 ++ [e])) as (o & s' & R' & C); [now rewrite <- app_assoc|now rewrite <- app_assoc|assumption|].
      rewrite app_length, Nat.add_1_r in R'.
      assert (runs (ck (Do (PushVectorPosition (Z.of_nat (length v1)))) (pbind (to_rb n) (fun r => ck (Do PopHead) (PRet r)))) (g, Some p)
                (Ok (rb_of e)) (g, Some p)) as R1.
      { eapply runs_ck; [discriminate|exact E1|]. eapply runs_bind; [exact R|]. eapply runs_ck; [discriminate|apply pop_back|]. apply runs_ret. }
      destruct C as [[-> C]|(-> & -> & C)].
      * exists Diverge, s'. split.
        -- eapply runs_bind; [exact R1|].
           change (@Diverge (list rb)) with (match @Diverge (list rb) with Throw => Throw | Undef => Undef | _ => @Diverge (list rb) end) at 1.
           apply runs_bind_fail; [exact R'|discriminate].
        -- left. split; [reflexivity|]. cbn [existsb nesting fold_right] in *. destruct C as [->|C]; [left; apply orb_true_r|right; lia].
      * exists (Ok (rb_of e :: map rb_of v2)), (g, Some p). split.
        -- eapply runs_bind; [exact R1|]. eapply runs_bind; [exact R'|]. apply runs_ret.
        -- right. split; [reflexivity|]. split; [reflexivity|]. cbn [existsb]. now rewrite D.
Qed.

Lemma to_rb_runs fuel : forall e g p, sub p g = Some e -> small e ->
  exists o s', runs (to_rb fuel) (g, Some p) o s' /\ read_at fuel e (g, Some p) o s'.
Proof.
  induction fuel as [|n IH]; intros e g p S Hs.
  { exists Diverge, (g, Some p). split; [apply runs_loop|]. left. split; [reflexivity|]. right. lia. }
  assert (forall (f : rv -> prog rb) o s', runs (f (VStr (Some (type_name (tag_of e))))) (g, Some p) o s' ->
            runs (PCall (Do GetTypeName) f) (g, Some p) o s') as T.
  { intros f o s' R. eapply runs_call; [discriminate|exact (C64_getters_partial _ _ _ _ _ (ans_name e) S)|exact R]. }
  assert (forall r, read_at (Datatypes.S n) e (g, Some p) (Ok r) (g, Some p) <-> (r = rb_of e /\ has_map e = false)) as Done.
  { intros r. split; [intros [[X _]|(X & _ & H)]; [discriminate|]; apply Ok_inj in X; auto|intros [-> H]; right; auto]. }
  assert (has_map e = false -> runs (to_rb (Datatypes.S n)) (g, Some p) (Ok (rb_of e)) (g, Some p) -> exists o s',
     runs (to_rb (Datatypes.S n)) (g, Some p) o s' /\ read_at (Datatypes.S n) e (g, Some p) o s') as Fin.
  { intros H R. exists (Ok (rb_of e)), (g, Some p). split; [exact R|]. apply Done. auto. }
  destruct e; cbn [small] in Hs;
    try (apply Fin; [reflexivity|]; apply T; cbn -[to_array to_matrix to_complex_array rb_of ask nock]);
    try (eapply runs_call; [discriminate|exact (C64_getters_partial _ _ _ _ _ (ans_name _) S)|]; apply runs_ret).
  - exact (getter _ _ _ _ _ (ans_bool b) S ltac:(discriminate)).
  - exact (getter _ _ _ _ _ (ans_int i) S ltac:(discriminate)).
  - exact (getter _ _ _ _ _ (ans_long l) S ltac:(discriminate)).
  - exact (getter _ _ _ _ _ (ans_real r) S ltac:(discriminate)).
  - exact (getter _ _ _ _ _ (ans_str s) S ltac:(discriminate)).
  - eapply to_array_runs; [exact S|constructor; exact Hs|exact Hs| |discriminate]. intros i x H. eexists. split; [constructor; exact H|reflexivity].
  - eapply to_array_runs; [exact S|constructor; exact Hs|exact Hs| |discriminate]. intros i x H. eexists. split; [apply ans_int_at; exact H|reflexivity].
  - eapply to_array_runs; [exact S|constructor; exact Hs|exact Hs| |discriminate]. intros i x H. eexists. split; [apply ans_real_at; exact H|reflexivity].
  - eapply ask_int_runs; [constructor; exact Hs|exact S|discriminate|]. eapply runs_bind; [|apply runs_ret].
    apply each_index; [exact Hs|]. intros i [a b] H. eapply pair_runs; [exact S|eapply ans_re_at; exact H|eapply ans_im_at; exact H|discriminate|discriminate].
  - eapply to_array_runs; [exact S|constructor; exact Hs|exact Hs| |discriminate]. intros i x H. eexists. split; [constructor; exact H|reflexivity].
  - pose proof Hs as ((M1 & M2 & M3 & M4) & R & C). eapply to_matrix_runs; [exact S|exact Hs|constructor; lia|constructor; lia|].
    intros i j x H. exact (getter _ _ _ _ _ (ans_real_coor i j m x H) S ltac:(discriminate)).
  - pose proof Hs as ((M1 & M2 & M3 & M4) & R & C). eapply to_matrix_runs; [exact S|exact Hs|constructor; lia|constructor; lia|].
    intros i j [a b] H. eapply pair_runs; [exact S|eapply ans_re_coor; exact H|eapply ans_im_coor; exact H|discriminate|discriminate].
  - destruct Hs as [L F]. apply all_of_Forall in F.
    destruct (each_pos_runs n g p [] v IH S L F) as (o & s' & R & C). cbn [length] in R.
    assert (forall o' s'', runs (pbind (each (fun i => ck (Do (PushVectorPosition i)) (pbind (to_rb n) (fun r => ck (Do PopHead) (PRet r)))) (zseq (zlen v)))
                       (fun l => PRet (RArr l))) (g, Some p) o' s'' -> runs (to_rb (Datatypes.S n)) (g, Some p) o' s'') as W.
    { intros o' s'' X. apply T. cbn -[ask_int to_rb]. eapply ask_int_runs; [apply ans_size_vec; exact L|exact S|discriminate|]. exact X. }
    assert (zseq (zlen v) = map Z.of_nat (seq 0 (length v))) as Z1 by (unfold zseq, zlen; now rewrite Nat2Z.id).
    rewrite Z1 in W. destruct C as [[-> C]|(-> & -> & C)].
    + exists Diverge, s'. split.
      * apply W. change (@Diverge rb) with (match @Diverge (list rb) with Throw => Throw | Undef => Undef | _ => @Diverge rb end).
        apply runs_bind_fail; [exact R|discriminate].
      * left. split; [reflexivity|]. exact C.
    + exists (Ok (RArr (map rb_of v))), (g, Some p). split.
      * apply W. eapply runs_bind; [exact R|apply runs_ret].
      * right. auto.
  - exists Diverge, (g, Some p). split; [|left; split; [reflexivity|left; reflexivity]].
    apply T. cbn -[to_hash]. intros it.
    unfold to_hash, ck. cbn [irun iexec sexec top_call]. rewrite S. cbn [irun]. cbv beta iota. unfold c_ok. rewrite irun_bind.
    destruct (next_keys_loop n (g, Some p) p (map fst m)) as (t & ->). eauto.
Qed.
