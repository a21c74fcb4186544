(** Proofs about the Ruby interface: what load stores. *)
From Coq Require Import ZArith Bool Lia Ascii String List.
From Verif Require Import Base F64 StrMap Value SGet SPromote SCollapse MBasic MGet MMap MMat MPromote MRef MCapi SCapi
  LCapi LCapi2 LPromote LCollapse MRuby SRuby Props_mat Props_capi Props_capi2 LRuby.
Import ListNotations.
Local Open Scope Z_scope.

Definition good (r : rb) (e : gc) : Prop := data_of e = rdat r /\ faithful e /\ has_map e = has_hash r.

Lemma runs_top {A} k f (p : prog A) g q e e' o s : top_call k = Some (true, f) -> k <> GetNextKey ->
  sub q g = Some e -> f e = (Ok c_ok, Some e') ->
  runs p (put q e' g, Some q) o s -> runs (ck (Do k) p) (g, Some q) o s.
Proof.
  intros T N S E R. eapply runs_ck; [exact N| |exact R]. unfold sexec. rewrite T, S, E. reflexivity.
Qed.
Lemma ffi_int_in {A} z (p : prog A) : int32 z -> ffi_int z p = p.
Proof.
  intros [H1 H2]. unfold ffi_int. rewrite (proj2 (Z.leb_le _ _)), (proj2 (Z.ltb_lt _ _)); [reflexivity|lia|lia].
Qed.
Lemma ffi_str_in {A} s (p : prog A) : no_nul s -> ffi_str s p = p.
Proof. intros H. unfold ffi_str. now rewrite (cstr_id _ H), String.eqb_refl. Qed.

(** ** The typed vectors that grow *)

(** [c] is the vector after the elements [l] were pushed. *)
Definition pushed (l : list rb) (c : gc) : Prop :=
  match c with
  | GVBool v => Forall2 (fun x b => rdat x = d_int (b2z b) /\ has_hash x = false) l v
  | GVInt v => Forall2 (fun x z => (rdat x = d_int z /\ int32 z) /\ has_hash x = false) l v
  | GVReal v => Forall2 (fun x y => rdat x = d_real y /\ has_hash x = false) l v
  | GVStr v => Forall2 (fun x s => (rdat x = DStr s /\ no_nul s) /\ has_hash x = false) l v
  | GVec v => Forall2 good l v
  | _ => False
  end.
Definition push_call (x : rb) : call :=
  match x with
  | RBool b => PushBool (b2z b)
  | RInt z => PushInt z
  | RFloat r => PushReal r
  | RStr s | RSym s => PushString s
  | _ => PopHead
  end.

Lemma F2_snoc {A B} (R : A -> B -> Prop) l v a b : Forall2 R l v -> R a b -> Forall2 R (l ++ [a]) (v ++ [b]).
Proof. intros H K. apply Forall2_app; [exact H|]. constructor; [exact K|constructor]. Qed.
Lemma F2_conv {A B C} (R : A -> B -> Prop) (R' : A -> C -> Prop) (f : B -> C) l v :
  Forall2 R l v -> (forall a b, R a b -> R' a (f b)) -> Forall2 R' l (map f v).
Proof. intros H K. induction H; cbn [map]; constructor; auto. Qed.
Lemma F2_zlen {A B} (R : A -> B -> Prop) l v : Forall2 R l v -> zlen v = zlen l.
Proof. intros H. unfold zlen. f_equal. now induction H; cbn; f_equal. Qed.
Lemma b2z_data b : d_int (b2z b) = d_int (if b then 1 else 0).
Proof. now destruct b. Qed.
Lemma bool_real b : d_real (f_of_bool b) = d_int (b2z b).
Proof. apply d_real_int. exact (f_of_bool_is b). Qed.
Lemma int_real z : int32 z -> d_real (f_of_Z z) = d_int z.
Proof. intros H. apply d_real_int. now apply int32_exact. Qed.
Lemma negb_b2z b : negb (b2z b =? 0) = b.
Proof. now destruct b. Qed.

Definition elem_ok (x : rb) : Prop := is_scalar x = true /\ storable x.
Lemma push_step x c l g p : elem_ok x -> pushed l c -> zlen l < 2^31 - 1 ->
  (tag_of c = TVStr -> is_text x = true) -> sub p g = Some c ->
  exists c', pushed (l ++ [x]) c' /\ (tag_of c' = TVStr -> tag_of c = TVStr) /\
    forall fb t o s, runs (add_elems fb t) (put p c' g, Some p) o s -> runs (add_elems fb (x :: t)) (g, Some p) o s.
Proof.
  intros [Sx St] P L T S.
  assert (forall A B (R : A -> B -> Prop) l v, zlen l < 2^31 - 1 -> Forall2 R l v -> zlen v < 2^32) as Len
    by (intros A B R l0 v0 H0 H; rewrite (F2_zlen _ _ _ H); lia).
  assert (forall f c', top_call (push_call x) = Some (true, f) -> f c = (Ok c_ok, Some c') ->
            forall fb t o s, runs (add_elems fb t) (put p c' g, Some p) o s -> runs (add_elems fb (x :: t)) (g, Some p) o s) as Go.
  { intros f c' E1 E2 fb t o s R. destruct x; try discriminate; cbn [add_elems push_call storable] in *.
    - eapply runs_top; [exact E1|discriminate|exact S|exact E2|exact R].
    - rewrite ffi_int_in by assumption. eapply runs_top; [exact E1|discriminate|exact S|exact E2|exact R].
    - eapply runs_top; [exact E1|discriminate|exact S|exact E2|exact R].
    - rewrite ffi_str_in by assumption. eapply runs_top; [exact E1|discriminate|exact S|exact E2|exact R].
    - rewrite ffi_str_in by assumption. eapply runs_top; [exact E1|discriminate|exact S|exact E2|exact R]. }
  assert (forall c', pushes match x with
                     | RBool b => push_bool b c
                     | RInt z => push_int z c
                     | RFloat r => push_real r c
                     | RStr s | RSym s => push_string s c
                     | _ => (Throw, c) end = (Ok c_ok, Some c') ->
            forall fb t o s, runs (add_elems fb t) (put p c' g, Some p) o s -> runs (add_elems fb (x :: t)) (g, Some p) o s) as Go2.
  { intros c' E. destruct x; try discriminate; cbn [storable] in St.
    - eapply Go; [reflexivity|]. cbv beta. now rewrite negb_b2z.
    - eapply Go; [reflexivity|exact E].
    - eapply Go; [reflexivity|exact E].
    - eapply Go; [reflexivity|]. cbv beta. now rewrite (cstr_id _ St).
    - eapply Go; [reflexivity|]. cbv beta. now rewrite (cstr_id _ St). }
  clear Go.
  destruct c; cbn [pushed] in P; try contradiction; cbn [tag_of] in T; pose proof (Len _ _ _ _ _ L P) as Lv;
    destruct x; try discriminate; try (specialize (T eq_refl); discriminate); cbn [storable] in St;
    cbn [push_bool push_int push_real push_string promote_to_vec_int promote_to_vec_real promote_to_vector] in Go2;
    try rewrite promote_elems_ok in Go2 by exact Lv; cbn [pushes] in Go2;
    (eexists; split; [|split; [|apply Go2; reflexivity]]; cbn [pushed tag_of]; try discriminate; try (intros _; reflexivity)).
  all: apply F2_snoc;
    [ first [ exact P
            | eapply F2_conv; [exact P|]; unfold good; cbn [data_of faithful has_map]; intros a e He;
              first [ destruct He as [[He Hi] Hh] | destruct He as [He Hh] ];
              repeat match goal with |- _ /\ _ => split end; auto;
              first [ rewrite bool_real; exact He | rewrite int_real by exact Hi; exact He
                    | rewrite <- b2z_data; congruence | destruct e; split; cbv; congruence | congruence ] ]
    | unfold good; cbn [data_of faithful has_map rdat has_hash];
      repeat match goal with |- _ /\ _ => split end; auto;
      first [ rewrite bool_real; symmetry; apply b2z_data | symmetry; apply int_real; exact St | symmetry; apply b2z_data
            | destruct b; split; cbv; congruence ] ].
Qed.

Lemma lead_scalar l : Forall (fun x => is_scalar x = true) (lead l).
Proof. induction l as [|x t IH]; cbn [lead]; [constructor|]. destruct (is_scalar x) eqn:E; constructor; auto. Qed.

(** The loop of addToVector: all elements are pushed, or the fallback runs after the first ones
    were pushed. *)
Lemma add_runs fb l : forall l0 c g p, Forall storable l -> zlen (l0 ++ l) < 2^31 -> pushed l0 c ->
  (tag_of c = TVStr -> forallb is_text (lead l) = true) -> sub p g = Some c ->
  (exists c', pushed (l0 ++ l) c' /\ runs (add_elems fb l) (g, Some p) (Ok tt) (put p c' g, Some p)) \/
  (exists c', pushed (l0 ++ lead l) c' /\
     forall o s, runs fb (put p c' g, Some p) o s -> runs (add_elems fb l) (g, Some p) o s).
Proof.
  induction l as [|x l IH]; intros l0 c g p F L P T S.
  - left. exists c. rewrite app_nil_r. split; [exact P|]. rewrite (put_same _ _ _ S). apply runs_ret.
  - inversion F as [|? ? F1 F2]; subst. destruct (is_scalar x) eqn:Ex.
    + cbn [lead] in *. rewrite Ex in *. cbn [forallb] in T.
      assert (zlen l0 < 2^31 - 1) as L0 by (unfold zlen in *; rewrite app_length in L; cbn [length] in L; lia).
      destruct (push_step x c l0 g p (conj Ex F1) P L0) as (c1 & P1 & T1 & Go); [|exact S|].
      { intros H. specialize (T H). apply andb_true_iff in T. tauto. }
      assert (sub p (put p c1 g) = Some c1) as S1 by (eapply sub_put; exact S).
      destruct (IH (l0 ++ [x]) c1 (put p c1 g) p F2) as [(c2 & P2 & R2)|(c2 & P2 & R2)].
      * now rewrite <- app_assoc.
      * exact P1.
      * intros H. specialize (T (T1 H)). apply andb_true_iff in T. tauto.
      * exact S1.
      * left. exists c2. rewrite <- app_assoc in P2. split; [exact P2|]. rewrite (put_put _ _ _ _ _ S) in R2. now apply Go.
      * right. exists c2. rewrite <- app_assoc in P2. split; [exact P2|]. intros o s R. apply Go. apply R2. now rewrite (put_put _ _ _ _ _ S).
    + right. exists c. cbn [lead]. rewrite Ex, app_nil_r. split; [exact P|]. intros o s R. rewrite (put_same _ _ _ S) in R.
      destruct x; try discriminate; exact R.
Qed.

Lemma pushed_good l c : zlen l < 2^31 -> pushed l c -> good (RArr l) c.
Proof.
  intros L P. unfold good. cbn [rdat has_hash].
  assert (forall B (R : rb -> B -> Prop) (h : B -> dat) v, Forall2 R l v -> (forall x b, R x b -> h b = rdat x) -> map h v = map rdat l) as M.
  { intros B R h v H K. clear -H K. induction H; cbn [map]; [reflexivity|]. f_equal; auto. }
  assert (forall B (R : rb -> B -> Prop) v, Forall2 R l v -> (forall x b, R x b -> has_hash x = false) -> existsb has_hash l = false) as N.
  { intros B R v H K. clear -H K. induction H; cbn [existsb]; [reflexivity|]. now rewrite (K _ _ H). }
  destruct c; cbn [pushed] in P; try contradiction; cbn [data_of faithful has_map]; pose proof (F2_zlen _ _ _ P) as Lv.
  - split; [|split; [lia|]].
    + f_equal. eapply M; [exact P|]. intros x b [H _]. now rewrite H, b2z_data.
    + symmetry. eapply N; [exact P|]. intros ? ? [_ H0]; exact H0.
  - split; [|split; [lia|]].
    + f_equal. eapply M; [exact P|]. intros x b [[H _] _]. now rewrite H.
    + symmetry. eapply N; [exact P|]. intros ? ? [_ H0]; exact H0.
  - split; [|split; [lia|]].
    + f_equal. eapply M; [exact P|]. intros x b [H _]. now rewrite H.
    + symmetry. eapply N; [exact P|]. intros ? ? [_ H0]; exact H0.
  - split; [|split; [split; [lia|]|]].
    + f_equal. eapply M; [exact P|]. intros x b [[H _] _]. now rewrite H.
    + clear -P. induction P as [|x s l v H P IH]; [constructor|constructor; [tauto|exact IH]].
    + symmetry. eapply N; [exact P|]. intros ? ? [_ H0]; exact H0.
  - split; [|split; [split; [lia|]|]].
    + f_equal. eapply M; [exact P|]. intros x b [H _]. exact H.
    + apply all_of_Forall. clear -P. induction P as [|x e l v H P IH]; constructor; auto. apply H.
    + clear -P. induction P as [|x e l v H P IH]; cbn [existsb]; [reflexivity|]. destruct H as (_ & _ & ->). now rewrite IH.
Qed.

(** ** Vectors and hashes *)

Definition stores_at (r : rb) : Prop := forall g p e, storable r -> sub p g = Some e -> replaces r e ->
  exists e', good r e' /\ runs (from_rb r) (g, Some p) (Ok tt) (put p e' g, Some p).

Lemma from_elems_runs l : Forall stores_at l -> Forall storable l -> forall g p v1 v2,
  sub p g = Some (GVec (v1 ++ v2)) -> zlen (v1 ++ v2) < 2^31 -> Forall2 replaces l v2 ->
  exists v', Forall2 good l v' /\
    runs (from_elems from_rb (Z.of_nat (length v1)) l) (g, Some p) (Ok tt) (put p (GVec (v1 ++ v')) g, Some p).
Proof.
  intros IH F. induction l as [|x l IHl]; intros g p v1 v2 S L R.
  - inversion R; subst. exists []. split; [constructor|]. rewrite (put_same _ _ _ S). apply runs_ret.
  - inversion R as [|? e ? w Hx Hw]; subst. inversion IH as [|? ? I1 I2]; subst. inversion F as [|? ? F1 F2]; subst.
    set (st := SIdx (Z.of_nat (length v1))).
    assert (znth (Z.of_nat (length v1)) (v1 ++ e :: w) = Some e) as Z1 by (rewrite znth_nth, nth_error_app2, Nat.sub_diag by lia; reflexivity).
    assert (sub (p ++ [st]) g = Some e) as S1.
    { rewrite (sub_app _ _ _ _ S). unfold st. cbn [sub]. rewrite Z1. now destruct e. }
    destruct (I1 g (p ++ [st]) e F1 S1 Hx) as (e' & G & R1).
    assert (put (p ++ [st]) e' g = put p (GVec (v1 ++ e' :: w)) g) as P1.
    { rewrite (put_app _ _ _ _ _ S). unfold st. cbn [put]. rewrite Z1. rewrite lset_app_mid by lia. reflexivity. }
    rewrite P1 in R1.
    destruct (IHl I2 F2 (put p (GVec (v1 ++ e' :: w)) g) p (v1 ++ [e']) w) as (v' & G' & R2).
    { rewrite <- app_assoc. cbn [app]. eapply sub_put; exact S. }
    { rewrite <- app_assoc. cbn [app]. unfold zlen in *. rewrite app_length in *. exact L. }
    { exact Hw. }
    exists (e' :: v'). split; [constructor; assumption|].
    rewrite (put_put _ _ _ _ _ S), <- app_assoc in R2. cbn [app] in R2.
    rewrite app_length in R2. cbn [length] in R2. replace (Z.of_nat (length v1 + 1)) with (Z.of_nat (length v1) + 1) in R2 by lia.
    cbn [from_elems]. eapply runs_ck; [discriminate|eapply push_pos; [exact S| |exact L]|].
    { unfold zlen. rewrite app_length. cbn [length]. lia. }
    eapply runs_bind; [exact R1|]. eapply runs_ck; [discriminate|apply pop_back|]. exact R2.
Qed.
Lemma from_vector_runs l g p e : Forall stores_at l -> Forall storable l -> l <> [] -> zlen l < 2^31 -> sub p g = Some e ->
  Forall2 replaces l (resize GNone (length l) (old_vec e)) ->
  exists e', good (RArr l) e' /\ runs (from_vector from_rb l) (g, Some p) (Ok tt) (put p e' g, Some p).
Proof.
  intros IH F N L S R. set (w := resize GNone (length l) (old_vec e)) in *.
  assert (0 < zlen l) as L0 by (unfold zlen; destruct l; [contradiction|cbn [length]; lia]).
  assert (sub p (put p (GVec w) g) = Some (GVec w)) as S1 by (eapply sub_put; exact S).
  destruct (from_elems_runs l IH F (put p (GVec w) g) p [] w S1) as (v' & G & R1).
  { cbn [app]. unfold w, zlen. rewrite resize_length. exact L. }
  { exact R. }
  exists (GVec v'). split; [apply pushed_good; [exact L|exact G]|].
  unfold from_vector. rewrite ffi_int_in by (split; lia). rewrite (put_put _ _ _ _ _ S) in R1. cbn [app length] in R1.
  eapply runs_call; [discriminate| |exact R1]. unfold sexec. cbn [top_call]. rewrite S. cbn [sets gc_try].
  unfold set_vector_sz, alloc_vec, valloc. rewrite (u31 (zlen l)) by lia. rewrite (proj2 (Z.ltb_lt _ _)) by lia.
  unfold zlen. rewrite Nat2Z.id. reflexivity.
Qed.

Lemma mupd_mset k x y m : mupd k x (mset k y m) = mset k x m.
Proof.
  induction m as [|[k' a] t IH]; cbn [mset mupd]; [now rewrite String.eqb_refl|].
  destruct (String.compare k k') eqn:E; cbn [mupd].
  - now rewrite String.eqb_refl.
  - now rewrite String.eqb_refl.
  - destruct (String.eqb_spec k k') as [->|]; [rewrite compare_refl in E; discriminate|]. now rewrite IH.
Qed.
Definition dm (m : list (string * gc)) : list (string * dat) := map (fun kv => (fst kv, data_of (snd kv))) m.
Lemma dm_mset k e m : dm (mset k e m) = mset k (data_of e) (dm m).
Proof.
  unfold dm. induction m as [|[k' a] t IH]; cbn [mset map fst snd]; [reflexivity|].
  destruct (String.compare k k'); cbn [map fst snd]; [reflexivity|reflexivity|now rewrite IH].
Qed.
Lemma mfind_out {A} k (m : list (string * A)) : ~ In k (map fst m) -> mfind k m = None.
Proof.
  intros H. destruct (mfind k m) eqn:E; [|reflexivity]. exfalso. apply H. apply mfind_in in E. apply in_map_iff. now exists (k, a).
Qed.
Lemma in_mset {A} k (x : A) m j : In j (map fst (mset k x m)) -> j = k \/ In j (map fst m).
Proof.
  induction m as [|[k' a] t IH]; cbn [mset map fst In]; [intuition|].
  destruct (String.compare k k') eqn:E; cbn [map fst In]; [|intuition|intuition].
  apply compare_eq_iff in E. subst. intuition.
Qed.
Lemma replaces_none r : replaces r GNone.
Proof. destruct r as [| | | | | |[|[]]|]; cbn; congruence. Qed.

Lemma from_entries_runs l : Forall (fun kv => stores_at (snd kv)) l -> Forall no_nul (map fst l) -> Forall (fun kv => storable (snd kv)) l ->
  NoDup (map fst l) -> forall g p m, sub p g = Some (GMap m) -> (forall k, In k (map fst l) -> ~ In k (map fst m)) ->
  exists m', dm m' = fold_left (fun acc kv => mset (fst kv) (snd kv) acc) (map (fun kv => (fst kv, rdat (snd kv))) l) (dm m) /\
    runs (from_entries from_rb l) (g, Some p) (Ok tt) (put p (GMap m') g, Some p).
Proof.
  intros IH Fk F D. induction l as [|[k v] l IHl]; intros g p m S A.
  - exists m. split; [reflexivity|]. rewrite (put_same _ _ _ S). apply runs_ret.
  - cbn [map fst] in *. inversion IH as [|? ? I1 I2]; subst. inversion F as [|? ? F1 F2]; subst. inversion Fk as [|? ? K1 K2]; subst.
    inversion D as [|? ? D1 D2]; subst. cbn [snd] in *.
    assert (mfind k m = None) as M by (apply mfind_out; apply A; now left).
    set (g1 := put p (GMap (mset k GNone m)) g).
    assert (sub p g1 = Some (GMap (mset k GNone m))) as S1 by (eapply sub_put; exact S).
    assert (sub (p ++ [SKey k]) g1 = Some GNone) as S2.
    { rewrite (sub_app _ _ _ _ S1). cbn [sub]. now rewrite mfind_mset_same. }
    destruct (I1 g1 (p ++ [SKey k]) GNone F1 S2 (replaces_none v)) as (e' & G & R1).
    assert (put (p ++ [SKey k]) e' g1 = put p (GMap (mset k e' m)) g) as P1.
    { rewrite (put_app _ _ _ _ _ S1). cbn [put]. rewrite mfind_mset_same. cbn [put]. rewrite mupd_mset.
      unfold g1. apply (put_put _ _ _ _ _ S). }
    rewrite P1 in R1.
    destruct (IHl I2 K2 F2 D2 (put p (GMap (mset k e' m)) g) p (mset k e' m)) as (m' & E & R2).
    { eapply sub_put; exact S. }
    { intros j Hj Hm. apply in_mset in Hm. destruct Hm as [->|Hm]; [contradiction|]. apply (A j); [now right|exact Hm]. }
    exists m'. split.
    + rewrite E. cbn [fold_left map fst snd]. rewrite dm_mset. destruct G as (-> & _). reflexivity.
    + rewrite (put_put _ _ _ _ _ S) in R2. cbn [from_entries]. rewrite ffi_str_in by exact K1.
      eapply runs_ck; [discriminate| |].
      { unfold sexec. cbn [top_call]. rewrite S, (cstr_id _ K1), M. reflexivity. }
      eapply runs_bind; [exact R1|]. eapply runs_ck; [discriminate|apply pop_back|]. exact R2.
Qed.

Lemma replaces_scalar x e : is_scalar x = true -> replaces x e.
Proof. destruct x; try discriminate; intros _; cbn; congruence. Qed.
Lemma resize_nil {A} (d : A) n : resize d n [] = repeat d n.
Proof. unfold resize. rewrite firstn_nil. cbn [app length]. f_equal. lia. Qed.
Lemma F2_replaces_none l : Forall2 replaces l (repeat GNone (length l)).
Proof. induction l; cbn; constructor; [apply replaces_none|assumption]. Qed.
Lemma F2_replaces_lead l : forall w, length w = length (lead l) -> Forall2 replaces l (resize GNone (length l) w).
Proof.
  induction l as [|x l IH]; intros w H; cbn [lead] in H.
  - destruct w; [constructor|discriminate].
  - destruct (is_scalar x) eqn:E.
    + destruct w as [|e w]; [discriminate|]. cbn [length] in H. cbn [length]. unfold resize. cbn [firstn app length].
      constructor; [now apply replaces_scalar|]. apply (IH w). congruence.
    + destruct w; [|discriminate]. rewrite resize_nil. apply F2_replaces_none.
Qed.

Theorem from_rb_runs r : stores_at r.
Proof.
  induction r as [|b|z|x|t|t|l IH|m IH] using rb_nest_ind; intros g p e St S Rp; cbn [storable] in St.
  - cbn in Rp. subst e. exists GNone. split; [split; [reflexivity|split; [exact I|reflexivity]]|].
    rewrite (put_same _ _ _ S). apply runs_ret.
  - exists (GBool b). split; [split; [reflexivity|split; [exact I|reflexivity]]|].
    eapply runs_top; [reflexivity|discriminate|exact S|cbv beta; rewrite negb_b2z; reflexivity|apply runs_ret].
  - exists (GInt z). split; [split; [reflexivity|split; [exact I|reflexivity]]|]. cbn [from_rb]. rewrite ffi_int_in by exact St.
    eapply runs_top; [reflexivity|discriminate|exact S|reflexivity|apply runs_ret].
  - exists (GReal x). split; [split; [reflexivity|split; [exact I|reflexivity]]|].
    eapply runs_top; [reflexivity|discriminate|exact S|reflexivity|apply runs_ret].
  - exists (GStr t). split; [split; [reflexivity|split; [exact St|reflexivity]]|]. cbn [from_rb]. rewrite ffi_str_in by exact St.
    eapply runs_top; [reflexivity|discriminate|exact S|cbv beta; rewrite (cstr_id _ St); reflexivity|apply runs_ret].
  - exists (GStr t). split; [split; [reflexivity|split; [exact St|reflexivity]]|]. cbn [from_rb]. rewrite ffi_str_in by exact St.
    eapply runs_top; [reflexivity|discriminate|exact S|cbv beta; rewrite (cstr_id _ St); reflexivity|apply runs_ret].
  - destruct St as (L & T & F). apply all_of_Forall in F.
    destruct l as [|x0 l0].
    + exists (GVBool []). split; [split; [reflexivity|split; [cbv; congruence|reflexivity]]|]. cbn [from_rb].
      eapply runs_top; [reflexivity|discriminate|exact S| |apply runs_ret].
      cbv beta. unfold sets, set_vbool_sz, alloc_vbool, valloc. cbn [Z.ltb Z.compare]. destruct e; try reflexivity. now destruct Rp.
    + change (from_rb (RArr (x0 :: l0))) with (add_to_vector from_rb (x0 :: l0)).
      remember (x0 :: l0) as l eqn:El.
      assert (forall c, pushed [] c -> old_vec c = [] -> (tag_of c = TVStr -> is_text x0 = true) ->
                exists e', good (RArr l) e' /\
                  runs (add_elems (from_vector from_rb l) l) (put p c g, Some p) (Ok tt) (put p e' g, Some p)) as Add.
      { intros c P0 Oc Tc. assert (sub p (put p c g) = Some c) as S0 by (eapply sub_put; exact S).
        destruct (add_runs (from_vector from_rb l) l [] c (put p c g) p F L P0) as [(c' & P' & R)|(c' & P' & R)].
        - intros H. rewrite El in T. rewrite El. apply T. apply Tc. exact H.
        - exact S0.
        - exists c'. split; [apply pushed_good; assumption|]. rewrite (put_put _ _ _ _ _ S) in R. exact R.
        - assert (sub p (put p c' g) = Some c') as S1 by (eapply sub_put; exact S).
          destruct (from_vector_runs l (put p c' g) p c' IH F) as (e' & G & R'); [subst; discriminate|exact L|exact S1| |].
          { destruct c'; cbn [old_vec]; try (rewrite resize_nil; apply F2_replaces_none).
            apply F2_replaces_lead. cbn [app pushed] in P'. apply F2_zlen in P'. unfold zlen in P'. lia. }
          exists e'. split; [exact G|]. apply R. rewrite (put_put _ _ _ _ _ S). rewrite (put_put _ _ _ _ _ S) in R'. exact R'. }
      assert (forall k f c, top_call k = Some (true, f) -> k <> GetNextKey -> f e = (Ok c_ok, Some c) ->
                pushed [] c -> old_vec c = [] -> (tag_of c = TVStr -> is_text x0 = true) ->
                exists e', good (RArr l) e' /\ runs (ck (Do k) (add_elems (from_vector from_rb l) l)) (g, Some p) (Ok tt) (put p e' g, Some p)) as Typed.
      { intros k f c E1 N E2 P0 Oc Tc. destruct (Add c P0 Oc Tc) as (e' & G & R). exists e'. split; [exact G|].
        eapply runs_top; [exact E1|exact N|exact S|exact E2|exact R]. }
      assert (first_type (RArr l) = Some TVec -> exists e', good (RArr l) e' /\ runs (from_vector from_rb l) (g, Some p) (Ok tt) (put p e' g, Some p)) as Gen.
      { intros H. apply (from_vector_runs l g p e IH F); [subst; discriminate|exact L|exact S|].
        assert (old_vec e = []) as -> by (unfold replaces in Rp; rewrite H in Rp; destruct e; try reflexivity; now destruct Rp).
        rewrite resize_nil. apply F2_replaces_none. }
      subst l. unfold replaces in Rp.
      destruct x0; cbn [add_to_vector first_type] in *.
      * apply Gen. reflexivity.
      * eapply (Typed SetEmptyVecBool _ (GVBool [])); [reflexivity|discriminate| |constructor|reflexivity|discriminate].
        cbv beta. unfold sets, set_vbool_sz, alloc_vbool, valloc. cbn [Z.ltb Z.compare]. destruct e; try reflexivity. now destruct Rp.
      * eapply (Typed SetEmptyVecInt _ (GVInt [])); [reflexivity|discriminate| |constructor|reflexivity|discriminate].
        cbv beta. unfold sets, set_vint_sz, alloc_vint, valloc. cbn [Z.ltb Z.compare]. destruct e; try reflexivity. now destruct Rp.
      * eapply (Typed SetEmptyVecReal _ (GVReal [])); [reflexivity|discriminate| |constructor|reflexivity|discriminate].
        cbv beta. unfold sets, set_vreal_sz, alloc_vreal, valloc. cbn [Z.ltb Z.compare]. destruct e; try reflexivity. now destruct Rp.
      * eapply (Typed SetEmptyVecString _ (GVStr [])); [reflexivity|discriminate| |constructor|reflexivity|reflexivity].
        cbv beta. unfold sets, set_vstr_sz, alloc_vstr, valloc. cbn [Z.ltb Z.compare]. destruct e; try reflexivity. now destruct Rp.
      * eapply (Typed SetEmptyVecString _ (GVStr [])); [reflexivity|discriminate| |constructor|reflexivity|reflexivity].
        cbv beta. unfold sets, set_vstr_sz, alloc_vstr, valloc. cbn [Z.ltb Z.compare]. destruct e; try reflexivity. now destruct Rp.
      * apply Gen. reflexivity.
      * apply Gen. reflexivity.
  - destruct St as (D & Fk & F). apply all_of_Forall in F, Fk.
    assert (sub p (put p (GMap []) g) = Some (GMap [])) as S1 by (eapply sub_put; exact S).
    destruct (from_entries_runs m IH Fk F D (put p (GMap []) g) p [] S1) as (m' & E & R); [intros k _ []|].
    exists (GMap m'). split.
    + split; [|split; [exact I|reflexivity]]. cbn [data_of rdat]. fold (dm m'). rewrite E. reflexivity.
    + rewrite (put_put _ _ _ _ _ S) in R. cbn [from_rb]. eapply runs_call; [discriminate| |exact R].
      unfold sexec. cbn [top_call]. rewrite S. cbn [first_type replaces] in Rp. destruct e; try reflexivity. now destruct Rp.
Qed.

(** ** What load stores can be read back *)

Lemma faithful_small e : faithful e -> small e.
Proof.
  induction e as [e Hv Hm|v IH|m IH] using gc_nest_ind; [|intros [L F]; split; [exact L|]|intros _; exact I].
  - destruct e; cbn [faithful small]; try tauto; try (now destruct (Hv v)); now destruct (Hm m).
  - apply all_of_Forall in F. apply all_of_Forall. rewrite Forall_forall in *. auto.
Qed.
Lemma faithful_back e : faithful e -> has_map e = false -> rdat (rb_of e) = data_of e.
Proof.
  induction e as [e Hv Hm|v IH|m IH] using gc_nest_ind; [|intros [L F] N|intros _; discriminate].
  - destruct e; cbn [faithful rb_of rdat data_of]; intros S _; try contradiction; try reflexivity.
    + f_equal. now apply cstr_id.
    + rewrite map_map. reflexivity.
    + rewrite map_map. reflexivity.
    + rewrite map_map. reflexivity.
    + rewrite map_map. f_equal. apply List.map_ext_in. intros s Hs. cbn. f_equal. apply cstr_id. destruct S as [_ S]. rewrite Forall_forall in S. auto.
    + now destruct (Hv v).
    + now destruct (Hm m).
  - cbn [rb_of rdat data_of]. rewrite map_map. f_equal. apply List.map_ext_in. intros x Hx. apply all_of_Forall in F. rewrite Forall_forall in *.
    apply IH; auto. cbn [has_map] in N. destruct (has_map x) eqn:E; [|reflexivity]. exfalso. assert (existsb has_map v = true) by (apply existsb_exists; eauto). congruence.
Qed.

(** ** The cursor after load *)

(** Any value, storable or not: if load comes to an end without an exception, the cursor is
    where it was. *)
Definition returns_to (p : list step) (o : out unit) (s : sstate) : Prop :=
  o = Ok tt -> exists g e, s = (g, Some p) /\ sub p g = Some e.
Definition comes_back (q : prog unit) : Prop := forall g p e, sub p g = Some e ->
  exists o s, runs q (g, Some p) o s /\ returns_to p o s.

Lemma back_ret : comes_back (PRet tt).
Proof. intros g p e S. exists (Ok tt), (g, Some p). split; [apply runs_ret|]. intros _. eauto. Qed.
Lemma back_raise : comes_back PRaise.
Proof. intros g p e S. exists Throw, (g, Some p). split; [apply runs_raise|]. discriminate. Qed.
Lemma back_top k w f (q : rv -> prog unit) : top_call k = Some (w, f) -> (forall v, comes_back (q v)) -> comes_back (PCall (Do k) q).
Proof.
  intros T H g p e S. assert (k <> GetNextKey) as N by (intros ->; discriminate).
  destruct (sexec k (g, Some p)) as [o s] eqn:E.
  assert (exists g' e', s = (g', Some p) /\ sub p g' = Some e') as (g' & e' & -> & S').
  { unfold sexec in E. rewrite T, S in E. destruct (f e) as [o1 [e1|]]; injection E as <- <-; [|eauto]. exists (put p e1 g), e1. split; [reflexivity|]. eapply sub_put; exact S. }
  destruct o as [v| | |].
  - destruct (H v g' p e' S') as (o & s & R & B). exists o, s. split; [|exact B]. eapply runs_call; eauto.
  - exists Undef, (g', Some p). split; [|discriminate]. intros it. destruct (iexec_sexec k (g, Some p) it N) as (it' & X). rewrite E in X. cbn [fst snd] in X.
    exists it'. cbn [irun]. now rewrite X.
  - exists Undef, (g', Some p). split; [|discriminate]. intros it. destruct (iexec_sexec k (g, Some p) it N) as (it' & X). rewrite E in X. cbn [fst snd] in X.
    exists it'. cbn [irun]. now rewrite X.
  - exists Diverge, (g', Some p). split; [|discriminate]. intros it. destruct (iexec_sexec k (g, Some p) it N) as (it' & X). rewrite E in X. cbn [fst snd] in X.
    exists it'. cbn [irun]. now rewrite X.
Qed.
Lemma back_ck k w f (q : prog unit) : top_call k = Some (w, f) -> comes_back q -> comes_back (ck (Do k) q).
Proof. intros T H. eapply back_top; [exact T|]. intros [[| |]| | | |]; try apply back_raise. exact H. Qed.
Lemma back_ffi_int z q : comes_back q -> comes_back (ffi_int z q).
Proof. intros H. unfold ffi_int. destruct (_ && _); [exact H|apply back_raise]. Qed.
Lemma back_ffi_str s q : comes_back q -> comes_back (ffi_str s q).
Proof. intros H. unfold ffi_str. destruct (String.eqb _ _); [exact H|apply back_raise]. Qed.
(** Going to an element and coming back from it. *)
Lemma back_inside k (q1 q2 : prog unit) :
  (exists i, k = PushVectorPosition i) \/ (exists key, k = PushMapPosition key) ->
  comes_back q1 -> comes_back q2 ->
  comes_back (ck (Do k) (pbind q1 (fun _ => ck (Do PopHead) q2))).
Proof.
  intros K H1 H2 g p e S. assert (k <> GetNextKey) as N by (destruct K as [[i ->]|[i ->]]; discriminate).
  destruct (sexec k (g, Some p)) as [o s] eqn:E.
  assert ((exists g' st e', o = Ok c_ok /\ s = (g', Some (p ++ [st])) /\ sub (p ++ [st]) g' = Some e' /\ exists e'', sub p g' = Some e'')
          \/ (exists v, o = Ok v /\ v <> c_ok) \/ o = Undef) as C.
  { destruct K as [[i ->]|[i ->]]; unfold sexec in E; cbn [top_call] in E; rewrite S in E; destruct e; try (injection E as <- <-; right; left; exists c_bad_type; split; [reflexivity|discriminate]).
    - assert (0 <= to_u32 i < 2^32) as U by (apply Z.mod_pos_bound; reflexivity).
      set (j := to_u32 i) in *. clearbody j.
      destruct (j <? 2^32 - 1) eqn:E1; [|destruct (j <? zlen v) eqn:E2]; injection E as <- <-.
      + left. set (w := if zlen v <=? j then resize GNone (Z.to_nat (j + 1)) v else v).
        assert (sub p (put p (GVec w) g) = Some (GVec w)) as S1 by (eapply sub_put; exact S).
        assert (exists x, znth j w = Some x) as (x & X).
        { unfold w, znth. rewrite (proj2 (Z.ltb_ge _ _)) by lia. destruct (nth_error (if zlen v <=? j then _ else v) (Z.to_nat j)) eqn:Y; [eauto|].
          exfalso. apply nth_error_None in Y. destruct (Z.leb_spec (zlen v) j).
          - rewrite resize_length in Y. lia.
          - unfold zlen in *. lia. }
        exists (put p (GVec w) g), (SIdx j), x. split; [reflexivity|]. split; [reflexivity|]. split; [|eauto].
        rewrite (sub_app _ _ _ _ S1). cbn [sub]. rewrite X. now destruct x.
      + left. apply Z.ltb_lt in E2. assert (exists x, znth j v = Some x) as (x & X).
        { unfold znth. rewrite (proj2 (Z.ltb_ge _ _)) by lia. destruct (nth_error v (Z.to_nat j)) eqn:Y; [eauto|]. apply nth_error_None in Y. unfold zlen in *. lia. }
        exists g, (SIdx j), x. split; [reflexivity|]. split; [reflexivity|]. split; [|eauto].
        rewrite (sub_app _ _ _ _ S). cbn [sub]. rewrite X. now destruct x.
      + right. right. reflexivity.
    - injection E as <- <-. left. destruct (mfind (cstr i) m) as [x|] eqn:M.
      + exists g, (SKey (cstr i)), x. split; [reflexivity|]. split; [reflexivity|]. split; [|eauto].
        rewrite (sub_app _ _ _ _ S). cbn [sub]. rewrite M. now destruct x.
      + assert (sub p (put p (GMap (mset (cstr i) GNone m)) g) = Some (GMap (mset (cstr i) GNone m))) as S1 by (eapply sub_put; exact S).
        eexists _, (SKey (cstr i)), GNone. split; [reflexivity|]. split; [reflexivity|]. split; [|eauto].
        rewrite (sub_app _ _ _ _ S1). cbn [sub]. now rewrite mfind_mset_same. }
  destruct C as [(g1 & st & e1 & -> & -> & S1 & _)|[(v & -> & Nv)| -> ]].
  - destruct (H1 g1 (p ++ [st]) e1 S1) as (o1 & s1 & R1 & B1). destruct o1 as [[]| | |].
    + destruct (B1 eq_refl) as (g2 & e2 & -> & S2).
      assert (exists e3, sub p g2 = Some e3) as (e3 & S3).
      { clear -S2. revert g2 S2. induction p as [|[k|n] p IH]; intros g2 S2; cbn [app] in *.
        - destruct g2; cbn; eauto.
        - destruct g2; cbn [sub] in *; try discriminate. destruct (mfind k m); [|discriminate]. eauto.
        - destruct g2; cbn [sub] in *; try discriminate. destruct (znth n v); [|discriminate]. eauto. }
      destruct (H2 g2 p e3 S3) as (o & s & R2 & B2). exists o, s. split; [|exact B2].
      eapply runs_ck; [exact N|exact E|]. eapply runs_bind; [exact R1|]. eapply runs_ck; [discriminate|apply pop_back|]. exact R2.
    + exists Throw, s1. split; [|discriminate]. eapply runs_ck; [exact N|exact E|]. exact (runs_bind_fail _ _ _ _ _ R1 ltac:(discriminate)).
    + exists Undef, s1. split; [|discriminate]. eapply runs_ck; [exact N|exact E|]. exact (runs_bind_fail _ _ _ _ _ R1 ltac:(discriminate)).
    + exists Diverge, s1. split; [|discriminate]. eapply runs_ck; [exact N|exact E|]. exact (runs_bind_fail _ _ _ _ _ R1 ltac:(discriminate)).
  - exists Throw, s. split; [|discriminate]. eapply runs_call; [exact N|exact E|]. destruct v as [[| |]| | | |]; try apply runs_raise. now destruct Nv.
  - exists Undef, s. split; [|discriminate]. intros it. destruct (iexec_sexec k (g, Some p) it N) as (it' & X). rewrite E in X. cbn [fst snd] in X.
    exists it'. cbn [irun ck]. now rewrite X.
Qed.
Lemma back_elems l : Forall (fun x => comes_back (from_rb x)) l -> forall i, comes_back (from_elems from_rb i l).
Proof.
  induction 1 as [|x l Hx H IH]; intros i; cbn [from_elems]; [apply back_ret|]. apply back_inside; [left; eauto|exact Hx|apply IH].
Qed.
Lemma back_vector l : Forall (fun x => comes_back (from_rb x)) l -> comes_back (from_vector from_rb l).
Proof.
  intros H. apply back_ffi_int. eapply back_top; [reflexivity|]. intros _. now apply back_elems.
Qed.
Lemma back_add fb l : comes_back fb -> comes_back (add_elems fb l).
Proof.
  intros H. induction l as [|x l IH]; cbn [add_elems]; [apply back_ret|].
  destruct x; try exact H; try apply back_ffi_int; try apply back_ffi_str; (eapply back_ck; [reflexivity|exact IH]).
Qed.
Theorem from_rb_back r : comes_back (from_rb r).
Proof.
  induction r as [|b|z|x|t|t|l IH|m IH] using rb_nest_ind; cbn [from_rb].
  - apply back_ret.
  - eapply back_ck; [reflexivity|apply back_ret].
  - apply back_ffi_int. eapply back_ck; [reflexivity|apply back_ret].
  - eapply back_ck; [reflexivity|apply back_ret].
  - apply back_ffi_str. eapply back_ck; [reflexivity|apply back_ret].
  - apply back_ffi_str. eapply back_ck; [reflexivity|apply back_ret].
  - destruct l as [|x l]; [eapply back_ck; [reflexivity|apply back_ret]|].
    change (comes_back (add_to_vector from_rb (x :: l))). pose proof (back_vector _ IH) as V.
    destruct x; cbn [add_to_vector]; try exact V; (eapply back_ck; [reflexivity|]; apply back_add; exact V).
  - eapply back_top; [reflexivity|]. intros _. induction IH as [|[k v] m Hv H IHm]; cbn [from_entries]; [apply back_ret|].
    apply back_ffi_str. apply back_inside; [right; eauto|exact Hv|exact IHm].
Qed.
