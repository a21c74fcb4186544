(** Key iteration and histories of the C interface. *)
From Coq Require Import ZArith Bool Lia Ascii String List Permutation.
From Verif Require Import Base F64 StrMap Value MBasic MGet MMap MMat MPromote MRef MCapi SCapi LCapi.
Import ListNotations.
Local Open Scope Z_scope.

(** ** The map object *)

Fixpoint fmap_list (mi : nat) (l : list cell) : option (list (string * cell)) :=
  match l with [] => None | a :: t => match find_map mi a with Some r => Some r | None => fmap_list mi t end end.
Lemma fmap_eq mi c : find_map mi c =
  match c with CMap _ mi' m => if Nat.eqb mi' mi then Some m else fmap_list mi (map snd m) | _ => fmap_list mi (children c) end.
Proof.
  destruct c as [i g | i l | i mi' m]; cbn [find_map children].
  - reflexivity.
  - induction l as [|a t IH]; cbn [fmap_list]; [reflexivity|]. now rewrite IH.
  - destruct (Nat.eqb mi' mi); [reflexivity|]. induction m as [|a t IH]; cbn [fmap_list map]; [reflexivity|]. now rewrite IH.
Qed.
Lemma fmap_in mi c r : find_map mi c = Some r -> In mi (addrs c).
Proof.
  revert r. assert (forall l r, Forall (fun c => forall r, find_map mi c = Some r -> In mi (addrs c)) l ->
             fmap_list mi l = Some r -> In mi (addrl l)) as A.
  { unfold addrl. induction l as [|a t IHt]; intros r H F; cbn [fmap_list flat_map] in *; [discriminate|].
    inversion H; subst. apply in_or_app. destruct (find_map mi a) eqn:E; [left; eauto | right; eauto]. }
  induction c as [i g | i l IH | i mi' m IH] using cell_nest_ind; intros r; rewrite fmap_eq; cbn [children].
  - discriminate.
  - rewrite addrs_vec. intros F. right. eauto.
  - rewrite addrs_map. destruct (Nat.eqb_spec mi' mi) as [->|]; [intros _; cbn; auto|]. intros F. do 2 right.
    eapply A; [|exact F]. now rewrite Forall_map.
Qed.
Lemma fmap_list_split mi l1 e l2 r :
  NoDup (addrl (l1 ++ e :: l2)) -> find_map mi e = Some r -> fmap_list mi (l1 ++ e :: l2) = Some r.
Proof.
  unfold addrl. induction l1 as [|a t IH]; cbn [app fmap_list flat_map]; intros D F.
  - now rewrite F.
  - apply NoDup_app in D. destruct D as (D1 & D2 & D3). destruct (find_map mi a) eqn:E; [|now apply IH].
    exfalso. apply fmap_in in E. apply (D3 _ E). rewrite flat_map_app. apply in_or_app. right. cbn. apply in_or_app. left.
    exact (fmap_in _ _ _ F).
Qed.
Lemma addrl_mid l1 e l2 : NoDup (addrl (l1 ++ e :: l2)) -> NoDup (addrs e).
Proof.
  unfold addrl. rewrite flat_map_app. cbn. intros D. apply NoDup_app in D. destruct D as (_ & D & _). now apply NoDup_app in D.
Qed.
Lemma reaches_fmap c hs p c' : reaches c hs p c' -> NoDup (addrs c) ->
  forall i mi m, c' = CMap i mi m -> find_map mi c = Some m.
Proof.
  induction 1 as [c | i l n e hs p c' E H IH | i mi m k e hs p c' E H IH]; intros D i0 mi0 m0 ->.
  - rewrite fmap_eq. now rewrite Nat.eqb_refl.
  - destruct (znth_split' _ _ _ E) as (l1 & l2 & -> & L & N). rewrite addrs_vec in D. apply NoDup_cons_iff in D. destruct D as [D1 D2].
    rewrite fmap_eq. cbn [children]. apply fmap_list_split; [exact D2|]. eapply IH; [|reflexivity]. now apply addrl_mid in D2.
  - destruct (mfind_split _ _ _ E) as (m1 & m2 & -> & Nk). rewrite addrs_map in D. rewrite !NoDup_cons_iff in D. destruct D as (D1 & D1' & D2).
    rewrite map_app in *. cbn [map snd] in *. pose proof (addrl_mid _ _ _ D2) as De.
    specialize (IH De _ _ _ eq_refl). rewrite fmap_eq. destruct (Nat.eqb_spec mi mi0) as [->|].
    + exfalso. apply D1'. apply fmap_in in IH. unfold addrl. rewrite flat_map_app. apply in_or_app. right. cbn. apply in_or_app. now left.
    + rewrite map_app. cbn [map snd]. now apply fmap_list_split.
Qed.

(** Two cursors: the second passes through the object of the first only if its path extends
    the first one's. *)
Lemma step_eqb_refl a : step_eqb a a = true.
Proof. destruct a; cbn; [apply String.eqb_refl | apply Z.eqb_refl]. Qed.
Lemma addrl_disjoint (l : list cell) j1 j2 a b x : NoDup (addrl l) ->
  nth_error l j1 = Some a -> nth_error l j2 = Some b -> In x (addrs a) -> In x (addrs b) -> j1 = j2.
Proof.
  unfold addrl. revert j1 j2. induction l as [|c t IH]; intros [|j1] [|j2]; cbn [nth_error flat_map]; try discriminate; auto; intros D A B Ha Hb;
    apply NoDup_app in D; destruct D as (D1 & D2 & D3).
  - injection A as ->. exfalso. apply (D3 _ Ha). apply in_flat_map. exists b. split; [now apply nth_error_In in B|assumption].
  - injection B as ->. exfalso. apply (D3 _ Hb). apply in_flat_map. exists a. split; [now apply nth_error_In in A|assumption].
  - f_equal. eauto.
Qed.
Lemma reaches_addrs c hs p c' : reaches c hs p c' -> forall x, In x hs -> In x (addrs c).
Proof.
  induction 1 as [c | i l n e hs p c' E H IH | i mi m k e hs p c' E H IH]; intros x Hx.
  - destruct Hx as [<-|[]]. apply cid_in.
  - rewrite addrs_vec. destruct Hx as [<-|Hx]; [now left|right]. unfold addrl. apply in_flat_map. exists e. split; [|auto].
    unfold znth in E. destruct (n <? 0); [discriminate|]. now apply nth_error_In in E.
  - rewrite addrs_map. destruct Hx as [<-|Hx]; [now left|do 2 right]. unfold addrl. apply in_flat_map. exists e. split; [|auto].
    apply mfind_in in E. apply in_map_iff. now exists (k, e).
Qed.
Lemma mfind_nth {A} k (m : list (string * A)) e : mfind k m = Some e -> exists j, nth_error m j = Some (k, e).
Proof.
  intros E. destruct (mfind_split _ _ _ E) as (m1 & m2 & -> & _). exists (length m1). now rewrite nth_error_app2, Nat.sub_diag.
Qed.
Lemma reaches_prefix c hs p c' hs0 p0 c0 :
  reaches c hs p c' -> reaches c hs0 p0 c0 -> NoDup (addrs c) -> In (cid c') hs0 -> prefixb p p0 = true.
Proof.
  intros H. revert hs0 p0 c0. induction H as [c | i l n e hs p c' E H IH | i mi m k e hs p c' E H IH]; intros hs0 p0 c0 R D Hi.
  - reflexivity.
  - pose proof (proj2 (proj2 (proj2 (proj2 (reaches_cids _ _ _ _ H))))) as Sub.
    pose proof (Sub _ (cid_in c')) as Ie.
    rewrite addrs_vec in D. apply NoDup_cons_iff in D. destruct D as [D1 D2].
    assert (In (cid c') (addrl l)) as Il.
    { unfold addrl. apply in_flat_map. exists e. split; [|exact Ie]. unfold znth in E. destruct (n <? 0); [discriminate|]. now apply nth_error_In in E. }
    inversion R as [ | i' l' n' e' hs' p' c'' E' R' | ]; subst.
    + exfalso. cbn in Hi. destruct Hi as [->|[]]. now apply D1.
    + destruct Hi as [->|Hi]; [exfalso; now apply D1|]. pose proof (reaches_addrs _ _ _ _ R' _ Hi) as Ie'.
      unfold znth in E, E'. destruct (Z.ltb_spec n 0); [discriminate|]. destruct (Z.ltb_spec n' 0); [discriminate|].
      pose proof (addrl_disjoint _ _ _ _ _ _ D2 E E' Ie Ie') as J. assert (n = n') as <- by lia. rewrite E in E'. injection E' as <-.
      cbn [prefixb]. rewrite step_eqb_refl. cbn. eapply IH; eauto.
      destruct (nth_error_split _ _ E) as (l1 & l2 & -> & _). now apply addrl_mid in D2.
  - pose proof (proj2 (proj2 (proj2 (proj2 (reaches_cids _ _ _ _ H))))) as Sub.
    pose proof (Sub _ (cid_in c')) as Ie.
    rewrite addrs_map in D. rewrite !NoDup_cons_iff in D. destruct D as (D1 & D1' & D2).
    destruct (mfind_nth _ _ _ E) as (j & Fe). pose proof (map_nth_error snd _ _ Fe) as Ee. cbn [snd] in Ee.
    assert (In (cid c') (addrl (map snd m))) as Il.
    { unfold addrl. apply in_flat_map. exists e. split; [now apply nth_error_In in Ee|exact Ie]. }
    inversion R as [ | | i' mi' m' k' e' hs' p' c'' E' R']; subst.
    + exfalso. cbn in Hi. destruct Hi as [->|[]]. apply D1. now right.
    + destruct Hi as [->|Hi]; [exfalso; apply D1; now right|]. pose proof (reaches_addrs _ _ _ _ R' _ Hi) as Ie'.
      destruct (mfind_nth _ _ _ E') as (j' & Fe'). pose proof (map_nth_error snd _ _ Fe') as Ee'. cbn [snd] in Ee'.
      pose proof (addrl_disjoint _ _ _ _ _ _ D2 Ee Ee' Ie Ie') as J.
      rewrite <- J, Fe in Fe'. injection Fe' as <- <-.
      cbn [prefixb]. rewrite step_eqb_refl. cbn. eapply IH; eauto.
      destruct (nth_error_split _ _ Ee) as (l1 & l2 & El & _). rewrite El in D2. now apply addrl_mid in D2.
Qed.

Lemma store_reaches h new c hs p c' : reaches c hs p c' -> ~ In h hs -> cid new = h ->
  reaches (store h new c) hs p (store h new c').
Proof.
  intros H Hn Hc. induction H as [c | i l n e hs p c' E H IH | i mi m k e hs p c' E H IH].
  - rewrite <- (store_cid h new c) by assumption. constructor.
  - rewrite store_vec. destruct (Nat.eqb_spec i h) as [->|]; [exfalso; apply Hn; now left|].
    econstructor; [|apply IH; intros X; apply Hn; now right].
    unfold znth in *. destruct (n <? 0); [discriminate|]. now rewrite nth_error_map, E.
  - rewrite store_map. destruct (Nat.eqb_spec i h) as [->|]; [exfalso; apply Hn; now left|].
    econstructor; [|apply IH; intros X; apply Hn; now right].
    destruct (mfind_split _ _ _ E) as (m1 & m2 & -> & N). unfold smap. rewrite map_app. cbn [map fst snd].
    apply mfind_app_mid. rewrite map_map. exact N.
Qed.

(** ** What a call does to the tree *)
Lemma frame k x s : k <> GetNextKey -> k <> InitMapKey -> sane x -> sees x s ->
  let x' := snd (xexec k x) in
  x_map x' = x_map x /\ x_it x' = x_it x /\
  (if writes k s
   then exists h t new, x_head x = h :: t /\ cid new = h /\ x_data x' = store h new (x_data x)
   else x_data x' = x_data x).
Proof.
  intros K1 K2 Hs Hv. destruct s as [g cur]. unfold xexec, writes. cbn zeta.
  destruct cur as [p|].
  2:{ destruct Hv as [V E]. cbn [snd] in E. destruct (top_call k) as [[w f]|] eqn:TC.
      - unfold on_top. rewrite E. auto.
      - destruct k; try discriminate TC; cbn [snd]; unfold x_pop, x_reset, x_push_pos, x_push_key, x_init_key; rewrite ?E; auto; contradiction. }
  destruct (sees_top _ _ _ Hs Hv) as (h & t & c & E & R & C & F & S & V). rewrite S.
  destruct (top_call k) as [[w f]|] eqn:TC.
  - unfold on_top. rewrite E, F. destruct (f (value c)) as [o [e|]]; cbn [snd]; auto.
    unfold overwrite_at. pose proof (label_ok h e (x_next x)) as L. destruct (label h e (x_next x)) as [c' n].
    destruct L as [L _]. cbn. repeat split; auto. exists h, t, c'. auto.
  - pose proof (find_tidy _ _ _ F (proj2 (proj2 Hs))) as T.
    destruct k; try discriminate TC; try contradiction; cbn [snd].
    + unfold x_pop. rewrite E. auto.
    + unfold x_reset. rewrite E. auto.
    + unfold x_push_pos. rewrite E, F. destruct c as [i e|i l|i mi m]; try rewrite value_vec; try rewrite value_map.
      * cbn [value tidy] in *. destruct e; try contradiction; auto.
      * assert (zlen (map value l) = zlen l) as -> by (unfold zlen; now rewrite map_length).
        cbn zeta. destruct (zlen l <=? to_u32 pos).
        -- unfold overwrite_at. set (gg := GVec _). pose proof (label_ok h gg (x_next x)) as L. destruct (label h gg (x_next x)) as [c' n].
           destruct L as [L _]. cbn [fst] in L. cbn [x_data x_head x_map x_it x_next].
           destruct (find h (store h c' (x_data x))) as [[?|? l'|?]|]; cbn [snd]; try destruct (znth (to_u32 pos) l'); cbn [snd x_map x_it x_data];
             (split; [reflexivity|]; split; [reflexivity|]; exists h, t, c'; auto).
        -- rewrite F. destruct (znth (to_u32 pos) l); auto.
      * auto.
    + unfold x_push_key. rewrite E, F. destruct c as [i e|i l|i mi m]; try rewrite value_vec; try rewrite value_map.
      * cbn [value tidy] in *. destruct e; try contradiction; auto.
      * auto.
      * rewrite mfind_vmapv. destruct (mfind (cstr key) m); cbn [option_map snd x_map x_it x_data]; auto.
        repeat split; auto. exists h, t. eexists. split; [auto|]. split; [|reflexivity]. reflexivity.
Qed.

Lemma tracks_store x x' h new p ks : tracks x p ks -> cid new = h ->
  (forall hs i mi m, reaches (x_data x) hs p (CMap i mi m) -> ~ In h hs) ->
  x_map x' = x_map x -> x_it x' = x_it x -> x_data x' = store h new (x_data x) -> tracks x' p ks.
Proof.
  intros (hs & i & mi & m1 & m2 & R & M & K & I) Hc Hn E1 E2 E3.
  pose proof (Hn _ _ _ _ R) as Nh. pose proof (store_reaches h new _ _ _ _ R Nh Hc) as R'.
  pose proof (reaches_cids _ _ _ _ R) as (_ & L & Ne & _). cbn [cid] in L.
  rewrite store_map in R'. destruct (Nat.eqb_spec i h) as [->|_].
  { exfalso. apply Nh. rewrite <- L. destruct hs as [|a hs]; [contradiction|]. clear. revert a. induction hs as [|b t IH]; intros a; [now left|].
    right. apply IH. }
  unfold smap in R'. rewrite map_app in R'. exists hs, i, mi. do 2 eexists. rewrite E3. split; [exact R'|]. rewrite E1, E2. split; [exact M|]. split.
  - rewrite map_map. exact K.
  - rewrite I. destruct m2 as [|[k c] t]; [reflexivity|]. cbn. now rewrite store_cid.
Qed.
Lemma entry_after_split e m1 k c m2 : NoDup (map (fun kc : string * cell => cid (snd kc)) (m1 ++ (k, c) :: m2)) -> cid c = e ->
  entry_after e (m1 ++ (k, c) :: m2) = Some (k, first_entry m2).
Proof.
  induction m1 as [|[k' c'] t IH]; cbn [app map entry_after fst snd]; intros D <-.
  - now rewrite Nat.eqb_refl.
  - inversion D as [|? ? D1 D2]; subst. destruct (Nat.eqb_spec (cid c') (cid c)) as [X|]; [|auto].
    exfalso. apply D1. rewrite map_app. apply in_or_app. right. left. now rewrite X.
Qed.
Lemma addrl_cids l : NoDup (addrl l) -> NoDup (map cid l).
Proof.
  unfold addrl. induction l as [|a t IH]; cbn; intros D; [constructor|]. apply NoDup_app in D. destruct D as (D1 & D2 & D3).
  constructor; [|auto]. intros X. apply (D3 _ (cid_in a)). apply in_map_iff in X. destruct X as (b & Eb & Ib). apply in_flat_map.
  exists b. split; [assumption|]. rewrite <- Eb. apply cid_in.
Qed.

Theorem explorer_istep k x s o s' : sane x -> isees x s -> iexec k s = Some (o, s') ->
  exists x', xexec k x = (Ret o, x') /\ sane x' /\ isees x' s'.
Proof.
  intros Hs [Hv Hi] HE. destruct s as [[g cur] it]. cbn [fst snd] in Hv, Hi.
  assert (forall s1, k <> GetNextKey -> k <> InitMapKey ->
    (s1 = match it, cur with Live p ks, Some c => if writes k (g, cur) && prefixb c p then Lost else it | _, _ => it end) ->
    exists x', xexec k x = (Ret (fst (sexec k (g, cur))), x') /\ sane x' /\ isees x' (snd (sexec k (g, cur)), s1)) as General.
  { intros s1 K1 K2 ->. destruct (explorer_step k x (g, cur) K1 Hs Hv) as (x' & X1 & X2 & X3). exists x'.
    split; [exact X1|]. split; [exact X2|]. split; [exact X3|]. cbn [fst snd].
    pose proof (frame k x (g, cur) K1 K2 Hs Hv) as Fr. cbn zeta in Fr. rewrite X1 in Fr. cbn [snd] in Fr. destruct Fr as (F1 & F2 & F3).
    destruct it as [|p ks|]; [congruence| |exact I].
    destruct cur as [c|].
    - destruct (writes k (g, Some c)) eqn:W; cbn [andb].
      + destruct (prefixb c p) eqn:Pf; [exact I|]. destruct F3 as (h & t & new & E & Cn & D).
        eapply tracks_store; eauto. intros hs i mi m R Hin.
        destruct (sees_top _ _ _ Hs Hv) as (h' & t' & c' & E' & R' & C' & _). rewrite E in E'. injection E' as <- <-.
        rewrite <- C' in Hin. rewrite (reaches_prefix _ _ _ _ _ _ _ R' R (proj1 Hs) Hin) in Pf. discriminate.
      + destruct Hi as (hs & i & mi & m1 & m2 & R & M & K & I). exists hs, i, mi, m1, m2. rewrite F1, F2, F3. auto.
    - cbn [writes] in F3. destruct Hi as (hs & i & mi & m1 & m2 & R & M & K & I). exists hs, i, mi, m1, m2. rewrite F1, F2, F3. auto. }
  assert (k = GetNextKey \/ k = InitMapKey \/ (k <> GetNextKey /\ k <> InitMapKey)) as [->|[->|[K1 K2]]]
    by (destruct k; auto; right; right; split; discriminate).
  - (* GetNextKey *)
    cbn [iexec] in HE. unfold xexec. cbn [top_call]. unfold x_next_key. destruct it as [|p [|key ks]|]; [| | |discriminate].
    + apply Some_inj in HE. injection HE as <- <-. rewrite Hi. eexists. split; [reflexivity|]. split; [exact Hs|]. split; assumption.
    + apply Some_inj in HE. injection HE as <- <-. pose proof Hi as (hs & i & mi & m1 & m2 & R & M & K & I).
      rewrite M, (reaches_fmap _ _ _ _ R (proj1 Hs) _ _ _ eq_refl), I. apply map_eq_nil in K. subst m2. cbn [first_entry].
      eexists. split; [reflexivity|]. split; [exact Hs|]. split; assumption.
    + apply Some_inj in HE. injection HE as <- <-. pose proof Hi as (hs & i & mi & m1 & m2 & R & M & K & I).
      rewrite M, (reaches_fmap _ _ _ _ R (proj1 Hs) _ _ _ eq_refl), I. destruct m2 as [|[k c] m2]; [discriminate|].
      cbn [map fst] in K. injection K as -> K. cbn [first_entry].
      assert (NoDup (map (fun kc : string * cell => cid (snd kc)) (m1 ++ (key, c) :: m2))) as ND.
      { destruct (reaches_find _ _ _ _ R (proj1 Hs)) as [F _]. pose proof (find_nodup _ _ _ F (proj1 Hs)) as D.
        rewrite addrs_map in D. rewrite !NoDup_cons_iff in D. destruct D as (_ & _ & D). apply addrl_cids in D. now rewrite map_map in D. }
      rewrite (entry_after_split (cid c) m1 key c m2 ND eq_refl). eexists. split; [reflexivity|]. split; [exact Hs|]. split; [exact Hv|].
      cbn [snd]. exists hs, i, mi, (m1 ++ [(key, c)]), m2. rewrite <- app_assoc. cbn [app x_data x_map x_it]. auto.
  - (* InitMapKey *)
    cbn [iexec] in HE. destruct (explorer_step InitMapKey x (g, cur) ltac:(discriminate) Hs Hv) as (x' & X1 & X2 & X3).
    destruct (sexec InitMapKey (g, cur)) as [o1 s1]. cbn [fst snd] in X1, X3. apply Some_inj in HE. injection HE as <- <-.
    exists x'. split; [exact X1|]. split; [exact X2|]. split; [exact X3|]. cbn [snd].
    assert (x' = snd (x_init_key x)) as -> by (unfold xexec in X1; cbn [top_call] in X1; now rewrite X1).
    unfold x_init_key. destruct cur as [p|].
    + destruct (sees_top _ _ _ Hs Hv) as (h & t & c & E & R & C & F & S & V). rewrite E, F, S.
      pose proof (find_tidy _ _ _ F (proj2 (proj2 Hs))) as T.
      destruct c as [i e|i l|i mi m]; try rewrite value_vec; try rewrite value_map.
      * cbn [value tidy] in *. destruct e; try contradiction; exact Hi.
      * exact Hi.
      * cbn [snd]. exists (rev (x_head x)), i, mi, [], m. cbn [app x_data x_map x_it]. rewrite vmapv_fst. auto.
    + destruct Hv as [_ E]. cbn [snd] in E. rewrite E. exact Hi.
  - assert (iexec k ((g, cur), it) = Some (fst (sexec k (g, cur)), (snd (sexec k (g, cur)),
        match it, cur with Live p ks, Some c => if writes k (g, cur) && prefixb c p then Lost else it | _, _ => it end))) as EQ.
    { destruct k; try contradiction; cbn [iexec]; destruct (sexec _ (g, cur)); reflexivity. }
    pose proof (eq_trans (eq_sym EQ) HE) as HE'. clear HE. rename HE' into HE. apply Some_inj in HE. injection HE as <- <-. now apply General.
Qed.

(** ** Histories *)

Lemma explorer0_ok : sane explorer0 /\ isees explorer0 istate0.
Proof.
  split; [split; [|split]|split; [split|]]; cbn; auto.
  - constructor; [intros []|constructor].
  - exists (CLeaf 0 GNone). apply (reach_here (CLeaf 0 GNone)).
Qed.
Lemma F2_length {A B} (R : A -> B -> Prop) l l' : Forall2 R l l' -> length l = length l'.
Proof. induction 1; cbn; auto. Qed.
Lemma F2_nth_error {A B} (R : A -> B -> Prop) l l' : Forall2 R l l' -> forall i b, nth_error l' i = Some b ->
  exists a, nth_error l i = Some a /\ R a b.
Proof. induction 1; intros [|i] b'; cbn; try discriminate; [intros [= <-]; eauto | auto]. Qed.
Lemma F2_lset {A B} (R : A -> B -> Prop) l l' : Forall2 R l l' -> forall i a b, R a b -> Forall2 R (lset i a l) (lset i b l').
Proof. induction 1; intros [|i] a b Hab; cbn; constructor; auto. Qed.
Lemma lset_length {A} i (a : A) l : length (lset i a l) = length l.
Proof. revert i. induction l; intros [|i]; cbn; auto. Qed.
Lemma mset_forall {V} (P : string * V -> Prop) k v m : P (k, v) -> Forall P m -> Forall P (mset k v m).
Proof.
  intros Hk. induction 1 as [|[k' v'] t Ha Ht IH]; cbn [mset]; [repeat constructor; auto|].
  destruct (String.compare k k'); repeat constructor; auto.
Qed.
Lemma merase_forall {V} (P : string * V -> Prop) k m : Forall P m -> Forall P (merase k m).
Proof.
  induction 1 as [|[k' v'] t Ha Ht IH]; cbn [merase]; [constructor|]. destruct (String.compare k k'); auto.
Qed.
Lemma select_ok name s t : nsees s t -> nsees (select name s) (nselect name t) /\ exists i, c_active (select name s) = Some i.
Proof.
  intros (E1 & E2 & F & A & B). unfold select, nselect. rewrite <- E1. destruct (mfind (cstr name) (c_names s)) as [i|] eqn:M.
  - split; [|cbn; eauto]. split; [|split; [|split; [|split]]]; cbn; auto. intros j [= <-].
    apply mfind_in in M. rewrite Forall_forall in B. apply (B _ M).
  - split; [|cbn; eauto]. rewrite <- (F2_length _ _ _ F). split; [|split; [|split; [|split]]]; cbn; auto.
    + apply Forall2_app; [exact F|]. constructor; [apply explorer0_ok|constructor].
    + intros j [= <-]. rewrite app_length. cbn. lia.
    + apply mset_forall; cbn; [rewrite app_length; cbn; lia|]. eapply Forall_impl; [|exact B]. intros a. cbn. rewrite app_length. cbn. lia.
Qed.
Lemma nexec_ok k s t o t' : nsees s t -> nexec k t = Some (o, t') ->
  exists s', exec k s = (Ret o, s') /\ nsees s' t'.
Proof.
  intros H. destruct k as [name|name|name|name|name|k]; cbn [nexec exec].
  1-3: intros HE; apply Some_inj in HE; injection HE as <- <-; eexists; split; [reflexivity|]; now apply select_ok.
  - intros HE. apply Some_inj in HE. injection HE as <- <-. eexists. split; [reflexivity|].
    destruct H as (E1 & E2 & F & A & B). split; [|split; [|split; [|split]]]; cbn; auto; [now rewrite E1|]. now apply merase_forall.
  - destruct (select_ok name s t H) as [H' (i & Ei)]. cbn zeta. set (s1 := select name s) in *. set (t1 := nselect name t) in *.
    destruct H' as (E1 & E2 & F & A & B). rewrite <- E2, Ei.
    destruct (nth_error (n_all t1) i) as [[[g cur] it]|] eqn:Ni; [|discriminate].
    destruct (F2_nth_error _ _ _ F _ _ Ni) as (x & Nx & Hs & Hv & Hi). rewrite Nx.
    intros HE. assert (o = Ok c_ok /\ t' = N (n_names t1) (lset i ((fill_value g, cur), match it with NoIter => NoIter | _ => Lost end) (n_all t1)) (Some i) /\
                       (cur = None \/ cur = Some [])) as (-> & -> & Hc).
    { destruct cur as [[|]|]; [| discriminate |]; apply Some_inj in HE; injection HE as <- <-; auto. }
    eexists. split; [reflexivity|]. cbn [fst snd] in Hv, Hi.
    assert (find (cid (x_data x)) (x_data x) = Some (x_data x)) as Fr by (rewrite find_eq, Nat.eqb_refl; reflexivity).
    assert (x_data (overwrite_at (cid (x_data x)) (fill_value (value (x_data x))) x) = fst (label (cid (x_data x)) (fill_value (value (x_data x))) (x_next x))) as ED.
    { unfold overwrite_at. destruct (label _ _ _) as [c n]. cbn [x_data fst].
      destruct (x_data x); [rewrite store_leaf|rewrite store_vec|rewrite store_map]; cbn [cid]; now rewrite Nat.eqb_refl. }
    assert (x_head (overwrite_at (cid (x_data x)) (fill_value (value (x_data x))) x) = x_head x /\
            x_map (overwrite_at (cid (x_data x)) (fill_value (value (x_data x))) x) = x_map x) as [EH EM].
    { unfold overwrite_at. destruct (label _ _ _) as [c n]. auto. }
    pose proof (label_ok (cid (x_data x)) (fill_value (value (x_data x))) (x_next x)) as (L1 & L2 & _).
    split; [|split; [|split; [|split]]]; cbn [set_heap c_names c_heap c_active n_names n_all n_active]; auto.
    + apply F2_lset; [exact F|]. split; [eapply sane_overwrite; eauto|]. split; [split|]; cbn [fst snd].
      * rewrite ED, L2. destruct Hv as [Hv _]. now rewrite Hv.
      * destruct Hv as [_ Hv]. cbn [fst snd] in Hv. rewrite EH, ED. destruct Hc as [->| ->]; [exact Hv|].
        destruct Hv as (c & R). inversion R as [c0 H0 H1| |]; subst. set (lc := fst (label _ _ _)) in *. rewrite <- L1. exists lc. constructor.
      * destruct it; auto. congruence.
    + rewrite lset_length. exact A.
    + rewrite lset_length. exact B.
  - destruct H as (E1 & E2 & F & A & B). rewrite <- E2. destruct (c_active s) as [i|] eqn:Ei.
    + destruct (nth_error (n_all t) i) as [st|] eqn:Ni; [|discriminate].
      destruct (F2_nth_error _ _ _ F _ _ Ni) as (x & Nx & Hs & Hv). rewrite Nx.
      destruct (iexec k st) as [[o1 st1]|] eqn:Ek; [|discriminate]. intros HE. apply Some_inj in HE. injection HE as <- <-.
      destruct (explorer_istep k x st o1 st1 Hs Hv Ek) as (x' & X1 & X2 & X3). rewrite X1. eexists. split; [reflexivity|].
      split; [|split; [|split; [|split]]]; cbn [set_heap c_names c_heap c_active n_names n_all n_active]; auto.
      * apply F2_lset; auto.
      * rewrite lset_length. intros j Hj. apply A. congruence.
      * rewrite lset_length. exact B.
    + intros HE. apply Some_inj in HE. injection HE as <- <-. eexists. split; [reflexivity|].
      split; [|split; [|split; [|split]]]; auto; congruence.
Qed.
Lemma nstate0_ok : nsees cstate0 nstate0.
Proof. split; [|split; [|split; [|split]]]; cbn; auto. discriminate. Qed.

Theorem run_ok ks : forall s t os t', nsees s t -> nrun ks t = Some (os, t') ->
  exists s', run ks s = (map Ret os, s') /\ nsees s' t'.
Proof.
  induction ks as [|k ks IH]; intros s t os t' H; cbn [nrun run].
  - intros HE. apply Some_inj in HE. injection HE as <- <-. eauto.
  - destruct (nexec k t) as [[o t1]|] eqn:E1; [|discriminate]. destruct (nrun ks t1) as [[os1 t2]|] eqn:E2; [|discriminate].
    intros HE. apply Some_inj in HE. injection HE as <- <-. destruct (nexec_ok k s t o t1 H E1) as (s1 & X1 & X2). rewrite X1.
    destruct (IH s1 t1 os1 t2 X2 E2) as (s2 & Y1 & Y2). rewrite Y1. cbn. eauto.
Qed.
