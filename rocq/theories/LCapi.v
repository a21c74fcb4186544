(** Lemmas about addresses and cursors of the C interface. *)
From Coq Require Import ZArith Bool Lia Ascii String List Permutation.
From Verif Require Import Base F64 StrMap Value MBasic MGet MMap MMat MPromote MRef MCapi SCapi.
Import ListNotations.
Local Open Scope Z_scope.

Lemma cell_nest_ind (P : cell -> Prop) :
  (forall i g, P (CLeaf i g)) ->
  (forall i l, Forall P l -> P (CVec i l)) ->
  (forall i mi m, Forall (fun kc => P (snd kc)) m -> P (CMap i mi m)) ->
  forall c, P c.
Proof.
  intros Hl Hv Hm. fix IH 1. intros [i g | i l | i mi m].
  - apply Hl.
  - apply Hv. induction l as [|a t IHt]; constructor; [apply IH | exact IHt].
  - apply Hm. induction m as [|a t IHt]; constructor; [apply IH | exact IHt].
Qed.

Lemma value_vec i l : value (CVec i l) = GVec (map value l).
Proof. reflexivity. Qed.
Definition vmapv (m : list (string * cell)) : list (string * gc) := map (fun kc => (fst kc, value (snd kc))) m.
Lemma value_map i mi m : value (CMap i mi m) = GMap (vmapv m).
Proof. reflexivity. Qed.

Fixpoint find_list (h : nat) (l : list cell) : option cell :=
  match l with [] => None | a :: t => match find h a with Some r => Some r | None => find_list h t end end.
Lemma find_eq h c : find h c = if Nat.eqb (cid c) h then Some c else find_list h (children c).
Proof.
  destruct c as [i g | i l | i mi m]; cbn [find cid children].
  - reflexivity.
  - destruct (Nat.eqb i h); [reflexivity|]. induction l as [|a t IH]; cbn; [reflexivity|].
    now rewrite IH.
  - destruct (Nat.eqb i h); [reflexivity|]. induction m as [|a t IH]; cbn; [reflexivity|].
    now rewrite IH.
Qed.
Definition smap (h : nat) (new : cell) (m : list (string * cell)) : list (string * cell) :=
  map (fun kc => (fst kc, store h new (snd kc))) m.
Lemma store_vec h new i l : store h new (CVec i l) =
  if Nat.eqb i h then new else CVec i (map (store h new) l).
Proof.
  reflexivity.
Qed.
Lemma store_map h new i mi m : store h new (CMap i mi m) =
  if Nat.eqb i h then new else CMap i mi (smap h new m).
Proof.
  reflexivity.
Qed.
Lemma store_leaf h new i g : store h new (CLeaf i g) = if Nat.eqb i h then new else CLeaf i g.
Proof. reflexivity. Qed.

Definition addrl (l : list cell) : list nat := flat_map addrs l.
Lemma addrs_vec i l : addrs (CVec i l) = i :: addrl l.
Proof. reflexivity. Qed.
Lemma addrs_map i mi m : addrs (CMap i mi m) = i :: mi :: addrl (map snd m).
Proof. cbn [addrs]. do 2 f_equal. induction m as [|a t IH]; cbn; [reflexivity | now rewrite IH]. Qed.
Lemma cid_in c : In (cid c) (addrs c).
Proof. destruct c; cbn; auto. Qed.

Lemma smap_snd h new m : map snd (smap h new m) = map (store h new) (map snd m).
Proof. unfold smap. rewrite !map_map. reflexivity. Qed.
Lemma smap_fst h new m : map fst (smap h new m) = map fst m.
Proof. unfold smap. rewrite map_map. reflexivity. Qed.

Lemma find_in h c r : find h c = Some r -> In h (addrs c) /\ cid r = h /\ (forall x, In x (addrs r) -> In x (addrs c)).
Proof.
  revert r. induction c as [i g | i l IH | i mi m IH] using cell_nest_ind; intros r; rewrite find_eq; cbn [cid children].
  - destruct (Nat.eqb_spec i h) as [->|]; [|discriminate]. intros [= <-]. cbn. auto.
  - destruct (Nat.eqb_spec i h) as [->|].
    + intros [= <-]. split; [apply (cid_in (CVec h l))|]. auto.
    + rewrite addrs_vec. intros H. assert (In h (addrl l) /\ cid r = h /\ (forall x, In x (addrs r) -> In x (addrl l))) as (A&B&D).
      { induction l as [|a t IHt]; cbn in H; [discriminate|]. inversion IH as [|? ? Ha Ht]; subst.
        unfold addrl. cbn [flat_map]. destruct (find h a) as [r'|] eqn:E.
        - injection H as ->. destruct (Ha r eq_refl) as (P&Q&R). repeat split; auto; intros; apply in_or_app; auto.
        - destruct (IHt Ht H) as (P&Q&R). repeat split; auto; intros; apply in_or_app; right; auto. }
      repeat split; auto; intros; right; auto.
  - destruct (Nat.eqb_spec i h) as [->|].
    + intros [= <-]. split; [apply (cid_in (CMap h mi m))|]. auto.
    + rewrite addrs_map. intros H.
      assert (Forall (fun c => forall r, find h c = Some r -> In h (addrs c) /\ cid r = h /\ (forall x, In x (addrs r) -> In x (addrs c))) (map snd m)) as IH'.
      { clear -IH. induction IH; cbn; constructor; auto. }
      clear IH. remember (map snd m) as l eqn:El. clear El.
      assert (In h (addrl l) /\ cid r = h /\ (forall x, In x (addrs r) -> In x (addrl l))) as (A&B&D).
      { induction l as [|a t IHt]; cbn in H; [discriminate|]. inversion IH' as [|? ? Ha Ht]; subst.
        unfold addrl. cbn [flat_map]. destruct (find h a) as [r'|] eqn:E.
        - injection H as ->. destruct (Ha r eq_refl) as (P&Q&R). repeat split; auto; intros; apply in_or_app; auto.
        - destruct (IHt H Ht) as (P&Q&R). repeat split; auto; intros; apply in_or_app; right; auto. }
      repeat split; auto; intros; right; right; auto.
Qed.
Lemma find_list_in h l r : find_list h l = Some r -> In h (addrl l).
Proof.
  induction l as [|a t IH]; cbn [find_list]; [discriminate|]. unfold addrl. cbn [flat_map].
  intros H. apply in_or_app. destruct (find h a) eqn:E; [left; now apply find_in in E | right; now apply IH].
Qed.
Lemma find_none h c : ~ In h (addrs c) -> find h c = None.
Proof. intros H. destruct (find h c) eqn:E; [|reflexivity]. apply find_in in E. tauto. Qed.

Lemma store_absent h new c : ~ In h (addrs c) -> store h new c = c.
Proof.
  induction c as [i g | i l IH | i mi m IH] using cell_nest_ind; intros H.
  - rewrite store_leaf. destruct (Nat.eqb_spec i h) as [->|]; [|reflexivity]. exfalso. apply H. now left.
  - rewrite store_vec. rewrite addrs_vec in H. destruct (Nat.eqb_spec i h) as [->|]; [exfalso; apply H; now left|].
    f_equal. assert (~ In h (addrl l)) as H' by (intros X; apply H; now right). clear H.
    induction l as [|a t IHt]; cbn; [reflexivity|]. inversion IH; subst. unfold addrl in H'. cbn in H'.
    f_equal; [|apply IHt; auto]; [|intros X; apply H'; apply in_or_app; now right].
    apply H1. intros X; apply H'; apply in_or_app; now left.
  - rewrite store_map. rewrite addrs_map in H. destruct (Nat.eqb_spec i h) as [->|]; [exfalso; apply H; now left|].
    f_equal. assert (~ In h (addrl (map snd m))) as H' by (intros X; apply H; now right; right). clear H.
    induction m as [|[k a] t IHt]; cbn; [reflexivity|]. inversion IH; subst. unfold addrl in H'. cbn in H'. cbn in H1.
    f_equal; [f_equal|apply IHt; auto]; [|intros X; apply H'; apply in_or_app; now right].
    apply H1. intros X; apply H'; apply in_or_app; now left.
Qed.
Lemma store_absent_list h new l : ~ In h (addrl l) -> map (store h new) l = l.
Proof.
  unfold addrl. induction l as [|a t IH]; cbn; intros H; [reflexivity|].
  rewrite store_absent, IH; [reflexivity| |]; intros X; apply H; apply in_or_app; auto.
Qed.
Lemma store_cid h new c : cid new = h -> cid (store h new c) = cid c.
Proof.
  intros E. destruct c as [i g | i l | i mi m]; [rewrite store_leaf|rewrite store_vec|rewrite store_map];
    destruct (Nat.eqb_spec i h) as [->|]; cbn; auto.
Qed.

Lemma NoDup_app {A} (l l' : list A) :
  NoDup (l ++ l') <-> NoDup l /\ NoDup l' /\ forall x, In x l -> ~ In x l'.
Proof.
  induction l as [|a l IH]; cbn.
  - split; [intros H; repeat split; auto; constructor | tauto].
  - rewrite !NoDup_cons_iff, IH, in_app_iff. split.
    + intros (H1 & H2 & H3 & H4). repeat split; auto. intros x [<-|Hx]; auto.
    + intros ((H1 & H2) & H3 & H4). repeat split; auto. intros [Hx|Hx]; [tauto|]. now apply (H4 a); [left|].
Qed.

(** Replacing an object keeps addresses distinct when the new ones are unused. *)
Lemma store_nodup n h new old c :
  find h c = Some old -> NoDup (addrs c) -> NoDup (addrs new) ->
  (forall x, In x (addrs c) -> (x < n)%nat) ->
  (forall x, In x (addrs new) -> In x (addrs old) \/ (n <= x)%nat) ->
  NoDup (addrs (store h new c)) /\
  (forall x, In x (addrs (store h new c)) -> In x (addrs c) \/ In x (addrs new)).
Proof.
  intros Hf Hd Hn Hb Hx.
  assert (forall l, Forall (fun c => find h c = Some old -> NoDup (addrs c) -> (forall x, In x (addrs c) -> (x < n)%nat) ->
             NoDup (addrs (store h new c)) /\
             (forall x, In x (addrs (store h new c)) -> In x (addrs c) \/ In x (addrs new))) l ->
           find_list h l = Some old -> NoDup (addrl l) -> (forall x, In x (addrl l) -> (x < n)%nat) ->
           NoDup (addrl (map (store h new) l)) /\
           (forall x, In x (addrl (map (store h new) l)) -> In x (addrl l) \/ In x (addrs new))) as L.
  { clear c Hf Hd Hb. intros l. unfold addrl. induction l as [|a t IHt]; cbn [find_list flat_map map]; intros IH Hf Hd Hb; [discriminate|].
    inversion IH as [|? ? Ha Ht]; subst. apply NoDup_app in Hd. destruct Hd as (D1 & D2 & D3).
    destruct (find h a) as [r|] eqn:E.
    - injection Hf as ->. destruct (find_in _ _ _ E) as (I1 & I2 & I3).
      assert (map (store h new) t = t) as -> by (apply store_absent_list; now apply D3).
      destruct (Ha eq_refl D1 ltac:(intros; apply Hb; apply in_or_app; auto)) as (P & Q). split.
      + apply NoDup_app. repeat split; auto. intros x Hi. destruct (Q x Hi) as [Hi'|Hi']; [now apply D3|].
        destruct (Hx x Hi') as [Hi''|Hge]; [apply D3; now apply I3|]. intros Ht'.
        assert (x < n)%nat by (apply Hb; apply in_or_app; auto). lia.
      + intros x Hi. rewrite !in_app_iff in *. destruct Hi as [Hi|Hi]; [|tauto]. destruct (Q x Hi); tauto.
    - destruct (IHt Ht Hf D2 ltac:(intros; apply Hb; apply in_or_app; auto)) as (P & Q).
      assert (~ In h (addrs a)) as Na.
      { intros Ha'. apply (D3 h Ha'). apply find_list_in in Hf. exact Hf. }
      rewrite store_absent by assumption. split.
      + apply NoDup_app. repeat split; auto. intros x Hi Hi'. destruct (Q x Hi') as [Hi''|Hi'']; [now apply (D3 x)|].
        destruct (Hx x Hi'') as [Ho|Hge].
        * assert (In x (flat_map addrs t)).
          { clear -Hf Ho. induction t as [|b t IH]; cbn in *; [discriminate|]. apply in_or_app.
            destruct (find h b) eqn:E; [left; injection Hf as ->; now apply (find_in _ _ _ E) | right; now apply IH]. }
          now apply (D3 x).
        * assert (x < n)%nat by (apply Hb; apply in_or_app; auto). lia.
      + intros x Hi. rewrite !in_app_iff in *. destruct Hi as [Hi|Hi]; [tauto|]. destruct (Q x Hi); tauto. }
  revert Hf Hd Hb. induction c as [i g | i l IH | i mi m IH] using cell_nest_ind; intros Hf Hd Hb.
  - rewrite store_leaf. rewrite find_eq in Hf. cbn in Hf. destruct (Nat.eqb_spec i h); [|discriminate]. auto.
  - rewrite store_vec. rewrite find_eq in Hf. cbn [cid children] in Hf. destruct (Nat.eqb_spec i h); [auto|].
    rewrite addrs_vec in *. apply NoDup_cons_iff in Hd. destruct Hd as [D1 D2].
    destruct (L l IH Hf D2 ltac:(intros; apply Hb; now right)) as (P & Q). split.
    + constructor; [|exact P]. intros Hi. destruct (Q i Hi) as [?|Hi']; [auto|].
      destruct (Hx i Hi') as [Ho|Hge].
      * apply D1. clear -Hf Ho. unfold addrl. induction l as [|b t IHt]; cbn in *; [discriminate|]. apply in_or_app.
        destruct (find h b) eqn:E; [left; injection Hf as ->; now apply (find_in _ _ _ E) | right; now apply IHt].
      * assert (i < n)%nat by (apply Hb; now left). lia.
    + intros x [<-|Hi]; [left; now left|]. destruct (Q x Hi); [left; now right | now right].
  - rewrite store_map. rewrite find_eq in Hf. cbn [cid children] in Hf. destruct (Nat.eqb_spec i h); [auto|].
    rewrite addrs_map in *. rewrite !NoDup_cons_iff in Hd. destruct Hd as (D1 & D1' & D2).
    assert (Forall (fun c => find h c = Some old -> NoDup (addrs c) -> (forall x, In x (addrs c) -> (x < n)%nat) ->
             NoDup (addrs (store h new c)) /\
             (forall x, In x (addrs (store h new c)) -> In x (addrs c) \/ In x (addrs new))) (map snd m)) as IH'.
    { clear -IH. induction IH; cbn; constructor; auto. }
    destruct (L _ IH' Hf D2 ltac:(intros; apply Hb; right; now right)) as (P & Q).
    rewrite smap_snd.
    assert (forall x, In x (addrs old) -> In x (addrl (map snd m))) as Ho.
    { clear -Hf. unfold addrl. induction (map snd m) as [|b t IHt]; cbn in *; [discriminate|]. intros x Ho. apply in_or_app.
      destruct (find h b) eqn:E; [left; injection Hf as ->; now apply (find_in _ _ _ E) | right; now apply IHt]. }
    cbn [In] in D1. split.
    + constructor; [|constructor; [|exact P]].
      * intros [->|Hi]; [tauto|]. destruct (Q i Hi) as [?|Hi']; [tauto|].
        destruct (Hx i Hi') as [Hi''|Hge]; [apply D1; right; now apply Ho|].
        assert (i < n)%nat by (apply Hb; now left). lia.
      * intros Hi. destruct (Q mi Hi) as [?|Hi']; [tauto|].
        destruct (Hx mi Hi') as [Hi''|Hge]; [apply D1'; now apply Ho|].
        assert (mi < n)%nat by (apply Hb; right; now left). lia.
    + rewrite ?(addrs_map i mi m). intros x [<-|[<-|Hi]]; [left; now left|left; right; now left|]. destruct (Q x Hi); [left; right; now right | now right].
Qed.

(** New objects. *)
Fixpoint label_list (v : list gc) (n : nat) : list cell * nat :=
  match v with
  | [] => ([], n)
  | a :: t => let '(c, n1) := label n a (S n) in let '(r, n2) := label_list t n1 in (c :: r, n2)
  end.
Fixpoint label_entries (m : list (string * gc)) (n : nat) : list (string * cell) * nat :=
  match m with
  | [] => ([], n)
  | (k, a) :: t => let '(c, n1) := label n a (S n) in let '(r, n2) := label_entries t n1 in ((k, c) :: r, n2)
  end.
Lemma label_vec h v n : label h (GVec v) n = let '(l, n') := label_list v n in (CVec h l, n').
Proof. reflexivity. Qed.
Lemma label_map h m n : label h (GMap m) n = let '(l, n') := label_entries m (S n) in (CMap h n l, n').
Proof. reflexivity. Qed.

Definition labelled (h : nat) (g : gc) (n : nat) (c : cell) (n' : nat) : Prop :=
  cid c = h /\ value c = g /\ (n <= n')%nat /\
  exists r, addrs c = h :: r /\ NoDup r /\ forall x, In x r -> (n <= x < n')%nat.
Lemma label_ok h g n : labelled h g n (fst (label h g n)) (snd (label h g n)).
Proof.
  revert h n. induction g as [g Hv Hm | v IH | m IH] using gc_nest_ind; intros h n.
  - assert (label h g n = (CLeaf h g, n)) as ->
      by (destruct g; try reflexivity; [exfalso; now apply (Hv v) | exfalso; now apply (Hm m)]).
    cbn [fst snd]. repeat split; auto. exists []. repeat split; auto; [constructor| |]; contradiction.
  - rewrite label_vec.
    assert (forall n, let '(l, n') := label_list v n in map value l = v /\ (n <= n')%nat /\ NoDup (addrl l) /\
                      forall x, In x (addrl l) -> (n <= x < n')%nat) as L.
    { clear h n. induction v as [|a t IHt]; cbn [label_list]; intros n.
      - cbn. repeat split; auto; [constructor| |]; contradiction.
      - inversion IH as [|? ? Ha Ht]; subst. pose proof (Ha n (S n)) as A. destruct (label n a (S n)) as [c n1].
        specialize (IHt Ht n1). destruct (label_list t n1) as [r n2]. cbn [fst snd] in A.
        destruct A as (A1 & A2 & A3 & rr & A4 & A5 & A6). destruct IHt as (B1 & B2 & B3 & B4).
        unfold addrl in *. cbn [map flat_map]. rewrite A2, B1. split; [reflexivity|]. split; [lia|].
        rewrite A4. assert (forall x, In x (n :: rr) -> (n <= x < n1)%nat) as A7.
        { intros x [<-|Hx]; [lia|]. apply A6 in Hx. lia. }
        split.
        + apply NoDup_app. repeat split; auto.
          * constructor; [|assumption]. intros Hi. apply A6 in Hi. lia.
          * intros x Hx Hx'. apply A7 in Hx. apply B4 in Hx'. lia.
        + intros x Hx. apply in_app_iff in Hx. destruct Hx as [Hx|Hx]; [apply A7 in Hx | apply B4 in Hx]; lia. }
    specialize (L n). destruct (label_list v n) as [l n']. destruct L as (L1 & L2 & L3 & L4). cbn [fst snd].
    split; [reflexivity|]. split; [now rewrite value_vec, L1|]. split; [exact L2|].
    exists (addrl l). rewrite addrs_vec. auto.
  - rewrite label_map.
    assert (forall n, let '(l, n') := label_entries m n in vmapv l = m /\ (n <= n')%nat /\ NoDup (addrl (map snd l)) /\
                      forall x, In x (addrl (map snd l)) -> (n <= x < n')%nat) as L.
    { clear h n. induction m as [|[k a] t IHt]; cbn [label_entries]; intros n.
      - cbn. repeat split; auto; [constructor| |]; contradiction.
      - inversion IH as [|? ? Ha Ht]; subst. cbn [snd] in Ha. pose proof (Ha n (S n)) as A. destruct (label n a (S n)) as [c n1].
        specialize (IHt Ht n1). destruct (label_entries t n1) as [r n2]. cbn [fst snd] in A.
        destruct A as (A1 & A2 & A3 & rr & A4 & A5 & A6). destruct IHt as (B1 & B2 & B3 & B4).
        unfold addrl, vmapv in *. cbn [map flat_map fst snd]. rewrite A2, B1. split; [reflexivity|]. split; [lia|].
        rewrite A4. assert (forall x, In x (n :: rr) -> (n <= x < n1)%nat) as A7.
        { intros x [<-|Hx]; [lia|]. apply A6 in Hx. lia. }
        split.
        + apply NoDup_app. repeat split; auto.
          * constructor; [|assumption]. intros Hi. apply A6 in Hi. lia.
          * intros x Hx Hx'. apply A7 in Hx. apply B4 in Hx'. lia.
        + intros x Hx. apply in_app_iff in Hx. destruct Hx as [Hx|Hx]; [apply A7 in Hx | apply B4 in Hx]; lia. }
    specialize (L (S n)). destruct (label_entries m (S n)) as [l n']. destruct L as (L1 & L2 & L3 & L4). cbn [fst snd].
    split; [reflexivity|]. split; [now rewrite value_map, L1|]. split; [lia|].
    exists (n :: addrl (map snd l)). rewrite addrs_map. split; [reflexivity|]. split.
    + constructor; [|exact L3]. intros Hi. apply L4 in Hi. lia.
    + intros x [<-|Hx]; [lia|]. apply L4 in Hx. lia.
Qed.

Lemma tidy_vec i l : tidy (CVec i l) <-> Forall tidy l.
Proof. cbn [tidy]. induction l as [|a t IH]; [split; constructor|]. rewrite Forall_cons_iff, <- IH. reflexivity. Qed.
Lemma tidy_map i mi m : tidy (CMap i mi m) <-> Forall tidy (map snd m).
Proof. cbn [tidy]. induction m as [|a t IH]; [split; constructor|]. cbn [map]. rewrite Forall_cons_iff, <- IH. reflexivity. Qed.
Lemma tidy_children c : tidy c -> Forall tidy (children c).
Proof. destruct c; cbn [children]; [constructor|now rewrite tidy_vec|now rewrite tidy_map]. Qed.
Lemma label_tidy h g n : tidy (fst (label h g n)).
Proof.
  revert h n. induction g as [g Hv Hm | v IH | m IH] using gc_nest_ind; intros h n.
  - destruct g; cbn [label fst tidy]; auto; [now destruct (Hv v) | now destruct (Hm m)].
  - rewrite label_vec. assert (forall n, Forall tidy (fst (label_list v n))) as L.
    { clear h n. induction v as [|a t IHt]; intros n; cbn [label_list]; [constructor|].
      inversion IH as [|? ? Ha Ht]; subst. specialize (Ha n (S n)). destruct (label n a (S n)) as [c n1].
      specialize (IHt Ht n1). destruct (label_list t n1). constructor; assumption. }
    specialize (L n). destruct (label_list v n). cbn [fst] in *. now apply tidy_vec.
  - rewrite label_map. assert (forall n, Forall tidy (map snd (fst (label_entries m n)))) as L.
    { clear h n. induction m as [|[k a] t IHt]; intros n; cbn [label_entries]; [constructor|].
      inversion IH as [|? ? Ha Ht]; subst. cbn [snd] in Ha. specialize (Ha n (S n)). destruct (label n a (S n)) as [c n1].
      specialize (IHt Ht n1). destruct (label_entries t n1). cbn [fst map snd] in *. constructor; assumption. }
    specialize (L (S n)). destruct (label_entries m (S n)). cbn [fst] in *. now apply tidy_map.
Qed.
Lemma find_tidy h c r : find h c = Some r -> tidy c -> tidy r.
Proof.
  assert (forall l, Forall (fun c => find h c = Some r -> tidy c -> tidy r) l -> find_list h l = Some r -> Forall tidy l -> tidy r) as A.
  { induction l as [|a t IHt]; cbn [find_list]; intros H F T; [discriminate|].
    inversion H; inversion T; subst. destruct (find h a) eqn:Ea; auto. }
  induction c as [i g | i l IH | i mi m IH] using cell_nest_ind; rewrite find_eq; cbn [cid children]; destruct (Nat.eqb i h);
    try (intros [= <-]; auto; fail).
  - intros F T. apply tidy_vec in T. eauto.
  - intros F T. apply tidy_map in T. apply (A (map snd m)); auto. rewrite Forall_map. exact IH.
Qed.
Lemma store_tidy h new c : tidy new -> tidy c -> tidy (store h new c).
Proof.
  intros N. induction c as [i g | i l IH | i mi m IH] using cell_nest_ind;
    [rewrite store_leaf|rewrite store_vec|rewrite store_map]; destruct (Nat.eqb i h); auto.
  - rewrite !tidy_vec, Forall_map. intros T. rewrite Forall_forall in *. auto.
  - rewrite !tidy_map, smap_snd, !Forall_map. intros T. rewrite Forall_forall in *. auto.
Qed.

Lemma find_nodup h c r : find h c = Some r -> NoDup (addrs c) -> NoDup (addrs r).
Proof.
  assert (forall l, Forall (fun c => find h c = Some r -> NoDup (addrs c) -> NoDup (addrs r)) l -> find_list h l = Some r -> NoDup (addrl l) -> NoDup (addrs r)) as A.
  { unfold addrl. induction l as [|a t IHt]; cbn [find_list flat_map]; intros H F T; [discriminate|].
    apply NoDup_app in T. inversion H; subst. destruct (find h a) eqn:Ea; [apply H2; [congruence|apply T] | apply IHt; auto; apply T]. }
  induction c as [i g | i l IH | i mi m IH] using cell_nest_ind; rewrite find_eq; cbn [cid children]; destruct (Nat.eqb i h);
    try (intros [= <-]; auto; fail).
  - intros F T. rewrite addrs_vec in T. inversion T; subst. eauto.
  - intros F T. rewrite addrs_map in T. inversion T as [|? ? ? T2]; inversion T2; subst. apply (A (map snd m)); auto. rewrite Forall_map. exact IH.
Qed.

(** ** Cursors *)

Lemma reaches_cids c hs p c' : reaches c hs p c' ->
  hd_error hs = Some (cid c) /\ last hs O = cid c' /\ hs <> [] /\ length hs = S (length p) /\
  (forall x, In x (addrs c') -> In x (addrs c)).
Proof.
  induction 1 as [c | i l n e hs p c' E H IH | i mi m k e hs p c' E H IH].
  - cbn. repeat split; auto. discriminate.
  - destruct IH as (I1 & I2 & I3 & I4 & I5). repeat split.
    + destruct hs; [contradiction|]. exact I2.
    + discriminate.
    + cbn. now rewrite I4.
    + intros x Hx. rewrite addrs_vec. right. unfold addrl. apply in_flat_map. exists e.
      split; [|now apply I5]. unfold znth in E. destruct (n <? 0); [discriminate|]. now apply nth_error_In in E.
  - destruct IH as (I1 & I2 & I3 & I4 & I5). repeat split.
    + destruct hs; [contradiction|]. exact I2.
    + discriminate.
    + cbn. now rewrite I4.
    + intros x Hx. rewrite addrs_map. right. right. unfold addrl. apply in_flat_map. exists e.
      split; [|now apply I5]. apply mfind_in in E. apply in_map_iff. now exists (k, e).
Qed.

Lemma find_list_split h l1 e l2 r :
  NoDup (addrl (l1 ++ e :: l2)) -> find h e = Some r -> find_list h (l1 ++ e :: l2) = Some r.
Proof.
  unfold addrl. induction l1 as [|a t IH]; cbn [app find_list flat_map]; intros D F.
  - now rewrite F.
  - apply NoDup_app in D. destruct D as (D1 & D2 & D3). rewrite find_none.
    + now apply IH.
    + intros Ha. apply (D3 _ Ha). rewrite flat_map_app. apply in_or_app. right. cbn. apply in_or_app. left.
      exact (proj1 (find_in _ _ _ F)).
Qed.
Lemma map_store_split h new l1 e l2 :
  NoDup (addrl (l1 ++ e :: l2)) -> In h (addrs e) ->
  map (store h new) (l1 ++ e :: l2) = l1 ++ store h new e :: l2.
Proof.
  intros D F. unfold addrl in D. rewrite flat_map_app in D. cbn in D. apply NoDup_app in D.
  destruct D as (D1 & D2 & D3). apply NoDup_app in D2. destruct D2 as (D2 & D4 & D5).
  rewrite map_app. cbn. rewrite !store_absent_list; auto.
  intros X. apply (D3 _ X). apply in_or_app. now left.
Qed.

Lemma znth_split' {A} n (l : list A) e : znth n l = Some e ->
  exists l1 l2, l = l1 ++ e :: l2 /\ length l1 = Z.to_nat n /\ 0 <= n.
Proof.
  unfold znth. destruct (Z.ltb_spec n 0); [discriminate|]. intros E.
  destruct (nth_error_split _ _ E) as (l1 & l2 & E1 & E2). exists l1, l2. auto.
Qed.
Lemma znth_app_mid {A} n (l1 : list A) e l2 : length l1 = Z.to_nat n -> 0 <= n -> znth n (l1 ++ e :: l2) = Some e.
Proof.
  intros L N. unfold znth. destruct (Z.ltb_spec n 0); [lia|].
  rewrite nth_error_app2 by lia. now rewrite L, Nat.sub_diag.
Qed.
Lemma lset_app_mid {A} n (l1 : list A) e l2 x : length l1 = n -> lset n x (l1 ++ e :: l2) = l1 ++ x :: l2.
Proof. intros <-. induction l1; cbn; [reflexivity | now rewrite IHl1]. Qed.

Lemma mfind_cons {A} k k' (a : A) t : mfind k ((k', a) :: t) = if String.eqb k k' then Some a else mfind k t.
Proof.
  cbn [mfind]. destruct (String.eqb_spec k k') as [->|N].
  - now rewrite compare_refl.
  - destruct (String.compare k k') eqn:E; [|reflexivity|reflexivity]. apply String.compare_eq_iff in E. contradiction.
Qed.
Lemma mfind_split {A} k (m : list (string * A)) e : mfind k m = Some e ->
  exists m1 m2, m = m1 ++ (k, e) :: m2 /\ ~ In k (map fst m1).
Proof.
  induction m as [|[k' a] t IH]; [discriminate|]. rewrite mfind_cons.
  destruct (String.eqb_spec k k') as [->|N].
  - intros [= ->]. exists [], t. cbn. auto.
  - intros H. destruct (IH H) as (m1 & m2 & -> & Hn). exists ((k', a) :: m1), m2. cbn. split; [reflexivity|].
    intros [->|X]; auto.
Qed.
Lemma mfind_app_mid {A} k (m1 : list (string * A)) e m2 : ~ In k (map fst m1) -> mfind k (m1 ++ (k, e) :: m2) = Some e.
Proof.
  induction m1 as [|[k' a] t IH]; cbn [app map fst In]; intros H; rewrite mfind_cons.
  - now rewrite String.eqb_refl.
  - destruct (String.eqb_spec k k') as [->|N]; [exfalso; apply H; now left|]. apply IH. tauto.
Qed.
Lemma mupd_app_mid k m1 e m2 x : ~ In k (map fst m1) -> mupd k x (m1 ++ (k, e) :: m2) = m1 ++ (k, x) :: m2.
Proof.
  induction m1 as [|[k' a] t IH]; cbn [app map fst In mupd]; intros H.
  - now rewrite String.eqb_refl.
  - destruct (String.eqb_spec k k') as [->|N]; [exfalso; apply H; now left|]. rewrite IH; tauto.
Qed.
Lemma vmapv_fst m : map fst (vmapv m) = map fst m.
Proof. unfold vmapv. rewrite map_map. reflexivity. Qed.
Lemma mfind_vmapv k m : mfind k (vmapv m) = option_map value (mfind k m).
Proof.
  unfold vmapv. induction m as [|[k' c] t IH]; [reflexivity|]. cbn [map fst snd]. rewrite !mfind_cons.
  now destruct (String.eqb k k').
Qed.

Lemma reaches_find c hs p c' : reaches c hs p c' -> NoDup (addrs c) ->
  find (cid c') c = Some c' /\ sub p (value c) = Some (value c').
Proof.
  induction 1 as [c | i l n e hs p c' E H IH | i mi m k e hs p c' E H IH]; intros D.
  - rewrite find_eq, Nat.eqb_refl. cbn. now destruct (value c).
  - destruct (znth_split' _ _ _ E) as (l1 & l2 & -> & L & N). rewrite addrs_vec in D. apply NoDup_cons_iff in D. destruct D as [D1 D2].
    assert (NoDup (addrs e)) as De.
    { unfold addrl in D2. rewrite flat_map_app in D2. cbn in D2. apply NoDup_app in D2. destruct D2 as (_ & D2 & _). now apply NoDup_app in D2. }
    destruct (IH De) as [F S]. split.
    + rewrite find_eq. cbn [cid children]. destruct (Nat.eqb_spec i (cid c')) as [->|_].
      * exfalso. apply D1. unfold addrl. rewrite flat_map_app. apply in_or_app. right. cbn. apply in_or_app. left.
        exact (proj1 (find_in _ _ _ F)).
      * now apply find_list_split.
    + rewrite value_vec. cbn [sub]. rewrite map_app. cbn [map]. rewrite znth_app_mid; auto. now rewrite map_length.
  - destruct (mfind_split _ _ _ E) as (m1 & m2 & -> & Nk). rewrite addrs_map in D. rewrite !NoDup_cons_iff in D. destruct D as (D1 & D1' & D2).
    rewrite map_app in *. cbn [map snd] in *.
    assert (NoDup (addrs e)) as De.
    { unfold addrl in D2. rewrite flat_map_app in D2. cbn in D2. apply NoDup_app in D2. destruct D2 as (_ & D2 & _). now apply NoDup_app in D2. }
    destruct (IH De) as [F S]. split.
    + rewrite find_eq. cbn [cid children]. destruct (Nat.eqb_spec i (cid c')) as [->|_].
      * exfalso. apply D1. right. unfold addrl. rewrite flat_map_app. apply in_or_app. right. cbn. apply in_or_app. left.
        exact (proj1 (find_in _ _ _ F)).
      * rewrite map_app. now apply find_list_split.
    + rewrite value_map. cbn [sub]. rewrite mfind_vmapv, E. exact S.
Qed.

Lemma reaches_store c hs p c' new : reaches c hs p c' -> NoDup (addrs c) -> cid new = cid c' ->
  reaches (store (cid c') new c) hs p new /\ value (store (cid c') new c) = put p (value new) (value c).
Proof.
  intros H. revert new. induction H as [c | i l n e hs p c' E H IH | i mi m k e hs p c' E H IH]; intros new D Hn.
  - assert (store (cid c) new c = new) as ->.
    { destruct c; [rewrite store_leaf|rewrite store_vec|rewrite store_map]; cbn [cid]; now rewrite Nat.eqb_refl. }
    split; [rewrite <- Hn; constructor | now destruct (value c)].
  - destruct (znth_split' _ _ _ E) as (l1 & l2 & -> & L & N). rewrite addrs_vec in D. apply NoDup_cons_iff in D. destruct D as [D1 D2].
    assert (NoDup (addrs e)) as De.
    { unfold addrl in D2. rewrite flat_map_app in D2. cbn in D2. apply NoDup_app in D2. destruct D2 as (_ & D2 & _). now apply NoDup_app in D2. }
    destruct (IH new De Hn) as [R V]. destruct (reaches_find _ _ _ _ H De) as [F _].
    pose proof (find_in _ _ _ F) as (I1 & _ & _).
    rewrite store_vec. destruct (Nat.eqb_spec i (cid c')) as [->|_].
    { exfalso. apply D1. unfold addrl. rewrite flat_map_app. apply in_or_app. right. cbn. apply in_or_app. now left. }
    rewrite map_store_split by assumption. split.
    + econstructor; [|exact R]. now apply znth_app_mid.
    + rewrite !value_vec. cbn [put]. rewrite !map_app. cbn [map]. rewrite znth_app_mid by (rewrite ?map_length; auto).
      rewrite lset_app_mid by (rewrite map_length; auto). now rewrite V.
  - destruct (mfind_split _ _ _ E) as (m1 & m2 & -> & Nk). rewrite addrs_map in D. rewrite !NoDup_cons_iff in D. destruct D as (D1 & D1' & D2).
    rewrite map_app in D1, D1', D2. cbn [map snd] in D1, D1', D2.
    assert (NoDup (addrs e)) as De.
    { unfold addrl in D2. rewrite flat_map_app in D2. cbn in D2. apply NoDup_app in D2. destruct D2 as (_ & D2 & _). now apply NoDup_app in D2. }
    destruct (IH new De Hn) as [R V]. destruct (reaches_find _ _ _ _ H De) as [F _].
    pose proof (find_in _ _ _ F) as (I1 & _ & _).
    rewrite store_map. destruct (Nat.eqb_spec i (cid c')) as [->|_].
    { exfalso. apply D1. right. unfold addrl. rewrite flat_map_app. apply in_or_app. right. cbn. apply in_or_app. now left. }
    assert (smap (cid c') new (m1 ++ (k, e) :: m2) = m1 ++ (k, store (cid c') new e) :: m2) as ->.
    { clear -D2 I1. unfold addrl in D2. rewrite flat_map_app in D2. cbn in D2. apply NoDup_app in D2.
      destruct D2 as (D1 & D2 & D3). apply NoDup_app in D2. destruct D2 as (D2 & D4 & D5).
      assert (forall m, ~ In (cid c') (flat_map addrs (map snd m)) -> smap (cid c') new m = m) as A.
      { unfold smap. induction m as [|[a b] t IHt]; cbn; intros X; [reflexivity|].
        rewrite store_absent, IHt; [reflexivity| |]; intros Y; apply X; apply in_or_app; auto. }
      unfold smap in *. rewrite map_app. cbn [map fst snd]. rewrite !A; auto.
      intros X. apply (D3 _ X). apply in_or_app. now left. }
    split.
    + econstructor; [|exact R]. now apply mfind_app_mid.
    + rewrite !value_map. cbn [put]. rewrite mfind_vmapv, E. cbn [option_map]. unfold vmapv. rewrite !map_app. cbn [map fst snd].
      rewrite mupd_app_mid by (fold (vmapv m1); rewrite vmapv_fst; exact Nk). now rewrite V.
Qed.

Lemma reaches_more c hs p c' st e :
  reaches c hs p c' ->
  (match st with
   | SIdx n => match c' with CVec _ l => znth n l = Some e | _ => False end
   | SKey k => match c' with CMap _ _ m => mfind k m = Some e | _ => False end
   end) ->
  reaches c (hs ++ [cid e]) (p ++ [st]) e.
Proof.
  induction 1 as [c | i l n e' hs p c' E H IH | i mi m k e' hs p c' E H IH]; intros X.
  - destruct st as [k|n]; destruct c; try contradiction; cbn [app cid]; econstructor; eauto; constructor.
  - cbn [app]. econstructor; eauto.
  - cbn [app]. econstructor; eauto.
Qed.
Lemma reaches_less c hs p c' : reaches c hs p c' -> p <> [] ->
  exists c'', reaches c (removelast hs) (removelast p) c''.
Proof.
  induction 1 as [c | i l n e hs p c' E H IH | i mi m k e hs p c' E H IH]; intros N; [contradiction| |].
  - destruct p as [|st p].
    + inversion H; subst. exists (CVec i l). apply (reach_here (CVec i l)).
    + destruct (IH ltac:(discriminate)) as (c'' & R). exists c''. 
      destruct hs as [|a hs]; [inversion H|]. cbn [removelast] in *. econstructor; eauto.
  - destruct p as [|st p].
    + inversion H; subst. exists (CMap i mi m). apply (reach_here (CMap i mi m)).
    + destruct (IH ltac:(discriminate)) as (c'' & R). exists c''.
      destruct hs as [|a hs]; [inversion H|]. cbn [removelast] in *. econstructor; eauto.
Qed.
Lemma reaches_hd c hs p c' : reaches c hs p c' -> exists t, hs = cid c :: t.
Proof. destruct 1; cbn; eauto. Qed.

Lemma mset_absent {A} k (x : A) m : mfind k m = None -> exists m1 m2, m = m1 ++ m2 /\ mset k x m = m1 ++ (k, x) :: m2.
Proof.
  induction m as [|[k' a] t IH]; intros H; [exists [], []; auto|].
  cbn [mfind mset] in *. destruct (String.compare k k') eqn:E; [discriminate| |].
  - exists [], ((k', a) :: t). auto.
  - destruct (IH H) as (m1 & m2 & -> & ->). exists ((k', a) :: m1), m2. auto.
Qed.
Lemma mset_vmapv k c m : vmapv (mset k c m) = mset k (value c) (vmapv m).
Proof.
  unfold vmapv. induction m as [|[k' a] t IH]; [reflexivity|]. cbn [mset map fst snd].
  destruct (String.compare k k'); cbn [map fst snd]; [reflexivity|reflexivity|now rewrite IH].
Qed.

(** ** The explorer against the cursor machine *)

Lemma sane_overwrite x h old g : sane x -> find h (x_data x) = Some old -> sane (overwrite_at h g x).
Proof.
  intros (D & B & T) F. unfold overwrite_at. pose proof (label_tidy h g (x_next x)) as LT. pose proof (label_ok h g (x_next x)) as L.
  destruct (label h g (x_next x)) as [c n]. cbn [fst snd] in L. destruct L as (L1 & L2 & L3 & r & L4 & L5 & L6).
  rewrite Forall_forall in B. pose proof (find_in _ _ _ F) as (I1 & I2 & I3).
  assert (forall y, In y (addrs c) -> In y (addrs old) \/ (x_next x <= y)%nat) as Hc.
  { rewrite L4. intros y [<-|Hy]; [left; rewrite <- I2; apply cid_in | right; now apply L6]. }
  assert (NoDup (addrs c)) as Dc.
  { rewrite L4. constructor; auto. intros Hi. apply L6 in Hi. apply B in I1. lia. }
  destruct (store_nodup (x_next x) h c old (x_data x) F D Dc B Hc) as [S1 S2].
  cbn [fst] in LT. split; [|split]; cbn [x_data x_next]; [exact S1| |now apply store_tidy]. apply Forall_forall. intros y Hy. apply S2 in Hy.
  destruct Hy as [Hy|Hy]; [apply B in Hy; lia|]. rewrite L4 in Hy. destruct Hy as [<-|Hy]; [apply B in I1; lia | apply L6 in Hy; lia].
Qed.

Lemma rev_cons_last (h : nat) t : last (rev (h :: t)) O = h.
Proof. cbn [rev]. apply last_last. Qed.

(** What [sees] gives at a cursor. *)
Lemma sees_top x g p : sane x -> sees x (g, Some p) ->
  exists h t c, x_head x = h :: t /\ reaches (x_data x) (rev (x_head x)) p c /\ cid c = h /\
                find h (x_data x) = Some c /\ sub p g = Some (value c) /\ value (x_data x) = g.
Proof.
  intros (D & _) [V (c & R)]. cbn [fst snd] in *.
  pose proof (reaches_cids _ _ _ _ R) as (_ & L & N & _). destruct (x_head x) as [|h t] eqn:E; [contradiction|].
  rewrite rev_cons_last in L. exists h, t, c. destruct (reaches_find _ _ _ _ R D) as [F S]. rewrite <- L in F.
  rewrite V in S. auto 10.
Qed.

Lemma sees_overwrite x g p e : sane x -> sees x (g, Some p) ->
  exists h t c, x_head x = h :: t /\ find h (x_data x) = Some c /\ sub p g = Some (value c) /\
    let x' := overwrite_at h e x in
    sane x' /\ sees x' (put p e g, Some p) /\ x_head x' = x_head x /\
    exists n, find h (x_data x') = Some (fst (label h e (x_next x))) /\
              n = snd (label h e (x_next x)) /\ x_next x' = n /\
              reaches (x_data x') (rev (x_head x)) p (fst (label h e (x_next x))).
Proof.
  intros Hs Hv. destruct (sees_top _ _ _ Hs Hv) as (h & t & c & E & R & C & F & S & V).
  exists h, t, c. split; [exact E|]. split; [exact F|]. split; [exact S|]. cbn zeta.
  pose proof (sane_overwrite x h c e Hs F) as Hs'. split; [exact Hs'|].
  unfold overwrite_at in *. pose proof (label_ok h e (x_next x)) as L.
  destruct (label h e (x_next x)) as [c' n]. cbn [fst snd] in L. destruct L as (L1 & L2 & _).
  destruct Hs as (D & _). subst h.
  destruct (reaches_store _ _ _ _ c' R D L1) as [R' V'].
  cbn [x_data x_head x_next fst snd] in *. destruct Hs' as (D' & _). cbn [x_data] in D'.
  destruct (reaches_find _ _ _ _ R' D') as [F' _]. rewrite L1 in F'.
  split; [|eauto 10]. split; cbn [fst snd x_data x_head].
  - rewrite V', L2, V. reflexivity.
  - eauto.
Qed.

Lemma put_same p : forall g e, sub p g = Some e -> put p e g = g.
Proof.
  induction p as [|st p IH]; intros g e; [cbn; destruct g; now intros [= <-]|].
  destruct st as [k|n]; destruct g; cbn [sub put]; try discriminate.
  - destruct (mfind k m) as [e'|] eqn:E; [|discriminate]. intros H. rewrite (IH _ _ H). f_equal.
    destruct (mfind_split _ _ _ E) as (m1 & m2 & -> & N). now rewrite mupd_app_mid.
  - destruct (znth n v) as [e'|] eqn:E; [|discriminate]. intros H. rewrite (IH _ _ H). f_equal.
    destruct (znth_split' _ _ _ E) as (l1 & l2 & -> & L & N). now rewrite lset_app_mid.
Qed.

(** One call: the cursor never dangles, the result and the new state are those of the cursor
    machine. *)
Theorem explorer_step k x s : k <> GetNextKey -> sane x -> sees x s ->
  exists x', xexec k x = (Ret (fst (sexec k s)), x') /\ sane x' /\ sees x' (snd (sexec k s)).
Proof.
  intros Hk Hs Hv. destruct s as [g cur]. unfold xexec, sexec. destruct (top_call k) as [[w f]|] eqn:TC.
  - unfold on_top. destruct cur as [p|].
    + destruct (sees_top _ _ _ Hs Hv) as (h & t & c & E & R & C & F & S & V). rewrite E, F, S.
      destruct (f (value c)) as [o [e'|]] eqn:Ef; cbn [fst snd].
      * destruct (sees_overwrite x g p e' Hs Hv) as (h' & t' & c' & E' & F' & S' & Z). rewrite E in E'. injection E' as <- <-.
        cbn zeta in Z. destruct Z as (Z1 & Z2 & _). eauto.
      * eauto.
    + destruct Hv as [V E]. cbn [fst snd] in V, E. rewrite E. cbn [fst snd]. eexists. split; [reflexivity|]. split; [exact Hs|]. split; auto.
  - destruct cur as [p|].
    2:{ destruct Hv as [V E]. cbn [fst snd] in V, E.
        destruct k; try discriminate TC; try contradiction; cbn [fst snd];
          unfold x_pop, x_reset, x_push_pos, x_push_key, x_init_key; rewrite E; eexists; (split; [reflexivity|]; split; [exact Hs|split; auto]). }
    destruct (sees_top _ _ _ Hs Hv) as (h & t & c & E & R & C & F & S & V).
    destruct k; try discriminate TC; try contradiction.
    + (* PopHead *)
      unfold x_pop. rewrite E. cbn [fst snd]. eexists. split; [reflexivity|]. split; [exact Hs|]. split; [exact V|].
      cbn [snd x_data x_head]. destruct p as [|st p].
      * pose proof (reaches_cids _ _ _ _ R) as (_ & _ & _ & L & _). rewrite rev_length, E in L. cbn in L. now destruct t.
      * destruct (reaches_less _ _ _ _ R ltac:(discriminate)) as (c'' & R'). exists c''.
        rewrite E in R'. cbn [rev] in R'. now rewrite removelast_last in R'.
    + (* ResetHead *)
      unfold x_reset. rewrite E. cbn [fst snd]. eexists. split; [reflexivity|]. split; [exact Hs|]. split; [exact V|].
      cbn [snd x_data x_head]. exists (x_data x). destruct (reaches_hd _ _ _ _ R) as (t' & Et). rewrite E in Et.
      assert (last t h = cid (x_data x)) as ->.
      { clear -Et. revert h Et. induction t as [|a t IH] using rev_ind; intros h Et.
        - cbn in Et. now injection Et.
        - rewrite last_last. cbn [rev] in Et. rewrite rev_app_distr in Et. cbn in Et. now injection Et. }
      cbn [rev app]. constructor.
    + (* PushVectorPosition *)
      unfold x_push_pos. rewrite E, F, S. pose proof (find_tidy _ _ _ F (proj2 (proj2 Hs))) as T.
      destruct c as [i e|i l|i mi m]; try rewrite value_vec; try rewrite value_map.
      * cbn [value tidy] in *. destruct e; try contradiction; cbn [fst snd]; eauto.
      * cbn [cid] in C. subst i. cbn zeta. assert (zlen (map value l) = zlen l) as ZL by (unfold zlen; now rewrite map_length). rewrite ZL.
        pose proof (to_u32_range pos) as RG. unfold uint32 in RG. set (i := to_u32 pos) in *.
        destruct (Z.leb_spec (zlen l) i) as [Hg|Hg].
        -- destruct (sees_overwrite x g p (GVec (check_resize GNone i (map value l))) Hs Hv) as (h' & t' & c' & E' & F' & S' & Z).
           rewrite E in E'. injection E' as <- <-. cbn zeta in Z. destruct Z as (Z1 & Z2 & Z3 & n & Z4 & Z5 & Z6 & Z7).
           rewrite Z4. pose proof (label_ok h (GVec (check_resize GNone i (map value l))) (x_next x)) as L.
           assert (exists l', fst (label h (GVec (check_resize GNone i (map value l))) (x_next x)) = CVec h l') as (l' & El).
           { rewrite label_vec. destruct (label_list _ _). cbn. eauto. }
           rewrite El in *. destruct L as (L1 & L2 & _). rewrite value_vec in L2. injection L2 as L2.
           destruct (Z.ltb_spec i (2^32 - 1)) as [Hb|Hb].
           ++ assert (check_resize GNone i (map value l) = resize GNone (Z.to_nat (i + 1)) (map value l)) as CR.
              { unfold check_resize. rewrite ZL. destruct (Z.leb_spec (zlen l) i); [|lia]. do 2 f_equal. apply to_u32_id. unfold uint32. lia. }
              assert (zlen l' = i + 1) as Zl.
              { unfold zlen. rewrite <- (map_length value), L2, CR, resize_length. lia. }
              destruct (znth i l') as [e|] eqn:Ez.
              2:{ exfalso. unfold znth in Ez. destruct (Z.ltb_spec i 0); [lia|]. apply nth_error_None in Ez. unfold zlen in Zl. lia. }
              cbn [fst snd]. eexists. split; [reflexivity|]. split; [exact Z1|]. split; cbn [fst snd x_data x_head].
              ** destruct Z2 as [Z2 _]. cbn [fst] in Z2. rewrite Z2, CR. reflexivity.
              ** exists e. rewrite Z3. cbn [rev]. eapply reaches_more; [exact Z7|]. exact Ez.
           ++ assert (i = 2^32 - 1) as -> by lia. destruct (Z.ltb_spec (2^32 - 1) (zlen l)); [lia|].
              assert (check_resize GNone (2^32 - 1) (map value l) = []) as CR.
              { unfold check_resize. rewrite ZL. destruct (Z.leb_spec (zlen l) (2^32 - 1)); [|lia]. reflexivity. }
              rewrite CR in *. apply map_eq_nil in L2. subst l'. assert (znth (2^32 - 1) (@nil cell) = None) as -> by reflexivity.
              cbn [fst snd]. eauto.
        -- rewrite F. destruct (znth i l) as [e|] eqn:Ez.
           2:{ exfalso. unfold znth in Ez. destruct (Z.ltb_spec i 0); [lia|]. apply nth_error_None in Ez. unfold zlen in Hg. lia. }
           assert (forall g', g' = g -> sees (X (x_data x) (cid e :: x_head x) (x_map x) (x_it x) (x_next x)) (g', Some (p ++ [SIdx i]))) as Q.
           { intros g' ->. split; [exact V|]. cbn [fst snd x_data x_head rev]. exists e. eapply reaches_more; [exact R|]. exact Ez. }
           destruct (Z.ltb_spec i (2^32 - 1)).
           ++ cbn [fst snd]. eexists. rewrite <- ?E. split; [reflexivity|]. split; [exact Hs|]. apply Q. now apply put_same.
           ++ cbn [fst snd]. destruct (Z.ltb_spec i (zlen l)); [|lia]. cbn [fst snd]. eexists. rewrite <- ?E. split; [reflexivity|]. split; [exact Hs|]. now apply Q.
      * cbn [fst snd]. eauto.
    + (* PushMapPosition *)
      unfold x_push_key. rewrite E, F, S. pose proof (find_tidy _ _ _ F (proj2 (proj2 Hs))) as T.
      destruct c as [i e|i l|i mi m]; try rewrite value_vec; try rewrite value_map.
      * cbn [value tidy] in *. destruct e; try contradiction; cbn [fst snd]; eauto.
      * cbn [fst snd]. eauto.
      * cbn [cid] in C. subst i. rewrite mfind_vmapv. destruct (mfind (cstr key) m) as [e|] eqn:Ek; cbn [option_map fst snd].
        -- eexists. rewrite <- ?E. split; [reflexivity|]. split; [exact Hs|]. split; [exact V|].
           cbn [fst snd x_data x_head rev]. exists e. eapply reaches_more; [exact R|]. exact Ek.
        -- rewrite <- ?E. destruct Hs as (D & B & TT). set (nw := CMap h mi (mset (cstr key) (CLeaf (x_next x) GNone) m)).
           assert (cid nw = h) as Cn by reflexivity.
           destruct (reaches_store _ _ _ _ nw R D Cn) as [R' V']. cbn [cid] in R', V'.
           rewrite Forall_forall in B.
           destruct (mset_absent (cstr key) (CLeaf (x_next x) GNone) m Ek) as (m1 & m2 & Em & Es).
           pose proof (find_in _ _ _ F) as (_ & _ & I3).
           assert (NoDup (addrs nw) /\ (forall y, In y (addrs nw) -> In y (addrs (CMap h mi m)) \/ y = x_next x)) as [Dn Hn].
           { assert (NoDup (addrs (CMap h mi m))) as Dm by (exact (find_nodup _ _ _ F D)).
             assert (~ In (x_next x) (addrs (CMap h mi m))) as Nn by (intros Hi; apply I3, B in Hi; lia).
             assert (Permutation (addrs nw) (x_next x :: addrs (CMap h mi m))) as PP.
             { unfold nw. rewrite !addrs_map, Es, Em. unfold addrl. rewrite !map_app, !flat_map_app. cbn.
               etransitivity; [do 2 apply perm_skip; symmetry; apply Permutation_middle|].
               etransitivity; [apply perm_skip; apply perm_swap|]. apply perm_swap. }
             split.
             - eapply Permutation_NoDup; [symmetry; exact PP|]. now constructor.
             - intros y Hy. eapply Permutation_in in Hy; [|exact PP]. destruct Hy; auto. }
           destruct (store_nodup (x_next x) h nw _ (x_data x) F D Dn B) as [S1 S2].
           { intros y Hy. apply Hn in Hy. destruct Hy; [auto|right; lia]. }
           eexists. split; [reflexivity|]. split; [split; [|split]|split]; cbn [x_data x_next x_head fst snd].
           ++ exact S1.
           ++ apply Forall_forall. intros y Hy. apply S2 in Hy. destruct Hy as [Hy|Hy]; [apply B in Hy; lia|].
              apply Hn in Hy. destruct Hy as [Hy|Hy]; [apply I3, B in Hy|]; lia.
           ++ apply store_tidy; [|exact TT]. unfold nw. apply tidy_map. apply tidy_map in T. rewrite Es. rewrite Em in T.
              rewrite map_app in *. cbn [map snd]. apply Forall_app in T. apply Forall_app. split; [apply T|]. constructor; [exact I|apply T].
           ++ rewrite V', V. unfold nw. rewrite value_map, mset_vmapv. reflexivity.
           ++ exists (CLeaf (x_next x) GNone). cbn [rev].
              apply (reaches_more _ _ _ nw (SKey (cstr key)) (CLeaf (x_next x) GNone)); [exact R'|].
              unfold nw. apply mfind_mset_same.
    + (* InitMapKey *)
      unfold x_init_key. rewrite E, F, S. pose proof (find_tidy _ _ _ F (proj2 (proj2 Hs))) as T.
      destruct c as [i e|i l|i mi m]; try rewrite value_vec; try rewrite value_map.
      * cbn [value tidy] in *. destruct e; try contradiction; cbn [fst snd]; eauto.
      * cbn [fst snd]. eauto.
      * cbn [fst snd]. rewrite <- ?E. eexists. split; [reflexivity|]. split; [exact Hs|]. exact Hv.
Qed.
