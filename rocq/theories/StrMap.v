(** std::map<std::string, V> as an association list with strictly increasing keys.

    std::map is ordered by std::less<std::string>, i.e. lexicographically on unsigned
    bytes; [String.compare] is that order.  A model of the library container, used for
    map_type (include/GenericContainer/GenericContainer.hh:152). *)
From Coq Require Import ZArith Bool Lia Ascii String Sorted List.
From Verif Require Import Base.
Import ListNotations.

Definition slt (a b : string) : Prop := String.compare a b = Lt.

Lemma ascii_compare_refl a : Ascii.compare a a = Eq.
Proof. unfold Ascii.compare. apply N.compare_refl. Qed.

Lemma compare_refl a : String.compare a a = Eq.
Proof. induction a as [|c a IH]; simpl; [reflexivity|]. now rewrite ascii_compare_refl. Qed.

Lemma slt_trans a b c : slt a b -> slt b c -> slt a c.
Proof.
  unfold slt. revert b c; induction a as [|x a IH]; intros [|y b] [|z c]; simpl; try easy.
  unfold Ascii.compare.
  destruct (N.compare_spec (N_of_ascii x) (N_of_ascii y)) as [E1|L1|L1]; try easy;
  destruct (N.compare_spec (N_of_ascii y) (N_of_ascii z)) as [E2|L2|L2]; try easy.
  - rewrite E1, E2, N.compare_refl. eauto.
  - intros _ _. rewrite E1. now apply N.compare_lt_iff in L2; rewrite L2.
  - intros _ _. rewrite <- E2. now apply N.compare_lt_iff in L1; rewrite L1.
  - intros _ _. assert (L : (N_of_ascii x < N_of_ascii z)%N) by lia.
    now apply N.compare_lt_iff in L; rewrite L.
Qed.

Lemma slt_irrefl a : ~ slt a a.
Proof. unfold slt. rewrite compare_refl. discriminate. Qed.

Lemma compare_gt_slt a b : String.compare a b = Gt <-> slt b a.
Proof.
  unfold slt. rewrite String.compare_antisym. destruct (String.compare b a); simpl; split; easy.
Qed.

Lemma compare_cases a b : {a = b} + {slt a b} + {slt b a}.
Proof.
  destruct (String.compare a b) eqn:E.
  - left; left. now apply String.compare_eq_iff.
  - left; right. exact E.
  - right. now apply compare_gt_slt.
Qed.

Lemma slt_neq a b : slt a b -> a <> b.
Proof. intros H ->. now apply slt_irrefl in H. Qed.

(** Rewriting [String.compare] from the order. *)
Lemma compare_lt a b : slt a b -> String.compare a b = Lt.
Proof. auto. Qed.
Lemma compare_gt a b : slt b a -> String.compare a b = Gt.
Proof. apply compare_gt_slt. Qed.

Section Map.
Context {V : Type}.
Notation smap := (list (string * V)).

(** Strictly increasing keys. *)
Definition msorted (m : smap) : Prop := StronglySorted slt (map fst m).

(** std::map::find / at / count. *)
Fixpoint mfind (k : string) (m : smap) : option V :=
  match m with
  | [] => None
  | (k', v) :: m' => match String.compare k k' with Eq => Some v | _ => mfind k m' end
  end.

(** m[k] = v: overwrite or insert in order. *)
Fixpoint mset (k : string) (v : V) (m : smap) : smap :=
  match m with
  | [] => [(k, v)]
  | (k', v') :: m' =>
      match String.compare k k' with
      | Eq => (k, v) :: m'
      | Lt => (k, v) :: (k', v') :: m'
      | Gt => (k', v') :: mset k v m'
      end
  end.

(** std::map::erase(key). *)
Fixpoint merase (k : string) (m : smap) : smap :=
  match m with
  | [] => []
  | (k', v') :: m' =>
      match String.compare k k' with
      | Eq => m'
      | _ => (k', v') :: merase k m'
      end
  end.

Definition mhas (k : string) (m : smap) : bool :=
  match mfind k m with Some _ => true | None => false end.

Lemma msorted_inv k v m : msorted ((k, v) :: m) ->
  msorted m /\ Forall (slt k) (map fst m).
Proof. unfold msorted; simpl. intros H; inversion H; subst; auto. Qed.

Lemma msorted_cons k v m : msorted m -> Forall (slt k) (map fst m) -> msorted ((k, v) :: m).
Proof. unfold msorted; simpl. intros; constructor; auto. Qed.

Lemma mfind_notin k m : Forall (slt k) (map fst m) -> mfind k m = None.
Proof.
  induction m as [|[k' v'] m IH]; simpl; intros H; [reflexivity|].
  inversion H; subst. rewrite (compare_lt k k') by assumption. auto.
Qed.

Lemma mfind_in k v m : mfind k m = Some v -> In (k, v) m.
Proof.
  induction m as [|[k' v'] m IH]; simpl; [discriminate|].
  destruct (String.compare k k') eqn:E; intros H; auto.
  apply String.compare_eq_iff in E. left; congruence.
Qed.

Lemma mfind_key_in k m : (exists v, mfind k m = Some v) <-> In k (map fst m).
Proof.
  induction m as [|[k' v'] m IH]; simpl.
  - split; [intros [v H]; discriminate | easy].
  - destruct (String.compare k k') eqn:E.
    + apply String.compare_eq_iff in E. subst. split; eauto.
    + rewrite IH. split; auto. intros [->|H]; auto. rewrite compare_refl in E; discriminate.
    + rewrite IH. split; auto. intros [->|H]; auto. rewrite compare_refl in E; discriminate.
Qed.

Lemma in_mfind k v m : msorted m -> In (k, v) m -> mfind k m = Some v.
Proof.
  induction m as [|[k' v'] m IH]; simpl; intros Hs H; [easy|].
  apply msorted_inv in Hs as [Hs Hf]. destruct H as [H|H].
  - injection H as -> ->. now rewrite compare_refl.
  - assert (L : slt k' k). { rewrite Forall_forall in Hf. apply Hf. apply in_map_iff. now exists (k, v). }
    rewrite (compare_gt k k') by assumption. auto.
Qed.

Lemma mfind_mset_same k v m : mfind k (mset k v m) = Some v.
Proof.
  induction m as [|[k' v'] m IH]; simpl.
  - now rewrite compare_refl.
  - destruct (String.compare k k') eqn:E; simpl; rewrite ?compare_refl; auto. now rewrite E.
Qed.

Lemma mfind_mset_other k k' v m : k' <> k -> mfind k' (mset k v m) = mfind k' m.
Proof.
  intros Hne. induction m as [|[k0 v0] m IH]; simpl.
  - destruct (String.compare k' k) eqn:E; auto. apply String.compare_eq_iff in E. congruence.
  - destruct (String.compare k k0) eqn:E; simpl.
    + apply String.compare_eq_iff in E; subst k0.
      destruct (String.compare k' k) eqn:E'; auto. apply String.compare_eq_iff in E'. congruence.
    + destruct (String.compare k' k) eqn:E'; auto. apply String.compare_eq_iff in E'. congruence.
    + destruct (String.compare k' k0); auto.
Qed.

Lemma mset_keys_forall (P : string -> Prop) k v m :
  P k -> Forall P (map fst m) -> Forall P (map fst (mset k v m)).
Proof.
  intros Hk. induction m as [|[k' v'] m IH]; simpl; intros H; [auto|].
  inversion H; subst. destruct (String.compare k k'); simpl; auto.
Qed.

Lemma mset_sorted k v m : msorted m -> msorted (mset k v m).
Proof.
  induction m as [|[k' v'] m IH]; simpl; intros Hs.
  - constructor; constructor.
  - pose proof Hs as Hs0. apply msorted_inv in Hs as [Hs Hf].
    destruct (String.compare k k') eqn:E.
    + apply String.compare_eq_iff in E; subst. now apply msorted_cons.
    + apply msorted_cons; [assumption|]. simpl. constructor; [exact E|].
      eapply Forall_impl; [|exact Hf]. intros a Ha. eapply slt_trans; eauto.
    + apply compare_gt_slt in E. apply msorted_cons; [auto|].
      apply mset_keys_forall; assumption.
Qed.


Lemma mset_length k v m : msorted m ->
  length (mset k v m) = if mhas k m then length m else S (length m).
Proof.
  unfold mhas. induction m as [|[k' v'] m IH]; simpl; intros Hs; [reflexivity|].
  apply msorted_inv in Hs as [Hs Hf].
  destruct (String.compare k k') eqn:E; simpl; try reflexivity.
  - rewrite mfind_notin; [reflexivity|]. eapply Forall_impl; [|exact Hf].
    intros a Ha. eapply slt_trans; eauto.
  - rewrite IH by assumption. destruct (mfind k m); reflexivity.
Qed.

Lemma mset_id k v m : mfind k m = Some v -> msorted m -> mset k v m = m.
Proof.
  induction m as [|[k' v'] m IH]; simpl; intros Hf Hs; [discriminate|].
  apply msorted_inv in Hs as [Hs Hall].
  destruct (String.compare k k') eqn:E.
  - apply String.compare_eq_iff in E. congruence.
  - rewrite mfind_notin in Hf; [discriminate|]. eapply Forall_impl; [|exact Hall].
    intros a Ha. eapply slt_trans; eauto.
  - now rewrite IH.
Qed.

Lemma merase_incl k m x : In x (merase k m) -> In x m.
Proof.
  induction m as [|[k' v'] m IH]; simpl; [easy|].
  destruct (String.compare k k'); simpl; intuition.
Qed.

Lemma merase_sorted k m : msorted m -> msorted (merase k m).
Proof.
  induction m as [|[k' v'] m IH]; simpl; intros Hs; [assumption|].
  apply msorted_inv in Hs as [Hs Hf].
  assert (G : msorted ((k', v') :: merase k m)).
  { apply msorted_cons; [auto|]. rewrite Forall_forall in *. intros x Hx.
    apply in_map_iff in Hx as (p & <- & Hp). apply Hf. apply in_map. eapply merase_incl; eauto. }
  destruct (String.compare k k'); auto.
Qed.

Lemma mfind_merase_same k m : msorted m -> mfind k (merase k m) = None.
Proof.
  induction m as [|[k' v'] m IH]; simpl; intros Hs; [reflexivity|].
  apply msorted_inv in Hs as [Hs Hf].
  destruct (String.compare k k') eqn:E; simpl; try rewrite E; auto.
  apply String.compare_eq_iff in E; subst. now apply mfind_notin.
Qed.

Lemma mfind_merase_other k k' m : k' <> k -> mfind k' (merase k m) = mfind k' m.
Proof.
  intros Hne. induction m as [|[k0 v0] m IH]; simpl; [reflexivity|].
  destruct (String.compare k k0) eqn:E; simpl.
  - apply String.compare_eq_iff in E; subst k0.
    destruct (String.compare k' k) eqn:E'; auto. apply String.compare_eq_iff in E'. congruence.
  - destruct (String.compare k' k0); auto.
  - destruct (String.compare k' k0); auto.
Qed.

Lemma merase_id k m : mfind k m = None -> merase k m = m.
Proof.
  induction m as [|[k' v'] m IH]; simpl; intros H; [reflexivity|].
  destruct (String.compare k k') eqn:E; try discriminate; now rewrite IH.
Qed.

(** Sorted maps are determined by their lookup function. *)
Lemma map_ext m m' : msorted m -> msorted m' -> (forall k, mfind k m = mfind k m') -> m = m'.
Proof.
  revert m'; induction m as [|[k v] m IH]; intros [|[k' v'] m'] Hs Hs' H; auto.
  - specialize (H k'). simpl in H. rewrite compare_refl in H. discriminate.
  - specialize (H k). simpl in H. rewrite compare_refl in H. discriminate.
  - apply msorted_inv in Hs as [Hs Hf]. apply msorted_inv in Hs' as [Hs' Hf'].
    assert (k = k').
    { destruct (compare_cases k k') as [[E|L]|L]; [assumption| |].
      - pose proof (H k) as Hk. simpl in Hk. rewrite compare_refl, (compare_lt k k' L) in Hk.
        rewrite mfind_notin in Hk; [discriminate|].
        eapply Forall_impl; [|exact Hf']. intros a Ha. eapply slt_trans; eauto.
      - pose proof (H k') as Hk. simpl in Hk. rewrite compare_refl, (compare_lt k' k L) in Hk.
        rewrite mfind_notin in Hk; [discriminate|].
        eapply Forall_impl; [|exact Hf]. intros a Ha. eapply slt_trans; eauto. }
    subst k'. pose proof (H k) as Hk. simpl in Hk. rewrite compare_refl in Hk. injection Hk as ->.
    f_equal. apply IH; auto. intros x. specialize (H x). simpl in H.
    destruct (String.compare x k) eqn:E; auto.
    apply String.compare_eq_iff in E; subst.
    rewrite !mfind_notin; auto.
Qed.

(** Appending a key larger than all others. *)
Lemma mset_last k v m : Forall (fun k' => slt k' k) (map fst m) -> mset k v m = m ++ [(k, v)].
Proof.
  induction m as [|[k' v'] m IH]; simpl; intros H; [reflexivity|].
  inversion H; subst. rewrite (compare_gt k k') by assumption. now rewrite IH.
Qed.

Lemma msorted_nodup m : msorted m -> NoDup (map fst m).
Proof.
  unfold msorted. intros H. induction H as [|a l H IH Hf]; constructor; auto.
  intros Hin. rewrite Forall_forall in Hf. apply Hf in Hin. now apply slt_irrefl in Hin.
Qed.
End Map.

(** The prefix of a string before its first NUL byte: what survives a conversion through
    `char const *` (std::string::data() passed to a std::string parameter). *)
Fixpoint cstr (s : string) : string :=
  match s with
  | EmptyString => EmptyString
  | String c s' => if Ascii.eqb c Ascii.zero then EmptyString else String c (cstr s')
  end.

(** Strings without embedded NUL bytes. *)
Definition no_nul (s : string) : Prop := ~ In Ascii.zero (list_ascii_of_string s).

Lemma cstr_id s : no_nul s -> cstr s = s.
Proof.
  unfold no_nul. induction s as [|c s IH]; simpl; intros H; [reflexivity|].
  destruct (Ascii.eqb_spec c Ascii.zero) as [->|]; [exfalso; auto|].
  rewrite IH; auto.
Qed.
