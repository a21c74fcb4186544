(** Lemmas about reading over old content. *)
From Coq Require Import ZArith Bool Lia Ascii String List.
From Verif Require Import Base F64 StrMap Value MBasic SGet SPromote MCollapse SCollapse LCollapse LCollapse2 MJson SJson LJson.
Import ListNotations.
Local Open Scope Z_scope.

(** ** Size *)
Lemma sumwm_mset k v m : ~ In k (map fst m) -> sumwm (mset k v m) = weight v + sumwm m.
Proof.
  induction m as [|(k', v') m IH]; intros H; cbn [mset]; [reflexivity|].
  destruct (String.compare k k') eqn:E.
  - apply String.compare_eq_iff in E. exfalso. apply H. now left.
  - reflexivity.
  - cbn [sumwm fold_right snd]. fold (sumwm m). fold (sumwm (mset k v m)). rewrite IH; [lia|]. intros Hi. apply H. now right.
Qed.
Lemma sumwm_by_key (m : list (string * gc)) : NoDup (map fst m) -> sumwm (by_key m) = sumwm m.
Proof.
  intros Hd. unfold by_key.
  assert (G : forall acc, (forall k, In k (map fst m) -> ~ In k (map fst acc)) ->
    sumwm (fold_left (fun acc kv => mset (fst kv) (snd kv) acc) m acc) = sumwm acc + sumwm m).
  { induction m as [|(k, x) m IH]; intros acc Hk; [cbn [fold_left]; change (sumwm []) with 0; lia|]. cbn [fold_left fst snd].
    cbn [map fst] in Hd, Hk. apply NoDup_cons_iff in Hd as (Hd1 & Hd2). rewrite IH; [|assumption|].
    - rewrite sumwm_mset by (apply Hk; now left). change (sumwm ((k, x) :: m)) with (weight x + sumwm m). lia.
    - intros k' H. rewrite mset_keys. intros [->|H']; [easy|]. apply (Hk k'); [now right|assumption]. }
  rewrite G; [reflexivity|]. intros k _ H. exact H.
Qed.
Definition jsum (l : list json) : Z := fold_right (fun j s => jsize j + s) 0 l.
Lemma jsize_arr l : jsize (JArr l) = 1 + jsum l.
Proof. reflexivity. Qed.
Lemma jsize_obj m : jsize (JObj m) = 1 + jsum (map snd m).
Proof. cbn [jsize]. f_equal. induction m as [|a m IH]; [reflexivity|]. cbn [map jsum fold_right]. now f_equal. Qed.
Lemma decode_weight j : jall plain_strings j -> jall distinct_names j -> weight (decode_json j GNone) = jsize j.
Proof.
  induction j as [j Ha Ho | l IH | m IH] using json_nest_ind; intros Hp Hd.
  - destruct j; try reflexivity; [|now contradiction (Ha l)|now contradiction (Ho m)].
    cbn [decode_json]. unfold decode_int. repeat (destruct (_ && _)); reflexivity.
  - apply jall_arr in Hp as [_ Hp], Hd as [_ Hd]. rewrite decode_arr_none, weight_vec, jsize_arr. f_equal.
    induction l as [|a l IHl]; [reflexivity|]. inversion IH; inversion Hp; inversion Hd; subst.
    cbn [map sumw fold_right jsum]. f_equal; [auto|]. apply IHl; assumption.
  - apply jall_obj in Hp as [Hp0 Hp], Hd as [Hd0 Hd]. rewrite decode_obj_none by assumption.
    rewrite weight_map, jsize_obj. f_equal. rewrite sumwm_by_key by (rewrite vmap_keys; exact Hd0). clear Hp0 Hd0.
    induction m as [|a m IHm]; [reflexivity|]. inversion IH; inversion Hp; inversion Hd; subst.
    cbn [map vmap sumwm fold_right jsum snd]. f_equal; [auto|]. apply IHm; assumption.
Qed.

(** ** Old content *)
Lemma hides_all_iff l : (forall x, In x l -> forall e, wfm e -> decode_json x e = decode_json x GNone <-> hides x e) ->
  forall v, Forall wfm v ->
  decode_all l (resize GNone (length l) v) = map (fun j => decode_json j GNone) l <-> hides_all l v.
Proof.
  induction l as [|x l IH]; intros Hx v Hv.
  - cbn. split; auto.
  - destruct v as [|e v].
    + rewrite resize_nil. rewrite decode_all_none. cbn. split; auto.
    + replace (resize GNone (length (x :: l)) (e :: v)) with (e :: resize GNone (length l) v) by reflexivity.
      cbn [decode_all map hides_all]. inversion Hv; subst.
      rewrite <- (IH (fun y Hy => Hx y (or_intror Hy)) v) by assumption. rewrite <- (Hx x (or_introl eq_refl) e) by assumption.
      split; [intros E; injection E; auto|intros (-> & ->); reflexivity].
Qed.

Lemma decode_members_find m : NoDup (map fst m) -> Forall no_nul (map fst m) -> forall acc k,
  mfind k (decode_members m acc) =
    match find (fun kx => String.eqb (fst kx) k) m with
    | Some (_, x) => Some (decode_json x (match mfind k acc with Some e => e | None => GNone end))
    | None => mfind k acc
    end.
Proof.
  induction m as [|(k0, x) m IH]; intros Hd Hn acc k; [reflexivity|].
  cbn [map fst] in Hd, Hn. apply NoDup_cons_iff in Hd as (Hd1 & Hd2). pose proof (Forall_inv Hn) as Hn1. apply Forall_inv_tail in Hn.
  cbn [decode_members find fst]. rewrite (cstr_id k0 Hn1), IH by assumption.
  destruct (String.eqb_spec k0 k) as [->|N].
  - destruct (find _ m) as [(k1, x1)|] eqn:E.
    + exfalso. apply find_some in E as (E1 & E2). cbn in E2. apply String.eqb_eq in E2 as ->. apply Hd1. now apply (in_map fst) in E1.
    + now rewrite mfind_mset_same.
  - now rewrite !mfind_mset_other by congruence.
Qed.
Lemma decode_members_sorted m : forall acc, msorted acc -> msorted (decode_members m acc).
Proof. induction m as [|(k, x) m IH]; intros acc H; [assumption|]. cbn [decode_members]. apply IH. now apply mset_sorted. Qed.
Lemma find_name {A} (m : list (string * A)) k x : NoDup (map fst m) -> In (k, x) m ->
  find (fun kx => String.eqb (fst kx) k) m = Some (k, x).
Proof.
  induction m as [|(k0, x0) m IH]; intros Hd []; cbn [map fst] in Hd; apply NoDup_cons_iff in Hd as (Hd1 & Hd2); cbn [find fst].
  - injection H as -> ->. now rewrite String.eqb_refl.
  - destruct (String.eqb_spec k0 k) as [->|N]; [|auto]. exfalso. apply Hd1. now apply (in_map fst) in H.
Qed.

(** Reading over [g] gives what reading into an empty container gives exactly when nothing of
    [g] remains visible. *)
Lemma decode_over j : jall plain_strings j -> jall distinct_names j -> forall g, wfm g ->
  decode_json j g = decode_json j GNone <-> hides j g.
Proof.
  induction j as [j Ha Ho | l IH | m IH] using json_nest_ind; intros Hp Hd g Hg.
  - destruct j as [ | | | | |l|m]; try (split; [intros _; exact I|intros _; reflexivity]);
      [now contradiction (Ha l)|now contradiction (Ho m)].
  - apply jall_arr in Hp as [_ Hp], Hd as [_ Hd].
    destruct g as [ | | | | | | | | | | | | | | | | | | |v|old];
      try (split; [intros _; exact I|intros _; reflexivity]).
    rewrite hides_arr, decode_arr_none, decode_arr. apply wfm_vec in Hg.
    rewrite Forall_forall in IH, Hp, Hd.
    assert (Hx : forall x, In x l -> forall e, wfm e -> decode_json x e = decode_json x GNone <-> hides x e) by auto.
    destruct l as [|x l].
    { unfold alloc_vec, valloc. cbn. split; [intros E; injection E as ->; auto|intros (E & _); now rewrite E]. }
    unfold alloc_vec, valloc. replace (0 <? zlen (x :: l)) with true by (symmetry; apply Z.ltb_lt; unfold zlen; cbn [length]; lia).
    replace (Z.to_nat (zlen (x :: l))) with (length (x :: l)) by (unfold zlen; lia). cbn [old_vec].
    rewrite <- (hides_all_iff (x :: l) Hx v Hg). split.
    + intros E. split; [discriminate|]. now injection E.
    + intros (_ & E). now rewrite E.
  - apply jall_obj in Hp as [Hp0 Hp], Hd as [Hd0 Hd]. cbn in Hp0, Hd0.
    destruct g as [ | | | | | | | | | | | | | | | | | | |v|old];
      try (split; [intros _; exact I|intros _; reflexivity]).
    rewrite hides_obj, !decode_obj. cbn [old_map]. apply wfm_map in Hg as (Hs & Hg).
    rewrite Forall_forall in IH, Hp, Hd, Hg.
    assert (Hx : forall k x, In (k, x) m -> forall e, wfm e -> decode_json x e = decode_json x GNone <-> hides x e).
    { intros k x Hin e He. exact (IH _ Hin (Hp _ Hin) (Hd _ Hin) e He). }
    split.
    + intros E. assert (F : forall k, mfind k (decode_members m old) = mfind k (decode_members m [])) by (injection E as E; now rewrite E).
      split.
      * intros k Hk. apply mfind_key_in in Hk as (e & Hk). specialize (F k). rewrite !decode_members_find in F by assumption.
        destruct (find _ m) as [(k1, x1)|] eqn:E1; [|rewrite Hk in F; discriminate].
        apply find_some in E1 as (E1 & E2). cbn in E2. apply String.eqb_eq in E2 as ->. now apply (in_map fst) in E1.
      * intros k x e Hin Hf. specialize (F k). rewrite !decode_members_find in F by assumption.
        rewrite (find_name m k x Hd0 Hin), Hf in F. cbn [mfind] in F. apply Some_inj in F. apply (Hx k x Hin); [|assumption].
        apply mfind_in in Hf. apply (Hg _ Hf).
    + intros (H1 & H2). f_equal. apply map_ext; try (apply decode_members_sorted; (assumption || constructor)).
      intros k. rewrite !decode_members_find by assumption. destruct (find _ m) as [(k1, x)|] eqn:E1.
      * apply find_some in E1 as (E1 & E2). cbn in E2. apply String.eqb_eq in E2 as ->. f_equal. cbn [mfind].
        destruct (mfind k old) as [e|] eqn:Ef; [|reflexivity]. apply (Hx k x E1); [|now apply (H2 k)].
        apply mfind_in in Ef. apply (Hg _ Ef).
      * cbn [mfind]. destruct (mfind k old) as [e|] eqn:Ef; [|reflexivity]. exfalso.
        assert (Hk : In k (map fst old)) by (apply mfind_key_in; now exists e).
        apply H1 in Hk. apply in_map_iff in Hk as ((k2, x2) & E2 & Hk). cbn in E2. subst k2.
        apply (find_none _ _ E1) in Hk. cbn in Hk. now rewrite String.eqb_refl in Hk.
Qed.

(** ** Reading the same document twice *)
Lemma overwrite_cases r v r' g' : overwrite r (GVec v) = (r', g') -> g' = GVec v \/ r = Ok g'.
Proof. destruct r; cbn; intros E; injection E as <- <-; auto. Qed.
Lemma collapse_vec_shape v r g' : collapse_vec v = (r, g') -> g' = GVec v \/ ((forall w, g' <> GVec w) /\ (forall m, g' <> GMap m)).
Proof.
  unfold collapse_vec. destruct (negb _); [intros E; injection E as <- <-; now left|].
  destruct (all_string _).
  { intros E. apply overwrite_cases in E as [E|E]; [now left|]. right.
    destruct (strings_of v); try discriminate. cbn [bind] in E. unfold set_vstr in E.
    destruct (copy_into _ _); try discriminate. cbn [bind] in E. injection E as <-. split; discriminate. }
  destruct (max_sub _); try (intros E; injection E as <- <-; now left);
    intros E; (apply overwrite_cases in E as [E|E]; [now left|]); right;
    match type of E with bind ?x _ = _ => destruct x; try discriminate end; cbn [bind] in E;
    unfold set_vbool, set_vint, set_vlong, set_vreal, set_vcomplex, set_mint, set_mlong, set_mreal, set_mcomplex, omap in E;
    match type of E with bind ?x _ = _ => destruct x; try discriminate end; cbn [bind] in E; injection E as <-; split; discriminate.
Qed.
Definition stepped (e e' : gc) : Prop := e' = e \/ exists r, collapse e = (r, e').
Lemma collapse_all_stepped v : forall r v', collapse_all v = (r, v') -> Forall2 stepped v v'.
Proof.
  induction v as [|e v IH]; intros r v' E; cbn [collapse_all] in E.
  - injection E as <- <-. constructor.
  - destruct (collapse e) as [re e'] eqn:Ee. destruct (collapse_all v) as [rt t'] eqn:Et.
    assert (R : forall l : list gc, Forall2 stepped l l) by (induction l; constructor; [now left|assumption]).
    destruct re; injection E as <- <-; constructor; try (right; eexists; exact Ee); try apply R. eapply IH; reflexivity.
Qed.
Lemma collapse_entries_stepped m : forall r m', collapse_entries m = (r, m') ->
  Forall2 (fun a b => fst a = fst b /\ stepped (snd a) (snd b)) m m'.
Proof.
  induction m as [|(k, e) v IH]; intros r v' E; cbn [collapse_entries] in E.
  - injection E as <- <-. constructor.
  - destruct (collapse e) as [re e'] eqn:Ee. destruct (collapse_entries v) as [rt t'] eqn:Et.
    assert (R : forall l : list (string * gc), Forall2 (fun a b => fst a = fst b /\ stepped (snd a) (snd b)) l l)
      by (induction l; constructor; [split; [reflexivity|now left]|assumption]).
    destruct re; injection E as <- <-; constructor; try (split; [reflexivity|right; eexists; exact Ee]); try apply R.
    eapply IH; reflexivity.
Qed.
Lemma collapse_shape g r g' : collapse g = (r, g') ->
  match g with
  | GVec v => (exists v', g' = GVec v' /\ Forall2 stepped v v') \/ ((forall w, g' <> GVec w) /\ (forall m, g' <> GMap m))
  | GMap m => exists m', g' = GMap m' /\ Forall2 (fun a b => fst a = fst b /\ stepped (snd a) (snd b)) m m'
  | _ => g' = g
  end.
Proof.
  intros E. destruct g; try (injection E as <- <-; reflexivity).
  - destruct v as [|e v]; [injection E as <- <-; left; exists []; split; [reflexivity|constructor]|].
    rewrite collapse_vec_eq in E. destruct (collapse_all (e :: v)) as [rv v'] eqn:Ev. apply collapse_all_stepped in Ev.
    destruct rv; try (injection E as <- <-; left; exists v'; auto; fail).
    apply collapse_vec_shape in E as [->|E]; [left; exists v'; auto|now right].
  - rewrite collapse_map_eq in E. destruct (collapse_entries m) as [rm m'] eqn:Em. apply collapse_entries_stepped in Em.
    injection E as <- <-. exists m'. auto.
Qed.

Lemma F2_mfind {A B} (R : A -> B -> Prop) m m' : Forall2 (fun a b => fst a = fst b /\ R (snd a) (snd b)) m m' ->
  forall (k : string) b, mfind k m' = Some b -> exists a, mfind k m = Some a /\ R a b.
Proof.
  induction 1 as [|(k1, a1) (k2, b2) m m' (E & H1) H IH]; intros k b Hf; [discriminate|].
  cbn [fst snd] in E, H1. subst k2. cbn [mfind] in *. destruct (String.compare k k1); [injection Hf as <-; eauto|eauto|eauto].
Qed.
Lemma F2_keys {A B} (R : A -> B -> Prop) m m' : Forall2 (fun a b => fst a = fst b /\ R (snd a) (snd b)) m m' ->
  map fst m = map (@fst string B) m'.
Proof. induction 1 as [|a b m m' (E & _) _ IH]; [reflexivity|]. cbn. now rewrite E, IH. Qed.

Lemma by_key_find {A} (m : list (string * A)) k : NoDup (map fst m) ->
  mfind k (by_key m) = match find (fun kx => String.eqb (fst kx) k) m with Some (_, x) => Some x | None => None end.
Proof.
  intros Hd. unfold by_key.
  assert (G : forall acc, mfind k (fold_left (fun acc kv => mset (fst kv) (snd kv) acc) m acc) =
    match find (fun kx => String.eqb (fst kx) k) m with Some (_, x) => Some x | None => mfind k acc end).
  { induction m as [|(k0, x) m IH]; intros acc; [reflexivity|]. cbn [map fst] in Hd. apply NoDup_cons_iff in Hd as (Hd1 & Hd2).
    cbn [fold_left find fst snd]. rewrite IH by assumption. destruct (String.eqb_spec k0 k) as [->|N].
    - destruct (find _ m) as [(k1, x1)|] eqn:E; [|apply mfind_mset_same]. exfalso.
      apply find_some in E as (E1 & E2). cbn in E2. apply String.eqb_eq in E2 as ->. apply Hd1. now apply (in_map fst) in E1.
    - now rewrite mfind_mset_other by congruence. }
  now rewrite G.
Qed.

Lemma hides_again j : jall plain_strings j -> jall distinct_names j -> forall g', stepped (decode_json j GNone) g' -> hides j g'.
Proof.
  induction j as [j Ha Ho | l IH | m IH] using json_nest_ind; intros Hp Hd g' S.
  - destruct j as [ | | | | |l|m]; try exact I; [now contradiction (Ha l)|now contradiction (Ho m)].
  - apply jall_arr in Hp as [_ Hp], Hd as [_ Hd]. rewrite decode_arr_none in S.
    assert (C : (exists v', g' = GVec v' /\ Forall2 stepped (map (fun j => decode_json j GNone) l) v') \/ ((forall w, g' <> GVec w) /\ (forall m, g' <> GMap m))).
    { destruct S as [->|(r & S)]; [|exact (collapse_shape _ _ _ S)]. left. eexists. split; [reflexivity|].
      generalize (map (fun j => decode_json j GNone) l). induction l0; constructor; [now left|assumption]. }
    clear S. destruct C as [(v' & -> & F)|(Hv & Hm)].
    + apply hides_arr. split; [intros ->; now inversion F|].
      revert v' F. induction l as [|x l IHl]; intros v' F; [exact I|]. inversion F as [|? e' ? v'' S1 F']; subst.
      inversion IH; inversion Hp; inversion Hd; subst. cbn [hides_all]. split; auto.
    + destruct g'; try exact I. now contradiction (Hv v).
  - apply jall_obj in Hp as [Hp0 Hp], Hd as [Hd0 Hd]. rewrite decode_obj_none in S by assumption.
    set (n := by_key (vmap (fun j => decode_json j GNone) m)) in S.
    assert (C : exists m', g' = GMap m' /\ Forall2 (fun a b => fst a = fst b /\ stepped (snd a) (snd b)) n m').
    { destruct S as [->|(r & S)]; [|exact (collapse_shape _ _ _ S)]. eexists. split; [reflexivity|].
      generalize n. induction n0; constructor; [split; [reflexivity|now left]|assumption]. }
    clear S. destruct C as (m' & -> & F). apply hides_obj. cbn in Hd0.
    assert (Hn : forall k, mfind k n = match find (fun kx => String.eqb (fst kx) k) (vmap (fun j => decode_json j GNone) m) with Some (_, x) => Some x | None => None end)
      by (intros k; apply by_key_find; now rewrite vmap_keys).
    split.
    + intros k Hk. rewrite <- (F2_keys _ _ _ F) in Hk. apply mfind_key_in in Hk as (e & Hk). rewrite Hn in Hk.
      destruct (find _ _) as [(k1, x1)|] eqn:E; [|discriminate]. apply find_some in E as (E1 & E2). cbn in E2. apply String.eqb_eq in E2 as ->.
      apply (in_map fst) in E1. now rewrite vmap_keys in E1.
    + intros k x e' Hin Hf. destruct (F2_mfind _ _ _ F k e' Hf) as (e & He & Hst). rewrite Hn in He.
      rewrite (find_name _ k (decode_json x GNone)) in He.
      * apply Some_inj in He. subst e. rewrite Forall_forall in *. exact (IH _ Hin (Hp _ Hin) (Hd _ Hin) e' Hst).
      * now rewrite vmap_keys.
      * exact (in_map (fun kv => (fst kv, decode_json (snd kv) GNone)) _ _ Hin).
Qed.

Lemma collapse_wfm g r g' : wfm g -> collapse g = (r, g') -> wfm g'.
Proof.
  revert r g'. induction g as [g Hv Hm | v IH | m IH] using gc_nest_ind; intros r g' Hw E.
  - pose proof (collapse_shape _ _ _ E) as S. destruct g; subst; try exact I; [now contradiction (Hv v)|now contradiction (Hm m)].
  - apply wfm_vec in Hw. destruct (collapse_shape _ _ _ E) as [(v' & -> & F)|(N1 & N2)].
    + apply wfm_vec. clear E. induction F as [|e e' v v' S F IHF]; [constructor|].
      inversion IH; inversion Hw; subst. constructor; [|auto]. destruct S as [->|(r' & S)]; [assumption|eauto].
    + destruct g'; try exact I; [now contradiction (N1 v0)|now contradiction (N2 m)].
  - apply wfm_map in Hw as (Hs & Hw). destruct (collapse_shape _ _ _ E) as (m' & -> & F). apply wfm_map. split.
    + unfold msorted. now rewrite <- (F2_keys _ _ _ F).
    + clear E Hs. induction F as [|e e' v v' (_ & S) F IHF]; [constructor|].
      inversion IH; inversion Hw; subst. constructor; [|auto]. destruct S as [->|(r' & S)]; [assumption|eauto].
Qed.
