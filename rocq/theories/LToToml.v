(** Lemmas about the TOML writer: the tree written meets the conditions of the reader. *)
From Coq Require Import ZArith Bool Lia Ascii String List.
From Verif Require Import Base F64 StrMap Value MBasic SGet SPromote MCollapse SCollapse MJson SJson LJson LJson2 LBuild
  MToml SDocs LDocs SToJson LToJson LRound MToToml SToToml.
Import ListNotations.
Local Open Scope Z_scope.

Lemma written_form g : everywhere has_form g -> exists t, to_toml g = Ok t /\ toml_form g t.
Proof.
  induction g as [g Hv Hm | v IH | m IH] using gc_nest_ind; intros E.
  - apply everywhere_here in E. unfold has_form in E.
    destruct g; try nested_contra Hv Hm; try (exfalso; apply E; cbn; tauto); eexists; (split; [reflexivity|constructor]).
  - apply everywhere_vec in E as [_ E]. rewrite to_toml_vec.
    assert (F : exists l, omapM to_toml v = Ok l /\ Forall2 toml_form v l).
    { induction v as [|a v IHv]; [exists []; split; [reflexivity|constructor]|]. inversion IH; inversion E; subst.
      destruct (H1 H5) as (t & Et & Ft). destruct (IHv H2 H6) as (l & El & Fl). exists (t :: l). split; [|now constructor].
      cbn [omapM]. rewrite Et, El. reflexivity. }
    destruct F as (l & El & Fl). exists (TArr l). rewrite El. split; [reflexivity|now constructor].
  - apply everywhere_map in E as [_ E]. rewrite to_toml_map.
    assert (F : exists l, omapM (fun kv => do t <- to_toml (snd kv) ; Ok (fst kv, t)) m = Ok l /\
                  Forall2 (fun a b => fst a = fst b /\ toml_form (snd a) (snd b)) m l).
    { induction m as [|[k a] m IHm]; [exists []; split; [reflexivity|constructor]|]. inversion IH; inversion E; subst. cbn [fst snd] in *.
      destruct (H1 H5) as (t & Et & Ft). destruct (IHm H2 H6) as (l & El & Fl). exists ((k, t) :: l). split; [|now constructor].
      cbn [omapM fst snd]. rewrite Et. cbn [bind]. rewrite El. reflexivity. }
    destruct F as (l & El & Fl). exists (TTbl l). rewrite El. split; [reflexivity|now constructor].
Qed.

Lemma form_data g t : wf g -> everywhere toml_node g -> toml_form g t -> json_data (toml_doc t) = data_of g.
Proof.
  revert t. induction g as [g Hv Hm | v IH | m IH] using gc_nest_ind; intros t W E H.
  - apply everywhere_here in E as [_ E]. inversion H; subst; try nested_contra Hv Hm; try (exfalso; apply E; cbn; tauto);
      cbn [toml_doc json_data data_of]; rewrite ?map_map; reflexivity.
  - apply everywhere_vec in E as [_ E]. apply wf_vec in W. inversion H as [| | | | | | | | | | | |? l Hl|]; subst.
    cbn [toml_doc json_data data_of]. rewrite map_map. f_equal. clear H.
    induction Hl as [|a b v l Hab _ IHl]; [reflexivity|]. inversion IH; inversion E; inversion W; subst. cbn [map]. f_equal; auto.
  - apply everywhere_map in E as [_ E]. apply wf_map in W as [Ws W]. inversion H as [| | | | | | | | | | | | |? l Hl]; subst.
    cbn [toml_doc json_data data_of]. f_equal. rewrite map_map. cbn [fst snd].
    assert (Em : map (fun kv => (fst kv, json_data (toml_doc (snd kv)))) l = map (fun kv => (fst kv, data_of (snd kv))) m).
    { clear H Ws. induction Hl as [|a b m l [Ek Hab] _ IHl]; [reflexivity|]. inversion IH; inversion E; inversion W; subst. cbn [map].
      f_equal; [rewrite Ek; f_equal; auto|auto]. }
    rewrite Em. apply by_key_id. unfold msorted in *. rewrite map_map. exact Ws.
Qed.

Lemma jsum_ones {A} (f : A -> json) v : (forall a, jsize (f a) = 1) -> jsum (map f v) = zlen v.
Proof. intros H. induction v as [|a v IH]; [reflexivity|]. rewrite zlen_cons, <- IH. cbn [map]. change (jsum (f a :: map f v)) with (jsize (f a) + jsum (map f v)). rewrite H. lia. Qed.
Lemma form_size g t : everywhere toml_node g -> toml_form g t -> jsize (toml_doc t) = weight g.
Proof.
  revert t. induction g as [g Hv Hm | v IH | m IH] using gc_nest_ind; intros t E H.
  - apply everywhere_here in E as [_ E]. inversion H; subst; try nested_contra Hv Hm; try (exfalso; apply E; cbn; tauto); try reflexivity;
      cbn [toml_doc weight]; rewrite jsize_arr, map_map, jsum_ones by reflexivity; reflexivity.
  - apply everywhere_vec in E as [_ E]. inversion H as [| | | | | | | | | | | |? l Hl|]; subst.
    cbn [toml_doc]. rewrite jsize_arr, weight_vec. f_equal. clear H.
    induction Hl as [|a b v l Hab _ IHl]; [reflexivity|]. inversion IH; inversion E; subst. cbn [map jsum sumw fold_right].
    f_equal; [auto|]. now apply IHl.
  - apply everywhere_map in E as [_ E]. inversion H as [| | | | | | | | | | | | |? l Hl]; subst.
    cbn [toml_doc]. rewrite jsize_obj, weight_map, map_map. cbn [snd]. f_equal. clear H.
    induction Hl as [|a b v l [_ Hab] _ IHl]; [reflexivity|]. inversion IH; inversion E; subst. cbn [map jsum sumwm fold_right].
    f_equal; [auto|]. now apply IHl.
Qed.

Section FormAll.
  Variable N : gc -> Prop.
  Variable Q : json -> Prop.
  Hypothesis Hflat : forall g t, (forall v, g <> GVec v) -> (forall m, g <> GMap m) -> N g -> toml_form g t -> jall Q (toml_doc t).
  Hypothesis Hvec : forall v l, N (GVec v) -> Forall2 toml_form v l -> Q (JArr (map toml_doc l)).
  Hypothesis Hmap : forall m l, N (GMap m) -> Forall2 (fun a b => fst a = fst b /\ toml_form (snd a) (snd b)) m l ->
    Q (JObj (map (fun kv => (fst kv, toml_doc (snd kv))) l)).
  Lemma form_all g t : everywhere N g -> toml_form g t -> jall Q (toml_doc t).
  Proof.
    revert t. induction g as [g Hv Hm | v IH | m IH] using gc_nest_ind; intros t E H.
    - apply everywhere_here in E. eauto.
    - apply everywhere_vec in E as [E0 E]. inversion H as [| | | | | | | | | | | |? l Hl|]; subst.
      cbn [toml_doc]. apply jall_arr. split; [eauto|]. apply Forall_map. apply Forall_forall. intros i Hi.
      destruct (F2_in_r _ _ _ _ Hl Hi) as (a & Ha & Hai). rewrite Forall_forall in *. eauto.
    - apply everywhere_map in E as [E0 E]. inversion H as [| | | | | | | | | | | | |? l Hl]; subst.
      cbn [toml_doc]. apply jall_obj. split; [eauto|]. apply Forall_map. apply Forall_forall. intros i Hi.
      destruct (F2_in_r _ _ _ _ Hl Hi) as (a & Ha & _ & Hai). cbn [snd]. rewrite Forall_forall in *. exact (IH a Ha _ (E a Ha) Hai).
  Qed.
End FormAll.

Lemma jall_list {A} (Q : json -> Prop) (f : A -> json) v : Q (JArr (map f v)) -> (forall a, In a v -> jleaf (f a) /\ Q (f a)) ->
  jall Q (JArr (map f v)).
Proof. intros H0 H. apply jall_arr. split; [assumption|]. apply Forall_map. apply Forall_forall. intros a Ha. destruct (H a Ha). now apply jall_leaf. Qed.
Ltac flat_form H E Hv Hm :=
  inversion H; subst; try nested_contra Hv Hm; try (exfalso; apply E; cbn; tauto); cbn [toml_doc]; rewrite ?map_map; cbn [toml_doc];
  [apply jall_leaf; [exact I|] | apply jall_leaf; [exact I|] | apply jall_leaf; [exact I|] | apply jall_leaf; [exact I|] | apply jall_leaf; [exact I|]
  | apply jall_list; [|intros a Ha; split; [exact I|]] | apply jall_list; [|intros a Ha; split; [exact I|]] | apply jall_list; [|intros a Ha; split; [exact I|]]
  | apply jall_list; [|intros a Ha; split; [exact I|]] | apply jall_list; [|intros a Ha; split; [exact I|]]].

Lemma form_storable g t : wf g -> everywhere toml_node g -> toml_form g t -> jall storable (toml_doc t).
Proof.
  intros W E. apply (form_all (fun g => wf g /\ toml_node g)); try (intros; exact I).
  - clear. intros g t Hv Hm (W & _ & E) H. flat_form H E Hv Hm; try exact I; cbn [storable wf] in *;
      try (rewrite Forall_forall in W; specialize (W _ Ha)); unfold int32, int64 in *; try assumption; lia.
  - apply everywhere_and; [now apply everywhere_wf|assumption].
Qed.
Lemma form_names g t : wf g -> everywhere toml_node g -> toml_form g t -> jall distinct_names (toml_doc t).
Proof.
  intros W E. apply (form_all (fun g => wf g /\ toml_node g)); try (intros; exact I).
  - clear. intros g t Hv Hm (W & _ & E) H. flat_form H E Hv Hm; exact I.
  - clear. intros m l (W & _) Hl. apply wf_map in W as [Ws _]. cbn [distinct_names]. rewrite map_map. cbn [fst]. unfold msorted in Ws.
    replace (map (fun kv => fst kv) l) with (map fst m); [now apply sorted_nodup|].
    clear Ws. induction Hl as [|a b m l [Ek _] _ IH]; [reflexivity|]. cbn. now f_equal.
  - apply everywhere_and; [now apply everywhere_wf|assumption].
Qed.
Lemma form_int g t z : toml_node g -> toml_form g t -> toml_doc t = JInt z -> (g = GInt z \/ g = GLong z).
Proof. intros [_ E] H Ez. inversion H; subst; cbn [toml_doc] in Ez; try discriminate; injection Ez as <-; auto. Qed.
Lemma form_narrow g t : wf g -> everywhere toml_node g -> everywhere narrow_node g -> toml_form g t -> jall narrow_arrays (toml_doc t).
Proof.
  intros W E N. apply (form_all (fun g => (wf g /\ everywhere toml_node g) /\ narrow_node g)); try (intros; exact I).
  - clear. intros g t Hv Hm ((W & E') & N) H. apply everywhere_here in E' as [_ E].
    flat_form H E Hv Hm; try exact I; intros _ z Hz; apply in_map_iff in Hz as (z' & Ez & Hz'); try discriminate Ez; injection Ez as ->.
    + cbn [wf] in W. rewrite Forall_forall in W. exact (W z Hz').
    + cbn [narrow_node] in N. rewrite Forall_forall in N. exact (N z Hz').
  - clear. intros v l ((W & E) & N) Hl Ha z Hz. apply everywhere_vec in E as [_ E]. apply wf_vec in W. rewrite Forall_forall in W, E.
    apply in_map_iff in Hz as (t & Et & Ht). destruct (F2_in_r _ _ _ _ Hl Ht) as (a & Ia & Fa).
    pose proof (E a Ia) as Na. apply everywhere_here in Na. destruct (form_int _ _ _ Na Fa Et) as [-> | ->].
    + exact (W _ Ia).
    + cbn [narrow_node] in N. assert (G : int32 z); [|exact G]. refine (N _ z Ia). intros b Ib.
      assert (exists u, In u l /\ toml_form b u) as (u & Iu & Fu).
      { clear -Hl Ib. induction Hl as [|x y v l Hxy _ IH]; [destruct Ib|]; destruct Ib as [->|Ib]; [exists y; split; [now left|assumption]|].
        destruct (IH Ib) as (u & ? & ?). exists u. split; [now right|assumption]. }
      destruct (Ha (toml_doc u)) as (w & Ew); [now apply in_map|].
      pose proof (E b Ib) as Nb. apply everywhere_here in Nb. destruct (form_int _ _ _ Nb Fu Ew) as [-> | ->]; cbn; auto.
  - apply everywhere_and; [|assumption]. apply everywhere_and; [now apply everywhere_wf|now apply everywhere_twice].
Qed.
Lemma form_elem a t : wf a -> toml_node a -> toml_form a t -> (no_real a -> no_jreal (toml_doc t)) /\ (long_ok a -> jlong_ok (toml_doc t)).
Proof.
  intros W [_ E] H. inversion H; subst; cbn [toml_doc no_real no_jreal long_ok jlong_ok wf] in *; (split; [auto|]); try (intros; exact I).
  - intros _. left. exact W.
  - intros R. now right.
Qed.
Lemma form_merging a t x : wf a -> everywhere toml_node a -> toml_form a t -> In x (jmerging (toml_doc t)) ->
  exists y, In y (merging a) /\ (no_real y -> no_jreal x) /\ (long_ok y -> jlong_ok x).
Proof.
  intros W E H Hx. pose proof (everywhere_here _ _ E) as [_ E0].
  assert (F : forall A (c : A -> gc) (d : A -> json) v, In x (map d v) ->
            (forall e, In e v -> (no_real (c e) -> no_jreal (d e)) /\ (long_ok (c e) -> jlong_ok (d e))) ->
            exists y, In y (map c v) /\ (no_real y -> no_jreal x) /\ (long_ok y -> jlong_ok x)).
  { intros A c d v Hin Hc. apply in_map_iff in Hin as (e & <- & He). exists (c e). split; [now apply in_map|]. now apply Hc. }
  inversion H; subst; cbn [toml_doc jmerging] in Hx; rewrite ?map_map in Hx; cbn [toml_doc] in Hx; try (exfalso; apply E0; cbn; tauto);
    cbn [merging elems]; cbn [wf] in W.
  - destruct Hx as [<-|[]]. eexists. split; [now left|]. split; intros; exact I.
  - destruct Hx as [<-|[]]. eexists. split; [now left|]. split; [intros; exact I|]. intros _. now left.
  - destruct Hx as [<-|[]]. eexists. split; [now left|]. split; [intros; exact I|]. intros R. now right.
  - destruct Hx as [<-|[]]. eexists. split; [now left|]. split; [intros K; exact K|]. intros; exact I.
  - destruct Hx as [<-|[]]. eexists. split; [now left|]. split; intros; exact I.
  - refine (F _ _ _ _ Hx _). intros e _. split; intros; exact I.
  - refine (F _ _ _ _ Hx _). intros e He. split; [intros; exact I|]. intros _. left. rewrite Forall_forall in W. exact (W e He).
  - refine (F _ _ _ _ Hx _). intros e He. split; [intros; exact I|]. intros R. now right.
  - refine (F _ _ _ _ Hx _). intros e _. split; [intros K; exact K|intros; exact I].
  - refine (F _ _ _ _ Hx _). intros e _. split; intros; exact I.
  - apply in_map_iff in Hx as (u & <- & Hu). match goal with H : Forall2 _ _ _ |- _ => destruct (F2_in_r _ _ _ _ H Hu) as (b & Ib & Fb) end.
    exists b. split; [assumption|]. apply everywhere_vec in E as [_ E]. apply (wf_vec) in W. rewrite Forall_forall in E, W.
    apply form_elem; auto. apply everywhere_here. auto.
Qed.
Lemma form_unrounded g t : wf g -> everywhere toml_node g -> unrounded g -> toml_form g t -> jall unrounded_doc (toml_doc t).
Proof.
  intros W E U. apply (form_all (fun g => (wf g /\ everywhere toml_node g) /\ unrounded_node g)); try (intros; exact I).
  - clear. intros g t Hv Hm ((W & E') & N) H. apply everywhere_here in E' as [_ E].
    assert (L : forall A (d : A -> json) v, (forall a, no_jreal (d a)) -> (forall a, jleaf (d a)) -> unrounded_doc (JArr (map d v))).
    { intros A d v Hd Hl. left. intros a Ha. apply in_map_iff in Ha as (e & <- & _). specialize (Hd e). specialize (Hl e).
      destruct (d e); try contradiction; repeat constructor. }
    assert (R : forall A (d : A -> json) v, (forall a, jlong_ok (d a)) -> (forall a, jleaf (d a)) -> unrounded_doc (JArr (map d v))).
    { intros A d v Hd Hl. right. intros a Ha. apply in_map_iff in Ha as (e & <- & _). specialize (Hd e). specialize (Hl e).
      destruct (d e); try contradiction; try (repeat constructor; fail); constructor; auto. }
    flat_form H E Hv Hm; try exact I; first [apply L; intros; exact I | apply R; intros; exact I].
  - clear. intros v l ((W & E) & U) Hl. apply everywhere_vec in E as [_ E]. apply wf_vec in W. rewrite Forall_forall in W, E.
    cbn [unrounded_node unrounded_doc] in *. destruct U as [U|U]; [left|right]; intros j Hj; apply in_map_iff in Hj as (t & <- & Ht);
      destruct (F2_in_r _ _ _ _ Hl Ht) as (a & Ia & Fa); apply Forall_forall; intros x Hx;
      destruct (form_merging a t x (W a Ia) (E a Ia) Fa Hx) as (y & Iy & Y1 & Y2); specialize (U a Ia); rewrite Forall_forall in U; auto.
  - apply everywhere_and; [|assumption]. apply everywhere_and; [now apply everywhere_wf|now apply everywhere_twice].
Qed.
Lemma form_leaf_scalar a t : toml_form a t -> jleaf (toml_doc t) -> scalar a /\ a <> GNone.
Proof. intros H L. unfold scalar. inversion H; subst; cbn in *; try contradiction; (split; [tauto|discriminate]). Qed.
Lemma form_unmixed g t : wf g -> everywhere toml_node g -> everywhere not_mixed_data g -> toml_form g t -> jall not_jmixed (toml_doc t).
Proof.
  intros W E M. apply (form_all (fun g => (wf g /\ everywhere toml_node g) /\ not_mixed_data g)); try (intros; exact I).
  - clear. intros g t Hv Hm ((W & E') & N) H. apply everywhere_here in E' as [_ E].
    assert (L : forall A (d : A -> json) v, (forall a, jleaf (d a)) -> not_jmixed (JArr (map d v))).
    { intros A d v Hl. split.
      - intros a b _ Hb. apply in_map_iff in Hb as (e & Ee & _). specialize (Hl e). now rewrite Ee in Hl.
      - intros [_ Hb]. apply in_map_iff in Hb as (e & Ee & _). specialize (Hl e). now rewrite Ee in Hl. }
    flat_form H E Hv Hm; try exact I; apply L; intros; exact I.
  - clear. intros v l ((W & E) & M) Hl. apply everywhere_vec in E as [_ E]. apply wf_vec in W. rewrite Forall_forall in W, E.
    cbn [not_jmixed not_mixed_data] in *. split.
    + intros ja jb Ha Hb. apply in_map_iff in Ha as (ta & <- & Ha), Hb as (tb & Eb & Hb).
      destruct (F2_in_r _ _ _ _ Hl Ha) as (a & Ia & Fa). destruct (F2_in_r _ _ _ _ Hl Hb) as (b & Ib & Fb).
      pose proof (form_data b tb (W b Ib) (E b Ib) Fb) as D. rewrite Eb in D. cbn [json_data map] in D. symmetry in D.
      assert (L : jleaf (toml_doc ta) -> False).
      { intros L. destruct (form_leaf_scalar _ _ Fa L) as [Sa Na]. apply Na. exact (M a b _ Ia Ib Sa D). }
      destruct (toml_doc ta); try exact I; apply L; exact I.
    + intros [Hn _]. apply in_map_iff in Hn as (t & Et & _). destruct t; discriminate Et.
  - apply everywhere_and; [|assumption]. apply everywhere_and; [now apply everywhere_wf|now apply everywhere_twice].
Qed.
