(** Maps stay sorted under every call of the C interface. *)
From Coq Require Import ZArith Bool Lia Ascii String List Permutation.
From Verif Require Import Base F64 StrMap Value MBasic MGet MMap MMat MPromote MRef MCapi SCapi LCapi LCapi2.
Import ListNotations.
Local Open Scope Z_scope.

(** A value holding no map. *)
Definition flat (g : gc) : Prop := match g with GVec _ | GMap _ => False | _ => True end.
Lemma flat_wfm g : flat g -> wfm g.
Proof. destruct g; cbn; tauto. Qed.
Definition wfv (v : list gc) : Prop := Forall wfm v.
Lemma wfv_resize n v : wfv v -> wfv (resize GNone n v).
Proof.
  unfold wfv, resize. intros H. apply Forall_app. split.
  - rewrite <- (firstn_skipn n v) in H. now apply Forall_app in H.
  - apply Forall_forall. intros x Hx. apply repeat_spec in Hx. now subst.
Qed.
Lemma wfv_lset i x v : wfm x -> wfv v -> wfv (lset i x v).
Proof. unfold wfv. intros Hx H. revert i. induction H; intros [|i]; cbn; constructor; auto. Qed.
Lemma wfv_app v x : wfv v -> wfm x -> wfv (v ++ [x]).
Proof. unfold wfv. intros. apply Forall_app. auto. Qed.
Lemma copy_into_all {A} (P : A -> Prop) (a b r : list A) : copy_into a b = Ok r -> Forall P a -> Forall P b -> Forall P r.
Proof.
  unfold copy_into. destruct (length a <=? length b)%nat; [|discriminate]. intros E. apply Ok_inj in E. subst r. intros Ha Hb.
  apply Forall_app. split; [exact Ha|]. rewrite <- (firstn_skipn (length a) b) in Hb. now apply Forall_app in Hb.
Qed.
Lemma wfm_elems_vec {A} (f : A -> gc) v : (forall a, wfm (f a)) -> wfm (snd (promote_elems GVec GNone f v)).
Proof.
  intros Hf. unfold promote_elems. destruct (copy_into _ _) as [w| | |] eqn:E; cbn [snd]; try exact I.
  apply wfm_vec. eapply copy_into_all; [exact E| |].
  - apply Forall_map, Forall_forall. auto.
  - unfold valloc. destruct (0 <? _); [|constructor]. apply (wfv_resize _ []). constructor.
Qed.
Lemma wfm_elems {A B} k (d : B) (f : A -> B) v : (forall w, flat (k w)) -> wfm (snd (promote_elems k d f v)).
Proof. intros H. unfold promote_elems. destruct (copy_into _ _); cbn [snd]; try exact I. apply flat_wfm, H. Qed.
Lemma wfm_mat {A B} k (d : B) (f : A -> B) m : (forall w, flat (k w)) -> wfm (snd (promote_mat k d f m)).
Proof. intros H. unfold promote_mat. destruct (copy_into _ _); cbn [snd]; try exact I. apply flat_wfm, H. Qed.
Lemma wfm_col_wrong {A B} (k : mat B -> gc) (v : list A) : (forall w, flat (k w)) -> wfm (snd (promote_col_wrong k v)).
Proof. intros H. unfold promote_col_wrong. destruct v; cbn [snd]; try exact I. apply flat_wfm, H. Qed.
Lemma wfm_col {A B} (k : mat B -> gc) (f : A -> B) v : (forall w, flat (k w)) -> wfm (snd (promote_col k f v)).
Proof. intros H. unfold promote_col. cbn [snd]. apply flat_wfm, H. Qed.
Ltac keepw := intros; match goal with |- wfm (snd (_ ?g)) => destruct g end; cbv beta iota delta
    [promote_to_vec_int promote_to_vec_long promote_to_vec_real promote_to_vec_complex promote_to_mat_real promote_to_mat_complex promote_to_vector];
  first [ assumption | exact I | apply wfm_elems; intros; exact I | apply wfm_mat; intros; exact I | apply wfm_col; intros; exact I
        | apply wfm_col_wrong; intros; exact I | apply wfm_elems_vec; intros; exact I | cbn; auto ].
Lemma wfm_pvi g : wfm g -> wfm (snd (promote_to_vec_int g)). Proof. keepw. Qed.
Lemma wfm_pvl g : wfm g -> wfm (snd (promote_to_vec_long g)). Proof. keepw. Qed.
Lemma wfm_pvr g : wfm g -> wfm (snd (promote_to_vec_real g)). Proof. keepw. Qed.
Lemma wfm_pvc g : wfm g -> wfm (snd (promote_to_vec_complex g)). Proof. keepw. Qed.
Lemma wfm_pmr g : wfm g -> wfm (snd (promote_to_mat_real g)). Proof. keepw. Qed.
Lemma wfm_pmc g : wfm g -> wfm (snd (promote_to_mat_complex g)). Proof. keepw. Qed.
Lemma wfm_pv g : wfm g -> wfm (snd (promote_to_vector g)). Proof. keepw. Qed.

(** References: the container when the reference is only read. *)
Definition rwf {A} (r : refr A) : Prop := match r with Ref a put => wfm (put a) | Bad _ g => wfm g end.
Lemma rread_wf {A} (r : refr A) : rwf r -> wfm (snd (rread r)).
Proof. destruct r; exact (fun H => H). Qed.
Lemma after_wf {A} p (k : gc -> refr A) : wfm (snd p) -> (forall g, wfm g -> rwf (k g)) -> rwf (after p k).
Proof. destruct p as [[] g]; cbn; auto. Qed.
Lemma grow_wf {A} (mk : list A -> gc) d i v : (forall w, flat (mk w)) -> rwf (grow_ref mk d i v).
Proof. intros H. unfold grow_ref. destruct (znth _ _); cbn; apply flat_wfm, H. Qed.
Lemma check_resize_wf i v : wfv v -> wfv (check_resize GNone i v).
Proof. unfold check_resize. destruct (_ <=? _); [apply wfv_resize | auto]. Qed.
Lemma vslot_wf {A} (k : A -> gc) d i g : (forall a, flat (k a)) -> wfm g -> rwf (vslot k d i g).
Proof.
  intros H Hg. unfold vslot. apply after_wf.
  - destruct g; cbn [snd]; auto; apply wfm_pv; exact Hg.
  - intros g' Hg'. destruct g'; try exact Hg'. apply wfm_vec in Hg'. pose proof (check_resize_wf i v Hg') as W. 
    destruct (znth _ _); cbn [rwf]; apply wfm_vec; [|exact W]. apply wfv_lset; [apply flat_wfm, H | exact W].
Qed.
Lemma mat_ref_wf {A} (mk : mat A -> gc) i j m : (forall w, flat (mk w)) -> rwf (mat_ref mk i j m).
Proof. intros H. unfold mat_ref. destruct (znth _ _); cbn; apply flat_wfm, H. Qed.

Ltac pushw L := intros Hg; match goal with |- wfm (snd (_ _ ?g)) => pose proof (L g Hg) as P end;
  cbv beta iota delta [push_int push_real push_complex push_string];
  match goal with |- context [match ?q with (_, _) => _ end] => destruct q as [[] ?] end;
  cbn [snd] in *; repeat match goal with |- context [match ?x with _ => _ end] => is_var x; destruct x end; cbn [snd];
  try exact I; try assumption; 
  try match goal with P : wfm (GVec ?v) |- wfm (GVec (?v ++ _)) => apply wfm_vec in P; apply wfm_vec; now apply wfv_app end.
Lemma wfm_push_bool b g : wfm g -> wfm (snd (push_bool b g)).
Proof. intros Hg. destruct g; cbn [push_bool snd]; try exact I; try exact Hg. apply wfm_vec in Hg. apply wfm_vec. now apply wfv_app. Qed.
Lemma wfm_push_int b g : wfm g -> wfm (snd (push_int b g)). Proof. pushw wfm_pvi. Qed.
Lemma wfm_push_real b g : wfm g -> wfm (snd (push_real b g)). Proof. pushw wfm_pvr. Qed.
Lemma wfm_push_complex b g : wfm g -> wfm (snd (push_complex b g)). Proof. pushw wfm_pvc. Qed.
Lemma wfm_push_string b g : wfm g -> wfm (snd (push_string b g)). Proof. pushw wfm_pv. Qed.
Lemma pushes_snd r : snd (pushes r) = Some (snd r).
Proof. destruct r as [[] g]; reflexivity. Qed.

Lemma rwf_bool_at i g : wfm g -> rwf (ref_bool_at i g).
Proof. intros H. destruct g; cbn [ref_bool_at]; first [apply grow_wf; intros; exact I | apply vslot_wf; [intros; exact I | exact H]]. Qed.
Lemma rwf_string_at i g : wfm g -> rwf (ref_string_at i g).
Proof. intros H. destruct g; cbn [ref_string_at]; first [apply grow_wf; intros; exact I | apply vslot_wf; [intros; exact I | exact H]]. Qed.
Lemma rwf_vint_at i g : wfm g -> rwf (vint_at i g).
Proof. intros H. destruct g; cbn [vint_at]; first [apply grow_wf; intros; exact I | apply vslot_wf; [intros; exact I | exact H]]. Qed.
Lemma rwf_int_at i g : wfm g -> rwf (ref_int_at i g).
Proof.
  intros H. assert (rwf (after (promote_to_vec_int g) (vint_at i))) as A by (apply after_wf; [now apply wfm_pvi | intros; now apply rwf_vint_at]).
  destruct g; cbn [ref_int_at]; first [exact A | apply rwf_vint_at; exact H | apply rwf_vint_at; exact I].
Qed.
Lemma rwf_real_at2 i j g : wfm g -> rwf (ref_real_at2 i j g).
Proof.
  intros H. assert (forall g, wfm g -> rwf (mreal_at i j g)) as B.
  { intros g0 H0. destruct g0; cbn [mreal_at]; try exact H0. apply mat_ref_wf. intros; exact I. }
  assert (rwf (after (promote_to_mat_real g) (mreal_at i j))) as A by (apply after_wf; [now apply wfm_pmr | exact B]).
  destruct g; cbn [ref_real_at2]; first [exact A | apply B; exact H | apply B; exact I].
Qed.
Lemma rwf_complex_at2 i j g : wfm g -> rwf (ref_complex_at2 i j g).
Proof.
  intros H. assert (forall g, wfm g -> rwf (mcomplex_at i j g)) as B.
  { intros g0 H0. destruct g0; cbn [mcomplex_at]; try exact H0. apply mat_ref_wf. intros; exact I. }
  assert (rwf (after (promote_to_mat_complex g) (mcomplex_at i j))) as A by (apply after_wf; [now apply wfm_pmc | exact B]).
  destruct g; cbn [ref_complex_at2]; first [exact A | apply B; exact H | apply B; exact I].
Qed.
Lemma old_vec_wf g : wfm g -> wfv (old_vec g).
Proof. intros H. destruct g; try constructor. now apply wfm_vec in H. Qed.
Lemma old_map_wf g : wfm g -> wfm (GMap (old_map g)).
Proof. intros H. destruct g; try exact H; cbn; split; auto; constructor. Qed.
Lemma set_vector_wf n g : wfm g -> wfm (set_vector_sz n g).
Proof.
  intros H. apply wfm_vec. unfold alloc_vec, valloc. destruct (0 <? n); [apply wfv_resize|]; now apply old_vec_wf.
Qed.

Lemma top_wfm k w f g o g' : top_call k = Some (w, f) -> wfm g -> f g = (o, Some g') -> wfm g'.
Proof.
  intros TC Hg. assert (forall g'', snd (f g) = Some g'' -> wfm g'') as A; [|intros E; apply A; now rewrite E].
  intros g''.
  destruct k; cbn [top_call] in TC; try discriminate TC; apply Some_inj in TC; injection TC as <- <-;
    unfold sets, shows, looks, filled; rewrite ?pushes_snd; cbn [snd]; try discriminate;
    try (intros H; apply Some_inj in H; subst g'';
         first [ exact I | apply wfm_push_bool; exact Hg | apply wfm_push_int; exact Hg | apply wfm_push_real; exact Hg
               | apply wfm_push_complex; exact Hg | apply wfm_push_string; exact Hg
               | apply rread_wf, rwf_bool_at; exact Hg | apply rread_wf, rwf_int_at; exact Hg | apply rread_wf, rwf_string_at; exact Hg
               | apply rread_wf, rwf_real_at2; exact Hg | apply rread_wf, rwf_complex_at2; exact Hg
               | apply set_vector_wf; exact Hg
               | destruct g; first [exact I | exact Hg] ]; fail).
  1-5: repeat match goal with |- context [match ?x with _ => _ end] => destruct x; cbn [snd] end; try discriminate;
    intros H; apply Some_inj in H; subst g''; exact I.
  all: destruct g; cbn [snd]; try discriminate; intros H; apply Some_inj in H; subst g''; first [exact I | apply set_vector_wf; exact I | cbn; split; [constructor|exact I]].
Qed.

Lemma mset_wfm k x m : wfm (GMap m) -> wfm x -> wfm (GMap (mset k x m)).
Proof.
  rewrite !wfm_map. intros [S F] X. split; [now apply mset_sorted|]. now apply mset_forall.
Qed.
Lemma fnth_wf i v : wfv v -> wfm (fnth i v).
Proof. unfold wfv, fnth. intros H. revert i. induction H; intros [|i]; cbn; auto. Qed.
Lemma fill_wf g : wfm g -> wfm (fill_value g).
Proof.
  intros H. unfold fill_value. pose proof (wfv_resize 11 _ (old_vec_wf g H)) as V. set (v := resize GNone 11 (old_vec g)) in *. cbn zeta.
  apply wfm_vec. repeat (apply Forall_cons); try apply Forall_nil; try exact I.
  - do 5 (apply mset_wfm; [|exact I]). now apply old_map_wf, fnth_wf.
  - apply mset_wfm; [|exact I]. do 2 (apply mset_wfm; [|exact I]). now apply old_map_wf, fnth_wf.
  - apply wfm_vec. repeat (apply Forall_cons); try apply Forall_nil; exact I.
Qed.

(** ** On the cursor machine *)
Lemma sub_wfm p : forall g e, wfm g -> sub p g = Some e -> wfm e.
Proof.
  induction p as [|[k|i] p IH]; intros g e H.
  - cbn. destruct g; now intros [= <-].
  - destruct g; cbn [sub]; try discriminate. destruct (mfind k m) as [x|] eqn:E; [|discriminate]. apply IH.
    apply wfm_map in H. apply mfind_in in E. rewrite Forall_forall in H. exact (proj2 H _ E).
  - destruct g; cbn [sub]; try discriminate. destruct (znth i v) as [x|] eqn:E; [|discriminate]. apply IH.
    apply wfm_vec in H. destruct (znth_split' _ _ _ E) as (l1 & l2 & -> & _). apply Forall_app in H. destruct H as [_ H]. now inversion H.
Qed.
Lemma put_wfm p : forall g e x, wfm g -> sub p g = Some e -> wfm x -> wfm (put p x g).
Proof.
  induction p as [|[k|i] p IH]; intros g e x H.
  - cbn. destruct g; auto.
  - destruct g; cbn [sub put]; try discriminate. destruct (mfind k m) as [y|] eqn:E; [|discriminate]. intros S X.
    assert (wfm y) as Y by (apply (sub_wfm [SKey k] (GMap m)); [exact H | cbn [sub]; rewrite E; destruct y; reflexivity]).
    specialize (IH y e x Y S X). apply wfm_map in H. apply wfm_map.
    destruct (mfind_split _ _ _ E) as (m1 & m2 & -> & N). rewrite mupd_app_mid by assumption. destruct H as [H1 H2]. split.
    + unfold msorted in *. rewrite map_app in *. exact H1.
    + apply Forall_app in H2. apply Forall_app. split; [apply H2|]. destruct H2 as [_ H2]. inversion H2. constructor; auto.
  - destruct g; cbn [sub put]; try discriminate. destruct (znth i v) as [y|] eqn:E; [|discriminate]. intros S X.
    assert (wfm y) as Y by (apply (sub_wfm [SIdx i] (GVec v)); [exact H | cbn [sub]; rewrite E; destruct y; reflexivity]).
    specialize (IH y e x Y S X). apply wfm_vec in H. apply wfm_vec. now apply wfv_lset.
Qed.
Definition iwf (s : istate) : Prop := wfm (fst (fst s)).
Lemma sexec_wf k s : wfm (fst s) -> wfm (fst (snd (sexec k s))).
Proof.
  destruct s as [g cur]. cbn [fst]. intros H. unfold sexec. destruct (top_call k) as [[w f]|] eqn:TC.
  - destruct cur as [p|]; [|exact H]. destruct (sub p g) as [e|] eqn:S; [|exact H].
    destruct (f e) as [o [e'|]] eqn:Ef; cbn [fst snd]; [|exact H].
    apply (put_wfm p g e e' H S). apply (top_wfm k w f e o e' TC); [eapply sub_wfm; eauto | exact Ef].
  - destruct cur as [p|]; [|exact H]. destruct k; try exact H.
    + destruct (sub p g) as [[]|] eqn:S; cbn [fst snd]; try exact H. pose proof (sub_wfm _ _ _ H S) as W. apply wfm_vec in W.
      destruct (_ <? _); cbn [fst snd].
      * eapply put_wfm; eauto. apply wfm_vec. destruct (_ <=? _); [now apply wfv_resize | exact W].
      * destruct (_ <? _); cbn [fst snd]; [exact H|]. eapply put_wfm; eauto. exact I.
    + destruct (sub p g) as [[]|] eqn:S; cbn [fst snd]; try exact H. pose proof (sub_wfm _ _ _ H S) as W.
      destruct (mfind (cstr key) m); cbn [fst snd]; [exact H|]. eapply put_wfm; eauto. now apply mset_wfm.
    + destruct (sub p g) as [[]|] eqn:S; exact H.
Qed.
Lemma iexec_wf k s o s' : iwf s -> iexec k s = Some (o, s') -> iwf s'.
Proof.
  destruct s as [[g cur] it]. unfold iwf. cbn [fst]. intros H HE. pose proof (sexec_wf k (g, cur) H) as W.
  destruct k; cbn [iexec] in HE;
    try (destruct (sexec _ (g, cur)) as [o1 s1]; apply Some_inj in HE; injection HE as <- <-; exact W).
  destruct it as [|p [|key ks]|]; try discriminate; apply Some_inj in HE; injection HE as <- <-; exact H.
Qed.
Definition nwf (s : nstate) : Prop := Forall iwf (n_all s).
Lemma Forall_lset {A} (P : A -> Prop) i a l : P a -> Forall P l -> Forall P (lset i a l).
Proof. intros Ha H. revert i. induction H; intros [|i]; cbn; constructor; auto. Qed.
Lemma nselect_wf name s : nwf s -> nwf (nselect name s).
Proof.
  unfold nwf, nselect. intros H. destruct (mfind _ _); cbn [n_all]; [exact H|]. apply Forall_app. split; [exact H|]. constructor; [exact I|constructor].
Qed.
Lemma nth_error_Forall {A} (P : A -> Prop) l i a : Forall P l -> nth_error l i = Some a -> P a.
Proof. intros H E. rewrite Forall_forall in H. apply H. eapply nth_error_In; eauto. Qed.
Lemma nexec_wf k s o s' : nwf s -> nexec k s = Some (o, s') -> nwf s'.
Proof.
  intros H. destruct k as [name|name|name|name|name|k]; cbn [nexec].
  1-3: intros HE; apply Some_inj in HE; injection HE as <- <-; now apply nselect_wf.
  - intros HE; apply Some_inj in HE; injection HE as <- <-. exact H.
  - pose proof (nselect_wf name s H) as H1. set (s1 := nselect name s) in *. cbn zeta. destruct (n_active s1) as [i|]; [|discriminate].
    destruct (nth_error (n_all s1) i) as [[[g cur] it]|] eqn:E; [|discriminate].
    pose proof (nth_error_Forall _ _ _ _ H1 E) as W. unfold iwf in W. cbn [fst] in W. pose proof (fill_wf g W) as W'.
    destruct cur as [[|]|]; [|discriminate|]; intros HE; apply Some_inj in HE; injection HE as <- <-; unfold nwf; cbn [n_all];
      (apply Forall_lset; [exact W' | exact H1]).
  - destruct (n_active s) as [i|]; [|intros HE; apply Some_inj in HE; injection HE as <- <-; exact H].
    destruct (nth_error (n_all s) i) as [st|] eqn:E; [|discriminate]. destruct (iexec k st) as [[o1 st1]|] eqn:Ek; [|discriminate].
    intros HE; apply Some_inj in HE; injection HE as <- <-. unfold nwf. cbn [n_all]. apply Forall_lset; [|exact H].
    eapply iexec_wf; eauto. exact (nth_error_Forall _ _ _ _ H E).
Qed.
Lemma nrun_wf ks : forall s os s', nwf s -> nrun ks s = Some (os, s') -> nwf s'.
Proof.
  induction ks as [|k ks IH]; intros s os s' H; cbn [nrun].
  - intros HE; apply Some_inj in HE; injection HE as <- <-. exact H.
  - destruct (nexec k s) as [[o s1]|] eqn:E; [|discriminate]. destruct (nrun ks s1) as [[os1 s2]|] eqn:E2; [|discriminate].
    intros HE; apply Some_inj in HE; injection HE as <- <-. eapply IH; [|exact E2]. eapply nexec_wf; eauto.
Qed.
