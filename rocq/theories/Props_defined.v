(** Collapse of any container is defined behaviour unless large doubles are converted. *)
From Coq Require Import ZArith Bool Lia Ascii String List.
From Verif Require Import Base F64 StrMap Value MBasic MCopy SCopy LCopy LBasic MGet SGet LGet MMat SMap
  MPromote SPromote LPromote LCopyto MCollapse SCollapse LCollapse LCollapse2 SClash LClash SDefined WfDec.
From Verif Require LOps Props_collapsefail.
Import ListNotations.
Local Open Scope Z_scope.

(** What is needed of the collapsed elements of a vector. *)
Definition short (e : gc) : Prop := flat e -> zlen (elems e) < 2^31.
Lemma harmless_short e : harmless_node e -> short e.
Proof. intros H F. destruct e; cbn [harmless_node elems] in *; rewrite ?zlen_map; try assumption; try (unfold zlen; cbn; lia); unfold flat in F; cbn in F; lia. Qed.
Lemma short_ne32 e : flat e -> zlen (elems e) < 2^31 -> ne32 e = zlen (elems e).
Proof.
  intros F L. assert (forall A (l : list A), zlen l < 2^31 -> to_i32 (to_u32 (zlen l)) = zlen l) as K.
  { intros A l Hl. pose proof (zlen_nonneg l). rewrite to_u32_id by (unfold uint32; lia). apply to_i32_id. unfold int32. lia. }
  unfold ne32. destruct e; cbn [elems num_elements] in *; rewrite ?zlen_map in *; try reflexivity; try (apply K; exact L); unfold flat in F; cbn in F; lia.
Qed.

Lemma push_all_soft {A B} (cv : A -> out B) l : (forall a, In a l -> ~ wild (cv a)) -> forall acc,
  (exists r, push_all cv l acc = (Ok tt, r) /\ zlen r = zlen acc + zlen l) \/ exists r, push_all cv l acc = (Throw, r).
Proof.
  induction l as [|a l IH]; intros H acc; cbn [push_all].
  - left. exists acc. split; [reflexivity|]. rewrite zlen_nil. lia.
  - pose proof (H a (or_introl eq_refl)) as S. destruct (cv a) as [b| | |]; [|right; eauto|exfalso; apply S; now left|exfalso; apply S; now right].
    destruct (IH (fun x Hx => H x (or_intror Hx)) (acc ++ [b])) as [(r & E & L)|R]; [|now right].
    left. exists r. split; [exact E|]. rewrite L, zlen_app, !zlen_cons, zlen_nil. lia.
Qed.
Lemma fits_int e vec : number_fits e -> ~ wild (conv_int vec e).
Proof.
  intros H. assert (G : ~ wild (get_as_int e)).
  { destruct e; cbn [get_as_int]; try (intros [X|X]; discriminate X).
    - apply cast_soft; [lia|]. intros n F. specialize (H n F). unfold int32 in H. lia.
    - destruct c as [re im]. cbn [number_fits] in H. destruct (is_zero0 im); cbn [andb gc_assert]; [|intros [X|X]; discriminate X].
      apply cast_soft; [lia|]. intros n F. specialize (H n F). unfold int32 in H. lia. }
  destruct e, vec; try exact G. cbn [conv_int]. unfold cl_int. destruct (to_i32 l =? l); intros [X|X]; discriminate X.
Qed.
Lemma fits_long e : number_fits e -> ~ wild (get_as_long e).
Proof.
  intros H. destruct e; cbn [get_as_long]; try (intros [X|X]; discriminate X).
  - apply cast_soft; [lia|]. intros n F. specialize (H n F). unfold int32 in H. lia.
  - destruct c as [re im]. cbn [number_fits] in H. destruct (is_zero0 im); cbn [andb gc_assert]; [|intros [X|X]; discriminate X].
    apply cast_soft; [lia|]. intros n F. specialize (H n F). unfold int32 in H. lia.
Qed.
Lemma soft_real e vec : ~ wild (conv_real vec e).
Proof.
  destruct e; cbn [conv_real get_number]; try (intros [X|X]; discriminate X).
  destruct c as [re im], vec; unfold cc_real; cbn [fst snd]; destruct (is_zero0 im); intros [X|X]; discriminate X.
Qed.
Lemma soft_complex e vec : ~ wild (conv_complex vec e).
Proof. destruct vec, e; cbn; intros [X|X]; discriminate X. Qed.
(** The elements of a flat container that is not a sequence of numbers above the given type. *)
Lemma elems_fit e : number_fits e -> tag_num (tag_of e) <= tag_num TVLong -> Forall number_fits (elems e).
Proof.
  intros H T. destruct e; cbn [elems]; try exact (Forall_nil _); try exact (Forall_cons _ H (Forall_nil _)); try (cbn in T; lia);
    apply Forall_forall; intros x Hx; apply in_map_iff in Hx as (y & <- & _); exact I.
Qed.

Section OneVector.
  Variable v : list gc.
  Hypothesis Hne : v <> [].
  Hypothesis Hw : Forall wf v.
  Hypothesis Hlen : zlen v < 2^31.
  Hypothesis Hsh : Forall short v.
  Hypothesis Hfit : Forall number_fits v.

  Lemma vec_defined : ~ wild (fst (collapse_vec v)).
  Proof.
    set (s := fold_left scan_step v scan0). unfold collapse_vec. fold s.
    destruct (can_collapse s) eqn:Hcan; cbn [negb]; [|intros [X|X]; discriminate X].
    assert (Few : forall A (t : list A), zlen t = zlen v -> few t /\ t <> []).
    { intros A t E. split; [unfold few; lia|]. intros ->. destruct v; [congruence|]. rewrite zlen_cons in E. unfold zlen in E at 1. cbn in E. pose proof (zlen_nonneg l). lia. }
    destruct (all_string s) eqn:Hstr.
    { intros U. apply overwrite_wild in U. apply scan_str in Hstr as [_ Hstr].
      assert (E : exists t, strings_of v = Ok t /\ zlen t = zlen v).
      { clear -Hstr. induction v as [|e w IH]; [now exists []|].
        destruct IH as (t & E & L); [intros; apply Hstr; now right|].
        pose proof (Hstr e (or_introl eq_refl)) as T. destruct e as [| | | | | | |str| | | | | | | | | | | | |]; try discriminate. exists (str :: t).
        split; [cbn; now rewrite E|]. rewrite !zlen_cons. lia. }
      destruct E as (t & E & L). destruct (Few _ t L) as [F N]. rewrite E in U. cbn [bind] in U.
      rewrite set_vstr_exact in U by assumption. destruct U as [U|U]; discriminate U. }
    rewrite Forall_forall in Hsh, Hfit.
    destruct (scan_max v scan0) as (_ & M2 & M3). fold s in M2, M3. cbv zeta in M2, M3.
    assert (NE : tag_num (max_sub s) <= tag_num TVComplex -> forall e, In e v -> flat e /\ zlen (elems e) = last_nelem s /\ 0 <= last_nelem s < 2^31).
    { intros Le. assert (FL : forall e, In e v -> flat e) by (intros e He; unfold flat; specialize (M2 e He); lia).
      destruct (scan_ne v scan0) as (_ & N2 & _); [|exact Hcan|].
      - intros e He. rewrite short_ne32; auto; [apply zlen_nonneg|]. apply Hsh; auto.
      - intros e He. fold s in N2. rewrite <- (N2 Hne e He). pose proof (Hsh e He (FL e He)). rewrite short_ne32 by auto. pose proof (zlen_nonneg (elems e)). auto. }
    assert (Sz : sized (GVec v)) by (unfold sized; cbn [elems]; lia).
    assert (VEC : forall (cp : out unit * list Z) (set : list Z -> gc -> out gc), (forall t, few t -> t <> [] -> ~ wild (set t (GVec v))) ->
      (exists r, cp = (Ok tt, r) /\ zlen r = zlen v) \/ (exists r, cp = (Throw, r)) ->
      ~ wild (fst (overwrite (do t <- copied cp ; set t (GVec v)) (GVec v)))).
    { intros cp st Hset [(r & -> & L)|(r & ->)] U; apply overwrite_wild in U; cbn [copied bind] in U; [|destruct U as [U|U]; discriminate U].
      destruct (Few _ r L) as [F N]. exact (Hset r F N U). }
    assert (VECC : forall (cp : out unit * list cplx), 
      (exists r, cp = (Ok tt, r) /\ zlen r = zlen v) \/ (exists r, cp = (Throw, r)) ->
      ~ wild (fst (overwrite (do t <- copied cp ; set_vcomplex t (GVec v)) (GVec v)))).
    { intros cp [(r & -> & L)|(r & ->)] U; apply overwrite_wild in U; cbn [copied bind] in U; [|destruct U as [U|U]; discriminate U].
      destruct (Few _ r L) as [F N]. rewrite set_vcomplex_exact in U by assumption. destruct U as [U|U]; discriminate U. }
    assert (PUSH : forall B (cv : gc -> out B), (forall e, In e v -> ~ wild (cv e)) ->
      (exists r, push_all cv v [] = (Ok tt, r) /\ zlen r = zlen v) \/ (exists r, push_all cv v [] = (Throw, r))).
    { intros B cv H. destruct (push_all_soft cv v H []) as [(r & E & L)|R]; [|now right]. left. exists r. split; [exact E|]. rewrite zlen_nil in L. lia. }
    assert (MAT : forall A (d : A) (cp : gc -> list A -> out unit * list A) (cv : bool -> gc -> out A) (set : mat A -> gc -> out gc),
      (forall m, wf_mat (fun _ => True) m -> ~ wild (set m (GVec v))) ->
      tag_num (max_sub s) <= tag_num TVComplex ->
      (forall e, In e v -> flat e -> sized e -> cp e [] = push_all (cv (is_vec e)) (elems e) []) ->
      (forall e x vec, In e v -> In x (elems e) -> ~ wild (cv vec x)) ->
      ~ wild (fst (overwrite (do m <- mat_of d cp (last_nelem s) v ; set m (GVec v)) (GVec v)))).
    { intros A d cp cv st Hset Le Hcp Hcv U. apply overwrite_wild in U.
      assert (Soft : ~ wild (mat_of d cp (last_nelem s) v)).
      { unfold mat_of. apply fill_cols_soft. rewrite visit_all by lia. intros c Hc. destruct (NE Le c Hc) as (Fc & Lc & Rc).
        rewrite (to_u32_id (last_nelem s)) by (unfold uint32; lia).
        rewrite (Hcp c Hc Fc) by (unfold sized; lia).
        destruct (push_all_soft (cv (is_vec c)) (elems c) (fun x Hx => Hcv c x _ Hc Hx) []) as [(r & E & L)|R]; [|now right].
        left. exists r. split; [exact E|]. rewrite zlen_nil in L. lia. }
      destruct (mat_of d cp (last_nelem s) v) as [m| | |] eqn:Em; cbn [bind] in U.
      - eapply (LOps.mat_of_ok (fun _ => True)) in Em; [|intros; apply Forall_forall; auto|exact I|exact Hw]. exact (Hset m Em U).
      - destruct U as [U|U]; discriminate U.
      - apply Soft. now left.
      - apply Soft. now right. }
    assert (NM : forall e, flat e -> tag_of e <> TMap) by (intros e F T; unfold flat in F; rewrite T in F; cbn in F; lia).
    assert (FIT : tag_num (max_sub s) <= tag_num TVLong -> forall e x, In e v -> In x (elems e) -> number_fits x).
    { intros Le e x He Hx. assert (F : Forall number_fits (elems e)); [apply elems_fit; [now apply Hfit|specialize (M2 e He); lia]|].
      rewrite Forall_forall in F. now apply F. }
    destruct (max_sub s) eqn:Hmx; try (intros [X|X]; discriminate X).
    - (* booleans: an element without value would have another number of elements *)
      intros U. apply overwrite_wild in U. destruct M3 as [M3|(b & Hb & Tb)]; [discriminate M3|].
      assert (L1 : last_nelem s = 1).
      { destruct (NE ltac:(cbn; lia) b Hb) as (_ & <- & _). destruct b; try discriminate Tb. reflexivity. }
      assert (NN : ~ In GNone v).
      { intros Hn. destruct (NE ltac:(cbn; lia) _ Hn) as (_ & L & _). rewrite L1 in L. cbn in L. discriminate L. }
      assert (B : (exists t, bools_of v = Ok t /\ zlen t = zlen v) \/ bools_of v = Throw).
      { clear -NN. induction v as [|e w IH]; [left; now exists []|].
        destruct e; cbn [bools_of]; try (now right); [now destruct NN; left|].
        destruct IH as [(t & -> & L)| ->]; [intros H; apply NN; now right| |now right].
        left. exists (b :: t). split; [reflexivity|]. rewrite !zlen_cons. lia. }
      destruct B as [(t & E & L)|E]; rewrite E in U; cbn [bind] in U; [|destruct U as [U|U]; discriminate U].
      destruct (Few _ t L) as [F N]. rewrite set_vbool_exact in U by assumption. destruct U as [U|U]; discriminate U.
    - apply VEC; [intros t F N; rewrite (proj1 (set_vec_exact t (GVec v) F N)); intros [X|X]; discriminate X|].
      rewrite copyto_vec_int_as by (assumption || discriminate). apply PUSH. intros e He. apply fits_int. auto.
    - apply VEC; [intros t F N; rewrite (proj1 (proj2 (set_vec_exact t (GVec v) F N))); intros [X|X]; discriminate X|].
      rewrite copyto_vec_long_as by (assumption || discriminate). apply PUSH. intros e He. apply fits_long. auto.
    - apply VEC; [intros t F N; rewrite (proj1 (proj2 (proj2 (set_vec_exact t (GVec v) F N)))); intros [X|X]; discriminate X|].
      rewrite copyto_vec_real_as by (assumption || discriminate). apply PUSH. intros e He. apply soft_real.
    - apply VECC. rewrite copyto_vec_complex_as by (assumption || discriminate). apply PUSH. intros e He. apply soft_complex.
    - apply (MAT Z 0 copyto_vec_int conv_int set_mint).
      + intros m W. unfold set_mint. rewrite (mcopy_exact _ _ _ _ W). intros [X|X]; discriminate X.
      + cbn; lia.
      + intros e He Fe Se. apply copyto_vec_int_as; auto.
      + intros e x vec He Hx. apply fits_int. apply (FIT ltac:(cbn; lia) e x He Hx).
    - apply (MAT Z 0 copyto_vec_long (fun _ => get_as_long) set_mlong).
      + intros m W. unfold set_mlong. rewrite (mcopy_exact _ _ _ _ W). intros [X|X]; discriminate X.
      + cbn; lia.
      + intros e He Fe Se. apply copyto_vec_long_as; auto.
      + intros e x vec He Hx. apply fits_long. apply (FIT ltac:(cbn; lia) e x He Hx).
    - apply (MAT Z f_zero copyto_vec_real conv_real set_mreal).
      + intros m W. unfold set_mreal. rewrite (mcopy_exact _ _ _ _ W). intros [X|X]; discriminate X.
      + cbn; lia.
      + intros e He Fe Se. apply copyto_vec_real_as; auto.
      + intros e x vec He Hx. apply soft_real.
    - apply (MAT cplx c_zero copyto_vec_complex conv_complex set_mcomplex).
      + intros m W. unfold set_mcomplex. rewrite (mcopy_exact _ _ _ _ W). intros [X|X]; discriminate X.
      + cbn; lia.
      + intros e He Fe Se. apply copyto_vec_complex_as; auto.
      + intros e x vec He Hx. apply soft_complex.
  Qed.
  Lemma vec_result g' : collapse_vec v = (Ok tt, g') -> short g' /\ number_fits g'.
  Proof using Hne Hlen.
    clear Hw Hsh Hfit.
    assert (Few : forall A (t : list A), zlen t = zlen v -> few t /\ t <> []).
    { intros A t E. split; [unfold few; lia|]. intros ->. destruct v; [congruence|]. rewrite zlen_cons in E. unfold zlen in E at 1. cbn in E. pose proof (zlen_nonneg l). lia. }
    assert (Same : forall g', (Ok tt, GVec v) = (Ok tt, g') -> short g' /\ number_fits g').
    { intros g1 [= <-]. split; [|exact I]. intros F. unfold flat in F. cbn in F. lia. }
    assert (OV : forall r g g', overwrite r g = (Ok tt, g') -> r = Ok g') by (intros [] ? ?; cbn; congruence).
    assert (Sz : sized (GVec v)) by (unfold sized; cbn [elems]; lia).
    assert (PUSH : forall B (cv : gc -> out B) t, copied (push_all cv v []) = Ok t -> zlen t = zlen v).
    { intros B cv t E. apply LCollapse.copied_ok in E. apply push_all_ok in E as (r & -> & F). cbn [app]. unfold zlen. f_equal. clear -F. induction F; cbn; congruence. }
    assert (MAT : forall A (f : mat A -> gc) r g, omap f r = Ok g -> exists m, g = f m) by (intros A f [] g E; cbn in E; try discriminate E; apply Ok_inj in E; eauto).
    unfold collapse_vec. destruct (negb _); [apply Same|]. destruct (all_string _).
    { intros E. apply OV, bind_ok in E as (t & Et & E). apply strings_of_ok in Et. destruct (Few _ t) as [F N]; [rewrite Et; now rewrite zlen_map|].
      rewrite set_vstr_exact in E by assumption. apply Ok_inj in E. subst g'. split; [|exact I]. intros _. cbn [elems]. rewrite zlen_map. rewrite Et, zlen_map in Hlen. exact Hlen. }
    destruct (max_sub _); try apply Same; intros E; apply OV, bind_ok in E as (t & Et & E).
    - apply bools_of_ok in Et. destruct (Few _ t) as [F N]; [rewrite Et; now rewrite zlen_map|].
      rewrite set_vbool_exact in E by assumption. apply Ok_inj in E. subst g'. split; [|exact I]. intros _. cbn [elems]. rewrite zlen_map. rewrite Et, zlen_map in Hlen. exact Hlen.
    - rewrite copyto_vec_int_as in Et by (assumption || discriminate). apply PUSH in Et. destruct (Few _ t Et) as [F N].
      rewrite (proj1 (set_vec_exact t (GVec v) F N)) in E. apply Ok_inj in E. subst g'. split; [|exact I]. intros _. cbn [elems]. rewrite zlen_map. lia.
    - rewrite copyto_vec_long_as in Et by (assumption || discriminate). apply PUSH in Et. destruct (Few _ t Et) as [F N].
      rewrite (proj1 (proj2 (set_vec_exact t (GVec v) F N))) in E. apply Ok_inj in E. subst g'. split; [|exact I]. intros _. cbn [elems]. rewrite zlen_map. lia.
    - rewrite copyto_vec_real_as in Et by (assumption || discriminate). apply PUSH in Et. destruct (Few _ t Et) as [F N].
      rewrite (proj1 (proj2 (proj2 (set_vec_exact t (GVec v) F N)))) in E. apply Ok_inj in E. subst g'. split; [|exact I]. intros _. cbn [elems]. rewrite zlen_map. lia.
    - rewrite copyto_vec_complex_as in Et by (assumption || discriminate). apply PUSH in Et. destruct (Few _ t Et) as [F N].
      rewrite set_vcomplex_exact in E by assumption. apply Ok_inj in E. subst g'. split; [|exact I]. intros _. cbn [elems]. rewrite zlen_map. lia.
    - apply MAT in E as [m ->]. split; [|exact I]. intros F. unfold flat in F. cbn in F. lia.
    - apply MAT in E as [m ->]. split; [|exact I]. intros F. unfold flat in F. cbn in F. lia.
    - apply MAT in E as [m ->]. split; [|exact I]. intros F. unfold flat in F. cbn in F. lia.
    - apply MAT in E as [m ->]. split; [|exact I]. intros F. unfold flat in F. cbn in F. lia.
  Qed.
End OneVector.

Lemma result_ok g g' : harmless g -> number_fits g -> collapse g = (Ok tt, g') -> short g' /\ number_fits g'.
Proof.
  intros H N E. assert (harmless_node g) as Hn by now apply everywhere_here.
  destruct g; try (injection E as <-; split; [now apply harmless_short|exact N]).
  - destruct v as [|e v]; [injection E as <-; split; [now apply harmless_short|exact N]|]. destruct Hn as [L _].
    rewrite collapse_vec_eq in E. pose proof (Props_collapsefail.all_length (e :: v)) as Ln. destruct (collapse_all (e :: v)) as [[[]| | |] w]; try discriminate E. cbn [snd] in Ln.
    apply (vec_result w); [intros ->; discriminate Ln | unfold zlen in *; rewrite Ln; exact L | exact E].
  - rewrite collapse_map_eq in E. destruct (collapse_entries m) as [r m']. injection E as _ <-. split; [|exact I]. intros F. unfold flat in F. cbn in F. lia.
Qed.

(** * C110 *)
Theorem C110_defined : forall g, wf g -> harmless g ->
  (exists g', collapse g = (Ok tt, g')) \/ (exists g', collapse g = (Throw, g')).
Proof.
  assert (G : forall g, wf g -> harmless g -> ~ wild (fst (collapse g))).
  { induction g as [g Hv Hm | v IH | m IH] using gc_nest_ind; intros W H.
    - rewrite flat_collapse by assumption. intros [X|X]; discriminate X.
    - destruct v as [|e0 v0]; [intros [X|X]; discriminate X|].
      rewrite collapse_vec_eq. remember (e0 :: v0) as v eqn:Ev. assert (Nv : v <> []) by (subst; discriminate). clear Ev e0 v0.
      apply wf_vec in W. apply everywhere_vec in H as [[L N] H]. rewrite Forall_forall in N.
      assert (NA : ~ wild (fst (collapse_all v))).
      { clear -IH W H. induction v as [|e v IHv]; [intros [X|X]; discriminate X|].
        inversion IH as [|? ? Ie Iv]; inversion W as [|? ? Be Bv']; inversion H as [|? ? Ne Nv']; subst.
        assert (NV : ~ wild (fst (collapse_all v))) by (apply IHv; assumption). specialize (Ie Be Ne).
        cbn [collapse_all]. destruct (collapse e) as [[[]| | |] e']; cbn [fst] in *; try exact Ie.
        destruct (collapse_all v) as [r v']. exact NV. }
      destruct (collapse_all v) as [[[]| | |] w] eqn:Ea; cbn [fst] in NA |- *; try exact NA.
      apply Props_collapsefail.all_ok in Ea.
      assert (Lw : length v = length w) by (clear -Ea; induction Ea; cbn; congruence).
      assert (K : Forall (fun e' => wf e' /\ short e' /\ number_fits e') w).
      { clear -Ea W H N. induction Ea as [|e e' v w E F IHF]; constructor.
        - inversion W as [|? ? We Wv]; inversion H as [|? ? He Hv]; subst. split; [|apply (result_ok e); auto; apply N; now left].
          pose proof (LOps.collapse_wf e We) as X. now rewrite E in X.
        - inversion W; inversion H; subst. apply IHF; auto. intros x Hx. apply N. now right. }
      apply vec_defined.
      + intros ->. destruct v; [congruence|discriminate Lw].
      + eapply Forall_impl; [|exact K]. cbn. tauto.
      + unfold zlen in *. now rewrite <- Lw.
      + eapply Forall_impl; [|exact K]. cbn. tauto.
      + eapply Forall_impl; [|exact K]. cbn. tauto.
    - rewrite collapse_map_eq. apply wf_map in W as [_ W]. apply everywhere_map in H as [_ H].
      assert (NA : ~ wild (fst (collapse_entries m))).
      { clear -IH W H. induction m as [|[k e] v IHv]; [intros [X|X]; discriminate X|].
        inversion IH as [|? ? Ie Iv]; inversion W as [|? ? Be Bv']; inversion H as [|? ? Ne Nv']; subst. cbn [snd] in *.
        assert (NV : ~ wild (fst (collapse_entries v))) by (apply IHv; assumption). specialize (Ie Be Ne).
        cbn [collapse_entries]. destruct (collapse e) as [[[]| | |] e']; cbn [fst] in *; try exact Ie.
        destruct (collapse_entries v) as [r v']. exact NV. }
      destruct (collapse_entries m) as [r m']. exact NA. }
  intros g W H. specialize (G g W H). destruct (collapse g) as [[[]| | |] g'].
  - left. now exists g'.
  - right. now exists g'.
  - exfalso. apply G. now left.
  - exfalso. apply G. now right.
Qed.
Print Assumptions C110_defined.

(** Pointers, complex numbers and matrices among the elements; the first vector throws. *)
Example C110_example :
  let g := GMap [("a", GVec [GPtr 1; GInt 2]); ("b", GVec [GComplex (0, 0); GVec [GInt 1]; GMInt (Mat 1 1 [3])])]%string in
  wf g /\ harmless g /\ collapse g = (Throw, g).
Proof.
  cbn zeta. split; [wfd|]. split; [|vm_compute; reflexivity].
  assert (Z0 : int_or_fraction 0).
  { intros n F. assert (fis 0 0) as F0 by (vm_compute; reflexivity). rewrite (fis_inj 0 n 0 F F0). vm_compute. split; congruence. }
  unfold harmless. apply everywhere_map. split; [exact I|]. constructor; [|constructor; [|constructor]]; cbn [snd]; apply everywhere_vec.
  - split; [split; [unfold zlen; cbn; lia|repeat apply Forall_cons; try apply Forall_nil; exact I]|repeat apply Forall_cons; try apply Forall_nil; split; exact I].
  - split; [split; [unfold zlen; cbn; lia|repeat apply Forall_cons; try apply Forall_nil; try exact I; exact Z0]|].
    repeat apply Forall_cons; try apply Forall_nil; try (split; exact I). apply everywhere_vec.
    split; [split; [unfold zlen; cbn; lia|repeat apply Forall_cons; try apply Forall_nil; exact I]|repeat apply Forall_cons; try apply Forall_nil; split; exact I].
Qed.
