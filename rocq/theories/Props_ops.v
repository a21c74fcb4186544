(** * C102: the containers a program can build.

    [wf] (Value.v) is the hypothesis of most theorems: scalars in the range of their C++ types,
    as many stored matrix entries as the 32-bit product of the dimensions, map keys in order and
    without repetition.  Here it is shown to be exactly what programs can produce, as long as
    they do not call the std::vector functions that mat_type inherits. *)
From Coq Require Import ZArith Bool Lia Ascii String List.
From Verif Require Import Base F64 StrMap Value MBasic MGet MMap MMat MPromote MRef MCopy MCollapse MText MRapid MYaml MToml MLua MMatlab MOps SOps.
From Verif Require Import LCopy LAlias LCapi3 LJson2Doc LOps LOps2 WfDec.
Import ListNotations.
Local Open Scope Z_scope.

Lemma plain_wf o g : plain o -> wf g -> wf (snd (perform o g)).
Proof.
  intros Ho Hg. destruct o; cbn [plain] in Ho; try contradiction; cbn [perform].
  all: try exact I; try exact Hg; try exact Ho.
  - destruct g; first [exact I | exact Hg].
  - apply to_i32_range.
  - apply to_i64_range.
  - apply k_vptr, valloc_all; [rng | now apply old_vptr_ok].
  - apply k_vint, valloc_all; [rng | now apply old_vint_ok].
  - apply k_vlong, valloc_all; [rng | now apply old_vlong_ok].
  - apply k_vreal, valloc_all; [rng | now apply old_vreal_ok].
  - apply k_vcomplex, valloc_all; [rng | now apply old_vcomplex_ok].
  - apply wf_vec_of, valloc_all; [exact I | now apply old_vec_ok].
  - apply wf_map. now apply LJson2Doc.old_map_wf.
  - apply k_mint, mresize_ok; [rng | now apply old_mint_ok | apply Ho | apply Ho].
  - apply k_mlong, mresize_ok; [rng | now apply old_mlong_ok | apply Ho | apply Ho].
  - apply k_mreal, mresize_ok; [rng | now apply old_mreal_ok | apply Ho | apply Ho].
  - apply k_mcomplex, mresize_ok; [rng | now apply old_mcomplex_ok | apply Ho | apply Ho].
  - apply overwrite_ok; [exact Hg | intros g'; now apply set_vptr_ok].
  - apply overwrite_ok; [exact Hg | intros g'; apply set_vbool_ok].
  - apply overwrite_ok; [exact Hg | intros g'; now apply set_vint_ok].
  - apply overwrite_ok; [exact Hg | intros g'; now apply set_vlong_ok].
  - apply overwrite_ok; [exact Hg | intros g'; now apply set_vreal_ok].
  - apply overwrite_ok; [exact Hg | intros g'; now apply set_vcomplex_ok].
  - apply overwrite_ok; [exact Hg | intros g'; apply set_vstr_ok].
  - apply overwrite_ok; [exact Hg | intros g'; now apply set_mint_ok].
  - apply overwrite_ok; [exact Hg | intros g'; now apply set_mlong_ok].
  - apply overwrite_ok; [exact Hg | intros g'; now apply set_mreal_ok].
  - apply overwrite_ok; [exact Hg | intros g'; now apply set_mcomplex_ok].
  - destruct g; try exact Hg. cbn [erase snd]. apply wf_map in Hg as [S F]. apply wf_map. split; [now apply merase_sorted|].
    rewrite Forall_forall in *. intros x Hx. apply F. eapply merase_incl. exact Hx.
  - now apply push_bool_ok.
  - now apply push_int_ok.
  - now apply push_long_ok.
  - now apply push_real_ok.
  - now apply push_complex_ok.
  - now apply push_string_ok.
  - now apply promote_wf.
  - now apply collapse_wf.
  - destruct g; try exact Hg. cbn [const_idx_key]. destruct (mfind (cstr k) m); cbn [forget snd]; [exact Hg|].
    apply wf_map in Hg as [S F]. now apply mset_wf.
  - destruct g; try exact Hg. now apply snoc_vec.
  - destruct g; try exact Hg. apply wf_vec in Hg. now apply wf_vec, removelast_all.
  - apply (swrite_ok any); [|exact I]. destruct g; first [exact Hg | (split; [exact I | intros; exact I]) | (intros ? ?; exact I)].
  - apply (swrite_ok int32); [|exact Ho]. destruct g; first [exact Hg | (split; [exact Hg | intros ? H; exact H]) | (intros ? H; exact H)].
  - apply (swrite_ok int64); [|exact Ho]. destruct g; first [exact Hg | (split; [exact Hg | intros ? H; exact H]) | (intros ? H; exact H)].
  - apply (swrite_ok f64); [|exact Ho]. destruct g; first [exact Hg | (split; [exact Hg | intros ? H; exact H]) | (intros ? H; exact H)].
  - apply (rwrite_ok fc); [|exact Ho]. destruct g; first [exact Hg | (split; [first [exact Hg | exact c_zero_ok] | intros ? H; exact H])].
  - apply (rwrite_ok any); [|exact I]. destruct g; first [exact Hg | (split; [exact I | intros; exact I])].
  - apply (rwrite_ok (Forall uint64)); [|exact Ho]. destruct g; first [exact Hg | (split; [exact Hg | intros ? H; exact H])].
  - apply (rwrite_ok any); [|exact I]. destruct g; first [exact Hg | (split; [exact I | intros; exact I])].
  - apply (rwrite_ok (Forall int32)); [now apply ref_vec_int_ok | exact Ho].
  - apply (rwrite_ok (Forall int64)); [now apply ref_vec_long_ok | exact Ho].
  - apply (rwrite_ok (Forall f64)); [now apply ref_vec_real_ok | exact Ho].
  - apply (rwrite_ok (Forall fc)); [now apply ref_vec_complex_ok | exact Ho].
  - apply (rwrite_ok any); [|exact I]. destruct g; first [exact Hg | (split; [exact I | intros; exact I])].
  - apply (rwrite_ok (wf_mat int32)); [now apply ref_mat_int_ok | exact Ho].
  - apply (rwrite_ok (wf_mat int64)); [now apply ref_mat_long_ok | exact Ho].
  - apply (rwrite_ok (wf_mat f64)); [now apply ref_mat_real_ok | exact Ho].
  - apply (rwrite_ok (wf_mat fc)); [now apply ref_mat_complex_ok | exact Ho].
  - apply (rread_ok any). now apply ref_bool_at_ok.
  - apply (rwrite_ok int32); [now apply ref_int_at_ok | apply Ho].
  - apply (rwrite_ok int64); [now apply ref_long_at_ok | apply Ho].
  - apply (rwrite_ok f64); [now apply ref_real_at_ok | apply Ho].
  - apply (rwrite_ok fc); [now apply ref_complex_at_ok | apply Ho].
  - apply (rwrite_ok any); [now apply ref_string_at_ok | exact I].
  - destruct Ho as (Hi & Hj & Hx). apply (rwrite_ok int32); [now apply ref_int_at2_ok | exact Hx].
  - destruct Ho as (Hi & Hj & Hx). apply (rwrite_ok int64); [now apply ref_long_at2_ok | exact Hx].
  - destruct Ho as (Hi & Hj & Hx). apply (rwrite_ok f64); [now apply ref_real_at2_ok | exact Hx].
  - destruct Ho as (Hi & Hj & Hx). apply (rwrite_ok fc); [now apply ref_complex_at2_ok | exact Hx].
  - now apply read_table_ok.
  - now apply json2_ok.
  - now apply de_ser_ok.
  - now apply table2_ok.
  - pose proof (proj2 (table2_ok cc dl (open t) (Some g) data) Hg) as W. destruct (read_formatted_data2 _ _ _ _ _) as [[r d] [p|]]; [exact W | exact Hg].
  - now apply json_text_ok.
  - apply from_yaml_ok; [destruct d; [exact Ho | exact I] | exact Hg].
  - apply from_toml_ok; [destruct d; [exact Ho | exact I] | exact Hg].
  - now apply lua_global_ok.
  - now apply interpreter_call_ok.
  - now apply mx_wf.
Qed.

(** Whatever the program does, and however often it catches exceptions, its containers are
    valid. *)
Theorem C102_sound : forall g, reachable g -> wf g.
Proof.
  apply (reachable_mind wf (fun o => forall g, wf g -> wf (snd (perform o g)))).
  - exact I.
  - intros o g r g' _ Hg _ Ho E _. specialize (Ho g Hg). now rewrite E in Ho.
  - intros o Ho g Hg. now apply plain_wf.
  - intros src _ Hs g Hg. cbn [perform]. apply overwrite_ok; [exact Hg|]. intros g' E. exact (from_gc_wf _ _ _ Hs Hg E).
  - intros src _ Hs g Hg. cbn [perform]. rewrite to_gc_from. apply overwrite_ok; [exact Hg|]. intros g' E. exact (from_gc_wf _ _ _ Hs Hg E).
  - intros src _ Hs g Hg. now apply merge_ok.
  - intros k o _ Ho g Hg. cbn [perform]. now apply with_key_ok.
  - intros i o _ _ Ho g Hg. cbn [perform]. now apply with_idx_ok.
  - intros k o _ Ho g Hg. cbn [perform]. now apply call_key_ok.
  - intros i o _ _ Ho g Hg. cbn [perform]. now apply call_idx_ok.
  - intros k o _ Ho g Hg. cbn [perform]. destruct g; try exact Hg. apply wf_map in Hg as [S F]. pose proof (Ho _ (find_or_ok k m F)) as W.
    destruct (perform o _) as [r e]. cbn [snd] in *. now apply mset_wf.
  - intros o _ Ho g Hg. cbn [perform]. destruct g; try exact Hg. apply wf_vec in Hg. now apply with_back_ok.
Qed.

Lemma by_plain o g g' : reachable g -> plain o -> perform o g = (Ok tt, g') -> reachable g'.
Proof. intros R P E. eapply r_step; [exact R | apply a_plain, P | exact E | now left]. Qed.
Lemma lift_back e : reachable e -> forall v, reachable (GVec v) -> reachable (GVec (v ++ [e])).
Proof.
  intros He v Hv. induction He as [|o g r g' Hg IH Ho E Hr].
  - apply (by_plain Grow (GVec v)); [exact Hv | exact I | reflexivity].
  - eapply (r_step (Back o)); [exact IH | apply a_back, Ho | | exact Hr]. cbn [perform]. unfold with_back. rewrite rev_app_distr. cbn [rev app].
    rewrite E, rev_involutive. reflexivity.
Qed.
Lemma lift_map k e : reachable e -> forall m, msorted m -> mfind k m = None -> reachable (GMap m) -> reachable (GMap (mset k e m)).
Proof.
  intros He m S N Hm. induction He as [|o g r g' Hg IH Ho E Hr].
  - eapply (r_step (MapAt k Clear)); [exact Hm | apply a_map_at, a_plain; exact I | | now left]. cbn [perform]. now rewrite N.
  - eapply (r_step (MapAt k o)); [exact IH | apply a_map_at, Ho | | exact Hr]. cbn [perform]. rewrite mfind_mset_same, E, mset_mset. reflexivity.
Qed.
Ltac step_to o1 o2 := eapply (by_plain o2); [eapply (by_plain o1); [exact r_new | exact I || exact (conj u32_0 u32_0) || exact u32_0 | reflexivity] | assumption || exact I | reflexivity].
(** And every valid container is the result of some program. *)
Theorem C102_complete : forall g, wf g -> reachable g.
Proof.
  induction g as [g Hv Hm | v IH | m IH] using gc_nest_ind; intros H.
  - destruct g; try (exfalso; now apply (Hv v)); try (exfalso; now apply (Hm m)); cbn [wf] in H.
    + exact r_new.
    + apply (by_plain (SetPtr p) GNone); [exact r_new | exact H | reflexivity].
    + apply (by_plain (SetBool b) GNone); [exact r_new | exact I | reflexivity].
    + apply (by_plain (SetInt i) GNone); [exact r_new | exact H | reflexivity].
    + apply (by_plain (SetLong l) GNone); [exact r_new | exact H | reflexivity].
    + apply (by_plain (SetReal r) GNone); [exact r_new | exact H | reflexivity].
    + apply (by_plain (SetComplex c) GNone); [exact r_new | exact H | reflexivity].
    + apply (by_plain (SetStr s) GNone); [exact r_new | exact I | reflexivity].
    + step_to (SizeVPtr 0) (PutVPtr v).
    + step_to (SizeVBool 0) (PutVBool v).
    + step_to (SizeVInt 0) (PutVInt v).
    + step_to (SizeVLong 0) (PutVLong v).
    + step_to (SizeVReal 0) (PutVReal v).
    + step_to (SizeVComplex 0) (PutVComplex v).
    + step_to (SizeVStr 0) (PutVStr v).
    + step_to (SizeMInt 0 0) (PutMInt m).
    + step_to (SizeMLong 0 0) (PutMLong m).
    + step_to (SizeMReal 0 0) (PutMReal m).
    + step_to (SizeMComplex 0 0) (PutMComplex m).
  - apply wf_vec in H. assert (forall l1 l2, v = l1 ++ l2 -> reachable (GVec l1)) as A; [|apply (A v []); now rewrite app_nil_r].
    induction l1 as [|e l1 IHl] using rev_ind; intros l2 E.
    + apply (by_plain (SizeVec 0) GNone); [exact r_new | exact u32_0 | reflexivity].
    + assert (In e v) as Hin by (subst v; rewrite !in_app_iff; cbn; auto). apply lift_back.
      * rewrite Forall_forall in IH, H. exact (IH e Hin (H e Hin)).
      * apply (IHl (e :: l2)). subst v. now rewrite <- app_assoc.
  - apply wf_map in H as [S F]. induction m as [|[k e] m IHm].
    + apply (by_plain SetMap GNone); [exact r_new | exact I | reflexivity].
    + inversion IH; subst. inversion F; subst. cbn [snd] in *. destruct (msorted_inv _ _ _ S) as [S' L].
      assert (mset k e m = (k, e) :: m) as E.
      { destruct m as [|[k' e'] m']; [reflexivity|]. cbn [mset]. inversion L; subst. rewrite compare_lt by assumption. reflexivity. }
      rewrite <- E. apply lift_map; [auto | exact S' | now apply mfind_notin | auto].
Qed.

(** The two together. *)
Theorem C102 : forall g, reachable g <-> wf g.
Proof. intros g. split; [apply C102_sound | apply C102_complete]. Qed.

(** With the functions inherited from std::vector the claim is false: one push_back on a matrix
    and the number of entries no longer agrees with the dimensions. *)
Theorem C102_matrix_refuted : exists g g', reachable g /\ perform (MatPush 1) g = (Ok tt, g') /\ ~ wf g'.
Proof.
  exists (GMInt (Mat 1 1 [7])), (GMInt (Mat 1 1 [7; 1])). split; [|split].
  - apply C102_complete. wfd.
  - reflexivity.
  - cbn [wf]. intros (_ & _ & L & _). vm_compute in L. discriminate.
Qed.

(** A program with an exception in it, a nested statement, an assignment between two of its
    containers and a matrix made by collapse. *)
Example C102_example : reachable (GMap [("a"%string, GVec [GNone; GVInt [0; 5]]); ("m"%string, GMInt (Mat 1 2 [1; 2]))]).
Proof.
  assert (reachable (GMInt (Mat 1 2 [1; 2]))) as M.
  { apply (r_step Collapse (GVec [GVInt [1]; GVInt [2]]) (Ok tt)); [|apply a_plain; exact I | vm_compute; reflexivity | now left].
    apply (r_step (Idx 1 (SetVInt [2])) (GVec [GVInt [1]]) (Ok tt)); [|apply a_idx; [unfold uint32; lia | apply a_plain, one; unfold int32; lia] | vm_compute; reflexivity | now left].
    apply (r_step (Idx 0 (SetVInt [1])) GNone (Ok tt)); [exact r_new|apply a_idx; [unfold uint32; lia | apply a_plain, one; unfold int32; lia] | vm_compute; reflexivity | now left]. }
  assert (reachable (GMap [("a"%string, GVec [GNone; GVInt [0; 5]])])) as A.
  { apply (r_step (Key "a"%string (Idx 1 (PushInt 5))) GNone (Ok tt)); [exact r_new | | vm_compute; reflexivity | now left].
    apply a_key, a_idx; [unfold uint32; lia | apply a_plain; cbn [plain]; unfold int32; lia]. }
  apply (r_step (Key "m"%string (Assign (GMInt (Mat 1 2 [1; 2])))) (GMap [("a"%string, GVec [GNone; GVInt [0; 5]])]) (Ok tt)); [| apply a_key, a_assign, M | vm_compute; reflexivity | now left].
  apply (r_step (CallIdx 3 Clear) (GMap [("a"%string, GVec [GNone; GVInt [0; 5]])]) Throw); [exact A | apply a_call_idx; [unfold uint32; lia | apply a_plain; exact I] | vm_compute; reflexivity | now right].
Qed.

Print Assumptions C102.
Print Assumptions C102_matrix_refuted.
