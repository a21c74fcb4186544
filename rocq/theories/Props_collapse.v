(** Properties C37-C39: collapse. *)
From Coq Require Import ZArith Bool Lia Ascii String List.
From Verif Require Import Base F64 StrMap Value MBasic MCopy SCopy LCopy LBasic MGet SGet LGet MMat SMap
  MPromote SPromote LPromote LCopyto MCollapse SCollapse LCollapse LCollapse2.
Import ListNotations.
Local Open Scope Z_scope.

(** * C37: collapse preserves the data.

    Full statement: for every container, if collapse succeeds then [data_of] the result equals
    [data_of] the container.  False in the code, see [C37_refuted]: a scalar next to
    one-element sequences becomes a one-element column, and longs next to reals are rounded. *)

(** Exact preservation, also when collapse throws half way, if no vector mixes a scalar with
    one-element sequences (or null with empty ones) and none (with the vectors directly in it)
    merges reals with longs that are not exactly doubles.  Fewer than 2^31 values in all. *)
Theorem C37_exact_partial : forall g r g', wf g -> weight g < 2^31 -> unmixed g -> unrounded g ->
  collapse g = (r, g') -> r = Ok tt \/ r = Throw -> wf g' /\ data_of g' = data_of g.
Proof.
  intros g r g' Hw Hs HM HL E Hr.
  pose proof (collapse_post false false g Hw Hs (fun _ => HL) ltac:(discriminate) (fun _ => HM) r g' E Hr) as P.
  split; [exact (p_wf _ _ _ _ P)|]. symmetry. apply sim_eq. exact (p_sim _ _ _ _ P).
Qed.

(** Without mixed vectors the only change is the rounding of integers to the nearest double. *)
Theorem C37_rounding_partial : forall g r g', wf g -> weight g < 2^31 -> unmixed g ->
  collapse g = (r, g') -> r = Ok tt \/ r = Throw -> sim true false (data_of g) (data_of g').
Proof.
  intros g r g' Hw Hs HM E Hr.
  exact (p_sim _ _ _ _ (collapse_post true false g Hw Hs ltac:(discriminate) ltac:(discriminate) (fun _ => HM) r g' E Hr)).
Qed.

(** For every container without subnormal reals: nothing changes except that integers may be
    rounded to the nearest double, a number may become a one-element list and null an empty
    list. *)
Theorem C37_general_partial : forall g r g', wf g -> weight g < 2^31 -> calm g ->
  collapse g = (r, g') -> r = Ok tt \/ r = Throw -> wf g' /\ sim true true (data_of g) (data_of g').
Proof.
  intros g r g' Hw Hs HC E Hr.
  pose proof (collapse_post true true g Hw Hs ltac:(discriminate) (fun _ => HC) ltac:(discriminate) r g' E Hr) as P.
  split; [exact (p_wf _ _ _ _ P)|exact (p_sim _ _ _ _ P)].
Qed.

(** Where the data change: [1,[2]] becomes [[1],[2]]; the long 2^53+1 next to a real becomes
    2^53; a subnormal next to [1] becomes [0]. *)
Theorem C37_refuted :
  (exists g g', wf g /\ collapse g = (Ok tt, g') /\
     data_of g = DList [d_int 1; DList [d_int 2]] /\ data_of g' = DList [DList [d_int 1]; DList [d_int 2]]) /\
  (exists g g', wf g /\ collapse g = (Ok tt, g') /\
     data_of g = DList [d_int (2^53 + 1); d_int 1] /\ data_of g' = DList [d_int (2^53); d_int 1]) /\
  (exists g g', wf g /\ collapse g = (Ok tt, g') /\
     data_of g = DList [d_real 1; DList [d_int 1]] /\ data_of g' = DList [DList [d_int 0]; DList [d_int 1]] /\
     d_real 1 <> d_int 0).
Proof.
  split; [|split].
  - exists (GVec [GInt 1; GVec [GInt 2]]), (GMInt (Mat 1 2 [1; 2])). vm_compute. repeat split; congruence.
  - exists (GVec [GLong (2^53 + 1); GReal (f_of_Z 1)]), (GVReal [f_of_Z (2^53); f_of_Z 1]).
    vm_compute. repeat split; congruence.
  - exists (GVec [GReal 1; GVec [GInt 1]]), (GMInt (Mat 1 2 [0; 1])). vm_compute. repeat split; congruence.
Qed.

(** A map holding a list of lists, a list of numbers and a list of strings collapses to a
    matrix and two typed vectors. *)
Definition doc : gc :=
  GMap [("a"%string, GVec [GVec [GInt 1; GInt 2]; GVec [GInt 3; GLong (2^53 + 1)]]);
        ("b"%string, GVec [GInt 1; GBool true; GReal (f_of_Z 3)]);
        ("c"%string, GVec [GStr "x"%string; GStr "y"%string])].
Example C37_example : wf doc /\ weight doc < 2^31 /\ unmixed doc /\ unrounded doc /\ calm doc /\ parsed doc /\
  collapse doc =
    (Ok tt, GMap [("a"%string, GMLong (Mat 2 2 [1; 2; 3; 2^53 + 1])); ("b"%string, GVReal [f_of_Z 1; f_of_Z 1; f_of_Z 3]);
                  ("c"%string, GVStr ["x"%string; "y"%string])]).
Proof.
  split.
  { apply wf_map. split; [repeat constructor|].
    repeat apply Forall_cons; try exact (Forall_nil _); vm_compute; repeat split; congruence. }
  split; [vm_compute; reflexivity|].
  split.
  { cbn; repeat split; auto; intros a b Ha Hb Sa Sb; cbn in Ha, Hb;
      repeat (destruct Ha as [<-|Ha] || destruct Hb as [<-|Hb]); try contradiction; cbn in Sa, Sb;
      try (exfalso; intuition discriminate); cbn; discriminate. }
  split.
  { unfold unrounded, doc. cbn [everywhere unrounded_node snd].
    repeat match goal with |- _ /\ _ => split | |- True => exact I end.
    - left. intros c [<-|[<-|[]]]; cbn [merging elems]; repeat (constructor; [exact I|]); constructor.
    - left. intros c [<-|[<-|[]]]; cbn [merging elems]; repeat (constructor; [exact I|]); constructor.
    - left. intros c [<-|[<-|[]]]; cbn [merging elems]; repeat (constructor; [exact I|]); constructor.
    - right. intros c [<-|[<-|[<-|[]]]]; cbn [merging elems]; repeat (constructor; [exact I|]); constructor.
    - left. intros c [<-|[<-|[]]]; cbn [merging elems]; repeat (constructor; [exact I|]); constructor. }
  split.
  { unfold calm, doc. cbn [everywhere no_tiny snd].
    repeat match goal with |- _ /\ _ => split | |- True => exact I end.
    intros (v & E & _ & L). vm_compute in E. apply Some_inj in E. rewrite <- E in L.
    vm_compute in L. discriminate. }
  split; [cbn; repeat split; unfold parsed_node; cbn; tauto|].
  vm_compute. reflexivity.
Qed.

(** * C38: collapsing an already collapsed container changes nothing. *)
Theorem C38_idempotent : forall g g', collapse g = (Ok tt, g') -> collapse g' = (Ok tt, g').
Proof. apply collapse_twice. Qed.
Example C38_example : exists g', collapse doc = (Ok tt, g') /\ g' <> doc.
Proof. eexists. split; [vm_compute; reflexivity|]. vm_compute. congruence. Qed.

(** * C39: collapse never fails on parsed data.

    Full statement: for every [parsed] container collapse returns normally.  False in the
    code, see [C39_refuted]. *)
Theorem C39_refuted :
  (exists g g', parsed g /\ wf g /\ g = GVec [GStr "a"%string; GVec [GInt 1]] /\ collapse g = (Throw, g')) /\
  (exists g g' x, parsed g /\ wf g /\ g = GVec [GReal x; GVec [GInt 1]] /\ fscaled x = Some (fone / 2) /\
     collapse g = (Throw, g')) /\
  (exists g g' x, parsed g /\ wf g /\ g = GVec [GReal x; GVec [GInt 1]] /\ f64 x /\ collapse g = (Undef, g')).
Proof.
  split; [|split].
  - exists (GVec [GStr "a"%string; GVec [GInt 1]]). eexists.
    split; [cbn; unfold parsed_node; cbn; tauto|]. split; [vm_compute; repeat split; congruence|].
    split; [reflexivity|vm_compute; reflexivity].
  - exists (GVec [GReal (1022 * 2^52); GVec [GInt 1]]). eexists. exists (1022 * 2^52).
    split; [cbn; unfold parsed_node; cbn; tauto|]. split; [vm_compute; repeat split; congruence|].
    split; [reflexivity|]. split; vm_compute; reflexivity.
  - exists (GVec [GReal (2019 * 2^52); GVec [GInt 1]]). eexists. exists (2019 * 2^52).
    split; [cbn; unfold parsed_node; cbn; tauto|]. split; [vm_compute; repeat split; congruence|].
    split; [reflexivity|]. split; [vm_compute; split; congruence|vm_compute; reflexivity].
Qed.

(** Without mixed vectors and with fewer than 2^31 values, collapse of parsed data succeeds. *)
Theorem C39_never_fails_partial : forall g, wf g -> weight g < 2^31 -> unmixed g -> parsed g ->
  exists g', collapse g = (Ok tt, g').
Proof. intros g Hw Hs HM HP. destruct (collapse_parsed_ok g Hw Hs HM HP) as (g' & E & _). now exists g'. Qed.

Print Assumptions C37_exact_partial.
Print Assumptions C37_rounding_partial.
Print Assumptions C37_general_partial.
Print Assumptions C37_refuted.
Print Assumptions C38_idempotent.
Print Assumptions C39_refuted.
Print Assumptions C39_never_fails_partial.
