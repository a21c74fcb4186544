(** C22-C27: push operations and promotions. *)
From Coq Require Import ZArith Bool Lia Ascii String List.
From Verif Require Import Base F64 StrMap Value MBasic MGet SGet LGet MMat MPromote SPromote LPromote.
Import ListNotations.
Local Open Scope Z_scope.

(** [g'] is [g] promoted to type [t]: it has that type and holds the same numbers in the same
    order. *)
Definition promoted (t : tag) (g g' : gc) : Prop :=
  tag_of g' = t /\ Forall2 same_num (elems g) (elems g').

(** The operation [p] promotes every container whose type is one of [ts] to the type [t] and
    throws without any effect on every other non-empty container. *)
Definition promotes (p : gc -> out unit * gc) (t : tag) (ts : list tag) : Prop :=
  forall g, wf g -> sized g -> g <> GNone ->
    (In (tag_of g) ts -> exists g', p g = (Ok tt, g') /\ promoted t g g') /\
    (~ In (tag_of g) ts -> p g = (Throw, g)).

Ltac in_tags := cbn [tag_of In] in *; intuition discriminate.
Ltac out_tags := intros HIn; exfalso; apply HIn; cbn [tag_of In app]; tauto.
Ltac do_promotes defs :=
  intros g Hw Hs Hn; unfold sized in Hs;
  destruct g; try congruence; cbn [elems wf] in *;
  (split;
   [ try (intros HIn; exfalso; cbn [tag_of In] in HIn; intuition discriminate);
     intros _; defs;
     try (rewrite promote_elems_ok by (eapply sized_map; eassumption));
     try (rewrite promote_col_ok by (eapply sized_map; eassumption));
     try (erewrite promote_mat_ok by eassumption);
     eexists; (split; [reflexivity|]);
     (split; [reflexivity|]); cbn [elems mdata mat11];
     try (match goal with H : wf_mat _ _ |- _ => destruct H as (_ & _ & _ & H) end); sn
   | try (intros _; reflexivity); out_tags ]).

(** C24. *)
Theorem C24_scalar_promotions :
  promotes promote_to_int TInt [TBool; TInt] /\
  promotes promote_to_long TLong [TBool; TInt; TLong] /\
  promotes promote_to_real TReal [TBool; TInt; TLong; TReal].
Proof.
  split; [|split]; do_promotes ltac:(cbn [promote_to_int promote_to_long promote_to_real]).
Qed.

Theorem C24_vec_promotions :
  promotes promote_to_vec_int TVInt [TBool; TInt; TVBool; TVInt] /\
  promotes promote_to_vec_long TVLong [TBool; TInt; TLong; TVBool; TVInt; TVLong] /\
  promotes promote_to_vec_real TVReal
    [TBool; TInt; TLong; TReal; TVBool; TVInt; TVLong; TVReal] /\
  promotes promote_to_vec_complex TVComplex
    [TBool; TInt; TLong; TReal; TComplex; TVBool; TVInt; TVLong; TVReal; TVComplex].
Proof.
  split; [|split; [|split]];
    do_promotes ltac:(cbn [promote_to_vec_int promote_to_vec_long promote_to_vec_real
                           promote_to_vec_complex]).
Qed.

(** promote_to_complex keeps scalars' numbers, but it also accepts vectors, and these do not
    become a COMPLEX. *)
Theorem C24_promote_to_complex_partial : forall g, wf g -> sized g -> g <> GNone ->
  (In (tag_of g) [TBool; TInt; TLong; TReal; TComplex] ->
     exists g', promote_to_complex g = (Ok tt, g') /\ promoted TComplex g g') /\
  (In (tag_of g) [TVBool; TVInt; TVLong; TVReal] ->
     exists g', promote_to_complex g = (Ok tt, g') /\ promoted TVComplex g g') /\
  (~ In (tag_of g) [TBool; TInt; TLong; TReal; TComplex; TVBool; TVInt; TVLong; TVReal] ->
     promote_to_complex g = (Throw, g)).
Proof.
  intros g Hw Hs Hn. destruct C24_vec_promotions as (_ & _ & _ & V). specialize (V g Hw Hs Hn).
  split; [|split].
  - unfold sized in Hs. destruct g; try congruence; cbn [elems wf] in *;
      try (intros HIn; exfalso; cbn [tag_of In] in HIn; intuition discriminate);
      intros _; cbn [promote_to_complex]; eexists; (split; [reflexivity|]);
      (split; [reflexivity|]); cbn [elems]; sn.
  - intros HIn. destruct g; try (exfalso; cbn [tag_of In] in HIn; intuition discriminate);
      cbn [promote_to_complex]; apply V; cbn; intuition auto.
  - destruct g; try congruence; try (intros _; reflexivity); out_tags.
Qed.

Theorem C24_promote_to_complex_refuted : exists g g', wf g /\
  promote_to_complex g = (Ok tt, g') /\ tag_of g' <> TComplex.
Proof.
  exists (GVInt [1; 2]), (GVComplex [c_of_Z 1; c_of_Z 2]).
  split; [repeat constructor; vm_compute; congruence|]. split; [|discriminate].
  reflexivity.
Qed.

(** An empty container is promoted to zero (one element). *)
Theorem C24_empty_becomes_zero :
  promote_to_int GNone = (Ok tt, GInt 0) /\ promote_to_long GNone = (Ok tt, GLong 0) /\
  promote_to_real GNone = (Ok tt, GReal 0) /\ promote_to_complex GNone = (Ok tt, GComplex (0, 0)) /\
  promote_to_vec_int GNone = (Ok tt, GVInt [0]) /\ promote_to_vec_long GNone = (Ok tt, GVLong [0]) /\
  promote_to_vec_real GNone = (Ok tt, GVReal [0]) /\
  promote_to_vec_complex GNone = (Ok tt, GVComplex [(0, 0)]) /\ fis 0 0.
Proof. repeat (split; [reflexivity|]). reflexivity. Qed.

Example C24_example : wf (GVLong [2^53 + 1; -7]) /\ sized (GVLong [2^53 + 1; -7]) /\
  promote_to_vec_real (GVLong [2^53 + 1; -7]) = (Ok tt, GVReal [f_of_Z (2^53); f_of_Z (-7)]).
Proof. split; [repeat constructor; vm_compute; congruence|]. split; [reflexivity|]. vmc. Qed.

(** C25.  The shape a container has as a matrix: matrices keep theirs, anything else is one
    column. *)
Definition as_shape (g : gc) : Z * Z :=
  match g with
  | GMInt m | GMLong m | GMReal m => (mrows m, mcols m)
  | GMComplex m => (mrows m, mcols m)
  | _ => (zlen (elems g), 1)
  end.
Definition mat_promoted (t : tag) (g g' : gc) : Prop :=
  promoted t g g' /\ shape g' (fst (as_shape g)) (snd (as_shape g)).

Definition mat_promotes (p : gc -> out unit * gc) (t : tag) (ts bad : list tag) : Prop :=
  forall g, wf g -> sized g -> g <> GNone ->
    (In (tag_of g) ts -> exists g', p g = (Ok tt, g') /\ mat_promoted t g g') /\
    (In (tag_of g) bad -> elems g = [] -> exists g', p g = (Ok tt, g') /\ mat_promoted t g g') /\
    (~ In (tag_of g) (ts ++ bad) -> p g = (Throw, g)).

Ltac do_mat_promotes defs :=
  intros g Hw Hs Hn; unfold sized in Hs;
  destruct g; try congruence; cbn [elems wf] in *;
  (split; [|split];
   [ try (intros HIn; exfalso; cbn [tag_of In] in HIn; intuition discriminate);
     intros _; defs;
     try (rewrite promote_col_ok by (eapply sized_map; eassumption));
     try (erewrite promote_mat_ok by eassumption);
     eexists; (split; [reflexivity|]);
     (split; [split; [reflexivity|] | cbn; rewrite ?zlen_map; split; reflexivity]);
     cbn [elems mdata mat11];
     try (match goal with H : wf_mat _ _ |- _ => destruct H as (_ & _ & _ & H) end); sn
   | try (intros HIn; exfalso; cbn [tag_of In] in HIn; intuition discriminate);
     intros _ E; apply map_eq_nil in E; subst; defs;
     eexists; (split; [reflexivity|]);
     (split; [split; [reflexivity | constructor] | split; reflexivity])
   | try (intros _; reflexivity); out_tags ]).

Theorem C25_matrix_promotions_partial :
  mat_promotes promote_to_mat_int TMInt [TBool; TInt; TMInt] [TVBool; TVInt] /\
  mat_promotes promote_to_mat_real TMReal
    [TBool; TInt; TReal; TVBool; TVInt; TVLong; TVReal; TMInt; TMLong; TMReal] [] /\
  mat_promotes promote_to_mat_complex TMComplex
    [TBool; TInt; TLong; TReal; TMInt; TMLong; TMReal; TMComplex] [TVBool; TVInt; TVLong; TVReal].
Proof.
  split; [|split];
    do_mat_promotes ltac:(cbn [promote_to_mat_int promote_to_mat_real promote_to_mat_complex promote_col_wrong]).
Qed.

(** promote_to_mat_long: a vector of bool becomes a matrix of reals instead. *)
Theorem C25_mat_long_partial : forall g, wf g -> sized g -> g <> GNone ->
  (In (tag_of g) [TBool; TInt; TVInt; TVLong; TMInt; TMLong] ->
     exists g', promote_to_mat_long g = (Ok tt, g') /\ mat_promoted TMLong g g') /\
  (tag_of g = TVBool ->
     exists g', promote_to_mat_long g = (Ok tt, g') /\ mat_promoted TMReal g g') /\
  (~ In (tag_of g) [TBool; TInt; TVInt; TVLong; TMInt; TMLong; TVBool] ->
     promote_to_mat_long g = (Throw, g)).
Proof.
  intros g Hw Hs Hn; unfold sized in Hs;
  destruct g; try congruence; cbn [elems wf] in *;
  (split; [|split];
   [ try (intros HIn; exfalso; cbn [tag_of In] in HIn; intuition discriminate);
     intros _; cbn [promote_to_mat_long];
     try (rewrite promote_col_ok by (eapply sized_map; eassumption));
     try (erewrite promote_mat_ok by eassumption);
     eexists; (split; [reflexivity|]);
     (split; [split; [reflexivity|] | cbn; rewrite ?zlen_map; split; reflexivity]);
     cbn [elems mdata mat11];
     try (match goal with H : wf_mat _ _ |- _ => destruct H as (_ & _ & _ & H) end); sn
   | try discriminate; intros _; cbn [promote_to_mat_long];
     rewrite promote_col_ok by (eapply sized_map; eassumption);
     eexists; (split; [reflexivity|]);
     (split; [split; [reflexivity|] | cbn; rewrite ?zlen_map; split; reflexivity]);
     cbn [elems mdata]; sn
   | try (intros _; reflexivity); out_tags ]).
Qed.

(** Non-empty vectors promoted to MAT_INTEGER or MAT_COMPLEX are written through a pointer of
    the wrong type; every such promotion is undefined. *)
Theorem C25_wrong_member_refuted : forall g, elems g <> [] ->
  (In (tag_of g) [TVBool; TVInt] -> fst (promote_to_mat_int g) = Undef) /\
  (In (tag_of g) [TVBool; TVInt; TVLong; TVReal] -> fst (promote_to_mat_complex g) = Undef).
Proof.
  intros g Hn. split; intros HIn; destruct g;
    try (exfalso; cbn [tag_of In] in HIn; intuition discriminate);
    match goal with v : list _ |- _ => destruct v end;
    first [exfalso; now apply Hn | reflexivity].
Qed.

Theorem C25_mat_long_of_bools_refuted : exists g g', wf g /\
  promote_to_mat_long g = (Ok tt, g') /\ tag_of g' = TMReal.
Proof. exists (GVBool [true]), (GMReal (Mat 1 1 [f_of_bool true])). repeat split. Qed.

Example C25_example : promote_to_mat_real (GVInt [4; 5]) =
  (Ok tt, GMReal (Mat 2 1 [f_of_Z 4; f_of_Z 5])) /\ sized (GVInt [4; 5]) /\
  promote_to_mat_complex (GMInt (Mat 1 2 [4; 5])) =
  (Ok tt, GMComplex (Mat 1 2 [c_of_Z 4; c_of_Z 5])) /\ fst (promote_to_mat_int (GVInt [4])) = Undef.
Proof. vmc. Qed.

(** C26.  Typed vectors become the generic vector of their elements. *)
Theorem C26_vectors_partial : forall g, sized g ->
  (vec_tag (tag_of g) -> promote_to_vector g = (Ok tt, GVec (elems g))) /\
  (tag_of g = TVec -> promote_to_vector g = (Ok tt, g)) /\
  (In (tag_of g) [TMInt; TMLong; TMReal; TMComplex; TMap] -> promote_to_vector g = (Throw, g)) /\
  (g = GNone -> promote_to_vector g = (Ok tt, GVec [GNone])).
Proof.
  intros g Hs. unfold sized in Hs. split; [|split; [|split]].
  - unfold vec_tag. intros HIn. destruct g; try (exfalso; cbn [tag_of In] in HIn; intuition discriminate);
      cbn [elems promote_to_vector] in *; apply promote_elems_ok; eapply sized_map; eassumption.
  - destruct g; try discriminate; reflexivity.
  - intros HIn. destruct g; try (exfalso; cbn [tag_of In] in HIn; intuition discriminate); reflexivity.
  - intros ->. reflexivity.
Qed.

(** A scalar never becomes a one-element vector: the promotion is undefined for all of them. *)
Theorem C26_scalars_refuted : forall g, scalar_tag (tag_of g) -> fst (promote_to_vector g) = Undef.
Proof.
  unfold scalar_tag. intros g HIn.
  destruct g; try (exfalso; cbn [tag_of In] in HIn; intuition discriminate); reflexivity.
Qed.

Example C26_example : promote_to_vector (GVStr ["a"; "b"]%string) =
  (Ok tt, GVec [GStr "a"; GStr "b"]%string) /\ sized (GVStr ["a"; "b"]%string) /\
  scalar_tag (tag_of (GInt 3)).
Proof. split; [reflexivity|]. split; [reflexivity|]. unfold scalar_tag. cbn. tauto. Qed.

(** C27. *)
Definition promotions : list (gc -> out unit * gc) :=
  [promote_to_int; promote_to_long; promote_to_real; promote_to_complex;
   promote_to_vec_int; promote_to_vec_long; promote_to_vec_real; promote_to_vec_complex;
   promote_to_mat_int; promote_to_mat_long; promote_to_mat_real; promote_to_mat_complex;
   promote_to_vector].

Lemma promote_elems_nothrow {A B} (k : list B -> gc) d (f : A -> B) v g :
  promote_elems k d f v <> (Throw, g).
Proof. unfold promote_elems. destruct (copy_into _ _); discriminate. Qed.
Lemma promote_mat_nothrow {A B} (k : mat B -> gc) d (f : A -> B) v g :
  promote_mat k d f v <> (Throw, g).
Proof. unfold promote_mat. destruct (copy_into _ _); discriminate. Qed.
Lemma promote_col_wrong_nothrow {A B} (k : mat B -> gc) (v : list A) g :
  promote_col_wrong k v <> (Throw, g).
Proof. unfold promote_col_wrong. destruct v; discriminate. Qed.

Theorem C27_failing_promotion_unchanged : forall p g g', In p promotions -> sized g ->
  p g = (Throw, g') -> g' = g.
Proof.
  intros p g g' Hp Hs H. unfold sized in Hs.
  repeat (destruct Hp as [<-|Hp];
    [ destruct g; cbn [elems] in Hs; cbn in H;
      first [ now injection H as <- | discriminate
            | exfalso; eapply promote_elems_nothrow; eassumption
            | exfalso; eapply promote_mat_nothrow; eassumption
            | exfalso; eapply promote_col_wrong_nothrow; eassumption
            | rewrite promote_col_ok in H by (eapply sized_map; eassumption); discriminate ] | ]).
  destruct Hp.
Qed.

(** Exactly which types make each promotion throw is part of C24-C26; here is one of each
    kind. *)
Example C27_example : In promote_to_vec_int promotions /\
  promote_to_vec_int (GVReal [f_half]) = (Throw, GVReal [f_half]) /\
  promote_to_vector (GMap [("k"%string, GInt 1)]) = (Throw, GMap [("k"%string, GInt 1)]).
Proof. split; [cbn; tauto|]. split; reflexivity. Qed.

(** C22, C23.  [x] is pushed on a container whose type is in [ts]; otherwise the push
    throws and changes nothing. *)
Definition pushes (p : gc -> out unit * gc) (x : gc) (ts : list tag) : Prop :=
  forall g, wf g -> sized g -> g <> GNone ->
    (In (tag_of g) ts ->
       exists g', p g = (Ok tt, g') /\ Forall2 same_num (elems g ++ [x]) (elems g')) /\
    (~ In (tag_of g) ts -> p g = (Throw, g)).

Lemma push_elem {A} (k : A -> gc) (v : list A) (x : gc) (a : A) :
  same_num x (k a) -> Forall2 same_num (map k v ++ [x]) (map k (v ++ [a])).
Proof.
  intros H. rewrite map_app. apply Forall2_app; [apply same_nums_refl|]. constructor; [exact H|constructor].
Qed.
Lemma push_elem' {A B} (k : A -> gc) (k' : B -> gc) (f : A -> B) (v : list A) (x : gc) (b : B) :
  (forall a, In a v -> same_num (k a) (k' (f a))) -> same_num x (k' b) ->
  Forall2 same_num (map k v ++ [x]) (map k' (map f v ++ [b])).
Proof.
  intros Hf H. rewrite map_app. apply Forall2_app; [now apply F2map'|]. constructor; [exact H|constructor].
Qed.

Ltac pn :=
  first [ apply push_elem; sn
        | (apply push_elem'; [intros ? ?; sn | sn])
        | (cbn [app map]; repeat (constructor; [sn|]); constructor)
        | (apply Forall2_app; [apply same_nums_refl | constructor; [apply same_num_refl|constructor]]) ].

Ltac do_push defs :=
  intros g Hw Hs Hn; unfold sized in Hs;
  destruct g; try congruence; cbn [elems wf] in *;
  (split;
   [ try (intros HIn; exfalso; cbn [tag_of In] in HIn; intuition discriminate);
     intros _; defs;
     try (rewrite promote_elems_ok by (eapply sized_map; eassumption));
     eexists; (split; [reflexivity|]); cbn [elems]; pn
   | try (intros _; reflexivity); out_tags ]).

Theorem C22_push_numbers :
  (forall b, pushes (push_bool b) (GBool b) [TVBool; TVInt; TVLong; TVReal; TVComplex; TVec]) /\
  (forall i, int32 i -> pushes (push_int i) (GInt i)
     [TBool; TInt; TVBool; TVInt; TVLong; TVReal; TVComplex; TVec]) /\
  (forall l, int64 l -> pushes (push_long l) (GLong l)
     [TBool; TInt; TLong; TVBool; TVInt; TVLong; TVReal; TVComplex; TVec]) /\
  (forall r, pushes (push_real r) (GReal r)
     [TBool; TInt; TLong; TReal; TVBool; TVInt; TVLong; TVReal; TVComplex; TVec]) /\
  (forall c, pushes (push_complex c) (GComplex c)
     [TBool; TInt; TLong; TReal; TComplex; TVBool; TVInt; TVLong; TVReal; TVComplex; TVec]).
Proof.
  split; [|split; [|split; [|split]]]; intros;
    do_push ltac:(cbn [push_bool push_int push_long push_real push_complex
      promote_to_vec_int promote_to_vec_long promote_to_vec_real promote_to_vec_complex]).
Qed.

(** push_string: typed vectors become generic vectors; scalars are undefined behaviour. *)
Theorem C22_push_string_partial : forall s g, sized g ->
  (vec_tag (tag_of g) \/ tag_of g = TVec ->
     exists g', push_string s g = (Ok tt, g') /\ elems g' = elems g ++ [GStr s]) /\
  (In (tag_of g) [TMInt; TMLong; TMReal; TMComplex; TMap] -> push_string s g = (Throw, g)) /\
  (scalar_tag (tag_of g) -> fst (push_string s g) = Undef).
Proof.
  intros s g Hs. unfold sized in Hs. unfold vec_tag, scalar_tag. split; [|split]; intros HIn;
    destruct g; try (exfalso; cbn [tag_of In] in HIn; intuition discriminate);
    cbn [push_string promote_to_vector elems] in *; try reflexivity;
    try (rewrite promote_elems_ok by (eapply sized_map; eassumption));
    eexists; (split; [reflexivity|]); cbn [elems]; rewrite ?map_app; reflexivity.
Qed.

(** Pushing on an empty container adds two elements: a zero (or an empty element) comes
    first. *)
Theorem C22_push_on_empty_refuted : forall i l r c s,
  push_int i GNone = (Ok tt, GVInt [0; i]) /\ push_long l GNone = (Ok tt, GVLong [0; l]) /\
  push_real r GNone = (Ok tt, GVReal [0; r]) /\ push_complex c GNone = (Ok tt, GVComplex [(0, 0); c]) /\
  push_string s GNone = (Ok tt, GVec [GNone; GStr s]).
Proof. intros. repeat split. Qed.

Example C22_example : wf (GVBool [true; false]) /\ sized (GVBool [true; false]) /\
  push_int 7 (GVBool [true; false]) = (Ok tt, GVInt [1; 0; 7]) /\
  push_real f_half (GInt 3) = (Ok tt, GVReal [f_of_Z 3; f_half]) /\
  push_string "x" (GVInt [1]) = (Ok tt, GVec [GInt 1; GStr "x"]).
Proof. split; [exact I|]. split; [reflexivity|]. vmc. Qed.

(** C23. *)
Theorem C23_failing_push_unchanged : forall b i l r c s g g', sized g ->
  (push_bool b g = (Throw, g') -> g' = g) /\ (push_int i g = (Throw, g') -> g' = g) /\
  (push_long l g = (Throw, g') -> g' = g) /\ (push_real r g = (Throw, g') -> g' = g) /\
  (push_complex c g = (Throw, g') -> g' = g) /\ (push_string s g = (Throw, g') -> g' = g).
Proof.
  intros b i l r c s g g' Hs. unfold sized in Hs.
  repeat apply conj; intros H; destruct g; cbn [elems] in Hs;
    cbn [push_bool push_int push_long push_real push_complex push_string
      promote_to_vec_int promote_to_vec_long promote_to_vec_real promote_to_vec_complex
      promote_to_vector] in H;
    try (rewrite promote_elems_ok in H by (eapply sized_map; eassumption));
    first [ now injection H as <- | discriminate ].
Qed.

Example C23_example : push_int 3 (GVStr ["a"%string]) = (Throw, GVStr ["a"%string]) /\
  push_bool true (GInt 2) = (Throw, GInt 2).
Proof. split; reflexivity. Qed.

(** C15, second part: push_bool is declared const but appends. *)
Theorem C15_const_push_refuted : exists g b, wf g /\ fst (push_bool b g) = Ok tt /\ snd (push_bool b g) <> g.
Proof. exists (GVBool []), true. repeat split. discriminate. Qed.

Print Assumptions C22_push_numbers.
Print Assumptions C22_push_string_partial.
Print Assumptions C23_failing_push_unchanged.
Print Assumptions C24_scalar_promotions.
Print Assumptions C24_vec_promotions.
Print Assumptions C24_promote_to_complex_partial.
Print Assumptions C25_matrix_promotions_partial.
Print Assumptions C25_mat_long_partial.
Print Assumptions C25_wrong_member_refuted.
Print Assumptions C26_vectors_partial.
Print Assumptions C26_scalars_refuted.
Print Assumptions C27_failing_promotion_unchanged.
