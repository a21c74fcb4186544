(** Property C114: the type of a container after a successful call. *)
From Coq Require Import ZArith Bool Lia Ascii String List.
From Verif Require Import Base F64 StrMap Value MBasic MGet MMap MMat MPromote MRef MCopy MCollapse MText MOps STyped.
Import ListNotations.
Local Open Scope Z_scope.

Definition typed (T : tag) (p : out unit * gc) : Prop := match p with (Ok _, g) => tag_of g = T | _ => True end.
Lemma typed_over T r g : (forall g', r = Ok g' -> tag_of g' = T) -> typed T (overwrite r g).
Proof. destruct r; cbn [overwrite typed]; auto. Qed.
Lemma typed_elems {A B} T k (d : B) (f : A -> B) v : (forall w, tag_of (k w) = T) -> typed T (promote_elems k d f v).
Proof. intros H. unfold promote_elems. destruct (copy_into _ _); cbn [typed]; auto. Qed.
Lemma typed_mat {A B} T k (d : B) (f : A -> B) m : (forall w, tag_of (k w) = T) -> typed T (promote_mat k d f m).
Proof. intros H. unfold promote_mat. destruct (copy_into _ _); cbn [typed]; auto. Qed.
Lemma typed_col {A B} T k (f : A -> B) v : (forall w, tag_of (k w) = T) -> typed T (promote_col k f v).
Proof. intros H. unfold promote_col. cbv zeta. destruct (zlen v <=? _); cbn [typed]; auto. Qed.
Lemma typed_wrong {A B} T (k : mat B -> gc) (v : list A) : (forall w, tag_of (k w) = T) -> typed T (promote_col_wrong k v).
Proof. intros H. unfold promote_col_wrong. destruct v; cbn [typed]; auto. Qed.
Ltac prom := first [exact eq_refl | exact I | apply typed_elems; intros; exact eq_refl | apply typed_mat; intros; exact eq_refl
  | apply typed_col; intros; exact eq_refl | apply typed_wrong; intros; exact eq_refl].

(** References. *)
Definition rtyped {A} (T : tag) (r : refr A) : Prop := match r with Ref _ put => forall x, tag_of (put x) = T | Bad _ _ => True end.
Lemma rtyped_write {A} T (x : A) r : rtyped T r -> typed T (rwrite x r).
Proof. destruct r as [a put|o g]; cbn [rtyped rwrite typed]; [auto|]. intros _. destruct o; exact I. Qed.
Lemma rtyped_after {A} T p (k : gc -> refr A) : (forall g, rtyped T (k g)) -> rtyped T (after p k).
Proof. intros H. destruct p as [[] g]; cbn [after]; try exact I. apply H. Qed.
Lemma rtyped_after_if {A} T p (k : gc -> refr A) (P : gc -> Prop) : (forall u g, p = (Ok u, g) -> P g) -> (forall g, P g -> rtyped T (k g)) -> rtyped T (after p k).
Proof. intros H G. destruct p as [[] g]; cbn [after]; try exact I. apply G. eapply H. reflexivity. Qed.
Lemma rtyped_grow {A} T mk (d : A) i v : (forall w, tag_of (mk w) = T) -> rtyped T (grow_ref mk d i v).
Proof. intros H. unfold grow_ref. cbv zeta. destruct (znth _ _); [intros x; apply H|exact I]. Qed.
Lemma rtyped_slot {A} (k : A -> gc) d i g : rtyped TVec (vslot k d i g).
Proof.
  unfold vslot. apply rtyped_after. intros h. destruct h; try exact I. cbv zeta. destruct (znth _ _); [intros x; exact eq_refl|exact I].
Qed.
Lemma rtyped_mat {A} T mk i j (m : mat A) : (forall w, tag_of (mk w) = T) -> rtyped T (mat_ref mk i j m).
Proof. intros H. unfold mat_ref. destruct (znth _ _); [intros x; apply H|exact I]. Qed.
Lemma typed_ok T p u g : typed T p -> p = (Ok u, g) -> tag_of g = T.
Proof. intros H E. rewrite E in H. exact H. Qed.

Lemma promote_typed t g : match type_after (Promote t) (tag_of g) with Some T => typed T (promote t g) | None => True end.
Proof.
  destruct t, g; cbn [type_after target_type tag_of promote promote_to_int promote_to_long promote_to_real promote_to_complex promote_to_vec_int promote_to_vec_long
    promote_to_vec_real promote_to_vec_complex promote_to_mat_int promote_to_mat_long promote_to_mat_real promote_to_mat_complex promote_to_vector]; try prom.
Qed.
(** copy_into and the constructor after it. *)
Lemma typed_bind {A} T (r : out A) (k : A -> gc) g : (forall a, tag_of (k a) = T) -> typed T (overwrite (do a <- r; Ok (k a)) g).
Proof. intros H. destruct r; cbn [bind overwrite typed]; auto. Qed.
Lemma from_tag src g g' : from_gc src g = Ok g' -> tag_of g' = tag_of src.
Proof.
  destruct src; cbn [from_gc]; unfold set_vptr, set_vbool, set_vint, set_vlong, set_vreal, set_vcomplex, set_vstr, set_mint, set_mlong, set_mreal, set_mcomplex;
    intros E; try (apply Ok_inj in E; subst g'; exact eq_refl); apply bind_ok in E as (w & _ & E); apply Ok_inj in E; subst g'; exact eq_refl.
Qed.
Lemma to_tag src g g' : to_gc src g = Ok g' -> tag_of g' = tag_of src.
Proof.
  destruct src; cbn [to_gc]; unfold set_vptr, set_vbool, set_vint, set_vlong, set_vreal, set_vcomplex, set_vstr, set_mint, set_mlong, set_mreal, set_mcomplex;
    intros E; try (apply Ok_inj in E; subst g'; exact eq_refl); apply bind_ok in E as (w & _ & E); apply Ok_inj in E; subst g'; exact eq_refl.
Qed.
(** Where the promotion gives the type asked for. *)
Lemma to_type t g u g' : type_after (Promote t) (tag_of g) = Some (target_type t) -> promote t g = (Ok u, g') -> tag_of g' = target_type t.
Proof. intros H E. pose proof (promote_typed t g) as K. rewrite H, E in K. exact K. Qed.
Lemma typed_forget {A} T (r : refr A) : rtyped T r -> typed T (forget (rread r)).
Proof. intros H. unfold forget. destruct r as [a put|o g]; cbn [rread fst snd omap typed]; [apply H|]. destruct o; exact I. Qed.
Lemma typed_mmap T (o : out unit) g : tag_of g = T -> typed T (o, g).
Proof. intros H. destruct o; cbn [typed]; auto. Qed.
Lemma typed_key k f g : typed TMap (with_key k f g).
Proof. unfold with_key. cbv zeta. destruct (f _) as [o e]. apply typed_mmap. exact eq_refl. Qed.
Lemma typed_idx i f g : typed TVec (with_idx i f g).
Proof. unfold with_idx. cbv zeta. destruct (znth _ _); [|exact I]. destruct (f _) as [o e]. apply typed_mmap. exact eq_refl. Qed.
Lemma typed_call_key k f g : typed TMap (call_key_with k f g).
Proof. destruct g; cbn [call_key_with typed]; try exact I. destruct (mfind _ _); [|exact I]. destruct (f _) as [o e]. apply typed_mmap. exact eq_refl. Qed.
Lemma typed_call_idx i f g : typed TVec (call_idx_with i f g).
Proof.
  destruct g; cbn [call_idx_with typed]; try exact I. destruct (_ <? _); [|exact I]. destruct (znth _ _); [|exact I].
  destruct (f _) as [o e]. apply typed_mmap. exact eq_refl.
Qed.
Lemma typed_back f v : typed TVec (with_back f v).
Proof. unfold with_back. destruct (rev v); [exact I|]. destruct (f _) as [o e]. apply typed_mmap. exact eq_refl. Qed.
Lemma typed_merge src g : typed (match tag_of src with TNone => tag_of g | _ => TMap end) (merge src g).
Proof.
  destruct src; cbn [merge tag_of]; try exact I; [exact eq_refl|]. cbv zeta.
  destruct g; cbn [set_map0]; try exact I; destruct (assign_map _ _); first [exact I | exact eq_refl].
Qed.
Lemma typed_table cc dl st g : typed TMap (read_formatted_data cc dl st g).
Proof.
  unfold read_formatted_data. cbv zeta. destruct (get_line_and_skip_comments _ _ _) as [[[a b] c]| | |]; try exact I.
  destruct (tokenize _ _); try exact I. destruct (read_rows _ _ _ _ _ _ _) as [r cols]. apply typed_mmap. exact eq_refl.
Qed.
Lemma typed_table2 cc dl st pars g : typed TMap (fst (read_formatted_data2 cc dl st pars g)).
Proof.
  unfold read_formatted_data2. cbv zeta. destruct (get_line2 _ _ _ _ _ _) as [[[[a b] c] d]| | |]; try exact I.
  destruct (tokenize _ _); try exact I. destruct (read_rows2 _ _ _ _ _ _ _ _) as [[r data] p]. cbn [fst]. apply typed_mmap. exact eq_refl.
Qed.
(** get_T_at(i). *)
Lemma at_vint i g : rtyped (match tag_of g with TVInt => TVInt | _ => TVec end) (vint_at i g).
Proof. destruct g; cbn [vint_at tag_of]; try apply rtyped_slot. apply rtyped_grow. intros; exact eq_refl. Qed.
Lemma at_vlong i g : rtyped (match tag_of g with TVLong => TVLong | _ => TVec end) (vlong_at i g).
Proof. destruct g; cbn [vlong_at tag_of]; try apply rtyped_slot. apply rtyped_grow. intros; exact eq_refl. Qed.
Lemma at_vreal i g : rtyped (match tag_of g with TVReal => TVReal | _ => TVec end) (vreal_at i g).
Proof. destruct g; cbn [vreal_at tag_of]; try apply rtyped_slot. apply rtyped_grow. intros; exact eq_refl. Qed.
Lemma at_vcomplex i g : rtyped (match tag_of g with TVComplex => TVComplex | _ => TVec end) (vcomplex_at i g).
Proof. destruct g; cbn [vcomplex_at tag_of]; try apply rtyped_slot. apply rtyped_grow. intros; exact eq_refl. Qed.
Lemma at_mint i j g : rtyped TMInt (mint_at i j g).
Proof. destruct g; cbn [mint_at]; try exact I. apply rtyped_mat. intros; exact eq_refl. Qed.
Lemma at_mlong i j g : rtyped TMLong (mlong_at i j g).
Proof. destruct g; cbn [mlong_at]; try exact I. apply rtyped_mat. intros; exact eq_refl. Qed.
Lemma at_mreal i j g : rtyped TMReal (mreal_at i j g).
Proof. destruct g; cbn [mreal_at]; try exact I. apply rtyped_mat. intros; exact eq_refl. Qed.
Lemma at_mcomplex i j g : rtyped TMComplex (mcomplex_at i j g).
Proof. destruct g; cbn [mcomplex_at]; try exact I. apply rtyped_mat. intros; exact eq_refl. Qed.
Lemma ref_mint g : rtyped TMInt (ref_mat_int g).
Proof. unfold ref_mat_int. assert (K : forall h, rtyped TMInt (as_mint h)) by (intros []; cbn [as_mint]; first [exact I | intros x; exact eq_refl]).
  destruct g; first [apply rtyped_after, K | apply K]. Qed.
Ltac ref_of as_x := let K := fresh in assert (K : forall h, rtyped _ (as_x h)) by (intros h; destruct h; cbv [as_x]; first [exact I | intros x; exact eq_refl]);
  match goal with |- rtyped _ (match ?g with _ => _ end) => destruct g; first [apply rtyped_after, K | apply K] end.

Theorem C114_type : forall o g g' T, perform o g = (Ok tt, g') -> type_after o (tag_of g) = Some T -> tag_of g' = T.
Proof.
  enough (K : forall o g, match type_after o (tag_of g) with Some T => typed T (perform o g) | None => True end).
  { intros o g g' T E H. specialize (K o g). rewrite H, E in K. exact K. }
  intros o g. destruct o; try exact I; try exact eq_refl; try exact (promote_typed _ g).
  all: try (cbn [type_after perform]; unfold set_vptr, set_vbool, set_vint, set_vlong, set_vreal, set_vcomplex, set_vstr, set_mint, set_mlong, set_mreal, set_mcomplex;
    apply typed_bind; intros; exact eq_refl).
  all: try (destruct g; cbn [type_after perform tag_of free_pointer erase push_bool call_key_with call_idx_with ref_bool ref_int ref_long ref_real ref_complex ref_string ref_vec_pointer ref_vec_bool
    ref_vec_string swrite rwrite failed typed]; first [exact eq_refl | exact I | match goal with |- context [mset] => exact eq_refl end]).
  all: cbn [type_after perform].
  - (* PushInt *) destruct g; cbn [tag_of push_int]; try exact eq_refl; destruct (promote_to_vec_int _) as [[] []]; first [exact I | exact eq_refl].
  - (* PushLong *) destruct g; cbn [tag_of push_long]; try exact eq_refl; destruct (promote_to_vec_long _) as [[] []]; first [exact I | exact eq_refl].
  - (* PushReal *) destruct g; cbn [tag_of push_real]; try exact eq_refl; destruct (promote_to_vec_real _) as [[] []]; first [exact I | exact eq_refl].
  - (* PushComplex *) destruct g; cbn [tag_of push_complex]; try exact eq_refl; destruct (promote_to_vec_complex _) as [[] []]; first [exact I | exact eq_refl].
  - (* PushStr *) destruct g; cbn [tag_of push_string]; try exact eq_refl; destruct (promote_to_vector _) as [[] []]; first [exact I | exact eq_refl].
  - apply typed_over. intros g' E. exact (from_tag _ _ _ E).
  - apply typed_over. intros g' E. exact (to_tag _ _ _ E).
  - pose proof (typed_merge src g) as K. destruct (tag_of src); exact K.
  - apply typed_key.
  - apply typed_idx.
  - apply typed_call_key.
  - apply typed_call_idx.
  - unfold forget. destruct g; cbn [const_idx_key]; try exact I. destruct (mfind _ _); exact eq_refl.
  - destruct g; try exact I. destruct (perform _ _) as [r e]. apply typed_mmap. exact eq_refl.
  - destruct g; try exact I. apply typed_mmap. exact eq_refl.
  - destruct g; try exact I. apply typed_back.
  - apply rtyped_write. unfold ref_vec_int. ref_of as_vint.
  - apply rtyped_write. unfold ref_vec_long. ref_of as_vlong.
  - apply rtyped_write. unfold ref_vec_real. ref_of as_vreal.
  - apply rtyped_write. unfold ref_vec_complex. ref_of as_vcomplex.
  - apply rtyped_write. exact (ref_mint g).
  - apply rtyped_write. unfold ref_mat_long. ref_of as_mlong.
  - apply rtyped_write. unfold ref_mat_real. ref_of as_mreal.
  - apply rtyped_write. unfold ref_mat_complex. ref_of as_mcomplex.
  - destruct g; cbn [tag_of ref_bool_at]; apply typed_forget; first [apply rtyped_slot | apply rtyped_grow; intros; exact eq_refl].
  - destruct g; cbn [tag_of ref_int_at]; apply rtyped_write; first [match goal with |- rtyped _ (_ _ ?x) => exact (at_vint i x) end |
      eapply (rtyped_after_if _ _ _ (fun h => tag_of h = TVInt)); [intros u h E; match type of E with _ ?x = _ => exact (to_type ToVInt x u h eq_refl E) end|
        intros h H; pose proof (at_vint i h) as K; rewrite H in K; exact K]].
  - destruct g; cbn [tag_of ref_long_at]; apply rtyped_write; first [match goal with |- rtyped _ (_ _ ?x) => exact (at_vlong i x) end |
      eapply (rtyped_after_if _ _ _ (fun h => tag_of h = TVLong)); [intros u h E; match type of E with _ ?x = _ => exact (to_type ToVLong x u h eq_refl E) end|
        intros h H; pose proof (at_vlong i h) as K; rewrite H in K; exact K]].
  - destruct g; cbn [tag_of ref_real_at]; apply rtyped_write; first [match goal with |- rtyped _ (_ _ ?x) => exact (at_vreal i x) end |
      eapply (rtyped_after_if _ _ _ (fun h => tag_of h = TVReal)); [intros u h E; match type of E with _ ?x = _ => exact (to_type ToVReal x u h eq_refl E) end|
        intros h H; pose proof (at_vreal i h) as K; rewrite H in K; exact K]].
  - destruct g; cbn [tag_of ref_complex_at]; apply rtyped_write; first [match goal with |- rtyped _ (_ _ ?x) => exact (at_vcomplex i x) end |
      eapply (rtyped_after_if _ _ _ (fun h => tag_of h = TVComplex)); [intros u h E; match type of E with _ ?x = _ => exact (to_type ToVComplex x u h eq_refl E) end|
        intros h H; pose proof (at_vcomplex i h) as K; rewrite H in K; exact K]].
  - destruct g; cbn [tag_of ref_string_at]; apply rtyped_write; first [apply rtyped_slot | apply rtyped_grow; intros; exact eq_refl].
  - apply rtyped_write. unfold ref_int_at2. destruct g; first [apply rtyped_after; intros; apply at_mint | apply at_mint].
  - apply rtyped_write. unfold ref_long_at2. destruct g; first [apply rtyped_after; intros; apply at_mlong | apply at_mlong].
  - apply rtyped_write. unfold ref_real_at2. destruct g; first [apply rtyped_after; intros; apply at_mreal | apply at_mreal].
  - apply rtyped_write. unfold ref_complex_at2. destruct g; first [apply rtyped_after; intros; apply at_mcomplex | apply at_mcomplex].
  - apply typed_table.
  - apply typed_table2.
  - pose proof (ref_mint g) as K. destruct (ref_mat_int g) as [m put|r h]; [apply K|destruct r; exact I].
Qed.
(** A nested write and a push that widens a vector. *)
Example C114_example :
  let g := GVBool [true; false] in
  (exists g', perform (PushLong 5) g = (Ok tt, g') /\ type_after (PushLong 5) (tag_of g) = Some TVLong) /\
  (exists g', perform (Promote ToMLong) g = (Ok tt, g') /\ type_after (Promote ToMLong) (tag_of g) = Some TMReal) /\
  (exists g', perform (Key "k"%string (Idx 2 (SetStr "x"%string))) GNone = (Ok tt, g') /\ type_after (Key "k"%string (Idx 2 (SetStr "x"%string))) TNone = Some TMap).
Proof. cbv zeta. repeat split; eexists; (split; [vm_compute; reflexivity|exact eq_refl]). Qed.
Print Assumptions C114_type.
