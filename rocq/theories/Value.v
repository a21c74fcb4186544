(** Container values. *)
From Coq Require Import ZArith Bool Lia Ascii String List.
From Verif Require Import Base F64 StrMap.
Import ListNotations.
Local Open Scope Z_scope.

(** mat_type<T> (include/GenericContainer/GenericContainer.hh:168-172): a vector with two
    unsigned dimensions; entry (i,j) is at i + j*rows. *)
Record mat (A : Type) : Type := Mat { mrows : Z; mcols : Z; mdata : list A }.
Arguments Mat {A} _ _ _.
Arguments mrows {A} _.
Arguments mcols {A} _.
Arguments mdata {A} _.

Definition cplx : Type := Z * Z.

(** A GenericContainer (include/GenericContainer/GenericContainer.hh:481-509 for the tags,
    614-638 for the payload union): one constructor per tag with the payload of the union
    member active for that tag.  Heap addresses of payloads are not represented. *)
Inductive gc : Type :=
| GNone
| GPtr (p : Z)
| GBool (b : bool)
| GInt (i : Z)
| GLong (l : Z)
| GReal (r : Z)
| GComplex (c : cplx)
| GStr (s : string)
| GVPtr (v : list Z)
| GVBool (v : list bool)
| GVInt (v : list Z)
| GVLong (v : list Z)
| GVReal (v : list Z)
| GVComplex (v : list cplx)
| GVStr (v : list string)
| GMInt (m : mat Z)
| GMLong (m : mat Z)
| GMReal (m : mat Z)
| GMComplex (m : mat cplx)
| GVec (v : list gc)
| GMap (m : list (string * gc)).

(** Induction over nested containers. *)
Section GcInd.
  Variable P : gc -> Prop.
  Hypothesis Hflat : forall g, (forall v, g <> GVec v) -> (forall m, g <> GMap m) -> P g.
  Hypothesis Hvec : forall v, Forall P v -> P (GVec v).
  Hypothesis Hmap : forall m, Forall (fun kv => P (snd kv)) m -> P (GMap m).
  Fixpoint gc_nest_ind (g : gc) : P g.
  Proof.
    destruct g as [ | | | | | | | | | | | | | | | | | | | v | m ];
      try (apply Hflat; discriminate).
    - apply Hvec. induction v as [|a v IH]; constructor; [apply gc_nest_ind | exact IH].
    - apply Hmap. induction m as [|a m IH]; constructor; [apply gc_nest_ind | exact IH].
  Defined.
End GcInd.

Ltac nested_contra Hv Hm :=
  first [ exfalso; eapply Hv; reflexivity | exfalso; eapply Hm; reflexivity ].

(** GC_type (include/GenericContainer/GenericContainer.hh:481-509). *)
Inductive tag : Type :=
| TNone | TPtr | TBool | TInt | TLong | TReal | TComplex | TStr
| TVPtr | TVBool | TVInt | TVLong | TVReal | TVComplex | TVStr
| TMInt | TMLong | TMReal | TMComplex | TVec | TMap.

(** The numeric value of each enumerator, used by the comparisons between tags
    (include/GenericContainer/GenericContainer.hh:481-509, 701, 708). *)
Definition tag_num (t : tag) : Z :=
  match t with
  | TNone => 0 | TPtr => 1 | TBool => 2 | TInt => 3 | TLong => 4 | TReal => 5
  | TComplex => 6 | TStr => 7 | TVPtr => 8 | TVBool => 9 | TVInt => 10 | TVLong => 11
  | TVReal => 12 | TVComplex => 13 | TVStr => 14 | TMInt => 15 | TMLong => 16
  | TMReal => 17 | TMComplex => 18 | TVec => 19 | TMap => 20
  end.

Definition tag_dec : forall t t' : tag, {t = t'} + {t <> t'}.
Proof. decide equality. Defined.
Definition tag_eqb (t t' : tag) : bool := if tag_dec t t' then true else false.

(** get_type (include/GenericContainer/GenericContainer.hh, m_data_type). *)
Definition tag_of (g : gc) : tag :=
  match g with
  | GNone => TNone | GPtr _ => TPtr | GBool _ => TBool | GInt _ => TInt | GLong _ => TLong
  | GReal _ => TReal | GComplex _ => TComplex | GStr _ => TStr | GVPtr _ => TVPtr
  | GVBool _ => TVBool | GVInt _ => TVInt | GVLong _ => TVLong | GVReal _ => TVReal
  | GVComplex _ => TVComplex | GVStr _ => TVStr | GMInt _ => TMInt | GMLong _ => TMLong
  | GMReal _ => TMReal | GMComplex _ => TMComplex | GVec _ => TVec | GMap _ => TMap
  end.

(** What the C++ types guarantee about a container: machine ranges of the scalars, matrix
    storage consistent with the dimensions (mat_type constructor and resize, lines 189-211:
    the product is computed in 32-bit unsigned arithmetic), sorted maps. *)
Definition fc (c : cplx) : Prop := f64 (fst c) /\ f64 (snd c).

Definition wf_mat {A} (P : A -> Prop) (m : mat A) : Prop :=
  uint32 (mrows m) /\ uint32 (mcols m) /\
  zlen (mdata m) = to_u32 (mrows m * mcols m) /\ Forall P (mdata m).

Fixpoint wf (g : gc) : Prop :=
  match g with
  | GNone => True
  | GPtr p => uint64 p
  | GBool _ => True
  | GInt i => int32 i
  | GLong l => int64 l
  | GReal r => f64 r
  | GComplex c => fc c
  | GStr _ => True
  | GVPtr v => Forall uint64 v
  | GVBool _ => True
  | GVInt v => Forall int32 v
  | GVLong v => Forall int64 v
  | GVReal v => Forall f64 v
  | GVComplex v => Forall fc v
  | GVStr _ => True
  | GMInt m => wf_mat int32 m
  | GMLong m => wf_mat int64 m
  | GMReal m => wf_mat f64 m
  | GMComplex m => wf_mat fc m
  | GVec v => (fix all (l : list gc) : Prop :=
                 match l with [] => True | a :: l' => wf a /\ all l' end) v
  | GMap m => msorted m /\
              (fix all (l : list (string * gc)) : Prop :=
                 match l with [] => True | a :: l' => wf (snd a) /\ all l' end) m
  end.

Lemma wf_vec v : wf (GVec v) <-> Forall wf v.
Proof.
  simpl. induction v as [|a v IH]; split; intros H; auto.
  - destruct H. constructor; [assumption|]. now apply IH.
  - inversion H; subst. split; [assumption|]. now apply IH.
Qed.

Lemma wf_map m : wf (GMap m) <-> msorted m /\ Forall (fun kv => wf (snd kv)) m.
Proof.
  simpl. apply and_iff_compat_l. induction m as [|a m IH]; split; intros H; auto.
  - destruct H. constructor; [assumption|]. now apply IH.
  - inversion H; subst. split; [assumption|]. now apply IH.
Qed.

(** Only map ordering, at every depth (needed by results that do not care about ranges). *)
Fixpoint wfm (g : gc) : Prop :=
  match g with
  | GVec v => (fix all (l : list gc) : Prop :=
                 match l with [] => True | a :: l' => wfm a /\ all l' end) v
  | GMap m => msorted m /\
              (fix all (l : list (string * gc)) : Prop :=
                 match l with [] => True | a :: l' => wfm (snd a) /\ all l' end) m
  | _ => True
  end.

Lemma wfm_vec v : wfm (GVec v) <-> Forall wfm v.
Proof.
  simpl. induction v as [|a v IH]; split; intros H; auto.
  - destruct H. constructor; [assumption|]. now apply IH.
  - inversion H; subst. split; [assumption|]. now apply IH.
Qed.

Lemma wfm_map m : wfm (GMap m) <-> msorted m /\ Forall (fun kv => wfm (snd kv)) m.
Proof.
  simpl. apply and_iff_compat_l. induction m as [|a m IH]; split; intros H; auto.
  - destruct H. constructor; [assumption|]. now apply IH.
  - inversion H; subst. split; [assumption|]. now apply IH.
Qed.

Lemma wf_wfm g : wf g -> wfm g.
Proof.
  induction g as [g Hv Hm | v IH | m IH] using gc_nest_ind.
  - destruct g; simpl; auto; [exfalso; now apply (Hv v) | exfalso; now apply (Hm m)].
  - rewrite wf_vec, wfm_vec. intros H. rewrite Forall_forall in *. auto.
  - rewrite wf_map, wfm_map. intros [Hs H]. split; [assumption|].
    rewrite Forall_forall in *. auto.
Qed.

(** Nesting depth, for recursions that are not structural on one argument. *)
Fixpoint depth (g : gc) : nat :=
  match g with
  | GVec v => S ((fix dm (l : list gc) : nat :=
                    match l with [] => O | a :: l' => Nat.max (depth a) (dm l') end) v)
  | GMap m => S ((fix dm (l : list (string * gc)) : nat :=
                    match l with [] => O | a :: l' => Nat.max (depth (snd a)) (dm l') end) m)
  | _ => O
  end.

(** 1.0, 2.0 and 0.5 as doubles, for examples. *)
Definition f_one : Z := f_of_Z 1.
Definition f_half : Z := 1022 * 2^52.
