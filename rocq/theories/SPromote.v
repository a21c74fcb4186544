(** Specification vocabulary for promotions, pushes and typed copies: the elements of a
    container and when a number is preserved. *)
From Coq Require Import ZArith Bool Lia Ascii String List.
From Verif Require Import Base F64 StrMap Value SGet.
Import ListNotations.
Local Open Scope Z_scope.

(** The elements of a container in order, each as a scalar container (a scalar is its own
    only element; matrices column by column; maps are not sequences). *)
Definition elems (g : gc) : list gc :=
  match g with
  | GNone | GMap _ => []
  | GPtr _ | GBool _ | GInt _ | GLong _ | GReal _ | GComplex _ | GStr _ => [g]
  | GVPtr v => map GPtr v
  | GVBool v => map GBool v
  | GVInt v => map GInt v
  | GVLong v => map GLong v
  | GVReal v => map GReal v
  | GVComplex v => map GComplex v
  | GVStr v => map GStr v
  | GMInt m => map GInt (mdata m)
  | GMLong m => map GLong (mdata m)
  | GMReal m => map GReal (mdata m)
  | GMComplex m => map GComplex (mdata m)
  | GVec v => v
  end.

(** [e'] holds the same thing as [e]: exactly, except that a long may have been rounded to
    the nearest double. *)
Definition same_num (e e' : gc) : Prop :=
  e = e' \/
  match e' with
  | GInt n | GLong n => denotes e n /\ (tag_of e = TBool \/ tag_of e = TInt)
  | GReal x => real_of e x
  | GComplex c => cplx_of e c
  | _ => False
  end.

(** Fewer than 2^32 elements. *)
Definition sized (g : gc) : Prop := zlen (elems g) < 2^32.

Definition scalar_tag (t : tag) : Prop :=
  In t [TPtr; TBool; TInt; TLong; TReal; TComplex; TStr].
Definition vec_tag (t : tag) : Prop :=
  In t [TVPtr; TVBool; TVInt; TVLong; TVReal; TVComplex; TVStr].

(** The container is a matrix of the given shape. *)
Definition shape (g : gc) (nr nc : Z) : Prop :=
  match g with
  | GMInt m | GMLong m | GMReal m => mrows m = nr /\ mcols m = nc
  | GMComplex m => mrows m = nr /\ mcols m = nc
  | _ => False
  end.
