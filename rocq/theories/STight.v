(** Which typed container holds the elements of a generic vector: the specification of C118. *)
From Coq Require Import ZArith List.
From Verif Require Import Base F64 StrMap Value SCopy SGet.
Import ListNotations.
Local Open Scope Z_scope.

(** The widest type among the elements of a list: one element has it, none is wider. *)
Definition widest (l : list gc) (t : tag) : Prop :=
  (exists e, In e l /\ tag_of e = t) /\ Forall (fun e => tag_num (tag_of e) <= tag_num t) l.

(** Booleans and numbers; typed vectors of them. *)
Definition numeric (e : gc) : Prop :=
  match e with GBool _ | GInt _ | GLong _ | GReal _ | GComplex _ => True | _ => False end.
Definition numeric_vec (e : gc) : Prop :=
  match e with GVBool _ | GVInt _ | GVLong _ | GVReal _ | GVComplex _ => True | _ => False end.

(** The elements of a typed vector, one by one. *)
Definition parts (e : gc) : list gc :=
  match e with
  | GVBool v => map GBool v | GVInt v => map GInt v | GVLong v => map GLong v
  | GVReal v => map GReal v | GVComplex v => map GComplex v | _ => []
  end.

(** A typed vector that holds the values of the numbers [l] in the type [t]. *)
Inductive vector_of (l : list gc) : tag -> gc -> Prop :=
| VOBool t : l = map GBool t -> vector_of l TBool (GVBool t)
| VOInt t : Forall2 denotes l t -> vector_of l TInt (GVInt t)
| VOLong t : Forall2 denotes l t -> vector_of l TLong (GVLong t)
| VOReal t : Forall2 real_of l t -> vector_of l TReal (GVReal t)
| VOComplex t : l = map GComplex t -> vector_of l TComplex (GVComplex t).

(** A matrix whose columns hold the values of the typed vectors [l]; [n] is their length. *)
Inductive matrix_of (n : Z) (l : list gc) : tag -> gc -> Prop :=
| MOInt cs : Forall2 (fun e c => Forall2 denotes (parts e) c) l cs -> matrix_of n l TVInt (GMInt (Mat n (zlen l) (concat cs)))
| MOLong cs : Forall2 (fun e c => Forall2 denotes (parts e) c) l cs -> matrix_of n l TVLong (GMLong (Mat n (zlen l) (concat cs)))
| MOReal cs : Forall2 (fun e c => Forall2 real_of (parts e) c) l cs -> matrix_of n l TVReal (GMReal (Mat n (zlen l) (concat cs)))
| MOComplex cs : Forall2 (fun e c => Forall2 cplx_of (parts e) c) l cs -> matrix_of n l TVComplex (GMComplex (Mat n (zlen l) (concat cs))).
