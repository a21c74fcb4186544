(** Specification of equal content, independent of compare_content. *)
From Coq Require Import ZArith Bool Lia Ascii String List.
From Verif Require Import Base F64 Value SCollapse.
Import ListNotations.
Local Open Scope Z_scope.

(** Two doubles are equal numbers: the same finite value or the same infinity. *)
Definition same_real (x y : Z) : Prop :=
  (exists v, fscaled x = Some v /\ fscaled y = Some v) \/ (is_inf x = true /\ x = y).
Definition same_cplx (a b : cplx) : Prop := same_real (fst a) (fst b) /\ same_real (snd a) (snd b).
Definition same_mat {A} (P : A -> A -> Prop) (a b : mat A) : Prop :=
  mrows a = mrows b /\ mcols a = mcols b /\ Forall2 P (mdata a) (mdata b).

(** Equal content: the same type, and equal data. *)
Inductive same : gc -> gc -> Prop :=
| same_none : same GNone GNone
| same_ptr p : same (GPtr p) (GPtr p)
| same_bool b : same (GBool b) (GBool b)
| same_int i : same (GInt i) (GInt i)
| same_long l : same (GLong l) (GLong l)
| same_scalar x y : same_real x y -> same (GReal x) (GReal y)
| same_complex x y : same_cplx x y -> same (GComplex x) (GComplex y)
| same_str s : same (GStr s) (GStr s)
| same_vptr v : same (GVPtr v) (GVPtr v)
| same_vbool v : same (GVBool v) (GVBool v)
| same_vint v : same (GVInt v) (GVInt v)
| same_vlong v : same (GVLong v) (GVLong v)
| same_vreal v w : Forall2 same_real v w -> same (GVReal v) (GVReal w)
| same_vcomplex v w : Forall2 same_cplx v w -> same (GVComplex v) (GVComplex w)
| same_vstr v : same (GVStr v) (GVStr v)
| same_mint m : same (GMInt m) (GMInt m)
| same_mlong m : same (GMLong m) (GMLong m)
| same_mreal m n : same_mat same_real m n -> same (GMReal m) (GMReal n)
| same_mcomplex m n : same_mat same_cplx m n -> same (GMComplex m) (GMComplex n)
| same_vec v w : Forall2 same v w -> same (GVec v) (GVec w)
| same_map m n : Forall2 (fun a b => fst a = fst b /\ same (snd a) (snd b)) m n -> same (GMap m) (GMap n).

(** No scalar is the negative zero. *)
Definition no_neg_zero : gc -> Prop := everywhere (fun g => g <> GReal (2^63)).
(** No element holds a non-empty typed vector. *)
Definition no_typed_vector : gc -> Prop := everywhere (fun g =>
  match g with
  | GVPtr v => v = [] | GVBool v => v = [] | GVInt v => v = [] | GVLong v => v = []
  | GVReal v => v = [] | GVComplex v => v = [] | GVStr v => v = []
  | _ => True
  end).
(** No element holds a scalar real. *)
Definition no_scalar_real : gc -> Prop := everywhere (fun g => tag_of g <> TReal).
(** The number of entries of every matrix fits 32 bits. *)
Definition small_mats : gc -> Prop := everywhere (fun g =>
  match g with
  | GMInt m => mrows m * mcols m < 2^32 | GMLong m => mrows m * mcols m < 2^32
  | GMReal m => mrows m * mcols m < 2^32 | GMComplex m => mrows m * mcols m < 2^32
  | _ => True
  end).
