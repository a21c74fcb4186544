(** What an exception leaves behind. *)
From Coq Require Import ZArith Bool Lia Ascii String List.
From Verif Require Import Base F64 StrMap Value SCopy MOps SSafe.
Import ListNotations.
Local Open Scope Z_scope.

(** The containers a statement leaves as they are if it throws.  The getters of an entry (i,j)
    first make a matrix out of a vector or of nothing, get_mat_long makes a MAT_REAL out of a
    VEC_BOOL and then complains; the brackets make the part before the statement on it. *)
Fixpoint calm (o : op) (g : gc) : Prop :=
  match o with
  | PutMLong _ => match g with GVBool _ => False | _ => True end
  | PutIntAt2 _ _ _ => match g with GNone | GVBool _ | GVInt _ => False | _ => True end
  | PutLongAt2 _ _ _ => match g with GNone | GVBool _ | GVInt _ | GVLong _ => False | _ => True end
  | PutRealAt2 _ _ _ => match g with GNone | GVBool _ | GVInt _ | GVLong _ | GVReal _ => False | _ => True end
  | PutComplexAt2 _ _ _ => match g with GNone | GVBool _ | GVInt _ | GVLong _ | GVReal _ | GMReal _ => False | _ => True end
  | Key k o' => exists m e, g = GMap m /\ mfind (cstr k) m = Some e /\ calm o' e
  | Idx i o' => exists v e, g = GVec v /\ nth_error v (Z.to_nat i) = Some e /\ calm o' e
  | CallKey k o' => forall m e, g = GMap m -> mfind (cstr k) m = Some e -> calm o' e
  | CallIdx i o' => forall v e, g = GVec v -> nth_error v (Z.to_nat i) = Some e -> calm o' e
  | MapAt k o' => forall m, g = GMap m -> exists e, mfind k m = Some e /\ calm o' e
  | Back o' => forall v e, g = GVec (v ++ [e]) -> calm o' e
  | _ => True
  end.
