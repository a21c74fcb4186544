(** Containers on which collapse has no undefined behaviour. *)
From Coq Require Import ZArith Bool Lia Ascii String List.
From Verif Require Import Base F64 Value SGet SCollapse.
Import ListNotations.
Local Open Scope Z_scope.

(** A double whose value, if it is an integer, fits an int. *)
Definition int_or_fraction (x : Z) : Prop := forall n, fis x n -> int32 n.
Definition number_fits (e : gc) : Prop :=
  match e with GReal x => int_or_fraction x | GComplex (re, _) => int_or_fraction re | _ => True end.
(** Vectors have fewer than 2^31 elements; the doubles in generic vectors fit as above. *)
Definition harmless_node (g : gc) : Prop :=
  match g with
  | GVPtr v | GVInt v | GVLong v | GVReal v => zlen v < 2^31
  | GVBool v => zlen v < 2^31
  | GVComplex v => zlen v < 2^31
  | GVStr v => zlen v < 2^31
  | GVec v => zlen v < 2^31 /\ Forall number_fits v
  | _ => True
  end.
Definition harmless : gc -> Prop := everywhere harmless_node.
