(** Specification vocabulary for the getters: which number a container stores, independent
    of the getter definitions. *)
From Coq Require Import ZArith Bool Lia Ascii String List.
From Verif Require Import Base F64 StrMap Value.
Import ListNotations.
Local Open Scope Z_scope.

(** The container stores exactly the integer [n]. *)
Definition denotes (g : gc) (n : Z) : Prop :=
  match g with
  | GBool b => n = if b then 1 else 0
  | GInt i => n = i
  | GLong l => n = l
  | GReal r => fis r n
  | GComplex (re, im) => fis re n /\ fis im 0
  | _ => False
  end.

(** A subnormal double: not zero but below 2^-1022 in magnitude. *)
Definition tiny (x : Z) : Prop := exists v, fscaled x = Some v /\ v <> 0 /\ Z.abs v < 2^52.

Definition no_tiny (g : gc) : Prop :=
  match g with
  | GReal r => ~ tiny r
  | GComplex (re, im) => ~ tiny re /\ ~ tiny im
  | _ => True
  end.

(** The double [x] is the best representation of what the scalar [g] stores: exactly the
    value for bool, int and real, the nearest double for long. *)
Definition real_of (g : gc) (x : Z) : Prop :=
  match g with
  | GBool b => fis x (if b then 1 else 0)
  | GInt i => fis x i
  | GLong l => fnearest x l
  | GReal r => x = r
  | _ => False
  end.

Definition cplx_of (g : gc) (c : cplx) : Prop :=
  match g with
  | GComplex c' => c = c'
  | _ => real_of g (fst c) /\ snd c = 0
  end.

(** The [i]-th element of an indexed numeric container, as a scalar container. *)
Definition elem (g : gc) (i : Z) : option gc :=
  match g with
  | GVBool v => option_map GBool (znth i v)
  | GVInt v => option_map GInt (znth i v)
  | GVLong v => option_map GLong (znth i v)
  | GVReal v => option_map GReal (znth i v)
  | GVComplex v => option_map GComplex (znth i v)
  | GMInt m => option_map GInt (znth i (mdata m))
  | GMLong m => option_map GLong (znth i (mdata m))
  | GMReal m => option_map GReal (znth i (mdata m))
  | GMComplex m => option_map GComplex (znth i (mdata m))
  | GVec v => znth i v
  | _ => None
  end.
