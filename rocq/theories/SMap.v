(** Specification vocabulary for map lookups and nested paths. *)
From Coq Require Import ZArith Bool Lia Ascii String List.
From Verif Require Import Base F64 StrMap Value SGet MMap.
Import ListNotations.
Local Open Scope Z_scope.

(** The value associated with a key: [(k, e)] is one of the entries of the map. *)
Definition has_entry (k : string) (e : gc) (g : gc) : Prop :=
  exists m, g = GMap m /\ In (k, e) m.
Definition has_key (k : string) (g : gc) : Prop := exists e, has_entry k e g.

(** What a real / complex output can receive from a scalar. *)
Definition real_conv (e : gc) (x : Z) : Prop :=
  real_of e x \/ exists im, e = GComplex (x, im) /\ fis im 0.

(** The chain of operator[] meets, as far as the container reaches, only maps where it uses
    keys and only generic vectors where it uses indices; missing parts are empty. *)
Fixpoint compatible (p : list step) (g : gc) : Prop :=
  match p with
  | [] => True
  | SKey k :: p' =>
      g = GNone \/ exists m, g = GMap m /\ forall e, In (k, e) m -> compatible p' e
  | SIdx i :: p' =>
      g = GNone \/ exists v, g = GVec v /\ forall e, nth_error v (Z.to_nat i) = Some e -> compatible p' e
  end.

(** Steps that can be taken: keys without NUL bytes, indices below 2^32 - 1. *)
Definition step_ok (s : step) : Prop :=
  match s with
  | SKey k => no_nul k
  | SIdx i => 0 <= i < 2^32 - 1
  end.

(** The two paths share a prefix and then take different keys or different indices. *)
Inductive diverge : list step -> list step -> Prop :=
| div_key k k' p q : k <> k' -> diverge (SKey k :: p) (SKey k' :: q)
| div_idx i i' p q : i <> i' -> diverge (SIdx i :: p) (SIdx i' :: q)
| div_step s p q : diverge p q -> diverge (s :: p) (s :: q).
