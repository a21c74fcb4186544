(** Specification vocabulary for the non-const getters: what a list of elements becomes when
    one of them is stored. *)
From Coq Require Import ZArith Bool Lia Ascii String List.
From Verif Require Import Base F64 StrMap Value SGet SPromote.
Import ListNotations.
Local Open Scope Z_scope.

(** [new] is [old] with [x] at position [i]: every other old element holds the same number,
    and the positions between the old end and [i] hold [d]. *)
Definition stored_at (i : Z) (x d : gc) (old new : list gc) : Prop :=
  zlen new = Z.max (zlen old) (i + 1) /\ znth i new = Some x /\
  forall j, j <> i ->
    match znth j old with
    | Some o => exists e, znth j new = Some e /\ same_num o e
    | None => 0 <= j < i -> znth j new = Some d
    end.
