(** When collapse of parsed data fails, in terms of the data alone. *)
From Coq Require Import ZArith Bool Lia Ascii String List.
From Verif Require Import Base F64 Value SGet SPromote SCollapse.
Import ListNotations.
Local Open Scope Z_scope.

(** Booleans and numbers, in the order in which collapse widens them. *)
Inductive kind : Type := KBool | KInt | KLong | KReal.
Definition rank (k : kind) : Z := match k with KBool => 0 | KInt => 1 | KLong => 2 | KReal => 3 end.
Definition value_kind (g : gc) : option kind :=
  match g with GBool _ => Some KBool | GInt _ => Some KInt | GLong _ => Some KLong | GReal _ => Some KReal | _ => None end.
(** Sequences that are, or become, a typed vector: of a generic vector only the one of a
    single value matters here. *)
Definition row_kind (g : gc) : option kind :=
  match g with
  | GVBool _ => Some KBool | GVInt _ => Some KInt | GVLong _ => Some KLong | GVReal _ => Some KReal
  | GVec [x] => value_kind x
  | _ => None
  end.
(** A boolean, a number or a string. *)
Definition basic (g : gc) : Prop :=
  match g with GBool _ | GInt _ | GLong _ | GReal _ | GStr _ => True | _ => False end.
(** A double which is an integer of the given range; nonzero doubles below the smallest normal
    number pass the test of the code as well. *)
Definition whole (range : Z -> Prop) (x : Z) : Prop := (exists n, fis x n /\ range n) \/ tiny x.
(** The value of [g] is accepted for an element of the given type. *)
Definition converts (k : kind) (g : gc) : Prop :=
  match k, g with
  | KBool, _ => True
  | KInt, GBool _ | KInt, GInt _ => True
  | KInt, GLong l => int32 l
  | KInt, GReal x => whole int32 x
  | KLong, GBool _ | KLong, GInt _ | KLong, GLong _ => True
  | KLong, GReal x => whole int64 x
  | KReal, GBool _ | KReal, GInt _ | KReal, GLong _ | KReal, GReal _ => True
  | _, _ => False
  end.

(** Every element is basic or a row of exactly one value, of a kind not above [k]; one is a
    row of kind [k], and a basic one does not convert to [k]. *)
Definition clash (row : gc -> option kind) (v : list gc) : Prop :=
  exists k, k <> KBool /\
    (forall e, In e v -> zlen (elems e) = 1 /\ (basic e \/ exists l, row e = Some l /\ rank l <= rank k)) /\
    (exists e, In e v /\ row e = Some k) /\
    (exists e, In e v /\ basic e /\ ~ converts k e).
Definition no_clash (g : gc) : Prop := match g with GVec v => ~ clash row_kind v | _ => True end.
(** A clash where the value that does not convert is a double with an integer value too large
    for the type. *)
Definition too_large (k : kind) (n : Z) : Prop :=
  match k with KInt => ~ int32 n | KLong => ~ int64 n | _ => False end.
Definition overflow (row : gc -> option kind) (v : list gc) : Prop :=
  exists k, k <> KBool /\
    (forall e, In e v -> zlen (elems e) = 1 /\ (basic e \/ exists l, row e = Some l /\ rank l <= rank k)) /\
    (exists e, In e v /\ row e = Some k) /\
    (exists x n, In (GReal x) v /\ fis x n /\ too_large k n).
Definition no_overflow (g : gc) : Prop := match g with GVec v => ~ overflow row_kind v | _ => True end.
