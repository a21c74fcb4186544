(** The JSON documents on which the reader fails. *)
From Coq Require Import ZArith Bool Lia Ascii String List.
From Verif Require Import Base F64 Value MJson SGet SJson SClash.
Import ListNotations.
Local Open Scope Z_scope.

(** The type in which a value is stored: integers of 32 bits as int, others as long. *)
Definition small_int (z : Z) : bool := (- 2^31 <=? z) && (z <? 2^31).
Definition json_kind (j : json) : option kind :=
  match j with JBool _ => Some KBool | JInt z => Some (if small_int z then KInt else KLong) | JDbl _ => Some KReal | _ => None end.
Definition json_basic (j : json) : Prop := match j with JBool _ | JInt _ | JDbl _ | JStr _ => True | _ => False end.
Definition json_converts (k : kind) (j : json) : Prop :=
  match k, j with
  | KBool, _ => True
  | _, JBool _ => True
  | KInt, JInt z => int32 z
  | _, JInt _ => True
  | KInt, JDbl x => whole int32 x
  | KLong, JDbl x => whole int64 x
  | KReal, JDbl _ => True
  | _, _ => False
  end.
(** An array of values and of arrays of one value, of which one has type [k] and none a wider
    type, and with a value outside of these arrays that does not convert to [k]. *)
Definition json_clash (l : list json) : Prop :=
  exists k, k <> KBool /\
    (forall e, In e l -> json_basic e \/ exists x m, e = JArr [x] /\ json_kind x = Some m /\ rank m <= rank k) /\
    (exists x, In (JArr [x]) l /\ json_kind x = Some k) /\
    (exists e, In e l /\ json_basic e /\ ~ json_converts k e).
Definition no_json_clash (j : json) : Prop := match j with JArr l => ~ json_clash l | _ => True end.
