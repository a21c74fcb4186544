(** Model of the JSON reader that sits on the rapidjson document tree
    (src_json_interface/from_json.cc:54-120) and of the wrappers JSON_to_GC
    (include/GenericContainer/GenericContainerInterface_json.hh:48-98).  The rapidjson parser
    is modelled in MRapid.v; here the model starts from its document tree, or from "parse
    error". *)
From Coq Require Import ZArith Bool Lia Ascii String List.
From Verif Require Import Base F64 StrMap Value MBasic MCollapse.
Import ListNotations.
Local Open Scope Z_scope.

(** A rapidjson::Value.  [JInt z]: a number stored as an integer (an integer literal in
    [-2^63, 2^64)); [JDbl x]: one stored as a double.  Members of an object are in document
    order and may repeat a name. *)
Inductive json : Type :=
| JNull
| JBool (b : bool)
| JInt (z : Z)
| JDbl (x : Z)
| JStr (s : string)
| JArr (l : list json)
| JObj (m : list (string * json)).

(** Induction over documents. *)
Section JsonInd.
  Variable P : json -> Prop.
  Hypothesis Hflat : forall j, (forall l, j <> JArr l) -> (forall m, j <> JObj m) -> P j.
  Hypothesis Harr : forall l, Forall P l -> P (JArr l).
  Hypothesis Hobj : forall m, Forall (fun kv => P (snd kv)) m -> P (JObj m).
  Fixpoint json_nest_ind (j : json) : P j.
  Proof.
    destruct j as [ | | | | | l | m ]; try (apply Hflat; discriminate).
    - apply Harr. induction l as [|a l IH]; constructor; [apply json_nest_ind | exact IH].
    - apply Hobj. induction m as [|a m IH]; constructor; [apply json_nest_ind | exact IH].
  Defined.
End JsonInd.

(** rapidjson's classification of an integer (document.h:1119-1122 and 790-830, the flags set
    by the constructors) and the assignment chosen for it (from_json.cc:64-71; the operators
    are include/GenericContainer/GenericContainer.hh:3525, 3533, 3541, 3549). *)
Definition decode_int (z : Z) (g : gc) : gc :=
  if (- 2^31 <=? z) && (z <? 2^31) then set_int z g            (* IsInt *)
  else if (0 <=? z) && (z <? 2^32) then set_uint z g           (* IsUint *)
  else if (- 2^63 <=? z) && (z <? 2^63) then set_long z g      (* IsInt64 *)
  else set_ulong z g.                                          (* IsUint64 *)

(** decode_json (from_json.cc:54-93).  The result is always true: the last branch is for a
    value of no JSON type.  For an array, set_vector(n) keeps the elements already stored (and
    all of them if n is 0) and each is decoded in place; for an object, the entries of a map
    already stored are kept.  Names and strings go through GetString(), a char const*.  The
    number of elements of a rapidjson array fits in 32 bits. *)
Fixpoint decode_json (j : json) (g : gc) : gc :=
  match j with
  | JNull => clear g
  | JBool b => set_bool b g
  | JInt z => decode_int z g
  | JDbl x => set_real x g
  | JStr s => set_string (cstr s) g
  | JArr l =>
      GVec ((fix go (l : list json) (v : list gc) : list gc :=
               match l, v with
               | x :: l', e :: v' => decode_json x e :: go l' v'
               | _, _ => v
               end) l (alloc_vec (zlen l) g))
  | JObj m =>
      GMap ((fix go (m : list (string * json)) (acc : list (string * gc)) : list (string * gc) :=
               match m with
               | [] => acc
               | (k, x) :: m' =>
                   let slot := match mfind (cstr k) acc with Some e => e | None => GNone end in
                   go m' (mset (cstr k) (decode_json x slot) acc)
               end) m (old_map g))
  end.

(** The two loops as functions of their own, for the proofs. *)
Fixpoint decode_all (l : list json) (v : list gc) : list gc :=
  match l, v with
  | x :: l', e :: v' => decode_json x e :: decode_all l' v'
  | _, _ => v
  end.
Fixpoint decode_members (m : list (string * json)) (acc : list (string * gc)) : list (string * gc) :=
  match m with
  | [] => acc
  | (k, x) :: m' =>
      let slot := match mfind (cstr k) acc with Some e => e | None => GNone end in
      decode_members m' (mset (cstr k) (decode_json x slot) acc)
  end.
Lemma decode_arr l g : decode_json (JArr l) g = GVec (decode_all l (alloc_vec (zlen l) g)).
Proof. reflexivity. Qed.
Lemma decode_obj m g : decode_json (JObj m) g = GMap (decode_members m (old_map g)).
Proof. reflexivity. Qed.

(** What a reader does after decoding, when exceptions of collapse escape (from_json.cc:
    117-118). *)
Definition finish (g : gc) : out bool * gc :=
  let '(r, g') := collapse g in (omap (fun _ => true) r, g').

(** from_json (from_json.cc:95-120) given the outcome of the parser: [None] is a parse error
    (the container is left as it is). *)
Definition from_json (d : option json) (g : gc) : out bool * gc :=
  match d with
  | None => (Ok false, g)
  | Some j => finish (decode_json j g)
  end.

(** JSON_to_GC and file_JSON_to_GC (include/GenericContainer/
    GenericContainerInterface_json.hh:48-98). *)
Definition JSON_to_GC (d : option json) (g : gc) : out bool * gc := from_json d (clear g).

Example from_json_ex :
  from_json (Some (JObj [("b"%string, JArr [JInt 1; JInt 2]); ("a"%string, JStr "x"%string)])) GNone =
    (Ok true, GMap [("a"%string, GStr "x"%string); ("b"%string, GVInt [1; 2])]) /\
  from_json (Some (JArr [])) (GVec [GInt 1]) = (Ok true, GVInt [1]) /\
  decode_json (JInt (2^31)) GNone = GInt (- 2^31).
Proof. vmc. Qed.
