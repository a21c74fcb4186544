(** Specification vocabulary for writing YAML: a part of YAML 1.2 (block sequences, block
    mappings with plain keys, and JSON values on one line, which are flow nodes) and the tree
    each text stands for. *)
From Coq Require Import ZArith Bool Lia Ascii String List.
From Verif Require Import Base F64 StrMap Value SGet SPromote SCollapse MNum MText MJson SJson SJsonText MYaml SDocs SToJson.
Import ListNotations.
Local Open Scope Z_scope.

Definition line_end : ascii := ch 10.
Definition spaces (n : nat) : text := repeat (ch 32) n.

(** Keys that need no quotes: a letter, underscore or dollar sign followed by such characters,
    digits, dots and dashes, at most 1024 of them, and not a spelling of null or a boolean. *)
Definition key_start (c : ascii) : Prop :=
  (65 <= byte c <= 90)%N \/ (97 <= byte c <= 122)%N \/ c = "_"%char \/ c = "$"%char.
Definition key_char (c : ascii) : Prop := key_start c \/ (48 <= byte c <= 57)%N \/ c = "."%char \/ c = "-"%char.
Definition reserved : list string :=
  ["null"; "Null"; "NULL"; "true"; "True"; "TRUE"; "false"; "False"; "FALSE"]%string.
Definition yaml_key (k : string) : Prop :=
  (exists c t, txt k = c :: t /\ key_start c /\ Forall key_char t /\ zlen t < 1024) /\ ~ In k reserved.

(** The tree of a JSON value. *)
Fixpoint flow_tree (j : json) : yaml :=
  match j with
  | JNull => YNull
  | JBool b => YBool b
  | JInt z => YInt z
  | JDbl x => YFlt x
  | JStr s => YStr s
  | JArr l => YSeq (map flow_tree l)
  | JObj m => YMap (map (fun kv => (YStr (fst kv), flow_tree (snd kv))) m)
  end.

(** What may follow "- " or "key: ": a JSON value on the rest of the line, or on the following
    lines a sequence or mapping indented by [n] or more; its entries are all indented alike and
    what follows them is indented more. *)
Inductive ynode : nat -> text -> yaml -> Prop :=
| yn_flow n t j : jval false t j -> ~ In line_end t -> ynode n (t ++ [line_end]) (flow_tree j)
| yn_seq n m t l : (n <= m)%nat -> yseq m t l -> ynode n (line_end :: t) (YSeq l)
| yn_map n m t l : (n <= m)%nat -> ymap m t l -> ynode n (line_end :: t) (YMap l)
with yseq : nat -> text -> list yaml -> Prop :=
| ys_one m t y : ynode (S m) t y -> yseq m (spaces m ++ txt "- " ++ t) [y]
| ys_more m t y ts l : ynode (S m) t y -> yseq m ts l -> yseq m (spaces m ++ txt "- " ++ t ++ ts) (y :: l)
with ymap : nat -> text -> list (yaml * yaml) -> Prop :=
| ym_one m k t y : yaml_key k -> ynode (S m) t y -> ymap m (spaces m ++ txt k ++ txt ": " ++ t) [(YStr k, y)]
| ym_more m k t y ts l : yaml_key k -> ynode (S m) t y -> ymap m ts l ->
    ymap m (spaces m ++ txt k ++ txt ": " ++ t ++ ts) ((YStr k, y) :: l).
(** Documents. *)
Definition yaml_text (t : text) (y : yaml) : Prop := ynode 0 t y.

(** What to_yaml can write: what to_json can, no complex numbers, and keys that need no quotes. *)
Definition yaml_node (g : gc) : Prop :=
  json_node g /\
  match g with
  | GComplex _ | GVComplex _ => False
  | GMap m => Forall (fun kv => yaml_key (fst kv)) m
  | _ => True
  end.
