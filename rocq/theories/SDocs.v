(** Specification vocabulary for YAML and TOML documents: the plain document (as in JSON) a
    node tree stands for. *)
From Coq Require Import ZArith Bool Lia Ascii String List.
From Verif Require Import Base F64 StrMap Value MBasic SCollapse MJson SJson MYaml MToml.
Import ListNotations.
Local Open Scope Z_scope.

(** The document of a YAML tree whose keys are strings. *)
Definition key_name (k : yaml) : string := match k with YStr s => s | _ => EmptyString end.
Fixpoint yaml_doc (y : yaml) : json :=
  match y with
  | YNull => JNull
  | YBool b => JBool b
  | YInt z => JInt z
  | YFlt x => JDbl x
  | YStr s => JStr s
  | YSeq l => JArr (map yaml_doc l)
  | YMap m => JObj (map (fun kv => (key_name (fst kv), yaml_doc (snd kv))) m)
  end.
(** [P] holds of the tree and of every node in it (keys apart). *)
Fixpoint yall (P : yaml -> Prop) (y : yaml) : Prop :=
  P y /\
  match y with
  | YSeq l => (fix all (l : list yaml) : Prop :=
                 match l with [] => True | a :: l' => yall P a /\ all l' end) l
  | YMap m => (fix all (l : list (yaml * yaml)) : Prop :=
                 match l with [] => True | a :: l' => yall P (snd a) /\ all l' end) m
  | _ => True
  end.
Lemma yall_seq P l : yall P (YSeq l) <-> P (YSeq l) /\ Forall (yall P) l.
Proof.
  cbn. apply and_iff_compat_l. induction l as [|a v IH]; split; intros H; auto.
  - destruct H. constructor; [assumption|]. now apply IH.
  - inversion H; subst. split; [assumption|]. now apply IH.
Qed.
Lemma yall_map P m : yall P (YMap m) <-> P (YMap m) /\ Forall (fun kv => yall P (snd kv)) m.
Proof.
  cbn. apply and_iff_compat_l. induction m as [|a v IH]; split; intros H; auto.
  - destruct H. constructor; [assumption|]. now apply IH.
  - inversion H; subst. split; [assumption|]. now apply IH.
Qed.
Definition string_keys (y : yaml) : Prop :=
  match y with YMap m => Forall (fun kv => exists s, fst kv = YStr s) m | _ => True end.
(** Fewer than 2^32 elements in each sequence. *)
Definition short_seq (y : yaml) : Prop := match y with YSeq l => zlen l < 2^32 | _ => True end.

(** The document of a TOML tree; a date, time or date-time is an object with one member. *)
Fixpoint toml_doc (t : toml) : json :=
  match t with
  | TStrN s => JStr s
  | TIntN z => JInt z
  | TFltN x => JDbl x
  | TBoolN b => JBool b
  | TDate s => JObj [("$date"%string, JStr s)]
  | TTime s => JObj [("$time"%string, JStr s)]
  | TDateTime s => JObj [("$date_time"%string, JStr s)]
  | TTbl m => JObj (map (fun kv => (fst kv, toml_doc (snd kv))) m)
  | TArr l => JArr (map toml_doc l)
  end.
(** Arrays of integers alone hold 32-bit integers. *)
Definition narrow_arrays (j : json) : Prop :=
  match j with
  | JArr l => (forall x, In x l -> exists z, x = JInt z) -> forall z, In (JInt z) l -> - 2^31 <= z < 2^31
  | _ => True
  end.
