(** Specification vocabulary for documents: the data a JSON tree stands for. *)
From Coq Require Import ZArith Bool Lia Ascii String List.
From Verif Require Import Base F64 StrMap Value SGet SPromote SCollapse MJson.
Import ListNotations.
Local Open Scope Z_scope.

(** Entries ordered by key; of several entries with the same key the last one counts. *)
Definition by_key {A} (m : list (string * A)) : list (string * A) :=
  fold_left (fun acc kv => mset (fst kv) (snd kv) acc) m [].

(** The data of a document (booleans are the numbers 0 and 1, as in [data_of]). *)
Fixpoint json_data (j : json) : dat :=
  match j with
  | JNull => DNull
  | JBool b => d_int (if b then 1 else 0)
  | JInt z => d_int z
  | JDbl x => d_real x
  | JStr s => DStr s
  | JArr l => DList (map json_data l)
  | JObj m => DMap (by_key (map (fun kv => (fst kv, json_data (snd kv))) m))
  end.

(** [P] holds of the document and of every value in it. *)
Fixpoint jall (P : json -> Prop) (j : json) : Prop :=
  P j /\
  match j with
  | JArr l => (fix all (l : list json) : Prop :=
                 match l with [] => True | a :: l' => jall P a /\ all l' end) l
  | JObj m => (fix all (l : list (string * json)) : Prop :=
                 match l with [] => True | a :: l' => jall P (snd a) /\ all l' end) m
  | _ => True
  end.
Lemma jall_arr P l : jall P (JArr l) <-> P (JArr l) /\ Forall (jall P) l.
Proof.
  cbn. apply and_iff_compat_l. induction l as [|a v IH]; split; intros H; auto.
  - destruct H. constructor; [assumption|]. now apply IH.
  - inversion H; subst. split; [assumption|]. now apply IH.
Qed.
Lemma jall_obj P m : jall P (JObj m) <-> P (JObj m) /\ Forall (fun kv => jall P (snd kv)) m.
Proof.
  cbn. apply and_iff_compat_l. induction m as [|a v IH]; split; intros H; auto.
  - destruct H. constructor; [assumption|]. now apply IH.
  - inversion H; subst. split; [assumption|]. now apply IH.
Qed.
Lemma jall_here P j : jall P j -> P j.
Proof. destruct j; intros [H _]; exact H. Qed.

(** What rapidjson guarantees: integers that fit in 64 bits, doubles, arrays with fewer than
    2^32 elements. *)
Definition ranged (j : json) : Prop :=
  match j with
  | JInt z => - 2^63 <= z < 2^64
  | JDbl x => f64 x
  | JArr l => zlen l < 2^32
  | _ => True
  end.
(** Strings and member names without zero characters, member names pairwise different. *)
Definition plain_strings (j : json) : Prop :=
  match j with
  | JStr s => no_nul s
  | JObj m => Forall no_nul (map fst m)
  | _ => True
  end.
Definition distinct_names (j : json) : Prop :=
  match j with JObj m => NoDup (map fst m) | _ => True end.
(** Integers that the code stores as they are. *)
Definition signed_int (j : json) : Prop :=
  match j with JInt z => - 2^63 <= z < 2^31 \/ 2^32 <= z < 2^63 | _ => True end.

(** No array (or array of arrays) merges a real with an integer beyond 32 bits that is not
    exactly a double. *)
Definition jmerging (j : json) : list json :=
  match j with JArr w => w | JObj _ | JNull => [] | _ => [j] end.
Definition no_jreal (j : json) : Prop := match j with JDbl _ => False | _ => True end.
Definition jlong_ok (j : json) : Prop :=
  match j with JInt z => - 2^31 <= z < 2^31 \/ representable z | _ => True end.
Definition unrounded_doc (j : json) : Prop :=
  match j with
  | JArr l => (forall a, In a l -> Forall no_jreal (jmerging a)) \/ (forall a, In a l -> Forall jlong_ok (jmerging a))
  | _ => True
  end.
(** In particular when all integers beyond 32 bits are exactly doubles. *)
Definition exact_ints (j : json) : Prop :=
  match j with JInt z => - 2^31 <= z < 2^31 \/ representable z | _ => True end.
(** An array mixes shapes when it contains a scalar and an array of one element, or null and an
    empty array. *)
Definition not_jmixed (j : json) : Prop :=
  match j with
  | JArr l =>
      (forall a b, In a l -> In (JArr [b]) l ->
         match a with JBool _ | JInt _ | JDbl _ | JStr _ => False | _ => True end) /\
      ~ (In JNull l /\ In (JArr []) l)
  | _ => True
  end.

(** Number of values in the document. *)
Fixpoint jsize (j : json) : Z :=
  match j with
  | JArr l => 1 + (fix sum (l : list json) : Z := match l with [] => 0 | a :: l' => jsize a + sum l' end) l
  | JObj m => 1 + (fix sum (l : list (string * json)) : Z :=
                     match l with [] => 0 | a :: l' => jsize (snd a) + sum l' end) m
  | _ => 1
  end.

(** The old content cannot be seen after reading [j] over [g]: below every array and object
    of the document, an old VECTOR sits under a non-empty array (or is empty) and an old MAP has
    only members that the object names. *)
Fixpoint hides (j : json) (g : gc) : Prop :=
  match j, g with
  | JArr l, GVec v =>
      (l = [] -> v = []) /\
      (fix go (l : list json) (v : list gc) : Prop :=
         match l, v with x :: l', e :: v' => hides x e /\ go l' v' | _, _ => True end) l v
  | JObj m, GMap old =>
      (forall k, In k (map fst old) -> In k (map fst m)) /\
      (fix go (m : list (string * json)) : Prop :=
         match m with
         | [] => True
         | (k, x) :: m' => match mfind k old with Some e => hides x e | None => True end /\ go m'
         end) m
  | _, _ => True
  end.
Fixpoint hides_all (l : list json) (v : list gc) : Prop :=
  match l, v with x :: l', e :: v' => hides x e /\ hides_all l' v' | _, _ => True end.
Lemma hides_arr l v : hides (JArr l) (GVec v) <-> (l = [] -> v = []) /\ hides_all l v.
Proof. reflexivity. Qed.
Lemma hides_obj m old : hides (JObj m) (GMap old) <->
  (forall k, In k (map fst old) -> In k (map fst m)) /\
  (forall k x e, In (k, x) m -> mfind k old = Some e -> hides x e).
Proof.
  cbn. apply and_iff_compat_l. induction m as [|(k, x) m IH].
  - split; [intros _ k x e []|auto].
  - rewrite IH. split.
    + intros (H1 & H2) k' x' e [E|Hin] Hf; [|eauto]. injection E as <- <-. now rewrite Hf in H1.
    + intros H. split; [|intros k' x' e Hin Hf; apply (H k' x' e); [now right|assumption]].
      destruct (mfind k old) as [e|] eqn:E; [|exact I]. apply (H k x e); [now left|exact E].
Qed.
