(** Model of the TOML reader that sits on the toml++ node tree
    (src_toml_interface/from_toml.cc:73-204) and of the wrappers TOML_to_GC
    (include/GenericContainer/GenericContainerInterface_toml.hh:50-96).  The toml++ parser is
    third-party code: the model starts from the table it returns, or from "the parser
    throws". *)
From Coq Require Import ZArith Bool Lia Ascii String List.
From Verif Require Import Base F64 StrMap Value MBasic MMap MCollapse MYaml.
Import ListNotations.
Local Open Scope Z_scope.

(** A toml::node: integers are std::int64_t, floats are double; of a date, time or date-time
    only the text that operator<< writes for it matters.  The entries of a table are in the
    order of iteration (a std::map, so the keys are different). *)
Inductive toml : Type :=
| TStrN (s : string)
| TIntN (z : Z)
| TFltN (x : Z)
| TBoolN (b : bool)
| TDate (s : string)
| TTime (s : string)
| TDateTime (s : string)
| TTbl (m : list (string * toml))
| TArr (l : list toml).

(** Induction over node trees. *)
Section TomlInd.
  Variable P : toml -> Prop.
  Hypothesis Hflat : forall t, (forall l, t <> TArr l) -> (forall m, t <> TTbl m) -> P t.
  Hypothesis Harr : forall l, Forall P l -> P (TArr l).
  Hypothesis Htbl : forall m, Forall (fun kv => P (snd kv)) m -> P (TTbl m).
  Fixpoint toml_nest_ind (t : toml) : P t.
  Proof.
    destruct t as [ | | | | | | | m | l ]; try (apply Hflat; discriminate).
    - apply Htbl. induction m as [|a m IH]; constructor; [apply toml_nest_ind | exact IH].
    - apply Harr. induction l as [|a l IH]; constructor; [apply toml_nest_ind | exact IH].
  Defined.
End TomlInd.

Definition is_string (t : toml) : bool := match t with TStrN _ => true | _ => false end.
Definition is_integer (t : toml) : bool := match t with TIntN _ => true | _ => false end.
Definition is_float (t : toml) : bool := match t with TFltN _ => true | _ => false end.
Definition is_table (t : toml) : bool := match t with TTbl _ => true | _ => false end.
(** is_array_of_tables (src_toml_interface/toml++/impl/array.hpp:459-462, array.inl:145-158):
    false for the empty array. *)
Definition tables_only (l : list toml) : bool :=
  match l with [] => false | _ => forallb is_table l end.
(** as_string()->get() and so on, on an element already tested. *)
Definition text_of (t : toml) : string := match t with TStrN s => s | _ => EmptyString end.
Definition int_of (t : toml) : Z := match t with TIntN z => z | _ => 0 end.
Definition flt_of (t : toml) : Z := match t with TFltN x => x | _ => 0 end.

(** gc["$date"] = text (from_toml.cc:100-116; operator=(string),
    include/GenericContainer/GenericContainer.hh:3667-3668). *)
Definition put_text (k s : string) (g : gc) : out unit * gc :=
  with_key k (fun e => (Ok tt, set_string s e)) g.

(** TOML_to_GC (from_toml.cc:73-185).  The result is always true (the last branch is for a
    node of no TOML type), so it is left out.  Entries of a map and elements of vectors
    already stored are kept: tables and general arrays decode in place, arrays of strings, of
    integers and of floats append.  emplace_back narrows the 64-bit integer to 32 bits
    (from_toml.cc:157).  gc[i++] narrows the index to 32 bits. *)
Fixpoint TOML_to_GC (t : toml) (g : gc) : out unit * gc :=
  match t with
  | TStrN s => (Ok tt, set_string s g)
  | TIntN z => (Ok tt, decode_int64 z g)
  | TFltN x => (Ok tt, set_real x g)
  | TBoolN b => (Ok tt, set_bool b g)
  | TDate s => put_text "$date"%string s g
  | TTime s => put_text "$time"%string s g
  | TDateTime s => put_text "$date_time"%string s g
  | TTbl m =>
      let '(r, acc) := (fix go (m : list (string * toml)) (acc : list (string * gc)) : out unit * list (string * gc) :=
               match m with
               | [] => (Ok tt, acc)
               | (k, x) :: m' =>
                   match TOML_to_GC x (match mfind k acc with Some e => e | None => GNone end) with
                   | (Ok _, e') => go m' (mset k e' acc)
                   | (r, e') => (r, mset k e' acc)
                   end
               end) m (old_map g) in (r, GMap acc)
  | TArr l =>
      let items := (fix go (l : list toml) (i : Z) (g : gc) : out unit * gc :=
               match l with
               | [] => (Ok tt, g)
               | x :: l' =>
                   match with_idx (to_u32 i) (TOML_to_GC x) g with
                   | (Ok _, g') => go l' (i + 1) g'
                   | rg => rg
                   end
               end) in
      if tables_only l then items l 0 (set_vector_sz 0 g)
      else if forallb is_string l then (Ok tt, GVStr (alloc_vstr 0 g ++ map text_of l))
      else if forallb is_integer l then (Ok tt, GVInt (alloc_vint 0 g ++ map (fun x => to_i32 (int_of x)) l))
      else if forallb is_float l then (Ok tt, GVReal (alloc_vreal 0 g ++ map flt_of l))
      else items l 0 (set_vector_sz 0 g)
  end.

(** The two loops as functions of their own, for the proofs. *)
Fixpoint toml_members (m : list (string * toml)) (acc : list (string * gc)) : out unit * list (string * gc) :=
  match m with
  | [] => (Ok tt, acc)
  | (k, x) :: m' =>
      match TOML_to_GC x (match mfind k acc with Some e => e | None => GNone end) with
      | (Ok _, e') => toml_members m' (mset k e' acc)
      | (r, e') => (r, mset k e' acc)
      end
  end.
Fixpoint toml_items (l : list toml) (i : Z) (g : gc) : out unit * gc :=
  match l with
  | [] => (Ok tt, g)
  | x :: l' =>
      match with_idx (to_u32 i) (TOML_to_GC x) g with
      | (Ok _, g') => toml_items l' (i + 1) g'
      | rg => rg
      end
  end.
Lemma toml_tbl m g : TOML_to_GC (TTbl m) g = let '(r, acc) := toml_members m (old_map g) in (r, GMap acc).
Proof. reflexivity. Qed.
Lemma toml_arr l g : TOML_to_GC (TArr l) g =
  if tables_only l then toml_items l 0 (set_vector_sz 0 g)
  else if forallb is_string l then (Ok tt, GVStr (alloc_vstr 0 g ++ map text_of l))
  else if forallb is_integer l then (Ok tt, GVInt (alloc_vint 0 g ++ map (fun x => to_i32 (int_of x)) l))
  else if forallb is_float l then (Ok tt, GVReal (alloc_vreal 0 g ++ map flt_of l))
  else toml_items l 0 (set_vector_sz 0 g).
Proof. reflexivity. Qed.

(** from_toml (from_toml.cc:187-204) given the table the parser returns, [None] if it
    throws. *)
Definition from_toml (d : option (list (string * toml))) (g : gc) : out bool * gc :=
  match d with
  | None => (Ok false, g)
  | Some m => caught (then_collapse (TOML_to_GC (TTbl m) g))
  end.
(** TOML_to_GC and file_TOML_to_GC (include/GenericContainer/
    GenericContainerInterface_toml.hh:50-96). *)
Definition GC_from_TOML (d : option (list (string * toml))) (g : gc) : out bool * gc := from_toml d (clear g).

Example from_toml_ex :
  from_toml (Some [("a"%string, TArr [TIntN 1; TIntN (2^32 + 2)]); ("b"%string, TArr [TIntN 1; TBoolN true]);
                   ("d"%string, TDate "2020-01-02"%string)]) GNone =
    (Ok true, GMap [("a"%string, GVInt [1; 2]); ("b"%string, GVInt [1; 1]);
                    ("d"%string, GMap [("$date"%string, GStr "2020-01-02"%string)])]) /\
  from_toml (Some [("a"%string, TArr [TIntN 3])]) (GMap [("a"%string, GVInt [1; 2])]) =
    (Ok true, GMap [("a"%string, GVInt [1; 2; 3])]).
Proof. vmc. Qed.
