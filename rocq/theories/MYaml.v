(** Model of the YAML reader that sits on the fkyaml node tree
    (src_yaml_interface/from_yaml.cc:62-132) and of the wrappers YAML_to_GC
    (include/GenericContainer/GenericContainerInterface_yaml.hh:50-96).  The fkyaml parser is
    third-party code: the model starts from its node tree, or from "the parser throws". *)
From Coq Require Import ZArith Bool Lia Ascii String List.
From Verif Require Import Base F64 StrMap Value MBasic MCollapse.
Import ListNotations.
Local Open Scope Z_scope.

(** An fkyaml::node with the default template arguments (src_yaml_interface/fkYAML/
    fkyaml_fwd.hpp:29-37): integers are std::int64_t, floats are double, the keys of a mapping
    are nodes.  The entries are in the order of iteration. *)
Inductive yaml : Type :=
| YNull
| YBool (b : bool)
| YInt (z : Z)
| YFlt (x : Z)
| YStr (s : string)
| YSeq (l : list yaml)
| YMap (m : list (yaml * yaml)).

(** Induction over node trees; nothing is claimed about keys. *)
Section YamlInd.
  Variable P : yaml -> Prop.
  Hypothesis Hflat : forall y, (forall l, y <> YSeq l) -> (forall m, y <> YMap m) -> P y.
  Hypothesis Hseq : forall l, Forall P l -> P (YSeq l).
  Hypothesis Hmap : forall m, Forall (fun kv => P (snd kv)) m -> P (YMap m).
  Fixpoint yaml_nest_ind (y : yaml) : P y.
  Proof.
    destruct y as [ | | | | | l | m ]; try (apply Hflat; discriminate).
    - apply Hseq. induction l as [|a l IH]; constructor; [apply yaml_nest_ind | exact IH].
    - apply Hmap. induction m as [|a m IH]; constructor; [apply yaml_nest_ind | exact IH].
  Defined.
End YamlInd.

(** The integer branches of from_yaml.cc:75-83 and src_toml_interface/from_toml.cc:83-90. *)
Definition decode_int64 (z : Z) (g : gc) : gc :=
  if (- 2^31 <=? z) && (z <=? 2^31 - 1) then set_int z g else set_long z g.

(** get_value<std::string>() (src_yaml_interface/fkYAML/detail/conversions/
    from_node.hpp:541-547): throws on a node that is not a string. *)
Definition key_text (k : yaml) : out string := match k with YStr s => Ok s | _ => Throw end.

(** YAML_to_GC (from_yaml.cc:62-112).  The result is always true, so it is left out.  For a
    sequence, set_vector(N) keeps the elements already stored (all of them if N is 0) and each
    is decoded in place; [zlen l] is narrowed to 32 bits by set_vector, and V[i] beyond is
    undefined.  For a mapping, the entries of a map already stored are kept. *)
Fixpoint YAML_to_GC (y : yaml) (g : gc) : out unit * gc :=
  match y with
  | YNull => (Ok tt, clear g)
  | YBool b => (Ok tt, set_bool b g)
  | YInt z => (Ok tt, decode_int64 z g)
  | YFlt x => (Ok tt, set_real x g)
  | YStr s => (Ok tt, set_string s g)
  | YSeq l =>
      let '(r, v) := (fix go (l : list yaml) (v : list gc) : out unit * list gc :=
               match l, v with
               | [], _ => (Ok tt, v)
               | x :: l', e :: v' =>
                   match YAML_to_GC x e with
                   | (Ok _, e') => let '(r, w) := go l' v' in (r, e' :: w)
                   | (r, e') => (r, e' :: v')
                   end
               | _ :: _, [] => (Undef, v)
               end) l (alloc_vec (to_u32 (zlen l)) g) in (r, GVec v)
  | YMap m =>
      let '(r, acc) := (fix go (m : list (yaml * yaml)) (acc : list (string * gc)) : out unit * list (string * gc) :=
               match m with
               | [] => (Ok tt, acc)
               | (k, x) :: m' =>
                   match key_text k with
                   | Ok s =>
                       match YAML_to_GC x (match mfind s acc with Some e => e | None => GNone end) with
                       | (Ok _, e') => go m' (mset s e' acc)
                       | (r, e') => (r, mset s e' acc)
                       end
                   | Throw => (Throw, acc)
                   | Undef => (Undef, acc)
                   | Diverge => (Diverge, acc)
                   end
               end) m (old_map g) in (r, GMap acc)
  end.

(** The two loops as functions of their own, for the proofs. *)
Fixpoint yaml_all (l : list yaml) (v : list gc) : out unit * list gc :=
  match l, v with
  | [], _ => (Ok tt, v)
  | x :: l', e :: v' =>
      match YAML_to_GC x e with
      | (Ok _, e') => let '(r, w) := yaml_all l' v' in (r, e' :: w)
      | (r, e') => (r, e' :: v')
      end
  | _ :: _, [] => (Undef, v)
  end.
Fixpoint yaml_members (m : list (yaml * yaml)) (acc : list (string * gc)) : out unit * list (string * gc) :=
  match m with
  | [] => (Ok tt, acc)
  | (k, x) :: m' =>
      match key_text k with
      | Ok s =>
          match YAML_to_GC x (match mfind s acc with Some e => e | None => GNone end) with
          | (Ok _, e') => yaml_members m' (mset s e' acc)
          | (r, e') => (r, mset s e' acc)
          end
      | Throw => (Throw, acc)
      | Undef => (Undef, acc)
      | Diverge => (Diverge, acc)
      end
  end.
Lemma yaml_seq l g : YAML_to_GC (YSeq l) g =
  let '(r, v) := yaml_all l (alloc_vec (to_u32 (zlen l)) g) in (r, GVec v).
Proof. reflexivity. Qed.
Lemma yaml_map m g : YAML_to_GC (YMap m) g = let '(r, acc) := yaml_members m (old_map g) in (r, GMap acc).
Proof. reflexivity. Qed.

(** The body of the two try blocks after parsing (from_yaml.cc:119-121, from_toml.cc:192-193)
    and their handlers: every exception becomes the result false. *)
Definition caught (rg : out unit * gc) : out bool * gc :=
  match rg with
  | (Ok _, g) => (Ok true, g)
  | (Throw, g) => (Ok false, g)
  | (Undef, g) => (Undef, g)
  | (Diverge, g) => (Diverge, g)
  end.
Definition then_collapse (rg : out unit * gc) : out unit * gc :=
  match rg with (Ok _, g) => collapse g | _ => rg end.

(** from_yaml (from_yaml.cc:114-132) given the outcome of the parser: [None] if it throws. *)
Definition from_yaml (d : option yaml) (g : gc) : out bool * gc :=
  match d with
  | None => (Ok false, g)
  | Some y => caught (then_collapse (YAML_to_GC y g))
  end.
(** YAML_to_GC and file_YAML_to_GC (include/GenericContainer/
    GenericContainerInterface_yaml.hh:50-96). *)
Definition GC_from_YAML (d : option yaml) (g : gc) : out bool * gc := from_yaml d (clear g).

Example from_yaml_ex :
  from_yaml (Some (YMap [(YStr "b"%string, YSeq [YInt 1; YInt 2]); (YStr "a"%string, YStr "x"%string)])) GNone =
    (Ok true, GMap [("a"%string, GStr "x"%string); ("b"%string, GVInt [1; 2])]) /\
  from_yaml (Some (YMap [(YStr "b"%string, YInt 5); (YInt 1, YStr "x"%string)])) GNone =
    (Ok false, GMap [("b"%string, GInt 5)]) /\
  from_yaml (Some (YSeq [])) (GVec [GInt 1]) = (Ok true, GVInt [1]).
Proof. vmc. Qed.
