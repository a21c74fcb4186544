(** Specification vocabulary for writing TOML: the form of a container as a TOML tree. *)
From Coq Require Import ZArith Bool Lia Ascii String List.
From Verif Require Import Base F64 StrMap Value SGet SPromote SCollapse MToml.
Import ListNotations.
Local Open Scope Z_scope.

(** Booleans, integers, floats and strings are the scalars of TOML; vectors are arrays, maps
    tables with the same keys in the same order, a complex number is the array of its parts. *)
Definition pair_of (c : cplx) : toml := TArr [TFltN (fst c); TFltN (snd c)].
Inductive toml_form : gc -> toml -> Prop :=
| tf_bool b : toml_form (GBool b) (TBoolN b)
| tf_int i : toml_form (GInt i) (TIntN i)
| tf_long l : toml_form (GLong l) (TIntN l)
| tf_real x : toml_form (GReal x) (TFltN x)
| tf_cplx c : toml_form (GComplex c) (pair_of c)
| tf_str s : toml_form (GStr s) (TStrN s)
| tf_vbool v : toml_form (GVBool v) (TArr (map TBoolN v))
| tf_vint v : toml_form (GVInt v) (TArr (map TIntN v))
| tf_vlong v : toml_form (GVLong v) (TArr (map TIntN v))
| tf_vreal v : toml_form (GVReal v) (TArr (map TFltN v))
| tf_vcplx v : toml_form (GVComplex v) (TArr (map pair_of v))
| tf_vstr v : toml_form (GVStr v) (TArr (map TStrN v))
| tf_vec v l : Forall2 toml_form v l -> toml_form (GVec v) (TArr l)
| tf_map m l : Forall2 (fun a b => fst a = fst b /\ toml_form (snd a) (snd b)) m l -> toml_form (GMap m) (TTbl l).

(** What has that form: no empty container, pointer or matrix. *)
Definition has_form (g : gc) : Prop := ~ In (tag_of g) [TNone; TPtr; TVPtr; TMInt; TMLong; TMReal; TMComplex].
(** What moreover is data of a TOML document: no complex numbers. *)
Definition toml_node (g : gc) : Prop := has_form g /\ ~ In (tag_of g) [TComplex; TVComplex].

(** Vectors of integers alone hold 32-bit integers. *)
Definition narrow_node (g : gc) : Prop :=
  match g with
  | GVLong v => Forall int32 v
  | GVec v => (forall a, In a v -> In (tag_of a) [TInt; TLong]) -> forall l, In (GLong l) v -> int32 l
  | _ => True
  end.

(** The member of that name in a table. *)
Fixpoint member (k : string) (m : list (string * toml)) : option toml :=
  match m with [] => None | (k', t) :: m' => if String.eqb k k' then Some t else member k m' end.
