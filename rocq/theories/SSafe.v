(** When a statement on a container is undefined behaviour, in terms of the content of the
    container (vectors of fewer than 2^32 elements). *)
From Coq Require Import ZArith Bool Lia Ascii String List.
From Verif Require Import Base F64 StrMap Value SCopy MOps.
Import ListNotations.
Local Open Scope Z_scope.

(** One value of a basic type. *)
Definition scalar (g : gc) : Prop :=
  match g with GPtr _ | GBool _ | GInt _ | GLong _ | GReal _ | GComplex _ | GStr _ => True | _ => False end.
(** Nothing, or a vector of any kind. *)
Definition row (g : gc) : Prop :=
  match g with
  | GNone | GVPtr _ | GVBool _ | GVInt _ | GVLong _ | GVReal _ | GVComplex _ | GVStr _ | GVec _ => True
  | _ => False
  end.
(** A vector with elements that become a matrix of the target type. *)
Definition to_int_column (g : gc) : Prop :=
  match g with GVBool (_ :: _) | GVInt (_ :: _) => True | _ => False end.
Definition to_complex_column (g : gc) : Prop :=
  match g with GVBool (_ :: _) | GVInt (_ :: _) | GVLong (_ :: _) | GVReal (_ :: _) => True | _ => False end.
Definition last_index : Z := 2^32 - 1.
(** get_T_at(i): [up] are the scalars turned into vectors of T. *)
Definition slot_hazard (up : gc -> Prop) (i : Z) (g : gc) : Prop :=
  (row g \/ up g) /\ i = last_index \/ scalar g /\ ~ up g.
Definition is_bool_int (g : gc) : Prop := match g with GBool _ | GInt _ => True | _ => False end.
Definition is_bool_int_long (g : gc) : Prop := match g with GBool _ | GInt _ | GLong _ => True | _ => False end.
Definition nothing (g : gc) : Prop := False.

(** The parts a statement works on. *)
Definition member (k : string) (g : gc) : gc :=
  match g with GMap m => match mfind k m with Some e => e | None => GNone end | _ => GNone end.
Definition element (i : Z) (g : gc) : gc :=
  match g with GVec v => nth (Z.to_nat i) v GNone | _ => GNone end.

Fixpoint hazard (o : op) (g : gc) : Prop :=
  match o with
  | Promote ToVec | PushStr _ => scalar g
  | Promote ToMInt | PutMInt _ | PutIntAt2 _ _ _ => to_int_column g
  | Promote ToMComplex | PutMComplex _ | PutComplexAt2 _ _ _ => to_complex_column g
  | ShowBoolAt i => slot_hazard nothing i g
  | PutIntAt i _ => slot_hazard is_bool_int i g
  | PutLongAt i _ => slot_hazard is_bool_int_long i g
  | PutRealAt i _ | PutComplexAt i _ | PutStrAt i _ => slot_hazard nothing i g
  | Key k o' => hazard o' (member (cstr k) g)
  | Idx i o' => i = last_index \/ hazard o' (element i g)
  | CallKey k o' => exists m e, g = GMap m /\ mfind (cstr k) m = Some e /\ hazard o' e
  | CallIdx i o' => exists v, g = GVec v /\ i < zlen v /\ hazard o' (element i g)
  | MapAt k o' => exists m, g = GMap m /\ hazard o' (member k g)
  | Back o' => exists v, g = GVec v /\ (v = [] \/ exists w e, v = w ++ [e] /\ hazard o' e)
  | DropBack => g = GVec []
  | _ => False
  end.

(** The statements this is about: all but collapse and the readers. *)
Fixpoint core (o : op) : Prop :=
  match o with
  | Collapse | ReadTable _ _ _ | ReadTable2 _ _ _ _ | ReadPars _ _ _ _ | ReadJson2 _ | ReadJson _ | ReadYaml _ | ReadToml _
  | DeSerialize _ _ | LuaGlobal _ _ _ | LuaCall _ _ _ _ _ | ReadMx _ | MatPush _ => False
  | Key _ o' | Idx _ o' | CallKey _ o' | CallIdx _ o' | MapAt _ o' | Back o' => core o'
  | _ => True
  end.
(** Arguments in the ranges of their types, containers and vectors of fewer than 2^32
    elements. *)
Fixpoint small_args (o : op) : Prop :=
  match o with
  | SetVPtr v => few v | SetVBool v => few v | SetVInt v => few v | SetVLong v => few v | SetVReal v => few v
  | SetVComplex v => few v | SetVStr v => few v
  | SetMInt m | SetMLong m | SetMReal m => wf_mat (fun _ => True) m | SetMComplex m => wf_mat (fun _ => True) m
  | Assign src | ToGc src | Merge src => wf src /\ fits src
  | Key _ o' | CallKey _ o' | MapAt _ o' | Back o' => small_args o'
  | Idx i o' | CallIdx i o' => uint32 i /\ small_args o'
  | ShowBoolAt i | PutIntAt i _ | PutLongAt i _ | PutRealAt i _ | PutComplexAt i _ | PutStrAt i _ => uint32 i
  | _ => True
  end.
Definition undefined {A} (r : out A) : Prop := match r with Undef | Diverge => True | _ => False end.
