(** Which containers a program can hold: those reached from new ones by statements whose
    arguments are in the range of their C++ types. *)
From Coq Require Import ZArith Bool Lia Ascii String List.
From Verif Require Import Base F64 StrMap Value MJson SJson SDocs MLua SLua SMatlab MOps.
Import ListNotations.
Local Open Scope Z_scope.

Definition byte (b : Z) : Prop := 0 <= b < 256.

(** Numbers in the trees of YAML and TOML are 64-bit integers and doubles, as in Lua values. *)
Definition tree_fits (j : json) : Prop := match j with JInt z => int64 z | JDbl x => f64 x | _ => True end.
Definition lua_fits (v : lua) : Prop := match v with LInt z => int64 z | LNum x => f64 x | _ => True end.

(** The arguments of a statement without container arguments and parts. *)
Definition plain (o : op) : Prop :=
  match o with
  | SetPtr p => uint64 p | SetInt i => int32 i | SetLong l => int64 l | SetReal r => f64 r | SetComplex c => fc c
  | SetUint u => uint32 u | SetUlong u => uint64 u
  | SizeVPtr n | SizeVBool n | SizeVInt n | SizeVLong n | SizeVReal n | SizeVComplex n | SizeVStr n | SizeVec n => uint32 n
  | SizeMInt nr nc | SizeMLong nr nc | SizeMReal nr nc | SizeMComplex nr nc => uint32 nr /\ uint32 nc
  | SetVPtr v => Forall uint64 v | SetVInt v => Forall int32 v | SetVLong v => Forall int64 v
  | SetVReal v => Forall f64 v | SetVComplex v => Forall fc v
  | SetMInt m => wf_mat int32 m | SetMLong m => wf_mat int64 m | SetMReal m => wf_mat f64 m | SetMComplex m => wf_mat fc m
  | PushInt i => int32 i | PushLong l => int64 l | PushReal r => f64 r | PushComplex c => fc c
  | PutInt i => int32 i | PutLong l => int64 l | PutReal r => f64 r | PutComplex c => fc c
  | PutVPtr v => Forall uint64 v | PutVInt v => Forall int32 v | PutVLong v => Forall int64 v
  | PutVReal v => Forall f64 v | PutVComplex v => Forall fc v
  | PutMInt m => wf_mat int32 m | PutMLong m => wf_mat int64 m | PutMReal m => wf_mat f64 m | PutMComplex m => wf_mat fc m
  | ShowBoolAt i | PutStrAt i _ => uint32 i
  | PutIntAt i x => uint32 i /\ int32 x | PutLongAt i x => uint32 i /\ int64 x
  | PutRealAt i x => uint32 i /\ f64 x | PutComplexAt i c => uint32 i /\ fc c
  | PutIntAt2 i j x => uint32 i /\ uint32 j /\ int32 x | PutLongAt2 i j x => uint32 i /\ uint32 j /\ int64 x
  | PutRealAt2 i j x => uint32 i /\ uint32 j /\ f64 x | PutComplexAt2 i j c => uint32 i /\ uint32 j /\ fc c
  | DeSerialize _ buf => Forall byte buf
  | ReadYaml (Some y) => jall tree_fits (yaml_doc y)
  | ReadToml (Some m) => jall tree_fits (toml_doc (MToml.TTbl m))
  | LuaGlobal _ v _ => lall lua_fits v
  | LuaCall _ _ run _ _ => forall name arg v, run name arg = Some v -> lall lua_fits v
  | ReadMx a => mx_all mx_ok a
  | Assign _ | ToGc _ | Merge _ | Key _ _ | Idx _ _ | CallKey _ _ | CallIdx _ _ | MapAt _ _ | Back _ | MatPush _ => False
  | _ => True
  end.

(** A program goes on after a statement that returned and after one that threw (it may catch
    the exception); container arguments are containers of the program. *)
Inductive reachable : gc -> Prop :=
| r_new : reachable GNone
| r_step : forall o g r g', reachable g -> allowed o -> perform o g = (r, g') -> r = Ok tt \/ r = Throw -> reachable g'
with allowed : op -> Prop :=
| a_plain : forall o, plain o -> allowed o
| a_assign : forall src, reachable src -> allowed (Assign src)
| a_to_gc : forall src, reachable src -> allowed (ToGc src)
| a_merge : forall src, reachable src -> allowed (Merge src)
| a_key : forall k o, allowed o -> allowed (Key k o)
| a_idx : forall i o, uint32 i -> allowed o -> allowed (Idx i o)
| a_call_key : forall k o, allowed o -> allowed (CallKey k o)
| a_call_idx : forall i o, uint32 i -> allowed o -> allowed (CallIdx i o)
| a_map_at : forall k o, allowed o -> allowed (MapAt k o)
| a_back : forall o, allowed o -> allowed (Back o).
Scheme reachable_mind := Minimality for reachable Sort Prop
  with allowed_mind := Minimality for allowed Sort Prop.
