(** Model of a program using containers: any sequence of calls of the member functions that
    change a container, on the container itself or on parts of it reached through references,
    with containers built in the same way as arguments.  The functions are those of the other
    model files; this file only puts them side by side. *)
From Coq Require Import ZArith Bool Lia Ascii String List.
From Verif Require Import Base F64 StrMap Value MBasic MGet MMap MMat MPromote MRef MCopy MCollapse MNum MText MJson MJson2 MSerialize MRapid MYaml MToml MLua MMatlab.
Import ListNotations.
Local Open Scope Z_scope.

(** The promote_to_T functions (src/GenericContainerPromote.cc:1120-1986). *)
Inductive target : Type :=
| ToInt | ToLong | ToReal | ToComplex | ToVInt | ToVLong | ToVReal | ToVComplex
| ToMInt | ToMLong | ToMReal | ToMComplex | ToVec.
Definition promote (t : target) : gc -> out unit * gc :=
  match t with
  | ToInt => promote_to_int | ToLong => promote_to_long | ToReal => promote_to_real
  | ToComplex => promote_to_complex | ToVInt => promote_to_vec_int | ToVLong => promote_to_vec_long
  | ToVReal => promote_to_vec_real | ToVComplex => promote_to_vec_complex
  | ToMInt => promote_to_mat_int | ToMLong => promote_to_mat_long
  | ToMReal => promote_to_mat_real | ToMComplex => promote_to_mat_complex | ToVec => promote_to_vector
  end.

(** One statement of the program.  [Key], [Idx], [CallKey], [CallIdx] apply a statement to
    the reference returned by operator[](string), operator[](unsigned), operator()(string),
    operator()(unsigned) (src/GenericContainer.cc:3397-3401, 3263-3271, 3318-3334, 3298-3306);
    [MapAt] and [Back] to `get_map()[k]` and `get_vector().back()`, [Grow] is
    `get_vector().emplace_back()` and [DropBack] `get_vector().pop_back()`
    (include/GenericContainer/GenericContainer.hh:151-152; src/GenericContainer.cc:2124,
    2307: the references are to a std::vector and a std::map of containers).  The statements
    [Put...] assign to the result of a non-const getter (src/GenericContainer.cc:2012-2309,
    2919-3166).  [ReadPars] is read_formatted_data2 seen from the container of the parameters
    (src/GenericContainerSupport.cc:102-139).  The last statements are the readers of the other
    formats, from the tree of the parser or from the value of the other language on (MRapid.v,
    MYaml.v, MToml.v, MLua.v, MMatlab.v). *)
Inductive op : Type :=
| Clear | FreePointer
| SetPtr (p : Z) | SetBool (b : bool) | SetInt (i : Z) | SetLong (l : Z) | SetReal (r : Z)
| SetComplex (c : cplx) | SetStr (s : string) | SetUint (u : Z) | SetUlong (u : Z)
| SizeVPtr (n : Z) | SizeVBool (n : Z) | SizeVInt (n : Z) | SizeVLong (n : Z) | SizeVReal (n : Z)
| SizeVComplex (n : Z) | SizeVStr (n : Z) | SizeVec (n : Z) | SetMap
| SizeMInt (nr nc : Z) | SizeMLong (nr nc : Z) | SizeMReal (nr nc : Z) | SizeMComplex (nr nc : Z)
| SetVPtr (v : list Z) | SetVBool (v : list bool) | SetVInt (v : list Z) | SetVLong (v : list Z)
| SetVReal (v : list Z) | SetVComplex (v : list cplx) | SetVStr (v : list string)
| SetMInt (m : mat Z) | SetMLong (m : mat Z) | SetMReal (m : mat Z) | SetMComplex (m : mat cplx)
| Erase (k : string)
| PushBool (b : bool) | PushInt (i : Z) | PushLong (l : Z) | PushReal (r : Z) | PushComplex (c : cplx) | PushStr (s : string)
| Promote (t : target) | Collapse
| Assign (src : gc) | ToGc (src : gc) | Merge (src : gc)
| Key (k : string) (o : op) | Idx (i : Z) (o : op) | CallKey (k : string) (o : op) | CallIdx (i : Z) (o : op)
| ConstKey (k : string)
| MapAt (k : string) (o : op) | Grow | DropBack | Back (o : op)
| PutBool (b : bool) | PutInt (i : Z) | PutLong (l : Z) | PutReal (r : Z) | PutComplex (c : cplx) | PutStr (s : string)
| PutVPtr (v : list Z) | PutVBool (v : list bool) | PutVInt (v : list Z) | PutVLong (v : list Z)
| PutVReal (v : list Z) | PutVComplex (v : list cplx) | PutVStr (v : list string)
| PutMInt (m : mat Z) | PutMLong (m : mat Z) | PutMReal (m : mat Z) | PutMComplex (m : mat cplx)
| ShowBoolAt (i : Z) | PutIntAt (i x : Z) | PutLongAt (i x : Z) | PutRealAt (i x : Z) | PutComplexAt (i : Z) (c : cplx)
| PutStrAt (i : Z) (s : string)
| PutIntAt2 (i j x : Z) | PutLongAt2 (i j x : Z) | PutRealAt2 (i j x : Z) | PutComplexAt2 (i j : Z) (c : cplx)
| ReadTable (cc dl t : text) | ReadJson2 (t : text) | DeSerialize (fuel : nat) (buf : list Z)
| ReadTable2 (cc dl t : text) (pars : option gc) | ReadPars (cc dl t : text) (data : gc)
| ReadJson (t : text) | ReadYaml (d : option yaml) | ReadToml (d : option (list (string * toml)))
| LuaGlobal (cap : Z) (v : lua) (st : list lua)
| LuaCall (cap : Z) (global : string -> lua) (run : string -> lua -> option lua) (io : gc) (st : list lua)
| ReadMx (a : mx)
| MatPush (x : Z).

Definition sets_to (g : gc) : out unit * gc := (Ok tt, g).
Definition forget {A} (r : out A * gc) : out unit * gc := (omap (fun _ => tt) (fst r), snd r).
(** The last element of a std::vector; back() and pop_back() of an empty one are undefined. *)
Definition with_back (f : gc -> out unit * gc) (v : list gc) : out unit * gc :=
  match rev v with
  | [] => (Undef, GVec v)
  | e :: r => let '(o, e') := f e in (o, GVec (rev r ++ [e']))
  end.

(** Outcome of a statement and the container afterwards.  [MatPush]: mat_type derives publicly
    from std::vector (include/GenericContainer/GenericContainer.hh:169), so
    `get_mat_int().push_back(x)` compiles. *)
Fixpoint perform (o : op) (g : gc) {struct o} : out unit * gc :=
  match o with
  | Clear => sets_to (clear g)
  | FreePointer => free_pointer g
  | SetPtr p => sets_to (set_pointer p g)
  | SetBool b => sets_to (set_bool b g)
  | SetInt i => sets_to (set_int i g)
  | SetLong l => sets_to (set_long l g)
  | SetReal r => sets_to (set_real r g)
  | SetComplex c => sets_to (set_complex c g)
  | SetStr s => sets_to (set_string s g)
  | SetUint u => sets_to (set_uint u g)
  | SetUlong u => sets_to (set_ulong u g)
  | SizeVPtr n => sets_to (set_vptr_sz n g)
  | SizeVBool n => sets_to (set_vbool_sz n g)
  | SizeVInt n => sets_to (set_vint_sz n g)
  | SizeVLong n => sets_to (set_vlong_sz n g)
  | SizeVReal n => sets_to (set_vreal_sz n g)
  | SizeVComplex n => sets_to (set_vcomplex_sz n g)
  | SizeVStr n => sets_to (set_vstr_sz n g)
  | SizeVec n => sets_to (set_vector_sz n g)
  | SetMap => sets_to (set_map0 g)
  | SizeMInt nr nc => sets_to (set_mint_sz nr nc g)
  | SizeMLong nr nc => sets_to (set_mlong_sz nr nc g)
  | SizeMReal nr nc => sets_to (set_mreal_sz nr nc g)
  | SizeMComplex nr nc => sets_to (set_mcomplex_sz nr nc g)
  | SetVPtr v => overwrite (set_vptr v g) g
  | SetVBool v => overwrite (set_vbool v g) g
  | SetVInt v => overwrite (set_vint v g) g
  | SetVLong v => overwrite (set_vlong v g) g
  | SetVReal v => overwrite (set_vreal v g) g
  | SetVComplex v => overwrite (set_vcomplex v g) g
  | SetVStr v => overwrite (set_vstr v g) g
  | SetMInt m => overwrite (set_mint m g) g
  | SetMLong m => overwrite (set_mlong m g) g
  | SetMReal m => overwrite (set_mreal m g) g
  | SetMComplex m => overwrite (set_mcomplex m g) g
  | Erase k => erase k g
  | PushBool b => push_bool b g
  | PushInt i => push_int i g
  | PushLong l => push_long l g
  | PushReal r => push_real r g
  | PushComplex c => push_complex c g
  | PushStr s => push_string s g
  | Promote t => promote t g
  | Collapse => collapse g
  | Assign src => overwrite (from_gc src g) g
  | ToGc src => overwrite (to_gc src g) g
  | Merge src => merge src g
  | Key k o' => with_key k (perform o') g
  | Idx i o' => with_idx i (perform o') g
  | CallKey k o' => call_key_with k (perform o') g
  | CallIdx i o' => call_idx_with i (perform o') g
  | ConstKey k => forget (const_idx_key k g)
  | MapAt k o' =>
      match g with
      | GMap m => let '(r, e) := perform o' (match mfind k m with Some e => e | None => GNone end) in
                  (r, GMap (mset k e m))
      | _ => (Throw, g)
      end
  | Grow => match g with GVec v => sets_to (GVec (v ++ [GNone])) | _ => (Throw, g) end
  | DropBack => match g with GVec v => (match v with [] => Undef | _ => Ok tt end, GVec (removelast v)) | _ => (Throw, g) end
  | Back o' => match g with GVec v => with_back (perform o') v | _ => (Throw, g) end
  | PutBool b => swrite b (ref_bool g)
  | PutInt i => swrite i (ref_int g)
  | PutLong l => swrite l (ref_long g)
  | PutReal r => swrite r (ref_real g)
  | PutComplex c => rwrite c (ref_complex g)
  | PutStr s => rwrite s (ref_string g)
  | PutVPtr v => rwrite v (ref_vec_pointer g)
  | PutVBool v => rwrite v (ref_vec_bool g)
  | PutVInt v => rwrite v (ref_vec_int g)
  | PutVLong v => rwrite v (ref_vec_long g)
  | PutVReal v => rwrite v (ref_vec_real g)
  | PutVComplex v => rwrite v (ref_vec_complex g)
  | PutVStr v => rwrite v (ref_vec_string g)
  | PutMInt m => rwrite m (ref_mat_int g)
  | PutMLong m => rwrite m (ref_mat_long g)
  | PutMReal m => rwrite m (ref_mat_real g)
  | PutMComplex m => rwrite m (ref_mat_complex g)
  | ShowBoolAt i => forget (rread (ref_bool_at i g))
  | PutIntAt i x => rwrite x (ref_int_at i g)
  | PutLongAt i x => rwrite x (ref_long_at i g)
  | PutRealAt i x => rwrite x (ref_real_at i g)
  | PutComplexAt i c => rwrite c (ref_complex_at i g)
  | PutStrAt i s => rwrite s (ref_string_at i g)
  | PutIntAt2 i j x => rwrite x (ref_int_at2 i j g)
  | PutLongAt2 i j x => rwrite x (ref_long_at2 i j g)
  | PutRealAt2 i j x => rwrite x (ref_real_at2 i j g)
  | PutComplexAt2 i j c => rwrite c (ref_complex_at2 i j g)
  | ReadTable cc dl t => read_formatted_data cc dl (open t) g
  | ReadJson2 t => forget (from_json2 t g)
  | DeSerialize fuel buf => forget (de_serialize_vector fuel buf g)
  | ReadTable2 cc dl t pars => fst (read_formatted_data2 cc dl (open t) pars g)
  | ReadPars cc dl t data =>
      match read_formatted_data2 cc dl (open t) (Some g) data with
      | (r, _, Some p) => (r, p)
      | (r, _, None) => (r, g)
      end
  | ReadJson t => forget (from_json_text t g)
  | ReadYaml d => forget (from_yaml d g)
  | ReadToml d => forget (from_toml d g)
  | LuaGlobal cap v st => fst (Lua_global_to_GC cap v st g)
  | LuaCall cap global run io st => fst (interpreter_call cap global run io st g)
  | ReadMx a => mx_to_GC a g
  | MatPush x => match ref_mat_int g with
                 | Ref m put => (Ok tt, put (Mat (mrows m) (mcols m) (mdata m ++ [x])))
                 | Bad o g' => (failed o, g')
                 end
  end.

Example perform_ex :
  perform (Key "a"%string (Idx 1 (PushInt 5))) GNone =
    (Ok tt, GMap [("a"%string, GVec [GNone; GVInt [0; 5]])]) /\
  perform (Key "a"%string (CallIdx 7 Clear)) (GMap [("a"%string, GVec [GNone])]) =
    (Throw, GMap [("a"%string, GVec [GNone])]) /\
  perform (MapAt "k"%string (SetStr "x"%string)) (GMap []) = (Ok tt, GMap [("k"%string, GStr "x"%string)]) /\
  perform (Back (SetInt 3)) (GVec [GNone; GNone]) = (Ok tt, GVec [GNone; GInt 3]) /\
  fst (perform (MatPush 3) (GMInt (Mat 1 1 [7]))) = Ok tt.
Proof. vmc. Qed.
