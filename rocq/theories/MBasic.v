(** Model of construction, allocation, typed set operations, element counts and type names
    (src/GenericContainer.cc:280-402, 586-1138). *)
From Coq Require Import ZArith Bool Lia Ascii String List.
From Verif Require Import Base F64 StrMap Value.
Import ListNotations.
Local Open Scope Z_scope.

(** src/GenericContainer.cc:280-306 to_string(GC_type); get_type_name. *)
Definition type_name (t : tag) : string :=
  match t with
  | TNone => "NOTYPE" | TPtr => "pointer" | TBool => "bool_type" | TInt => "int_type"
  | TLong => "long_type" | TReal => "real_type" | TComplex => "complex_type"
  | TStr => "string_type" | TVPtr => "vec_pointer_type" | TVBool => "vec_bool_type"
  | TVInt => "vec_int_type" | TVLong => "vec_long_type" | TVReal => "vec_real_type"
  | TVComplex => "vec_complex_type" | TVStr => "vec_string_type" | TMInt => "mat_int_type"
  | TMLong => "mat_long_type" | TMReal => "mat_real_type" | TMComplex => "mat_complex_type"
  | TVec => "vector_type" | TMap => "map_type"
  end%string.

(** src/GenericContainer.cc:586-624 clear.  Destruction of the payload has no value. *)
Definition clear (g : gc) : gc := GNone.

(** src/GenericContainer.cc:784-796 free_pointer. *)
Definition free_pointer (g : gc) : out unit * gc :=
  match g with
  | GPtr _ | GNone => (Ok tt, GNone)
  | _ => (Throw, g)
  end.

(** src/GenericContainer.cc:637-666 get_num_elements (size() truncated to unsigned). *)
Definition num_elements (g : gc) : Z :=
  match g with
  | GNone => 0
  | GPtr _ | GBool _ | GInt _ | GLong _ | GReal _ | GComplex _ | GStr _ => 1
  | GVPtr v => to_u32 (zlen v)
  | GVBool v => to_u32 (zlen v)
  | GVInt v => to_u32 (zlen v)
  | GVLong v => to_u32 (zlen v)
  | GVReal v => to_u32 (zlen v)
  | GVComplex v => to_u32 (zlen v)
  | GVStr v => to_u32 (zlen v)
  | GMInt m => to_u32 (zlen (mdata m))
  | GMLong m => to_u32 (zlen (mdata m))
  | GMReal m => to_u32 (zlen (mdata m))
  | GMComplex m => to_u32 (zlen (mdata m))
  | GVec v => to_u32 (zlen v)
  | GMap m => to_u32 (zlen m)
  end.

(** src/GenericContainer.cc:668-694 num_rows. *)
Definition num_rows (g : gc) : Z :=
  match g with
  | GNone => 0
  | GMInt m => mrows m
  | GMLong m => mrows m
  | GMReal m => mrows m
  | GMComplex m => mrows m
  | _ => 1
  end.

(** src/GenericContainer.cc:696-724 num_cols. *)
Definition num_cols (g : gc) : Z :=
  match g with
  | GNone => 0
  | GPtr _ | GBool _ | GInt _ | GLong _ | GReal _ | GComplex _ | GStr _ => 1
  | GVPtr v => to_u32 (zlen v)
  | GVBool v => to_u32 (zlen v)
  | GVInt v => to_u32 (zlen v)
  | GVLong v => to_u32 (zlen v)
  | GVReal v => to_u32 (zlen v)
  | GVComplex v => to_u32 (zlen v)
  | GVStr v => to_u32 (zlen v)
  | GMInt m => mcols m
  | GMLong m => mcols m
  | GMReal m => mcols m
  | GMComplex m => mcols m
  | GVec v => to_u32 (zlen v)
  | GMap m => to_u32 (zlen m)
  end.

(** include/GenericContainer/GenericContainer.hh:701 and 708. *)
Definition simple_data (g : gc) : bool := tag_num (tag_of g) <=? tag_num TStr.
Definition simple_vec_data (g : gc) : bool := tag_num (tag_of g) <? tag_num TVStr.

(** std::vector::resize(sz) guarded by `if ( sz > 0 )` (src/GenericContainer.cc:774-846,
    892-910); new elements are value-initialised to [d]. *)
Definition valloc {A} (d : A) (sz : Z) (old : list A) : list A :=
  if 0 <? sz then resize d (Z.to_nat sz) old else old.

(** The vector already stored when the container has the given type, otherwise the new
    empty vector (the `if ( m_data_type != ... )` of each allocate_T function). *)
Definition old_vptr (g : gc) := match g with GVPtr v => v | _ => [] end.
Definition old_vbool (g : gc) := match g with GVBool v => v | _ => [] end.
Definition old_vint (g : gc) := match g with GVInt v => v | _ => [] end.
Definition old_vlong (g : gc) := match g with GVLong v => v | _ => [] end.
Definition old_vreal (g : gc) := match g with GVReal v => v | _ => [] end.
Definition old_vcomplex (g : gc) := match g with GVComplex v => v | _ => [] end.
Definition old_vstr (g : gc) := match g with GVStr v => v | _ => [] end.
Definition old_vec (g : gc) := match g with GVec v => v | _ => [] end.
Definition old_map (g : gc) := match g with GMap m => m | _ => [] end.
Definition old_mint (g : gc) := match g with GMInt m => mdata m | _ => [] end.
Definition old_mlong (g : gc) := match g with GMLong m => mdata m | _ => [] end.
Definition old_mreal (g : gc) := match g with GMReal m => mdata m | _ => [] end.
Definition old_mcomplex (g : gc) := match g with GMComplex m => mdata m | _ => [] end.

(** 0.0 and 0.0+0.0i, the value-initialised doubles. *)
Definition f_zero : Z := 0.
Definition c_zero : cplx := (0, 0).

(** allocate_vec_T and set_vec_T(sz) (src/GenericContainer.cc:774-846, 892-910 and
    986-1061, 1115-1132): the argument is an unsigned size. *)
Definition alloc_vptr (sz : Z) (g : gc) : list Z := valloc 0 sz (old_vptr g).
Definition alloc_vbool (sz : Z) (g : gc) : list bool := valloc false sz (old_vbool g).
Definition alloc_vint (sz : Z) (g : gc) : list Z := valloc 0 sz (old_vint g).
Definition alloc_vlong (sz : Z) (g : gc) : list Z := valloc 0 sz (old_vlong g).
Definition alloc_vreal (sz : Z) (g : gc) : list Z := valloc f_zero sz (old_vreal g).
Definition alloc_vcomplex (sz : Z) (g : gc) : list cplx := valloc c_zero sz (old_vcomplex g).
Definition alloc_vstr (sz : Z) (g : gc) : list string := valloc EmptyString sz (old_vstr g).
Definition alloc_vec (sz : Z) (g : gc) : list gc := valloc GNone sz (old_vec g).

(** mat_type constructor and resize (include/GenericContainer/GenericContainer.hh:189-211):
    the number of stored elements is the 32-bit product. *)
Definition mresize {A} (d : A) (nr nc : Z) (old : list A) : mat A :=
  Mat nr nc (resize d (Z.to_nat (to_u32 (nr * nc))) old).

(** allocate_mat_T and set_mat_T(nr,nc) (src/GenericContainer.cc:848-890, 1063-1107). *)
Definition alloc_mint (nr nc : Z) (g : gc) : mat Z := mresize 0 nr nc (old_mint g).
Definition alloc_mlong (nr nc : Z) (g : gc) : mat Z := mresize 0 nr nc (old_mlong g).
Definition alloc_mreal (nr nc : Z) (g : gc) : mat Z := mresize f_zero nr nc (old_mreal g).
Definition alloc_mcomplex (nr nc : Z) (g : gc) : mat cplx := mresize c_zero nr nc (old_mcomplex g).

(** std::copy into an existing range: writing past its end is undefined. *)
Definition copy_into {A} (src dst : list A) : out (list A) :=
  if (length src <=? length dst)%nat then Ok (src ++ skipn (length src) dst) else Undef.

(** set_pointer/bool/int/long/real/complex (src/GenericContainer.cc:929-978): clear(), then
    tag and value. *)
Definition set_pointer (p : Z) (g : gc) : gc := GPtr p.
Definition set_bool (b : bool) (g : gc) : gc := GBool b.
Definition set_int (i : Z) (g : gc) : gc := GInt i.
Definition set_long (l : Z) (g : gc) : gc := GLong l.
Definition set_real (r : Z) (g : gc) : gc := GReal r.
Definition set_complex (c : cplx) (g : gc) : gc := GComplex c.
(** set_string (src/GenericContainer.cc:980-984): the stored string is overwritten. *)
Definition set_string (s : string) (g : gc) : gc := GStr s.

(** set(uint), operator=(uint): stored as int (include/GenericContainer/GenericContainer.hh
    :3360, 3525); set(ulong), operator=(ulong): stored as long (:3386, 3541). *)
Definition set_uint (u : Z) (g : gc) : gc := GInt (to_i32 u).
Definition set_ulong (u : Z) (g : gc) : gc := GLong (to_i64 u).

(** set_vec_T(sz) (src/GenericContainer.cc:986-1061, 1115-1120) with their default size 0. *)
Definition set_vptr_sz (sz : Z) (g : gc) : gc := GVPtr (alloc_vptr sz g).
Definition set_vbool_sz (sz : Z) (g : gc) : gc := GVBool (alloc_vbool sz g).
Definition set_vint_sz (sz : Z) (g : gc) : gc := GVInt (alloc_vint sz g).
Definition set_vlong_sz (sz : Z) (g : gc) : gc := GVLong (alloc_vlong sz g).
Definition set_vreal_sz (sz : Z) (g : gc) : gc := GVReal (alloc_vreal sz g).
Definition set_vcomplex_sz (sz : Z) (g : gc) : gc := GVComplex (alloc_vcomplex sz g).
Definition set_vstr_sz (sz : Z) (g : gc) : gc := GVStr (alloc_vstr sz g).
(** set_vector(sz) and set_map() (src/GenericContainer.cc:1128-1138). *)
Definition set_vector_sz (sz : Z) (g : gc) : gc := GVec (alloc_vec sz g).
Definition set_map0 (g : gc) : gc := GMap (old_map g).
(** set_mat_T(nr,nc) (src/GenericContainer.cc:1063-1067, 1076-1080, 1089-1093, 1102-1106). *)
Definition set_mint_sz (nr nc : Z) (g : gc) : gc := GMInt (alloc_mint nr nc g).
Definition set_mlong_sz (nr nc : Z) (g : gc) : gc := GMLong (alloc_mlong nr nc g).
Definition set_mreal_sz (nr nc : Z) (g : gc) : gc := GMReal (alloc_mreal nr nc g).
Definition set_mcomplex_sz (nr nc : Z) (g : gc) : gc := GMComplex (alloc_mcomplex nr nc g).

(** set_vec_T(v) and operator=(vec_T) (src/GenericContainer.cc:992-1061, 1121-1126 and
    338-378): allocate v.size() truncated to unsigned, then std::copy of all of v. *)
Definition set_vptr (v : list Z) (g : gc) : out gc :=
  do w <- copy_into v (alloc_vptr (to_u32 (zlen v)) g) ; Ok (GVPtr w).
Definition set_vbool (v : list bool) (g : gc) : out gc :=
  do w <- copy_into v (alloc_vbool (to_u32 (zlen v)) g) ; Ok (GVBool w).
Definition set_vint (v : list Z) (g : gc) : out gc :=
  do w <- copy_into v (alloc_vint (to_u32 (zlen v)) g) ; Ok (GVInt w).
Definition set_vlong (v : list Z) (g : gc) : out gc :=
  do w <- copy_into v (alloc_vlong (to_u32 (zlen v)) g) ; Ok (GVLong w).
Definition set_vreal (v : list Z) (g : gc) : out gc :=
  do w <- copy_into v (alloc_vreal (to_u32 (zlen v)) g) ; Ok (GVReal w).
Definition set_vcomplex (v : list cplx) (g : gc) : out gc :=
  do w <- copy_into v (alloc_vcomplex (to_u32 (zlen v)) g) ; Ok (GVComplex w).
Definition set_vstr (v : list string) (g : gc) : out gc :=
  do w <- copy_into v (alloc_vstr (to_u32 (zlen v)) g) ; Ok (GVStr w).

(** set_mat_T(m) and operator=(mat_T) (src/GenericContainer.cc:1069-1113, 380-402): resize to
    the dimensions of m, then std::copy of all its elements. *)
Definition mcopy {A} (d : A) (m : mat A) (old : list A) : out (mat A) :=
  let n := mresize d (mrows m) (mcols m) old in
  do w <- copy_into (mdata m) (mdata n) ; Ok (Mat (mrows n) (mcols n) w).
Definition set_mint (m : mat Z) (g : gc) : out gc := omap GMInt (mcopy 0 m (old_mint g)).
Definition set_mlong (m : mat Z) (g : gc) : out gc := omap GMLong (mcopy 0 m (old_mlong g)).
Definition set_mreal (m : mat Z) (g : gc) : out gc := omap GMReal (mcopy f_zero m (old_mreal g)).
Definition set_mcomplex (m : mat cplx) (g : gc) : out gc :=
  omap GMComplex (mcopy c_zero m (old_mcomplex g)).

(** src/GenericContainer.cc:319-326 get_keys(vec_string&): the previous content of the output
    vector is discarded. *)
Definition get_keys (g : gc) : list string :=
  match g with GMap m => map fst m | _ => [] end.

(** src/GenericContainer.cc:328-336 get_keys(): keys joined by ", ". *)
Fixpoint drop_last (s : string) : string :=
  match s with
  | EmptyString => EmptyString
  | String _ EmptyString => EmptyString
  | String c s' => String c (drop_last s')
  end.
Definition get_keys_string (g : gc) : string :=
  match g with
  | GMap m =>
      let res := fold_left (fun r kv => (r ++ fst kv ++ ", ")%string) m EmptyString in
      match m with [] => res | _ => drop_last (drop_last res) end
  | _ => EmptyString
  end.

(** src/GenericContainer.cc:626-635 erase (declared const, but modifies the map). *)
Definition erase (k : string) (g : gc) : out unit * gc :=
  match g with
  | GMap m => (Ok tt, GMap (merase k m))
  | _ => (Throw, g)
  end.
