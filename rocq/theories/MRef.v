(** Model of the non-const getters, which return a reference into the container and may
    change it first (src/GenericContainer.cc:2012-2309, 2919-3166). *)
From Coq Require Import ZArith Bool Lia Ascii String List.
From Verif Require Import Base F64 StrMap Value MBasic MGet MMap MMat MPromote.
Import ListNotations.
Local Open Scope Z_scope.

(** A returned reference: the value it shows and the container that results when a value is
    stored through it ([put a] with the shown [a] is the container when nothing is stored);
    or the failure of the call with the container it leaves behind. *)
Inductive refr (A : Type) : Type :=
| Ref (a : A) (put : A -> gc)
| Bad (o : out unit) (g : gc).
Arguments Ref {A} a put.
Arguments Bad {A} o g.

Definition failed {A} (o : out unit) : out A :=
  match o with Throw => Throw | Diverge => Diverge | _ => Undef end.
(** Using the reference for reading, and for writing [x]. *)
Definition rread {A} (r : refr A) : out A * gc :=
  match r with Ref a put => (Ok a, put a) | Bad o g => (failed o, g) end.
Definition rwrite {A} (x : A) (r : refr A) : out unit * gc :=
  match r with Ref _ put => (Ok tt, put x) | Bad o g => (failed o, g) end.

(** Continue after a promotion unless it failed. *)
Definition after {A} (p : out unit * gc) (k : gc -> refr A) : refr A :=
  match p with (Ok _, g) => k g | (o, g) => Bad o g end.

(** ck_or_set (src/GenericContainer.cc:743-747) followed by the union member: on NOTYPE the
    tag is set and the uninitialised member is shown; the value shown is undefined, so the
    read is, but storing through the reference is not.  [Fresh] keeps the two apart. *)
Inductive sref (A : Type) : Type := Shown (r : refr A) | Fresh (put : A -> gc).
Arguments Shown {A} r.
Arguments Fresh {A} put.
Definition sread {A} (r : sref A) : out A * gc :=
  match r with Shown r => rread r | Fresh _ => (Undef, GNone) end.
Definition swrite {A} (x : A) (r : sref A) : out unit * gc :=
  match r with Shown r => rwrite x r | Fresh put => (Ok tt, put x) end.

(** get_bool, get_int, get_long, get_real (2012-2016, 2024-2028, 2036-2040, 2076-2080). *)
Definition ref_bool (g : gc) : sref bool :=
  match g with GNone => Fresh GBool | GBool b => Shown (Ref b GBool) | _ => Shown (Bad Throw g) end.
Definition ref_int (g : gc) : sref Z :=
  match g with GNone => Fresh GInt | GInt i => Shown (Ref i GInt) | _ => Shown (Bad Throw g) end.
Definition ref_long (g : gc) : sref Z :=
  match g with GNone => Fresh GLong | GLong l => Shown (Ref l GLong) | _ => Shown (Bad Throw g) end.
Definition ref_real (g : gc) : sref Z :=
  match g with GNone => Fresh GReal | GReal r => Shown (Ref r GReal) | _ => Shown (Bad Throw g) end.
(** get_complex 2088-2098, get_string 2106-2116. *)
Definition ref_complex (g : gc) : refr cplx :=
  match g with GNone => Ref c_zero GComplex | GComplex c => Ref c GComplex | _ => Bad Throw g end.
Definition ref_string (g : gc) : refr string :=
  match g with GNone => Ref EmptyString GStr | GStr s => Ref s GStr | _ => Bad Throw g end.
(** get_vector 2124-2128, get_vec_pointer 2136-2140, get_vec_bool 2148-2152,
    get_vec_string 2295-2299, get_map 2307-2311: no promotion, also from NOTYPE. *)
Definition ref_vector (g : gc) : refr (list gc) :=
  match g with GVec v => Ref v GVec | _ => Bad Throw g end.
Definition ref_vec_pointer (g : gc) : refr (list Z) :=
  match g with GVPtr v => Ref v GVPtr | _ => Bad Throw g end.
Definition ref_vec_bool (g : gc) : refr (list bool) :=
  match g with GVBool v => Ref v GVBool | _ => Bad Throw g end.
Definition ref_vec_string (g : gc) : refr (list string) :=
  match g with GVStr v => Ref v GVStr | _ => Bad Throw g end.
Definition ref_map (g : gc) : refr (list (string * gc)) :=
  match g with GMap m => Ref m GMap | _ => Bad Throw g end.

(** The reference itself once the container has the right type, else ck throws. *)
Definition as_vint (g : gc) : refr (list Z) := match g with GVInt v => Ref v GVInt | _ => Bad Throw g end.
Definition as_vlong (g : gc) : refr (list Z) := match g with GVLong v => Ref v GVLong | _ => Bad Throw g end.
Definition as_vreal (g : gc) : refr (list Z) := match g with GVReal v => Ref v GVReal | _ => Bad Throw g end.
Definition as_vcomplex (g : gc) : refr (list cplx) := match g with GVComplex v => Ref v GVComplex | _ => Bad Throw g end.
Definition as_mint (g : gc) : refr (mat Z) := match g with GMInt m => Ref m GMInt | _ => Bad Throw g end.
Definition as_mlong (g : gc) : refr (mat Z) := match g with GMLong m => Ref m GMLong | _ => Bad Throw g end.
Definition as_mreal (g : gc) : refr (mat Z) := match g with GMReal m => Ref m GMReal | _ => Bad Throw g end.
Definition as_mcomplex (g : gc) : refr (mat cplx) := match g with GMComplex m => Ref m GMComplex | _ => Bad Throw g end.

(** get_vec_int 2160-2166. *)
Definition ref_vec_int (g : gc) : refr (list Z) :=
  match g with
  | GNone => as_vint (set_vint_sz 0 g)
  | GVBool _ => after (promote_to_vec_int g) as_vint
  | _ => as_vint g
  end.
(** get_vec_long 2174-2181. *)
Definition ref_vec_long (g : gc) : refr (list Z) :=
  match g with
  | GNone => as_vlong (set_vlong_sz 0 g)
  | GVBool _ | GVInt _ => after (promote_to_vec_long g) as_vlong
  | _ => as_vlong g
  end.
(** get_vec_real 2189-2197. *)
Definition ref_vec_real (g : gc) : refr (list Z) :=
  match g with
  | GNone => as_vreal (set_vreal_sz 0 g)
  | GVBool _ | GVInt _ | GVLong _ => after (promote_to_vec_real g) as_vreal
  | _ => as_vreal g
  end.
(** get_vec_complex 2205-2214. *)
Definition ref_vec_complex (g : gc) : refr (list cplx) :=
  match g with
  | GNone => as_vcomplex (set_vcomplex_sz 0 g)
  | GVBool _ | GVInt _ | GVLong _ | GVReal _ => after (promote_to_vec_complex g) as_vcomplex
  | _ => as_vcomplex g
  end.
(** get_mat_int 2222-2231. *)
Definition ref_mat_int (g : gc) : refr (mat Z) :=
  match g with
  | GNone => as_mint (set_mint_sz 0 0 g)
  | GVBool _ | GVInt _ | GVLong _ | GVReal _ => after (promote_to_mat_int g) as_mint
  | _ => as_mint g
  end.
(** get_mat_long 2239-2249. *)
Definition ref_mat_long (g : gc) : refr (mat Z) :=
  match g with
  | GNone => as_mlong (set_mlong_sz 0 0 g)
  | GVBool _ | GVInt _ | GVLong _ | GVReal _ | GMInt _ => after (promote_to_mat_long g) as_mlong
  | _ => as_mlong g
  end.
(** get_mat_real 2257-2268. *)
Definition ref_mat_real (g : gc) : refr (mat Z) :=
  match g with
  | GNone => as_mreal (set_mreal_sz 0 0 g)
  | GVBool _ | GVInt _ | GVLong _ | GVReal _ | GMInt _ | GMLong _ =>
      after (promote_to_mat_real g) as_mreal
  | _ => as_mreal g
  end.
(** get_mat_complex 2276-2287. *)
Definition ref_mat_complex (g : gc) : refr (mat cplx) :=
  match g with
  | GNone => as_mcomplex (set_mcomplex_sz 0 0 g)
  | GVBool _ | GVInt _ | GVLong _ | GVReal _ | GMReal _ | GVComplex _ =>
      after (promote_to_mat_complex g) as_mcomplex
  | _ => as_mcomplex g
  end.

(** CHECK_RESIZE and v[i] on the stored vector. *)
Definition grow_ref {A} (mk : list A -> gc) (d : A) (i : Z) (v : list A) : refr A :=
  let w := check_resize d i v in
  match znth i w with
  | Some a => Ref a (fun x => mk (lset (Z.to_nat i) x w))
  | None => Bad Undef (mk w)
  end.
(** The end of every get_T_at(i): the container becomes a VECTOR unless it is one, grows, and
    its i-th element is overwritten by the default value (set_bool(false), set_int(0), ...). *)
Definition vslot {A} (k : A -> gc) (d : A) (i : Z) (g : gc) : refr A :=
  after (match g with GVec _ => (Ok tt, g) | _ => promote_to_vector g end)
    (fun g => match g with
      | GVec v =>
          let w := check_resize GNone i v in
          match znth i w with
          | Some _ => Ref d (fun x => GVec (lset (Z.to_nat i) (k x) w))
          | None => Bad Undef (GVec w)
          end
      | _ => Bad Undef g
      end).
(** get_bool_at(i) 2919-2929.  It returns a bool, so nothing is stored through it. *)
Definition ref_bool_at (i : Z) (g : gc) : refr bool :=
  match g with
  | GNone => grow_ref GVBool false i []
  | GVBool v => grow_ref GVBool false i v
  | _ => vslot GBool false i g
  end.
(** get_int_at(i) 2941-2954. *)
Definition vint_at (i : Z) (g : gc) : refr Z :=
  match g with GVInt v => grow_ref GVInt 0 i v | _ => vslot GInt 0 i g end.
Definition ref_int_at (i : Z) (g : gc) : refr Z :=
  match g with
  | GNone => vint_at i (set_vint_sz 0 g)
  | GBool _ | GInt _ | GVBool _ => after (promote_to_vec_int g) (vint_at i)
  | _ => vint_at i g
  end.
(** get_long_at(i) 2990-3005. *)
Definition vlong_at (i : Z) (g : gc) : refr Z :=
  match g with GVLong v => grow_ref GVLong 0 i v | _ => vslot GLong 0 i g end.
Definition ref_long_at (i : Z) (g : gc) : refr Z :=
  match g with
  | GNone => vlong_at i (set_vlong_sz 0 g)
  | GBool _ | GInt _ | GLong _ | GVBool _ | GVInt _ => after (promote_to_vec_long g) (vlong_at i)
  | _ => vlong_at i g
  end.
(** get_real_at(i) 3042-3055: scalars are not in the list of promoted types. *)
Definition vreal_at (i : Z) (g : gc) : refr Z :=
  match g with GVReal v => grow_ref GVReal f_zero i v | _ => vslot GReal f_zero i g end.
Definition ref_real_at (i : Z) (g : gc) : refr Z :=
  match g with
  | GNone => vreal_at i (set_vreal_sz 0 g)
  | GVBool _ | GVInt _ | GVLong _ => after (promote_to_vec_real g) (vreal_at i)
  | _ => vreal_at i g
  end.
(** get_complex_at(i) 3093-3107. *)
Definition vcomplex_at (i : Z) (g : gc) : refr cplx :=
  match g with GVComplex v => grow_ref GVComplex c_zero i v | _ => vslot GComplex c_zero i g end.
Definition ref_complex_at (i : Z) (g : gc) : refr cplx :=
  match g with
  | GNone => vcomplex_at i (set_vcomplex_sz 0 g)
  | GVBool _ | GVInt _ | GVLong _ | GVReal _ => after (promote_to_vec_complex g) (vcomplex_at i)
  | _ => vcomplex_at i g
  end.
(** get_string_at(i) 3143-3152: operator[] instead of CHECK_RESIZE, same effect. *)
Definition ref_string_at (i : Z) (g : gc) : refr string :=
  match g with
  | GNone => grow_ref GVStr EmptyString i []
  | GVStr v => grow_ref GVStr EmptyString i v
  | _ => vslot GStr EmptyString i g
  end.

(** (i,j) of the stored matrix: vector::at. *)
Definition mat_ref {A} (mk : mat A -> gc) (i j : Z) (m : mat A) : refr A :=
  match znth (mpos m i j) (mdata m) with
  | Some a => Ref a (fun x => mk (Mat (mrows m) (mcols m) (lset (Z.to_nat (mpos m i j)) x (mdata m))))
  | None => Bad Throw (mk m)
  end.
Definition mint_at (i j : Z) (g : gc) : refr Z :=
  match g with GMInt m => mat_ref GMInt i j m | _ => Bad Throw g end.
Definition mlong_at (i j : Z) (g : gc) : refr Z :=
  match g with GMLong m => mat_ref GMLong i j m | _ => Bad Throw g end.
Definition mreal_at (i j : Z) (g : gc) : refr Z :=
  match g with GMReal m => mat_ref GMReal i j m | _ => Bad Throw g end.
Definition mcomplex_at (i j : Z) (g : gc) : refr cplx :=
  match g with GMComplex m => mat_ref GMComplex i j m | _ => Bad Throw g end.
(** get_int_at(i,j) 2966-2978, get_long_at(i,j) 3017-3030: from NOTYPE a MAT_REAL of i rows
    and j columns is made. *)
Definition ref_int_at2 (i j : Z) (g : gc) : refr Z :=
  match g with
  | GNone => mint_at i j (set_mreal_sz i j g)
  | GVBool _ | GVInt _ => after (promote_to_mat_int g) (mint_at i j)
  | _ => mint_at i j g
  end.
Definition ref_long_at2 (i j : Z) (g : gc) : refr Z :=
  match g with
  | GNone => mlong_at i j (set_mreal_sz i j g)
  | GVBool _ | GVInt _ | GVLong _ => after (promote_to_mat_long g) (mlong_at i j)
  | _ => mlong_at i j g
  end.
(** get_real_at(i,j) 3067-3081. *)
Definition ref_real_at2 (i j : Z) (g : gc) : refr Z :=
  match g with
  | GNone => mreal_at i j (set_mreal_sz i j g)
  | GVBool _ | GVInt _ | GVLong _ | GVReal _ => after (promote_to_mat_real g) (mreal_at i j)
  | _ => mreal_at i j g
  end.
(** get_complex_at(i,j) 3119-3135. *)
Definition ref_complex_at2 (i j : Z) (g : gc) : refr cplx :=
  match g with
  | GNone => mcomplex_at i j (set_mcomplex_sz i j g)
  | GVBool _ | GVInt _ | GVLong _ | GVReal _ | GVComplex _ | GMReal _ =>
      after (promote_to_mat_complex g) (mcomplex_at i j)
  | _ => mcomplex_at i j g
  end.

Example ref_ex :
  rwrite 7 (ref_int_at 3 (GVInt [1; 2])) = (Ok tt, GVInt [1; 2; 0; 7]) /\
  rread (ref_int_at 1 (GVec [GInt 1; GInt 2])) = (Ok 0, GVec [GInt 1; GInt 0]) /\
  rread (ref_real_at 0 (GVInt [3])) = (Ok (f_of_Z 3), GVReal [f_of_Z 3]) /\
  rread (ref_int_at2 1 1 GNone) = (Throw, GMReal (Mat 1 1 [0])) /\
  rwrite 5 (ref_real_at2 0 1 (GMReal (Mat 1 2 [1; 2]))) = (Ok tt, GMReal (Mat 1 2 [1; 5])).
Proof. vmc. Qed.
