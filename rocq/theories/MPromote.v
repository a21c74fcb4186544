(** Model of promotions, copies to typed vectors/matrices and push operations
    (src/GenericContainerPromote.cc, src/GenericContainer.cc:1147-1244). *)
From Coq Require Import ZArith Bool Lia Ascii String List.
From Verif Require Import Base F64 StrMap Value MBasic MGet MMat.
Import ListNotations.
Local Open Scope Z_scope.

(** ** copyto_vec_T *)

(** The loop `for i < ne: val = ...; v.emplace_back(val)`: the second component is the output
    vector when the loop ends or is left by an exception. *)
Fixpoint push_all {A B} (cv : A -> out B) (l : list A) (acc : list B) : out unit * list B :=
  match l with
  | [] => (Ok tt, acc)
  | a :: l' =>
      match cv a with
      | Ok b => push_all cv l' (acc ++ [b])
      | Throw => (Throw, acc)
      | Undef => (Undef, acc)
      | Diverge => (Diverge, acc)
      end
  end.

(** The elements visited: i runs below get_num_elements(), a 32-bit count. *)
Definition visit {A} (v : list A) : list A := firstn (Z.to_nat (to_u32 (zlen v))) v.

(** The checks applied to one element, src/GenericContainerPromote.cc:59-183
    (copyto_vec_int). *)
Definition cl_int (l : Z) : out Z := gc_assert (to_i32 l =? l) (Ok (to_i32 l)).
Definition cr_int (r : Z) : out Z := gc_assert (is_integer r) (f_to_i32 r).
Definition cc_int (c : cplx) : out Z := gc_assert (is_zero0 (snd c) && is_integer (fst c)) (f_to_i32 (fst c)).
(** 187-330 copyto_vec_uint. *)
Definition ci_uint (i : Z) : out Z := gc_assert (0 <=? i) (Ok (to_u32 i)).
Definition cl_uint (l : Z) : out Z := gc_assert ((to_i32 l =? l) && (0 <=? l)) (Ok (to_u32 l)).
Definition cr_uint (r : Z) : out Z := gc_assert (is_unsigned r) (f_to_u32 r).
Definition cc_uint (c : cplx) : out Z := gc_assert (is_zero0 (snd c) && is_unsigned (fst c)) (f_to_u32 (fst c)).
(** 334-439 copyto_vec_long. *)
Definition cr_long (r : Z) : out Z := gc_assert (is_integer r) (f_to_i64 r).
Definition cc_long (c : cplx) : out Z := gc_assert (is_zero0 (snd c) && is_integer (fst c)) (f_to_i64 (fst c)).
(** 443-586 copyto_vec_ulong. *)
Definition ci_ulong (i : Z) : out Z := gc_assert (0 <=? i) (Ok (to_u64 i)).
Definition cl_ulong (l : Z) : out Z := gc_assert (0 <=? l) (Ok (to_u64 l)).
Definition cr_ulong (r : Z) : out Z := gc_assert (is_unsigned r) (f_to_u64 r).
Definition cc_ulong (c : cplx) : out Z := gc_assert (is_zero0 (snd c) && is_unsigned (fst c)) (f_to_u64 (fst c)).
(** 591-655 copyto_vec_real. *)
Definition cc_real (c : cplx) : out Z := gc_assert (is_zero0 (snd c)) (Ok (fst c)).

(** The types for which the loop body is GC_DO_ERROR: it throws when there is at least one
    element. *)
Definition bad_elems {B} (g : gc) : out unit * list B :=
  if 0 <? num_elements g then (Throw, []) else (Ok tt, []).

(** src/GenericContainerPromote.cc:59-183; v.clear() first, whatever [old] is.  The VECTOR
    case reads this(i), whose range check always passes here. *)
Definition copyto_vec_int (g : gc) (old : list Z) : out unit * list Z :=
  match g with
  | GBool b => push_all (fun b => Ok (b2z b)) [b] []
  | GInt i => push_all (fun i => Ok i) [i] []
  | GLong l => push_all cl_int [l] []
  | GReal r => push_all cr_int [r] []
  | GVBool v => push_all (fun b => Ok (b2z b)) (visit v) []
  | GVInt v => push_all (fun i => Ok i) (visit v) []
  | GVLong v => push_all cl_int (visit v) []
  | GVReal v => push_all cr_int (visit v) []
  | GComplex c => push_all cc_int [c] []
  | GVComplex v => push_all cc_int (visit v) []
  | GMInt m => push_all (fun i => Ok i) (visit (mdata m)) []
  | GMLong m => push_all cl_int (visit (mdata m)) []
  | GMReal m => push_all cr_int (visit (mdata m)) []
  | GMComplex m => push_all cc_int (visit (mdata m)) []
  | GVec v => push_all get_as_int (visit v) []
  | GNone | GPtr _ | GStr _ | GVPtr _ | GVStr _ | GMap _ => bad_elems g
  end.

(** src/GenericContainerPromote.cc:187-330. *)
Definition copyto_vec_uint (g : gc) (old : list Z) : out unit * list Z :=
  match g with
  | GBool b => push_all (fun b => Ok (b2z b)) [b] []
  | GInt i => push_all ci_uint [i] []
  | GLong l => push_all cl_uint [l] []
  | GReal r => push_all cr_uint [r] []
  | GVBool v => push_all (fun b => Ok (b2z b)) (visit v) []
  | GVInt v => push_all ci_uint (visit v) []
  | GVLong v => push_all cl_uint (visit v) []
  | GVReal v => push_all cr_uint (visit v) []
  | GComplex c => push_all cc_uint [c] []
  | GVComplex v => push_all cc_uint (visit v) []
  | GMInt m => push_all ci_uint (visit (mdata m)) []
  | GMLong m => push_all cl_uint (visit (mdata m)) []
  | GMReal m => push_all cr_uint (visit (mdata m)) []
  | GMComplex m => push_all cc_uint (visit (mdata m)) []
  | GVec v => push_all get_as_uint (visit v) []
  | GNone | GPtr _ | GStr _ | GVPtr _ | GVStr _ | GMap _ => bad_elems g
  end.

(** src/GenericContainerPromote.cc:334-439. *)
Definition copyto_vec_long (g : gc) (old : list Z) : out unit * list Z :=
  match g with
  | GBool b => push_all (fun b => Ok (b2z b)) [b] []
  | GInt i => push_all (fun i => Ok i) [i] []
  | GLong l => push_all (fun l => Ok l) [l] []
  | GReal r => push_all cr_long [r] []
  | GVBool v => push_all (fun b => Ok (b2z b)) (visit v) []
  | GVInt v => push_all (fun i => Ok i) (visit v) []
  | GVLong v => push_all (fun l => Ok l) (visit v) []
  | GVReal v => push_all cr_long (visit v) []
  | GComplex c => push_all cc_long [c] []
  | GVComplex v => push_all cc_long (visit v) []
  | GMInt m => push_all (fun i => Ok i) (visit (mdata m)) []
  | GMLong m => push_all (fun l => Ok l) (visit (mdata m)) []
  | GMReal m => push_all cr_long (visit (mdata m)) []
  | GMComplex m => push_all cc_long (visit (mdata m)) []
  | GVec v => push_all get_as_long (visit v) []
  | GNone | GPtr _ | GStr _ | GVPtr _ | GVStr _ | GMap _ => bad_elems g
  end.

(** src/GenericContainerPromote.cc:443-586. *)
Definition copyto_vec_ulong (g : gc) (old : list Z) : out unit * list Z :=
  match g with
  | GBool b => push_all (fun b => Ok (b2z b)) [b] []
  | GInt i => push_all ci_ulong [i] []
  | GLong l => push_all cl_ulong [l] []
  | GReal r => push_all cr_ulong [r] []
  | GVBool v => push_all (fun b => Ok (b2z b)) (visit v) []
  | GVInt v => push_all ci_ulong (visit v) []
  | GVLong v => push_all cl_ulong (visit v) []
  | GVReal v => push_all cr_ulong (visit v) []
  | GComplex c => push_all cc_ulong [c] []
  | GVComplex v => push_all cc_ulong (visit v) []
  | GMInt m => push_all ci_ulong (visit (mdata m)) []
  | GMLong m => push_all cl_ulong (visit (mdata m)) []
  | GMReal m => push_all cr_ulong (visit (mdata m)) []
  | GMComplex m => push_all cc_ulong (visit (mdata m)) []
  | GVec v => push_all get_as_ulong (visit v) []
  | GNone | GPtr _ | GStr _ | GVPtr _ | GVStr _ | GMap _ => bad_elems g
  end.

(** src/GenericContainerPromote.cc:591-655. *)
Definition copyto_vec_real (g : gc) (old : list Z) : out unit * list Z :=
  match g with
  | GBool b => push_all (fun b => Ok (f_of_bool b)) [b] []
  | GInt i => push_all (fun i => Ok (f_of_Z i)) [i] []
  | GLong l => push_all (fun l => Ok (f_of_Z l)) [l] []
  | GReal r => push_all (fun r => Ok r) [r] []
  | GVBool v => push_all (fun b => Ok (f_of_bool b)) (visit v) []
  | GVInt v => push_all (fun i => Ok (f_of_Z i)) (visit v) []
  | GVLong v => push_all (fun l => Ok (f_of_Z l)) (visit v) []
  | GVReal v => push_all (fun r => Ok r) (visit v) []
  | GComplex c => push_all cc_real [c] []
  | GVComplex v => push_all cc_real (visit v) []
  | GMInt m => push_all (fun i => Ok (f_of_Z i)) (visit (mdata m)) []
  | GMLong m => push_all (fun l => Ok (f_of_Z l)) (visit (mdata m)) []
  | GMReal m => push_all (fun r => Ok r) (visit (mdata m)) []
  | GMComplex m => push_all cc_real (visit (mdata m)) []
  | GVec v => push_all get_number (visit v) []
  | GNone | GPtr _ | GStr _ | GVPtr _ | GVStr _ | GMap _ => bad_elems g
  end.

(** {x, 0} as complex. *)
Definition c_of_bool (b : bool) : cplx := (f_of_bool b, f_zero).
Definition c_of_Z (n : Z) : cplx := (f_of_Z n, f_zero).
Definition c_of_real (r : Z) : cplx := (r, f_zero).

(** src/GenericContainerPromote.cc:660-698: the elements of a VECTOR must be COMPLEX
    (strict get_complex). *)
Definition copyto_vec_complex (g : gc) (old : list cplx) : out unit * list cplx :=
  match g with
  | GBool b => push_all (fun b => Ok (c_of_bool b)) [b] []
  | GInt i => push_all (fun i => Ok (c_of_Z i)) [i] []
  | GLong l => push_all (fun l => Ok (c_of_Z l)) [l] []
  | GReal r => push_all (fun r => Ok (c_of_real r)) [r] []
  | GVBool v => push_all (fun b => Ok (c_of_bool b)) (visit v) []
  | GVInt v => push_all (fun i => Ok (c_of_Z i)) (visit v) []
  | GVLong v => push_all (fun l => Ok (c_of_Z l)) (visit v) []
  | GVReal v => push_all (fun r => Ok (c_of_real r)) (visit v) []
  | GComplex c => push_all (fun c => Ok c) [c] []
  | GVComplex v => push_all (fun c => Ok c) (visit v) []
  | GMInt m => push_all (fun i => Ok (c_of_Z i)) (visit (mdata m)) []
  | GMLong m => push_all (fun l => Ok (c_of_Z l)) (visit (mdata m)) []
  | GMReal m => push_all (fun r => Ok (c_of_real r)) (visit (mdata m)) []
  | GMComplex m => push_all (fun c => Ok c) (visit (mdata m)) []
  | GVec v => push_all get_complex (visit v) []
  | GNone | GPtr _ | GStr _ | GVPtr _ | GVStr _ | GMap _ => bad_elems g
  end.

(** src/GenericContainerPromote.cc:700-743: STRING, VEC_STRING (v.resize(ne) then std::copy of
    the whole vector), VECTOR of strings; anything else throws, even when empty. *)
Definition copyto_vec_string (g : gc) (old : list string) : out unit * list string :=
  match g with
  | GStr s => (Ok tt, [s])
  | GVStr v =>
      match copy_into v (resize EmptyString (Z.to_nat (to_u32 (zlen v))) []) with
      | Ok w => (Ok tt, w)
      | _ => (Undef, [])
      end
  | GVec v => push_all get_string (visit v) []
  | _ => (Throw, [])
  end.

(** ** copyto_mat_T

    The result is the output matrix; what an exception leaves in the output is not
    represented.  m.clear() comes first, so every resize starts from no elements. *)

(** m.resize(1,1); m(0,0) = x. *)
Definition mat11 {A} (x : A) : mat A := Mat 1 1 [x].

(** std::copy_n(src, n, m.data()): mat_type::data() is &front(), undefined on an empty
    matrix (GenericContainer.hh:409, 422), and writing past the end is undefined. *)
Definition copy_n_mat {A} (src : list A) (m : mat A) : out (mat A) :=
  match mdata m with
  | [] => Undef
  | _ => do w <- copy_into src (mdata m) ; Ok (Mat (mrows m) (mcols m) w)
  end.

(** VEC_T source: m.resize(unsigned(v.size()),1), copy_n(v.data(), v.size(), m.data()). *)
Definition mat_of_vec {A B} (d : B) (f : A -> B) (v : list A) : out (mat B) :=
  copy_n_mat (map f v) (mresize d (to_u32 (zlen v)) 1 []).
(** VEC_BOOL source: loop with m(i,0) = ..., which throws past the end. *)
Definition mat_of_bools {B} (d : B) (f : bool -> B) (v : list bool) : out (mat B) :=
  let nr := to_u32 (zlen v) in
  if zlen v <=? nr then Ok (Mat nr 1 (map f v)) else Throw.
(** MAT_T source: m.resize(nr,nc), copy_n(src.data(), nr*nc, m.data()); the source's data()
    is also &front(). *)
Definition mat_of_mat {A B} (d : B) (f : A -> B) (m : mat A) : out (mat B) :=
  copy_n_mat (map f (firstn (Z.to_nat (to_u32 (mrows m * mcols m))) (mdata m)))
             (mresize d (mrows m) (mcols m) []).

(** The two nested loops m(i,j) = vj[i] with vj from copyto_vec_T of column j. *)
Fixpoint fill_col {A} (j : Z) (vj : list A) (is : list Z) (m : mat A) : out (mat A) :=
  match is with
  | [] => Ok m
  | i :: is' =>
      do x <- raw_at i vj ;
      match mat_set m i j x with
      | (Ok _, m') => fill_col j vj is' m'
      | _ => Throw
      end
  end.
Fixpoint fill_cols {A} (cv : gc -> list A -> out unit * list A) (nr : Z)
    (cols : list gc) (j : Z) (m : mat A) : out (mat A) :=
  match cols with
  | [] => Ok m
  | c :: cols' =>
      match cv c [] with
      | (Ok _, vj) => do m' <- fill_col j vj (zseq nr) m ; fill_cols cv nr cols' (j + 1) m'
      | (Throw, _) => Throw
      | (Undef, _) => Undef
      | (Diverge, _) => Diverge
      end
  end.
(** The VECTOR case: v.size() truncated to unsigned, all columns must have as many elements
    as the first one. *)
Definition mat_of_cols {A} (d : A) (cv : gc -> list A -> out unit * list A) (v : list gc) : out (mat A) :=
  match visit v with
  | [] => Throw
  | c0 :: cs =>
      let nr := num_elements c0 in
      gc_assert (forallb (fun c => num_elements c =? nr) cs)
        (fill_cols cv nr (c0 :: cs) 0 (mresize d nr (to_u32 (zlen v)) []))
  end.

(** src/GenericContainerPromote.cc:747-818. *)
Definition copyto_mat_int (g : gc) : out (mat Z) :=
  match g with
  | GNone => Ok (mat11 0)
  | GBool b => Ok (mat11 (b2z b))
  | GInt i => Ok (mat11 i)
  | GVBool v => mat_of_bools 0 b2z v
  | GVInt v => mat_of_vec 0 (fun i => i) v
  | GMInt m => mat_of_mat 0 (fun i => i) m
  | GVec v => mat_of_cols 0 copyto_vec_int v
  | _ => Throw
  end.
(** src/GenericContainerPromote.cc:822-905. *)
Definition copyto_mat_long (g : gc) : out (mat Z) :=
  match g with
  | GNone => Ok (mat11 0)
  | GBool b => Ok (mat11 (b2z b))
  | GInt i => Ok (mat11 i)
  | GLong l => Ok (mat11 l)
  | GVBool v => mat_of_bools 0 b2z v
  | GVInt v => mat_of_vec 0 (fun i => i) v
  | GVLong v => mat_of_vec 0 (fun l => l) v
  | GMInt m => mat_of_mat 0 (fun i => i) m
  | GMLong m => mat_of_mat 0 (fun l => l) m
  | GVec v => mat_of_cols 0 copyto_vec_long v
  | _ => Throw
  end.
(** src/GenericContainerPromote.cc:909-1004. *)
Definition copyto_mat_real (g : gc) : out (mat Z) :=
  match g with
  | GNone => Ok (mat11 f_zero)
  | GBool b => Ok (mat11 (f_of_bool b))
  | GInt i => Ok (mat11 (f_of_Z i))
  | GLong l => Ok (mat11 (f_of_Z l))
  | GReal r => Ok (mat11 r)
  | GVBool v => mat_of_bools f_zero f_of_bool v
  | GVInt v => mat_of_vec f_zero f_of_Z v
  | GVLong v => mat_of_vec f_zero f_of_Z v
  | GVReal v => mat_of_vec f_zero (fun r => r) v
  | GMInt m => mat_of_mat f_zero f_of_Z m
  | GMLong m => mat_of_mat f_zero f_of_Z m
  | GMReal m => mat_of_mat f_zero (fun r => r) m
  | GVec v => mat_of_cols f_zero copyto_vec_real v
  | _ => Throw
  end.
(** src/GenericContainerPromote.cc:1008-1110: MAT_COMPLEX itself is among the types that
    throw. *)
Definition copyto_mat_complex (g : gc) : out (mat cplx) :=
  match g with
  | GNone => Ok (mat11 c_zero)
  | GBool b => Ok (mat11 (c_of_bool b))
  | GInt i => Ok (mat11 (c_of_Z i))
  | GLong l => Ok (mat11 (c_of_Z l))
  | GReal r => Ok (mat11 (c_of_real r))
  | GComplex c => Ok (mat11 c)
  | GVBool v => mat_of_bools c_zero c_of_bool v
  | GVInt v => mat_of_vec c_zero c_of_Z v
  | GVLong v => mat_of_vec c_zero c_of_Z v
  | GVReal v => mat_of_vec c_zero c_of_real v
  | GVComplex v => mat_of_vec c_zero (fun c => c) v
  | GMInt m => mat_of_mat c_zero c_of_Z m
  | GMLong m => mat_of_mat c_zero c_of_Z m
  | GMReal m => mat_of_mat c_zero c_of_real m
  | GVec v => mat_of_cols c_zero copyto_vec_complex v
  | _ => Throw
  end.

(** ** promote_to_T

    The second component is the container afterwards. *)

(** src/GenericContainerPromote.cc:1120-1154. *)
Definition promote_to_int (g : gc) : out unit * gc :=
  match g with
  | GNone => (Ok tt, GInt 0)
  | GBool b => (Ok tt, GInt (b2z b))
  | GInt _ => (Ok tt, g)
  | _ => (Throw, g)
  end.
(** 1156-1190. *)
Definition promote_to_long (g : gc) : out unit * gc :=
  match g with
  | GNone => (Ok tt, GLong 0)
  | GBool b => (Ok tt, GLong (b2z b))
  | GInt i => (Ok tt, GLong i)
  | GLong _ => (Ok tt, g)
  | _ => (Throw, g)
  end.
(** 1192-1228. *)
Definition promote_to_real (g : gc) : out unit * gc :=
  match g with
  | GNone => (Ok tt, GReal f_zero)
  | GBool b => (Ok tt, GReal (f_of_bool b))
  | GInt i => (Ok tt, GReal (f_of_Z i))
  | GLong l => (Ok tt, GReal (f_of_Z l))
  | GReal _ => (Ok tt, g)
  | _ => (Throw, g)
  end.

(** The VEC_T cases of promote_to_vec_U: tag set to NOTYPE, set_vec_U(v.size()) (size
    truncated to unsigned), then one assignment per element of the old vector; writing past
    the end of the new vector is undefined. *)
Definition promote_elems {A B} (k : list B -> gc) (d : B) (f : A -> B) (v : list A) : out unit * gc :=
  match copy_into (map f v) (valloc d (to_u32 (zlen v)) []) with
  | Ok w => (Ok tt, k w)
  | _ => (Undef, GNone)
  end.

(** 1272-1321; get_int_at(0) = tmp writes the only element of the new vector. *)
Definition promote_to_vec_int (g : gc) : out unit * gc :=
  match g with
  | GNone => (Ok tt, GVInt [0])
  | GBool b => (Ok tt, GVInt [b2z b])
  | GInt i => (Ok tt, GVInt [i])
  | GVBool v => promote_elems GVInt 0 b2z v
  | GVInt _ => (Ok tt, g)
  | _ => (Throw, g)
  end.
(** 1323-1384. *)
Definition promote_to_vec_long (g : gc) : out unit * gc :=
  match g with
  | GNone => (Ok tt, GVLong [0])
  | GBool b => (Ok tt, GVLong [b2z b])
  | GInt i => (Ok tt, GVLong [i])
  | GLong l => (Ok tt, GVLong [l])
  | GVBool v => promote_elems GVLong 0 b2z v
  | GVInt v => promote_elems GVLong 0 (fun i => i) v
  | GVLong _ => (Ok tt, g)
  | _ => (Throw, g)
  end.
(** 1386-1460. *)
Definition promote_to_vec_real (g : gc) : out unit * gc :=
  match g with
  | GNone => (Ok tt, GVReal [f_zero])
  | GBool b => (Ok tt, GVReal [f_of_bool b])
  | GInt i => (Ok tt, GVReal [f_of_Z i])
  | GLong l => (Ok tt, GVReal [f_of_Z l])
  | GReal r => (Ok tt, GVReal [r])
  | GVBool v => promote_elems GVReal f_zero f_of_bool v
  | GVInt v => promote_elems GVReal f_zero f_of_Z v
  | GVLong v => promote_elems GVReal f_zero f_of_Z v
  | GVReal _ => (Ok tt, g)
  | _ => (Throw, g)
  end.
(** 1462-1549. *)
Definition promote_to_vec_complex (g : gc) : out unit * gc :=
  match g with
  | GNone => (Ok tt, GVComplex [c_zero])
  | GBool b => (Ok tt, GVComplex [c_of_bool b])
  | GInt i => (Ok tt, GVComplex [c_of_Z i])
  | GLong l => (Ok tt, GVComplex [c_of_Z l])
  | GReal r => (Ok tt, GVComplex [c_of_real r])
  | GComplex c => (Ok tt, GVComplex [c])
  | GVBool v => promote_elems GVComplex c_zero c_of_bool v
  | GVInt v => promote_elems GVComplex c_zero c_of_Z v
  | GVLong v => promote_elems GVComplex c_zero c_of_Z v
  | GVReal v => promote_elems GVComplex c_zero c_of_real v
  | GVComplex _ => (Ok tt, g)
  | _ => (Throw, g)
  end.
(** 1230-1270: vectors are sent to promote_to_vec_complex (which throws for VEC_POINTER). *)
Definition promote_to_complex (g : gc) : out unit * gc :=
  match g with
  | GNone => (Ok tt, GComplex c_zero)
  | GBool b => (Ok tt, GComplex (c_of_bool b))
  | GInt i => (Ok tt, GComplex (c_of_Z i))
  | GLong l => (Ok tt, GComplex (c_of_Z l))
  | GReal r => (Ok tt, GComplex (c_of_real r))
  | GComplex _ => (Ok tt, g)
  | GVPtr _ | GVBool _ | GVInt _ | GVLong _ | GVReal _ => promote_to_vec_complex g
  | _ => (Throw, g)
  end.

(** The VEC_T cases of promote_to_mat_U: set_mat_U(unsigned(size),1) then m(i,0) = ...; the
    access throws past the end, leaving the partly filled matrix. *)
Definition promote_col {A B} (k : mat B -> gc) (f : A -> B) (v : list A) : out unit * gc :=
  let nr := to_u32 (zlen v) in
  (if zlen v <=? nr then Ok tt else Throw, k (Mat nr 1 (map f (firstn (Z.to_nat nr) v)))).
(** The VEC_T cases that store through the wrong union member (m_r instead of m_i or m_c,
    lines 1574, 1583, 1813, 1822, 1831, 1840): undefined at the first element. *)
Definition promote_col_wrong {A B} (k : mat B -> gc) (v : list A) : out unit * gc :=
  match v with
  | [] => (Ok tt, k (Mat 0 1 []))
  | _ => (Undef, GNone)
  end.
(** The MAT_T cases: set_mat_U(rows,cols), then m[i] = ... for i < size (flat, unchecked). *)
Definition promote_mat {A B} (k : mat B -> gc) (d : B) (f : A -> B) (m : mat A) : out unit * gc :=
  match copy_into (map f (mdata m)) (resize d (Z.to_nat (to_u32 (mrows m * mcols m))) []) with
  | Ok w => (Ok tt, k (Mat (mrows m) (mcols m) w))
  | _ => (Undef, GNone)
  end.

(** 1551-1607. *)
Definition promote_to_mat_int (g : gc) : out unit * gc :=
  match g with
  | GNone => (Ok tt, GMInt (mat11 0))
  | GBool b => (Ok tt, GMInt (mat11 (b2z b)))
  | GInt i => (Ok tt, GMInt (mat11 i))
  | GVBool v => promote_col_wrong GMInt v
  | GVInt v => promote_col_wrong GMInt v
  | GMInt _ => (Ok tt, g)
  | _ => (Throw, g)
  end.
(** 1609-1681: VEC_BOOL becomes a MAT_REAL (set_mat_real at line 1630). *)
Definition promote_to_mat_long (g : gc) : out unit * gc :=
  match g with
  | GNone => (Ok tt, GMLong (mat11 0))
  | GBool b => (Ok tt, GMLong (mat11 (b2z b)))
  | GInt i => (Ok tt, GMLong (mat11 i))
  | GVBool v => promote_col GMReal f_of_bool v
  | GVInt v => promote_col GMLong (fun i => i) v
  | GVLong v => promote_col GMLong (fun l => l) v
  | GMInt m => promote_mat GMLong 0 (fun i => i) m
  | GMLong _ => (Ok tt, g)
  | _ => (Throw, g)
  end.
(** 1683-1776. *)
Definition promote_to_mat_real (g : gc) : out unit * gc :=
  match g with
  | GNone => (Ok tt, GMReal (mat11 f_zero))
  | GBool b => (Ok tt, GMReal (mat11 (f_of_bool b)))
  | GInt i => (Ok tt, GMReal (mat11 (f_of_Z i)))
  | GReal r => (Ok tt, GMReal (mat11 r))
  | GVBool v => promote_col GMReal f_of_bool v
  | GVInt v => promote_col GMReal f_of_Z v
  | GVLong v => promote_col GMReal f_of_Z v
  | GVReal v => promote_col GMReal (fun r => r) v
  | GMInt m => promote_mat GMReal f_zero f_of_Z m
  | GMLong m => promote_mat GMReal f_zero f_of_Z m
  | GMReal _ => (Ok tt, g)
  | _ => (Throw, g)
  end.
(** 1778-1884. *)
Definition promote_to_mat_complex (g : gc) : out unit * gc :=
  match g with
  | GNone => (Ok tt, GMComplex (mat11 c_zero))
  | GBool b => (Ok tt, GMComplex (mat11 (c_of_bool b)))
  | GInt i => (Ok tt, GMComplex (mat11 (c_of_Z i)))
  | GLong l => (Ok tt, GMComplex (mat11 (c_of_Z l)))
  | GReal r => (Ok tt, GMComplex (mat11 (c_of_real r)))
  | GVBool v => promote_col_wrong GMComplex v
  | GVInt v => promote_col_wrong GMComplex v
  | GVLong v => promote_col_wrong GMComplex v
  | GVReal v => promote_col_wrong GMComplex v
  | GMInt m => promote_mat GMComplex c_zero c_of_Z m
  | GMLong m => promote_mat GMComplex c_zero c_of_Z m
  | GMReal m => promote_mat GMComplex c_zero c_of_real m
  | GMComplex _ => (Ok tt, g)
  | _ => (Throw, g)
  end.

(** 1886-1986: for a scalar, set_vector(1) replaces the union's content by the new vector's
    address before the scalar is read back (lines 1893-1911), which is undefined. *)
Definition promote_to_vector (g : gc) : out unit * gc :=
  match g with
  | GNone => (Ok tt, GVec [GNone])
  | GPtr _ | GBool _ | GInt _ | GLong _ | GReal _ | GComplex _ | GStr _ => (Undef, GNone)
  | GVPtr v => promote_elems GVec GNone GPtr v
  | GVBool v => promote_elems GVec GNone GBool v
  | GVInt v => promote_elems GVec GNone GInt v
  | GVLong v => promote_elems GVec GNone GLong v
  | GVReal v => promote_elems GVec GNone GReal v
  | GVComplex v => promote_elems GVec GNone GComplex v
  | GVStr v => promote_elems GVec GNone GStr v
  | GVec _ => (Ok tt, g)
  | GMInt _ | GMLong _ | GMReal _ | GMComplex _ | GMap _ => (Throw, g)
  end.

(** ** push_T *)

(** src/GenericContainer.cc:1147-1165 (declared const). *)
Definition push_bool (b : bool) (g : gc) : out unit * gc :=
  match g with
  | GVBool v => (Ok tt, GVBool (v ++ [b]))
  | GVInt v => (Ok tt, GVInt (v ++ [b2z b]))
  | GVLong v => (Ok tt, GVLong (v ++ [b2z b]))
  | GVReal v => (Ok tt, GVReal (v ++ [f_of_bool b]))
  | GVComplex v => (Ok tt, GVComplex (v ++ [c_of_bool b]))
  | GVec v => (Ok tt, GVec (v ++ [GBool b]))
  | _ => (Throw, g)
  end.

(** 1167-1184. *)
Definition push_int (i : Z) (g : gc) : out unit * gc :=
  match g with
  | GVInt v => (Ok tt, GVInt (v ++ [i]))
  | GVLong v => (Ok tt, GVLong (v ++ [i]))
  | GVReal v => (Ok tt, GVReal (v ++ [f_of_Z i]))
  | GVComplex v => (Ok tt, GVComplex (v ++ [c_of_Z i]))
  | GVec v => (Ok tt, GVec (v ++ [GInt i]))
  | _ => match promote_to_vec_int g with
         | (Ok _, GVInt v) => (Ok tt, GVInt (v ++ [i]))
         | (Ok _, g') => (Undef, g')
         | r => r
         end
  end.
(** 1186-1201. *)
Definition push_long (l : Z) (g : gc) : out unit * gc :=
  match g with
  | GVLong v => (Ok tt, GVLong (v ++ [l]))
  | GVReal v => (Ok tt, GVReal (v ++ [f_of_Z l]))
  | GVComplex v => (Ok tt, GVComplex (v ++ [c_of_Z l]))
  | GVec v => (Ok tt, GVec (v ++ [GLong l]))
  | _ => match promote_to_vec_long g with
         | (Ok _, GVLong v) => (Ok tt, GVLong (v ++ [l]))
         | (Ok _, g') => (Undef, g')
         | r => r
         end
  end.
(** 1203-1216. *)
Definition push_real (r : Z) (g : gc) : out unit * gc :=
  match g with
  | GVReal v => (Ok tt, GVReal (v ++ [r]))
  | GVComplex v => (Ok tt, GVComplex (v ++ [c_of_real r]))
  | GVec v => (Ok tt, GVec (v ++ [GReal r]))
  | _ => match promote_to_vec_real g with
         | (Ok _, GVReal v) => (Ok tt, GVReal (v ++ [r]))
         | (Ok _, g') => (Undef, g')
         | r => r
         end
  end.
(** 1218-1233 (both overloads). *)
Definition push_complex (c : cplx) (g : gc) : out unit * gc :=
  match g with
  | GVec v => (Ok tt, GVec (v ++ [GComplex c]))
  | GVComplex v => (Ok tt, GVComplex (v ++ [c]))
  | _ => match promote_to_vec_complex g with
         | (Ok _, GVComplex v) => (Ok tt, GVComplex (v ++ [c]))
         | (Ok _, g') => (Undef, g')
         | r => r
         end
  end.
(** 1235-1244. *)
Definition push_string (s : string) (g : gc) : out unit * gc :=
  match g with
  | GVStr v => (Ok tt, GVStr (v ++ [s]))
  | _ => match promote_to_vector g with
         | (Ok _, GVec v) => (Ok tt, GVec (v ++ [GStr s]))
         | (Ok _, g') => (Undef, g')
         | r => r
         end
  end.
