(** Model of the const getters and of the numeric conversion getters
    (src/GenericContainer.cc:1548-2317).  All of them are const: they return an outcome and
    no new state. *)
From Coq Require Import ZArith Bool Lia Ascii String List.
From Verif Require Import Base F64 StrMap Value MBasic.
Import ListNotations.
Local Open Scope Z_scope.

(** Strict const getters: ck (src/GenericContainer.cc:726-741) throws unless the tag is the
    requested one, then the active union member is returned.
    get_pvoid 1254-1258 and get_pointer<T> (GenericContainer.hh:1730-1733). *)
Definition get_pvoid (g : gc) : out Z := match g with GPtr p => Ok p | _ => Throw end.
(** get_bool 2018-2022. *)
Definition get_bool (g : gc) : out bool := match g with GBool b => Ok b | _ => Throw end.
(** get_int 2030-2034. *)
Definition get_int (g : gc) : out Z := match g with GInt i => Ok i | _ => Throw end.
(** get_long 2042-2046. *)
Definition get_long (g : gc) : out Z := match g with GLong l => Ok l | _ => Throw end.
(** get_real 2082-2086. *)
Definition get_real (g : gc) : out Z := match g with GReal r => Ok r | _ => Throw end.
(** get_complex 2100-2104. *)
Definition get_complex (g : gc) : out cplx := match g with GComplex c => Ok c | _ => Throw end.
(** get_string 2118-2122. *)
Definition get_string (g : gc) : out string := match g with GStr s => Ok s | _ => Throw end.
(** get_vector 2130-2134. *)
Definition get_vector (g : gc) : out (list gc) := match g with GVec v => Ok v | _ => Throw end.
(** get_vec_pointer 2142-2146. *)
Definition get_vec_pointer (g : gc) : out (list Z) := match g with GVPtr v => Ok v | _ => Throw end.
(** get_vec_bool 2154-2158. *)
Definition get_vec_bool (g : gc) : out (list bool) := match g with GVBool v => Ok v | _ => Throw end.
(** get_vec_int 2168-2172. *)
Definition get_vec_int (g : gc) : out (list Z) := match g with GVInt v => Ok v | _ => Throw end.
(** get_vec_long 2183-2187. *)
Definition get_vec_long (g : gc) : out (list Z) := match g with GVLong v => Ok v | _ => Throw end.
(** get_vec_real 2199-2203. *)
Definition get_vec_real (g : gc) : out (list Z) := match g with GVReal v => Ok v | _ => Throw end.
(** get_vec_complex 2216-2220. *)
Definition get_vec_complex (g : gc) : out (list cplx) := match g with GVComplex v => Ok v | _ => Throw end.
(** get_mat_int 2233-2237. *)
Definition get_mat_int (g : gc) : out (mat Z) := match g with GMInt m => Ok m | _ => Throw end.
(** get_mat_long 2251-2255. *)
Definition get_mat_long (g : gc) : out (mat Z) := match g with GMLong m => Ok m | _ => Throw end.
(** get_mat_real 2270-2274. *)
Definition get_mat_real (g : gc) : out (mat Z) := match g with GMReal m => Ok m | _ => Throw end.
(** get_mat_complex 2289-2293. *)
Definition get_mat_complex (g : gc) : out (mat cplx) := match g with GMComplex m => Ok m | _ => Throw end.
(** get_vec_string 2301-2305. *)
Definition get_vec_string (g : gc) : out (list string) := match g with GVStr v => Ok v | _ => Throw end.
(** get_map 2313-2317. *)
Definition get_map (g : gc) : out (list (string * gc)) := match g with GMap m => Ok m | _ => Throw end.

Definition b2z (b : bool) : Z := if b then 1 else 0.

(** get_value<uint_type> (src/GenericContainer.cc:1548-1608), get_as_uint 2055-2060. *)
Definition get_as_uint (g : gc) : out Z :=
  match g with
  | GBool b => Ok (b2z b)
  | GInt i => gc_assert (0 <=? i) (Ok (to_u32 i))
  | GLong l => gc_assert (0 <=? l) (Ok (to_u32 l))
  | GReal r => gc_assert (fge0 r && is_unsigned r) (f_to_u32 r)
  | GComplex (re, im) => gc_assert (is_zero0 im && is_unsigned re) (f_to_u32 re)
  | _ => Throw
  end.

(** get_value<int_type> (src/GenericContainer.cc:1610-1660), get_as_int 2048-2053. *)
Definition get_as_int (g : gc) : out Z :=
  match g with
  | GBool b => Ok (b2z b)
  | GInt i => Ok i
  | GLong l => Ok (to_i32 l)
  | GReal r => gc_assert (is_integer r) (f_to_i32 r)
  | GComplex (re, im) => gc_assert (is_zero0 im && is_integer re) (f_to_i32 re)
  | _ => Throw
  end.

(** get_value<ulong_type> (src/GenericContainer.cc:1662-1723), get_as_ulong 2069-2074. *)
Definition get_as_ulong (g : gc) : out Z :=
  match g with
  | GBool b => Ok (b2z b)
  | GInt i => gc_assert (0 <=? i) (Ok (to_u64 i))
  | GLong l => gc_assert (0 <=? l) (Ok (to_u64 l))
  | GReal r => gc_assert (fge0 r && is_unsigned r) (f_to_u64 r)
  | GComplex (re, im) => gc_assert (is_zero0 im && is_unsigned re) (f_to_u64 re)
  | _ => Throw
  end.

(** get_value<long_type> (src/GenericContainer.cc:1725-1775), get_as_long 2062-2067; `long`
    is 64 bits wide (LP64). *)
Definition get_as_long (g : gc) : out Z :=
  match g with
  | GBool b => Ok (b2z b)
  | GInt i => Ok i
  | GLong l => Ok l
  | GReal r => gc_assert (is_integer r) (f_to_i64 r)
  | GComplex (re, im) => gc_assert (is_zero0 im && is_integer re) (f_to_i64 re)
  | _ => Throw
  end.

(** get_value<double> (src/GenericContainer.cc:1824-1869).  get_value<float> is not
    modelled. *)
Definition get_value_double (g : gc) : out Z :=
  match g with
  | GBool b => Ok (f_of_bool b)
  | GInt i => Ok (f_of_Z i)
  | GLong l => Ok (f_of_Z l)
  | GReal r => Ok r
  | GComplex (re, im) => gc_assert (is_zero0 im) (Ok re)
  | _ => Throw
  end.

(** get_number (src/GenericContainer.cc:1873-1903). *)
Definition get_number (g : gc) : out Z :=
  match g with
  | GBool b => Ok (f_of_bool b)
  | GInt i => Ok (f_of_Z i)
  | GLong l => Ok (f_of_Z l)
  | GReal r => Ok r
  | _ => Throw
  end.

(** get_complex_number (src/GenericContainer.cc:1905-1939). *)
Definition get_complex_number (g : gc) : out cplx :=
  match g with
  | GBool b => Ok (f_of_bool b, f_zero)
  | GInt i => Ok (f_of_Z i, f_zero)
  | GLong l => Ok (f_of_Z l, f_zero)
  | GReal r => Ok (r, f_zero)
  | GComplex c => Ok c
  | _ => Throw
  end.

(** Unchecked v[i] of std::vector: undefined out of range. *)
Definition raw_at {A} (i : Z) (v : list A) : out A :=
  match znth i v with Some a => Ok a | None => Undef end.

(** get_number_at (src/GenericContainer.cc:1941-1971). *)
Definition get_number_at (i : Z) (g : gc) : out Z :=
  match g with
  | GVBool v => do b <- raw_at i v ; Ok (f_of_bool b)
  | GVInt v => do x <- raw_at i v ; Ok (f_of_Z x)
  | GVLong v => do x <- raw_at i v ; Ok (f_of_Z x)
  | GVReal v => raw_at i v
  | GMInt m => do x <- raw_at i (mdata m) ; Ok (f_of_Z x)
  | GMLong m => do x <- raw_at i (mdata m) ; Ok (f_of_Z x)
  | GMReal m => raw_at i (mdata m)
  | GVec v => do e <- raw_at i v ; get_number e
  | _ => Throw
  end.

(** get_complex_number_at (src/GenericContainer.cc:1973-2010). *)
Definition get_complex_number_at (i : Z) (g : gc) : out cplx :=
  match g with
  | GVBool v => do b <- raw_at i v ; Ok (f_of_bool b, f_zero)
  | GVInt v => do x <- raw_at i v ; Ok (f_of_Z x, f_zero)
  | GVLong v => do x <- raw_at i v ; Ok (f_of_Z x, f_zero)
  | GVReal v => do x <- raw_at i v ; Ok (x, f_zero)
  | GVComplex v => raw_at i v
  | GMInt m => do x <- raw_at i (mdata m) ; Ok (f_of_Z x, f_zero)
  | GMLong m => do x <- raw_at i (mdata m) ; Ok (f_of_Z x, f_zero)
  | GMReal m => do x <- raw_at i (mdata m) ; Ok (x, f_zero)
  | GMComplex m => raw_at i (mdata m)
  | GVec v => do e <- raw_at i v ; get_complex_number e
  | _ => Throw
  end.
