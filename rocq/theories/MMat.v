(** Model of mat_type element access, rows and columns and of the const indexed getters
    (src/GenericContainer.cc:134-204, 2931-3162). *)
From Coq Require Import ZArith Bool Lia Ascii String List.
From Verif Require Import Base F64 StrMap Value MBasic MGet.
Import ListNotations.
Local Open Scope Z_scope.

Section Mat.
Context {A : Type}.

(** i + j*m_num_rows in 32-bit unsigned arithmetic (src/GenericContainer.cc:138, 150). *)
Definition mpos (m : mat A) (i j : Z) : Z := to_u32 (i + j * mrows m).

(** vector::at: throws std::out_of_range, rethrown as runtime_error. *)
Definition vat (i : Z) (v : list A) : out A :=
  match znth i v with Some a => Ok a | None => Throw end.

(** operator()(i,j) (src/GenericContainer.cc:134-156): read, and write through the reference. *)
Definition mat_get (m : mat A) (i j : Z) : out A := vat (mpos m i j) (mdata m).
Definition mat_set (m : mat A) (i j : Z) (x : A) : out unit * mat A :=
  match znth (mpos m i j) (mdata m) with
  | Some _ => (Ok tt, Mat (mrows m) (mcols m) (lset (Z.to_nat (mpos m i j)) x (mdata m)))
  | None => (Throw, m)
  end.

(** 0, 1, ..., n-1 *)
Definition zseq (n : Z) : list Z := map Z.of_nat (seq 0 (Z.to_nat n)).

(** get_column(nc, C) (src/GenericContainer.cc:158-180): for the vector version the result
    replaces C; for the pointer version the results are the values stored at C[0..]. *)
Definition get_column (m : mat A) (c : Z) : out (list A) :=
  gc_assert (c <? mcols m) (omapM (fun i => mat_get m i c) (zseq (mrows m))).
(** get_row(nr, R) (src/GenericContainer.cc:182-204). *)
Definition get_row (m : mat A) (r : Z) : out (list A) :=
  gc_assert (r <? mrows m) (omapM (fun j => mat_get m r j) (zseq (mcols m))).
End Mat.

(** const get_T_at(i) (src/GenericContainer.cc:2931-2939, 2956-2964, 3007-3015, 3057-3065,
    3109-3117, 3154-3162): type check, range check, then unchecked access. *)
Definition vec_at {A} (i : Z) (v : list A) : out A := gc_assert (i <? zlen v) (raw_at i v).
Definition get_bool_at (i : Z) (g : gc) : out bool :=
  match g with GVBool v => vec_at i v | _ => Throw end.
Definition get_int_at (i : Z) (g : gc) : out Z :=
  match g with GVInt v => vec_at i v | _ => Throw end.
Definition get_long_at (i : Z) (g : gc) : out Z :=
  match g with GVLong v => vec_at i v | _ => Throw end.
Definition get_real_at (i : Z) (g : gc) : out Z :=
  match g with GVReal v => vec_at i v | _ => Throw end.
Definition get_complex_at (i : Z) (g : gc) : out cplx :=
  match g with GVComplex v => vec_at i v | _ => Throw end.
Definition get_string_at (i : Z) (g : gc) : out string :=
  match g with GVStr v => vec_at i v | _ => Throw end.

(** const get_int_at(i,j), get_long_at(i,j) (src/GenericContainer.cc:2980-2988, 3032-3040). *)
Definition mat_at_checked {A} (i j : Z) (m : mat A) : out A :=
  gc_assert ((i <? mrows m) && (j <? mcols m)) (mat_get m i j).
Definition get_int_at2 (i j : Z) (g : gc) : out Z :=
  match g with GMInt m => mat_at_checked i j m | _ => Throw end.
Definition get_long_at2 (i j : Z) (g : gc) : out Z :=
  match g with GMLong m => mat_at_checked i j m | _ => Throw end.
(** const get_real_at(i,j) (src/GenericContainer.cc:3083-3091): the check is
    i < v_r->size(), i.e. against the total number of entries, read through the vec_real
    union member (mat_type<real_type> derives from it; simplified: the access through the
    other member is taken to reach the base vector). *)
Definition get_real_at2 (i j : Z) (g : gc) : out Z :=
  match g with
  | GMReal m => gc_assert (i <? zlen (mdata m)) (mat_get m i j)
  | _ => Throw
  end.
(** const get_complex_at(i,j) (src/GenericContainer.cc:3137-3141): no check of its own. *)
Definition get_complex_at2 (i j : Z) (g : gc) : out cplx :=
  match g with GMComplex m => mat_get m i j | _ => Throw end.
