(** Model of the raw data pointers and of info (src/GenericContainer.cc:208-213, 1254-1545,
    3182-3252; include/GenericContainer/GenericContainer.hh:1710-1733, 2726-2744). *)
From Coq Require Import ZArith Bool Lia Ascii String List.
From Verif Require Import Base F64 StrMap Value MBasic MGet MMap MMat MNum MText MToJson MRef.
Import ListNotations.
Local Open Scope Z_scope.

(** A pointer to the first of [elems], which lie one after the other in the container; [back l]
    is the container when the elements have become [l].  Simplified: the address is not
    modelled, and the pointer is used before the container changes. *)
Inductive window (A : Type) : Type := Window (elems : list A) (back : list A -> gc).
Arguments Window {A} elems back.
(** Reading and writing p[k]; outside the elements it is undefined. *)
Definition wread {A} (w : window A) (k : Z) : out A :=
  let '(Window l _) := w in match znth k l with Some a => Ok a | None => Undef end.
Definition wwrite {A} (w : window A) (k : Z) (x : A) : out gc :=
  let '(Window l back) := w in
  match znth k l with Some _ => Ok (back (lset (Z.to_nat k) x l)) | None => Undef end.

(** The cases of the pointer functions: &m_data.i (or m_data.c itself), vector::data, and
    mat_type::data (include/GenericContainer/GenericContainer.hh:409, 423), which is &front():
    undefined when there are no entries. *)
Definition one_window {A} (a : A) (mk : A -> gc) : window A :=
  Window [a] (fun l => match l with [x] => mk x | _ => mk a end).
Definition mat_window {A} (m : mat A) (mk : mat A -> gc) : out (window A) :=
  match mdata m with
  | [] => Undef
  | l => Ok (Window l (fun l => mk (Mat (mrows m) (mcols m) l)))
  end.
(** get_int_pointer 1266-1334 (const and not), get_long_pointer 1336-1404, get_real_pointer
    1406-1474, get_complex_pointer 1476-1545. *)
Definition get_int_pointer (g : gc) : out (window Z) :=
  match g with
  | GInt i => Ok (one_window i GInt)
  | GVInt v => Ok (Window v GVInt)
  | GMInt m => mat_window m GMInt
  | _ => Throw
  end.
Definition get_long_pointer (g : gc) : out (window Z) :=
  match g with
  | GLong l => Ok (one_window l GLong)
  | GVLong v => Ok (Window v GVLong)
  | GMLong m => mat_window m GMLong
  | _ => Throw
  end.
Definition get_real_pointer (g : gc) : out (window Z) :=
  match g with
  | GReal r => Ok (one_window r GReal)
  | GVReal v => Ok (Window v GVReal)
  | GMReal m => mat_window m GMReal
  | _ => Throw
  end.
Definition get_complex_pointer (g : gc) : out (window cplx) :=
  match g with
  | GComplex c => Ok (one_window c GComplex)
  | GVComplex v => Ok (Window v GVComplex)
  | GMComplex m => mat_window m GMComplex
  | _ => Throw
  end.
(** get_ppvoid 1260-1264, and get_pointer<T> (GenericContainer.hh:1722-1724), whose reference
    is to the same word. *)
Definition get_ppvoid (g : gc) : out (window Z) :=
  match g with GPtr p => Ok (one_window p GPtr) | _ => Throw end.

(** mat_type::info 208-213; the sizes are unsigned. *)
Definition mat_info {A} (m : mat A) : text :=
  txt "Matrix of floating point number of size " ++ print_int (mrows m) ++ txt " x " ++ print_int (mcols m) ++ [nl].
(** info 3182-3252, on a stream in its initial state with precision [P]; [SP] is
    stream_number_precision (to_string of complex numbers).  ostream << of a
    void * prints hexadecimal digits with 0x in the implementations at hand, and 0 for
    nullptr; the state of the stream is not changed by it.  c_str() cuts the string. *)
Definition sized {A} (what : string) (v : list A) : text := txt what ++ print_int (zlen v) ++ [nl].
Definition info (P SP : nat) (g : gc) : text :=
  match g with
  | GNone => txt "GenericContainer: No data stored" ++ [nl]
  | GPtr p => txt "Generic pointer: " ++ print_hex p ++ [nl]
  | GBool b => txt "Boolean: " ++ put_bool b ++ [nl]
  | GInt i => txt "Integer: " ++ print_int i ++ [nl]
  | GLong l => txt "Long: " ++ print_int l ++ [nl]
  | GReal r => txt "Floating Point: " ++ print_g P r ++ [nl]
  | GComplex c => txt "Complex Floating Point: " ++ cplx_text SP c ++ [nl]
  | GStr s => txt "String: " ++ txt (cstr s) ++ [nl]
  | GVPtr v => sized "Vector of generic pointer of size " v
  | GVBool v => sized "Vector of boolean of size " v
  | GVInt v => sized "Vector of integer of size " v
  | GVLong v => sized "Vector of long integer of size " v
  | GVReal v => sized "Vector of floating point number of size " v
  | GVComplex v => sized "Vector of complex floating point number of size " v
  | GVStr v => sized "Vector of string of size " v
  | GMInt m => mat_info m
  | GMLong m => mat_info m
  | GMReal m => mat_info m
  | GMComplex m => mat_info m
  | GVec v => sized "Vector of generic data type of size " v
  | GMap _ => txt "Map" ++ [nl]
  end.
