(** Specification vocabulary for to_json: the containers that have a JSON form, and that form. *)
From Coq Require Import ZArith Bool Lia Ascii String List.
From Verif Require Import Base F64 StrMap Value SGet SPromote SCollapse MNum LNum MText MJson SJson SJsonText.
Import ListNotations.
Local Open Scope Z_scope.

(** Well-formed UTF-8 without control characters, quotes and backslashes. *)
Definition plain_char (c : ascii) : Prop := (32 <= byte c < 128)%N /\ c <> ch 34 /\ c <> ch 92.
Inductive plain_text : text -> Prop :=
| pt_nil : plain_text []
| pt_char c t : plain_char c -> plain_text t -> plain_text (c :: t)
| pt_utf8 n t : 128 <= n < 1114112 -> ~ (55296 <= n < 57344) -> plain_text t -> plain_text (utf8 n ++ t).
(** Well-formed UTF-8 without other control characters than \b, \t, \n, \r. *)
Inductive clean_text : text -> Prop :=
| ct_nil : clean_text []
| ct_char c t : (32 <= byte c < 128)%N \/ In (byte c) [8; 9; 10; 13]%N -> clean_text t -> clean_text (c :: t)
| ct_utf8 n t : 128 <= n < 1114112 -> ~ (55296 <= n < 57344) -> clean_text t -> clean_text (utf8 n ++ t).

(** What to_json can write as JSON: no pointers, complex matrices, infinities or NaNs, no empty
    vectors, maps and matrices, no matrices of 2^32 entries or more; strings of clean text and
    member names of plain text. *)
Definition json_node (g : gc) : Prop :=
  match g with
  | GPtr _ | GVPtr _ | GMComplex _ => False
  | GReal x => is_finite x = true
  | GVReal v => v <> [] /\ Forall (fun x => is_finite x = true) v
  | GStr s => clean_text (txt s)
  | GVStr v => v <> [] /\ Forall (fun s => clean_text (txt s)) v
  | GVBool v => v <> []
  | GVInt v | GVLong v => v <> []
  | GVComplex v => v <> []
  | GMInt m | GMLong m => 0 < mrows m /\ 0 < mcols m /\ mrows m * mcols m < 2^32
  | GMReal m => 0 < mrows m /\ 0 < mcols m /\ mrows m * mcols m < 2^32 /\ Forall (fun x => is_finite x = true) (mdata m)
  | GVec v => v <> []
  | GMap m => m <> [] /\ Forall (fun kv => plain_text (txt (fst kv))) m
  | _ => True
  end.

(** A real that is written exactly enough: a finite double with at most P significant decimal
    digits, or any finite double if P is at least 17. *)
Definition exact_real (P : nat) (x : Z) : Prop := dec_digits P x \/ (17 <= P)%nat.
(** What is written without loss: complex numbers are written as strings, reals with P digits. *)
Definition exact_node (P : nat) (g : gc) : Prop :=
  match g with
  | GComplex _ | GVComplex _ | GMComplex _ => False
  | GReal x => exact_real P x
  | GVReal v => Forall (exact_real P) v
  | GMReal m => Forall (exact_real P) (mdata m)
  | _ => True
  end.

(** The JSON form of a real: an integer of at most P digits or a double. *)
Definition real_doc (P : nat) (x : Z) (j : json) : Prop :=
  (exists n, j = JInt n /\ Z.abs n < 10 ^ Z.of_nat P /\ (exact_real P x -> d_int n = d_real x)) \/
  (exists y, j = JDbl y /\ (exact_real P x -> y = x)).
Definition list_doc {A} (R : A -> json -> Prop) (v : list A) (j : json) : Prop := exists l, j = JArr l /\ Forall2 R v l.
Definition mat_doc {A} (R : A -> json -> Prop) (m : mat A) (j : json) : Prop :=
  list_doc (list_doc R) (columns (Z.to_nat (mrows m)) (Z.to_nat (mcols m)) (mdata m)) j.
Definition is_str (j : json) : Prop := exists s, j = JStr s.
(** The JSON form of a container: vectors are arrays, matrices arrays of their columns, maps
    objects, complex numbers strings. *)
Inductive doc (P : nat) : gc -> json -> Prop :=
| doc_none : doc P GNone JNull
| doc_bool b : doc P (GBool b) (JBool b)
| doc_int i : doc P (GInt i) (JInt i)
| doc_long l : doc P (GLong l) (JInt l)
| doc_real x j : real_doc P x j -> doc P (GReal x) j
| doc_cplx c j : is_str j -> doc P (GComplex c) j
| doc_str s : doc P (GStr s) (JStr s)
| doc_vbool v j : list_doc (fun b j => j = JBool b) v j -> doc P (GVBool v) j
| doc_vint v j : list_doc (fun i j => j = JInt i) v j -> doc P (GVInt v) j
| doc_vlong v j : list_doc (fun i j => j = JInt i) v j -> doc P (GVLong v) j
| doc_vreal v j : list_doc (real_doc P) v j -> doc P (GVReal v) j
| doc_vcplx v j : list_doc (fun _ => is_str) v j -> doc P (GVComplex v) j
| doc_vstr v j : list_doc (fun s j => j = JStr s) v j -> doc P (GVStr v) j
| doc_mint m j : mat_doc (fun i j => j = JInt i) m j -> doc P (GMInt m) j
| doc_mlong m j : mat_doc (fun i j => j = JInt i) m j -> doc P (GMLong m) j
| doc_mreal m j : mat_doc (real_doc P) m j -> doc P (GMReal m) j
| doc_vec v l : Forall2 (doc P) v l -> doc P (GVec v) (JArr l)
| doc_map m l : Forall2 (fun a b => fst a = fst b /\ doc P (snd a) (snd b)) m l -> doc P (GMap m) (JObj l).

(** No arrays directly inside arrays. *)
Definition no_nested_arrays (g : gc) : Prop :=
  match g with
  | GMInt _ | GMLong _ | GMReal _ | GMComplex _ => False
  | GVec v => Forall (fun a => scalar a \/ tag_of a = TMap) v
  | _ => True
  end.
(** No vector with both a boolean, number or string and an element that is one-element data. *)
Definition not_mixed_data (g : gc) : Prop :=
  match g with
  | GVec v => forall a b d, In a v -> In b v -> scalar a -> data_of b = DList [d] -> a = GNone
  | _ => True
  end.
(** No number from 2^31 to 2^32-1. *)
Definition small_or_large (n : Z) : Prop := ~ (2^31 <= n < 2^32).
Definition real_small_or_large (x : Z) : Prop := forall n, fis x n -> small_or_large n.
Definition ints_kept (g : gc) : Prop :=
  match g with
  | GLong l => small_or_large l
  | GReal x => real_small_or_large x
  | GVLong v => Forall small_or_large v
  | GVReal v => Forall real_small_or_large v
  | GMLong m => Forall small_or_large (mdata m)
  | GMReal m => Forall real_small_or_large (mdata m)
  | _ => True
  end.
(** The reals of a container are in [Q]. *)
Definition real_node (Q : Z -> Prop) (g : gc) : Prop :=
  match g with
  | GReal x => Q x
  | GVReal v => Forall Q v
  | GMReal m => Forall Q (mdata m)
  | _ => True
  end.
(** Zero, or of magnitude from 10^-7 to 10^22. *)
Definition medium (x : Z) : Prop := fmag x = 0 \/ (fone <= fmag x * 10 ^ 7 /\ fmag x <= 10 ^ 22 * fone).
