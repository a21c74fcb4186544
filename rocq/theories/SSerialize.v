(** Specification vocabulary for serialization: the wire format. *)
From Coq Require Import ZArith Bool Lia Ascii String List.
From Verif Require Import Base F64 StrMap Value SCollapse.
Import ListNotations.
Local Open Scope Z_scope.

(** The [n] little-endian bytes of [z] (two's complement when negative). *)
Definition le (n : nat) (z : Z) : list Z := map (fun i => (z / 256 ^ Z.of_nat i) mod 256) (seq 0 n).

Definition str_bytes (s : string) : list Z := map (fun c => Z.of_N (N_of_ascii c)) (list_ascii_of_string s).
Definition str_len (s : string) : Z := Z.of_nat (String.length s).

(** Length including terminator, bytes, terminator. *)
Definition enc_str (s : string) : list Z := le 4 (str_len s + 1) ++ str_bytes s ++ [0].
Definition enc_cplx (c : cplx) : list Z := le 8 (fst c) ++ le 8 (snd c).
Definition enc_bool (b : bool) : list Z := [if b then 1 else 0].
(** Count and elements. *)
Definition enc_seq {A} (f : A -> list Z) (l : list A) : list Z := le 4 (zlen l) ++ concat (map f l).
Definition enc_mat {A} (f : A -> list Z) (m : mat A) : list Z :=
  le 4 (mrows m) ++ le 4 (mcols m) ++ concat (map f (mdata m)).

(** The encoding of a container: its tag on four bytes, then its content. *)
Fixpoint enc (g : gc) : list Z :=
  le 4 (tag_num (tag_of g)) ++
  match g with
  | GNone => []
  | GPtr p => le 8 p
  | GBool b => enc_bool b
  | GInt i => le 4 i
  | GLong l => le 8 l
  | GReal r => le 8 r
  | GComplex c => enc_cplx c
  | GStr s => enc_str s
  | GVPtr v => enc_seq (le 8) v
  | GVBool v => enc_seq enc_bool v
  | GVInt v => enc_seq (le 4) v
  | GVLong v => enc_seq (le 8) v
  | GVReal v => enc_seq (le 8) v
  | GVComplex v => enc_seq enc_cplx v
  | GVStr v => enc_seq enc_str v
  | GMInt m => enc_mat (le 4) m
  | GMLong m => enc_mat (le 8) m
  | GMReal m => enc_mat (le 8) m
  | GMComplex m => enc_mat enc_cplx m
  | GVec v => enc_seq enc v
  | GMap m => enc_seq (fun kv => enc_str (fst kv) ++ enc (snd kv)) m
  end.

(** All strings and keys occurring directly in a container satisfy [P]. *)
Definition strings_here (P : string -> Prop) (g : gc) : Prop :=
  match g with
  | GStr s => P s
  | GVStr v => Forall P v
  | GMap m => Forall P (map fst m)
  | _ => True
  end.
Definition all_strings (P : string -> Prop) : gc -> Prop := everywhere (strings_here P).

(** Strings whose length with terminator is an int. *)
Definition short (g : gc) : Prop := all_strings (fun s => str_len s + 1 < 2^31) g.
Definition no_empty_string (g : gc) : Prop := all_strings (fun s => s <> EmptyString) g.
Definition nul_free (g : gc) : Prop := all_strings no_nul g.
Definition no_mat_complex (g : gc) : Prop := everywhere (fun g => tag_of g <> TMComplex) g.
Definition no_pointer (g : gc) : Prop := everywhere (fun g => tag_of g <> TPtr /\ tag_of g <> TVPtr) g.

(** [l] is an initial part of [l']. *)
Definition prefix_of {A} (l l' : list A) : Prop := exists r, l' = l ++ r.
