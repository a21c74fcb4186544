(** Model of to_yaml (src_yaml_interface/to_yaml.cc:48-202). *)
From Coq Require Import ZArith Bool Lia Ascii String List.
From Verif Require Import Base F64 StrMap Value MBasic MGet MMat MNum MText MToJson.
Import ListNotations.
Local Open Scope Z_scope.

(** The stream is as in MToJson.v: precision [P] for reals, stream_number_precision [SP], and
    the flag [hx] for std::hex and std::showbase, which lines 191-198 set and nothing resets. *)

(** ostream << std::complex (used for the elements of complex vectors and matrices, lines 86-90
    and 148-158): "(re,im)". *)
Definition put_cplx (P : nat) (c : cplx) : text :=
  "("%char :: print_g P (fst c) ++ ","%char :: print_g P (snd c) ++ [")"%char].

(** GC_PRINT_VECTOR (lines 86-90) is [put_vec] and a line end. *)
(** GC_PRINT_MATRIX (lines 148-158): one line for each column.  As in [put_cols], an exception
    of operator() ends it. *)
Fixpoint yput_cols {A} (f : A -> text) (m : mat A) (prefix : text) (js : list Z) : out text :=
  match js with
  | [] => Ok []
  | j :: js' =>
      do c <- omapM (fun i => mat_get m i j) (zseq (mrows m)) ;
      do r <- yput_cols f m prefix js' ;
      Ok (prefix ++ put_list f (txt "- [ ") c ++ txt " ]" ++ nl :: r)
  end.
Definition yput_mat {A} (f : A -> text) (prefix : text) (m : mat A) : out text :=
  do b <- yput_cols f m prefix (zseq (mcols m)) ; Ok (nl :: b).

(** to_yaml (lines 48-202): the text written and the new value of the flag.  Keys are written
    as they are (line 141). *)
Fixpoint to_yaml (P SP : nat) (g : gc) (prefix : text) (hx : bool) : out (text * bool) :=
  let line (t : text) := Ok (t ++ [nl], hx) in
  match g with
  | GNone => line (txt "null")
  | GBool b => line (put_bool b)
  | GInt i => line (put_int hx i)
  | GLong l => line (put_long hx l)
  | GReal x => line (print_g P x)
  | GComplex c => line (cplx_text SP c)
  | GStr s => line (string_escape s)
  | GVBool v => line (put_vec put_bool v)
  | GVInt v => line (put_vec (put_int hx) v)
  | GVLong v => line (put_vec (put_long hx) v)
  | GVReal v => line (put_vec (print_g P) v)
  | GVComplex v => line (put_vec (put_cplx P) v)
  | GVStr v => line (put_vec string_escape v)
  | GVec [] => line (txt "null")
  | GVec v =>
      do (b, h) <- (fix elems (v : list gc) (hx : bool) : out (text * bool) :=
                      match v with
                      | [] => Ok ([], hx)
                      | a :: v' =>
                          do (t, h1) <- to_yaml P SP a (prefix ++ txt "  ") hx ;
                          do (r, h2) <- elems v' h1 ;
                          Ok (prefix ++ txt "- " ++ t ++ r, h2)
                      end) v hx ;
      Ok (nl :: b, h)
  | GMap [] => line (txt "null")
  | GMap m =>
      do (b, h) <- (fix members (m : list (string * gc)) (hx : bool) : out (text * bool) :=
                      match m with
                      | [] => Ok ([], hx)
                      | (k, a) :: m' =>
                          do (t, h1) <- to_yaml P SP a (prefix ++ txt "  ") hx ;
                          do (r, h2) <- members m' h1 ;
                          Ok (prefix ++ txt k ++ txt ": " ++ t ++ r, h2)
                      end) m hx ;
      Ok (nl :: b, h)
  | GMInt m => do t <- yput_mat (put_int hx) prefix m ; Ok (t, hx)
  | GMLong m => do t <- yput_mat (put_long hx) prefix m ; Ok (t, hx)
  | GMReal m => do t <- yput_mat (print_g P) prefix m ; Ok (t, hx)
  | GMComplex m => do t <- yput_mat (put_cplx P) prefix m ; Ok (t, hx)
  | GPtr p => Ok (print_hex p ++ [nl], true)
  | GVPtr v => Ok (nl :: flat_map (fun p => prefix ++ txt "- " ++ print_hex p ++ [nl]) v, match v with [] => hx | _ => true end)
  end.

(** to_yaml( stream, prefix ) on a stream in its default state. *)
Definition yaml_of (P SP : nat) (prefix : text) (g : gc) : out text :=
  do (t, _) <- to_yaml P SP g prefix false ; Ok t.

Example yaml_of_ex :
  omap untxt (yaml_of 6 12 [] (GMap [("a"%string, GVInt [1; -2]); ("b"%string, GVec [GStr "x"%string; GNone; GMap [("k"%string, GBool true)]]); ("c"%string, GMInt (Mat 2 2 [1; 2; 3; 4]))])) =
  Ok ("
a: [ 1, -2 ]
b: 
  - ""x""
  - null
  - 
    k: true
c: 
  - [ 1, 2 ]
  - [ 3, 4 ]
")%string /\
  omap untxt (yaml_of 6 12 [] (GVec [GPtr 255; GInt 16; GComplex (f_of_Z 1, f_of_Z (-2))])) = Ok ("
- 0xff
- 0x10
- 1-2i
")%string.
Proof. vmc. Qed.
