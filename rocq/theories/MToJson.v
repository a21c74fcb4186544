(** Model of to_json (src_json_interface/to_json.cc:48-196). *)
From Coq Require Import ZArith Bool Lia Ascii String List.
From Verif Require Import Base F64 StrMap Value MBasic MGet MMat MNum MText.
Import ListNotations.
Local Open Scope Z_scope.

(** The stream: its precision for reals is a parameter [P], stream_number_precision
    (src/GenericContainer.cc:69) is the parameter [SP]; other formatting flags have their
    default values, except that to_json itself sets std::hex and std::showbase
    (lines 179-188) and never resets them: the flag [hx]. *)

(** ostream << of an unsigned number with std::hex and std::showbase; 0 has no prefix. *)
Definition hex_digit (d : Z) : ascii := ascii_of_N (Z.to_N (if d <? 10 then 48 + d else 87 + d)).
Fixpoint hex_digits (fuel : nat) (n : Z) : text :=
  match fuel with
  | O => []
  | S f => (if n <? 16 then [] else hex_digits f (n / 16)) ++ [hex_digit (n mod 16)]
  end.
Definition print_hex (n : Z) : text := if n =? 0 then ["0"%char] else txt "0x" ++ hex_digits 16 n.
(** ostream << of int and int64_t: with std::hex the bits are printed. *)
Definition put_int (hx : bool) (i : Z) : text := if hx then print_hex (to_u32 i) else print_int i.
Definition put_long (hx : bool) (l : Z) : text := if hx then print_hex (to_u64 l) else print_int l.
Definition put_bool (b : bool) : text := if b then txt "true" else txt "false".

(** Comparison of a double with 0. *)
Definition gt0 (x : Z) : bool := negb (fsign x) && (is_inf x || (is_finite x && (0 <? fmag x))).
Definition lt0 (x : Z) : bool := fsign x && (is_inf x || (is_finite x && (0 <? fmag x))).
(** to_string(complex) (src/GenericContainer.cc:73-81). *)
Definition cplx_text (SP : nat) (c : cplx) : text :=
  print_g SP (fst c) ++
  (if gt0 (snd c) then "+"%char :: print_g SP (snd c) ++ ["i"%char] else []) ++
  (if lt0 (snd c) then "-"%char :: print_g SP (fneg (snd c)) ++ ["i"%char] else []).

(** GC_PRINT_VECTOR (lines 80-84) and the loops like it: "[ " before the first element, ", "
    before the others, " ]" at the end. *)
Fixpoint put_list {A} (f : A -> text) (pre : text) (v : list A) : text :=
  match v with [] => [] | a :: v' => pre ++ f a ++ put_list f (txt ", ") v' end.
Definition put_vec {A} (f : A -> text) (v : list A) : text := put_list f (txt "[ ") v ++ txt " ]".

(** GC_PRINT_MATRIX (lines 143-155): column after column, each entry through operator()
    (src/GenericContainer.cc:134-144), which throws if the product of the dimensions does not
    fit in 32 bits.  With an exception the text written so far is not modelled. *)
Fixpoint put_cols {A} (f : A -> text) (m : mat A) (prefix1 pre0 : text) (js : list Z) : out text :=
  match js with
  | [] => Ok []
  | j :: js' =>
      do c <- omapM (fun i => mat_get m i j) (zseq (mrows m)) ;
      do r <- put_cols f m prefix1 (txt " ]," ++ nl :: prefix1 ++ txt "[ ") js' ;
      Ok (put_list f pre0 c ++ r)
  end.
Definition put_mat {A} (f : A -> text) (prefix prefix1 : text) (m : mat A) : out text :=
  do b <- put_cols f m prefix1 (prefix1 ++ txt "[ ") (zseq (mcols m)) ;
  Ok (txt "[" ++ nl :: b ++ txt " ]" ++ nl :: prefix ++ txt "]").

(** to_json (lines 48-191): the text written and the new value of the flag. *)
Fixpoint to_json (P SP : nat) (g : gc) (prefix : text) (hx : bool) : out (text * bool) :=
  let prefix1 := prefix ++ txt "  " in
  let flat (t : text) := Ok (t, hx) in
  match g with
  | GNone => flat (txt "null")
  | GBool b => flat (put_bool b)
  | GInt i => flat (put_int hx i)
  | GLong l => flat (put_long hx l)
  | GReal x => flat (print_g P x)
  | GComplex c => flat (quote :: cplx_text SP c ++ [quote])
  | GStr s => flat (string_escape s)
  | GVBool v => flat (put_vec put_bool v)
  | GVInt v => flat (put_vec (put_int hx) v)
  | GVLong v => flat (put_vec (put_long hx) v)
  | GVReal v => flat (put_vec (print_g P) v)
  | GVComplex v => flat (put_vec (fun c => quote :: cplx_text SP c ++ [quote]) v)
  | GVStr v => flat (put_vec string_escape v)
  | GVec [] => flat []
  | GVec v =>
      do (b, h) <- (fix elems (v : list gc) (pre : text) (hx : bool) : out (text * bool) :=
                      match v with
                      | [] => Ok ([], hx)
                      | a :: v' =>
                          do (t, h1) <- to_json P SP a prefix1 hx ;
                          do (r, h2) <- elems v' ("," :: [nl])%char h1 ;
                          Ok (pre ++ prefix1 ++ t ++ r, h2)
                      end) v ("[" :: [nl])%char hx ;
      Ok (nl :: prefix ++ b ++ nl :: prefix ++ txt "]", h)
  | GMap [] => flat []
  | GMap m =>
      do (b, h) <- (fix members (m : list (string * gc)) (pre : text) (hx : bool) : out (text * bool) :=
                      match m with
                      | [] => Ok ([], hx)
                      | (k, a) :: m' =>
                          do (t, h1) <- to_json P SP a prefix1 hx ;
                          do (r, h2) <- members m' ("," :: [nl])%char h1 ;
                          Ok (pre ++ prefix ++ txt "  " ++ quote :: txt k ++ quote :: txt ": " ++ t ++ r, h2)
                      end) m ("{" :: [nl])%char hx ;
      Ok (nl :: prefix ++ b ++ nl :: prefix ++ txt "}", h)
  | GMInt m => do t <- put_mat (put_int hx) prefix prefix1 m ; flat t
  | GMLong m => do t <- put_mat (put_long hx) prefix prefix1 m ; flat t
  | GMReal m => do t <- put_mat (print_g P) prefix prefix1 m ; flat t
  | GMComplex m => do t <- put_mat (fun c => "'"%char :: cplx_text SP c ++ ["'"%char]) prefix prefix1 m ; flat t
  | GPtr p => Ok (print_hex p, true)
  | GVPtr v => Ok (put_vec print_hex v, match v with [] => hx | _ => true end)
  end.

(** to_json( stream, prefix ) on a stream in its default state. *)
Definition json_of (P SP : nat) (prefix : text) (g : gc) : out text :=
  do (t, _) <- to_json P SP g prefix false ; Ok t.

Example json_of_ex :
  omap untxt (json_of 6 12 [] (GMap [("a"%string, GVInt [1; -2]); ("b"%string, GVec [GStr "x"%string; GNone]); ("c"%string, GMInt (Mat 2 2 [1; 2; 3; 4]))])) =
  Ok ("
{
  ""a"": [ 1, -2 ],
  ""b"": 
  [
    ""x"",
    null
  ],
  ""c"": [
    [ 1, 2 ],
    [ 3, 4 ]
  ]
}")%string /\
  omap untxt (json_of 6 12 [] (GVec [GPtr 255; GInt 16; GInt (-1)])) = Ok ("
[
  0xff,
  0x10,
  0xffffffff
]")%string /\
  omap untxt (json_of 6 12 [] (GVComplex [(f_of_Z 1, f_of_Z (-2)); (f_of_Z 1, 0)])) = Ok "[ ""1-2i"", ""1"" ]"%string.
Proof. vmc. Qed.
