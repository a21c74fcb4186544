(** Model of dump and print_content_types (src/GenericContainer.cc:100-122, 213-278,
    3423-3707) and of their aliases print (include/GenericContainer/GenericContainer.hh:4055,
    4070). *)
From Coq Require Import ZArith Bool Lia Ascii String List.
From Verif Require Import Base F64 StrMap Value MBasic MGet MMat MNum MText MToJson MToYaml.
Import ListNotations.
Local Open Scope Z_scope.

(** The stream is as in MToJson.v: precision [P] for reals, stream_number_precision [SP], and
    the flag [hx] for std::hex and std::showbase, which lines 3434 and 3459 set and nothing
    resets. *)

(** operator << of vectors (src/GenericContainer.cc:100-122). *)
Definition put_items {A} (f : A -> text) (v : list A) : text :=
  "["%char :: flat_map (fun a => " "%char :: f a) v ++ txt " ]".

(** std::setw(n): filled with spaces on the left. *)
Definition pad (n : nat) (t : text) : text := repeat " "%char (n - List.length t) ++ t.

(** operator << of matrices (src/GenericContainer.cc:213-246): [f0] prints the entries of the
    first column, [f] with width [w] the others (they differ for complex matrices only).  With
    an exception of operator() the text written so far is not modelled. *)
Definition mat_row {A} (f0 : A -> text) (w : nat) (f : A -> text) (m : mat A) (i : Z) : out text :=
  do x <- mat_get m i 0 ;
  do xs <- omapM (fun j => mat_get m i j) (tl (zseq (mcols m))) ;
  Ok (pad 8 (f0 x) ++ flat_map (fun y => " "%char :: pad w (f y)) xs ++ [nl]).
Definition mat_lines {A} (hx : bool) (f0 : A -> text) (w : nat) (f : A -> text) (m : mat A) : out text :=
  if (0 <? mrows m) && negb (mcols m =? 0)
  then do l <- omapM (mat_row f0 w f m) (zseq (mrows m)) ; Ok (concat l)
  else Ok (put_long hx (mrows m) ++ txt " by " ++ put_long hx (mcols m) ++ txt " matrix" ++ [nl]).

(** Pcre_for_GC::exec (src/GenericContainer.cc:253-278); its regular expression (line 261) asks
    for spaces, one digit or more, spaces, then the groups: # or ##; one of - = ~ _ or nothing;
    and, after spaces, characters other than line ends up to the end of the key.  The result is
    whether the first group has two characters, the second group and the third group.  Every
    repetition takes as much as it can: giving back does not help, since only the last group
    can fail, on a line end, which it then still contains. *)
Definition digit_char (c : ascii) : bool := let n := N_of_ascii c in ((48 <=? n) && (n <=? 57))%N.
Fixpoint skip_digits (t : text) : text :=
  match t with c :: t' => if digit_char c then skip_digits t' else t | [] => [] end.
Definition is_eol (c : ascii) : bool := let n := N_of_ascii c in ((n =? 10) || (n =? 13))%N.
Definition is_line (c : ascii) : bool :=
  (Ascii.eqb c "-" || Ascii.eqb c "=" || Ascii.eqb c "~" || Ascii.eqb c "_")%char.
Definition parse_key (k : text) : option (bool * option ascii * text) :=
  match skip_space k with
  | c :: t =>
      if digit_char c then
        match skip_space (skip_digits t) with
        | h :: t1 =>
            if Ascii.eqb h "#" then
              let '(two, t2) := match t1 with
                                | h' :: t2 => if Ascii.eqb h' "#" then (true, t2) else (false, t1)
                                | [] => (false, t1)
                                end in
              let '(u, t3) := match t2 with
                              | c' :: t3 => if is_line c' then (Some c', t3) else (None, t2)
                              | [] => (None, t2)
                              end in
              let t4 := skip_space t3 in
              if existsb is_eol t4 then None else Some (two, u, t4)
            else None
        | [] => None
        end
      else None
  | [] => None
  end.

(** The lines above the content of a member that is not simple (lines 3536-3546, 3554). *)
Definition head_lines (prefix : text) (k : text) : text :=
  match parse_key k with
  | Some (two, u, t) =>
      (if two : bool then [nl] else []) ++ prefix ++ t ++
      (match u with Some c => nl :: prefix ++ repeat c (List.length t) | None => [":"%char] end) ++ [nl]
  | None => prefix ++ k ++ ":"%char :: [nl]
  end.
(** What stands for the key on the line of a simple member (lines 3533, 3552). *)
Definition title (k : text) : text := match parse_key k with Some (_, _, t) => t | None => k end.

(** VEC_POINTER (lines 3455-3461): std::hex acts from the first pointer on, so that it changes
    the following indices. *)
Fixpoint ptr_lines (prefix : text) (i : Z) (hx : bool) (v : list Z) : text * bool :=
  match v with
  | [] => ([], hx)
  | p :: v' =>
      let '(r, h) := ptr_lines prefix (i + 1) true v' in
      (prefix ++ txt "vec_pointer(" ++ put_long hx i ++ txt "): " ++ print_hex p ++ nl :: r, h)
  end.
(** VEC_STRING (lines 3493-3498). *)
Fixpoint str_lines (prefix : text) (i : Z) (hx : bool) (v : list string) : text :=
  match v with
  | [] => []
  | s :: v' => prefix ++ put_long hx i ++ txt ": " ++ quote :: txt s ++ quote :: nl :: str_lines prefix (i + 1) hx v'
  end.

(** The default value of [indent]. *)
Definition indent0 : text := txt "    ".
(** Elements of a vector written on the line of their index (lines 3510-3511). *)
Definition short (g : gc) : bool := simple_data g || (simple_vec_data g && (num_elements g <=? 10)).

(** VECTOR (lines 3500-3520) and MAP (lines 3521-3560) in dump; the recursive calls do not pass
    [indent] on. *)
Definition dump_elems (dump : gc -> text -> text -> bool -> out (text * bool)) (prefix indent : text) : list gc -> Z -> bool -> out (text * bool) :=
  fix elems (v : list gc) (i : Z) (hx : bool) : out (text * bool) :=
         match v with
         | [] => Ok ([], hx)
         | a :: v' =>
             do (t, h1) <- (if short a
                            then do (t, h1) <- dump a [] indent0 hx ; Ok (prefix ++ put_long hx i ++ txt ": " ++ t, h1)
                            else do (t, h1) <- dump a (prefix ++ indent) indent0 hx ; Ok (prefix ++ put_long hx i ++ ":"%char :: nl :: t, h1)) ;
             do (r, h2) <- elems v' (i + 1) h1 ;
             Ok (t ++ r, h2)
         end.
Definition dump_members (dump : gc -> text -> text -> bool -> out (text * bool)) (prefix indent : text) : list (string * gc) -> bool -> out (text * bool) :=
  fix members (m : list (string * gc)) (hx : bool) : out (text * bool) :=
         match m with
         | [] => Ok ([], hx)
         | (k, a) :: m' =>
             do (t, h1) <- (if simple_data a
                            then do (t, h1) <- dump a [] indent0 hx ; Ok (prefix ++ title (txt k) ++ txt ": " ++ t, h1)
                            else do (t, h1) <- dump a (prefix ++ indent) indent0 hx ; Ok (head_lines prefix (txt k) ++ t, h1)) ;
             do (r, h2) <- members m' h1 ;
             Ok (t ++ r, h2)
         end.

(** dump (lines 3423-3567): the text written and the new value of the flag. *)
Fixpoint dump (P SP : nat) (g : gc) (prefix indent : text) (hx : bool) : out (text * bool) :=
  let line (t : text) := Ok (prefix ++ t ++ [nl], hx) in
  match g with
  | GNone => line (txt "null")
  | GPtr p => Ok (prefix ++ print_hex p ++ [nl], true)
  | GBool b => line (put_bool b)
  | GInt i => line (put_int hx i)
  | GLong l => line (put_long hx l)
  | GReal x => line (print_g P x)
  | GComplex c => line (cplx_text SP c)
  | GStr s => line (quote :: txt s ++ [quote])
  | GVPtr v => Ok (ptr_lines prefix 0 hx v)
  | GVBool v => line (put_items put_bool v)
  | GVInt v => line (put_items (put_int hx) v)
  | GVLong v => line (put_items (put_long hx) v)
  | GVReal v => line (put_items (print_g P) v)
  | GVComplex v => line (put_items (cplx_text SP) v)
  | GMInt m => do t <- mat_lines hx (put_int hx) 8 (put_int hx) m ; Ok (t, hx)
  | GMLong m => do t <- mat_lines hx (put_long hx) 8 (put_long hx) m ; Ok (t, hx)
  | GMReal m => do t <- mat_lines hx (print_g P) 8 (print_g P) m ; Ok (t, hx)
  | GMComplex m => do t <- mat_lines hx (put_cplx P) 12 (cplx_text SP) m ; Ok (t, hx)
  | GVStr v => Ok (str_lines prefix 0 hx v, hx)
  | GVec v => dump_elems (dump P SP) prefix indent v 0 hx
  | GMap m => dump_members (dump P SP) prefix indent m hx
  end.

(** dump( stream, prefix, indent ) and print( stream, prefix, indent ) on a stream in its
    default state; print( prefix, indent ) is [dump_of SP SP]. *)
Definition dump_of (P SP : nat) (prefix indent : text) (g : gc) : out text :=
  do (t, _) <- dump P SP g prefix indent false ; Ok t.

(** VECTOR (lines 3644-3661) and MAP (lines 3662-3700) in print_content_types. *)
Definition types_elems (types : gc -> text -> text -> text) (prefix indent : text) : list gc -> Z -> text :=
  fix elems (v : list gc) (i : Z) : text :=
         match v with
         | [] => []
         | a :: v' =>
             (if simple_data a || simple_vec_data a
              then prefix ++ print_int i ++ txt ": " ++ types a [] indent0
              else prefix ++ print_int i ++ ":"%char :: nl :: types a (prefix ++ indent) indent) ++
             elems v' (i + 1)
         end.
Definition types_members (types : gc -> text -> text -> text) (prefix indent : text) : list (string * gc) -> text :=
  fix members (m : list (string * gc)) : text :=
         match m with
         | [] => []
         | (k, a) :: m' =>
             (if simple_data a || simple_vec_data a
              then prefix ++ title (txt k) ++ txt ": " ++ types a [] indent0
              else head_lines prefix (txt k) ++ types a (prefix ++ indent) indent) ++
             members m'
         end.

(** print_content_types (lines 3570-3707) on a stream in its default state. *)
Fixpoint types_of (g : gc) (prefix indent : text) : text :=
  let line (t : string) := prefix ++ txt t ++ [nl] in
  let vec (t : string) (n : Z) := txt "vector of " ++ txt t ++ txt "[" ++ print_int n ++ txt "]" ++ [nl] in
  let mat (t : string) (r c : Z) := txt "matrix of " ++ txt t ++ txt "[" ++ print_int r ++ txt "," ++ print_int c ++ txt "]" ++ [nl] in
  match g with
  | GNone => line "Empty!"%string
  | GPtr _ => line "(*void)"%string
  | GBool _ => line "bool"%string
  | GInt _ => line "int"%string
  | GLong _ => line "long int"%string
  | GReal _ => line "double"%string
  | GComplex _ => line "complex"%string
  | GStr _ => line "string"%string
  | GVPtr v => vec "pointer"%string (zlen v)
  | GVBool v => vec "bool"%string (zlen v)
  | GVInt v => vec "int"%string (zlen v)
  | GVLong v => vec "long"%string (zlen v)
  | GVReal v => vec "double"%string (zlen v)
  | GVComplex v => vec "complex"%string (zlen v)
  | GMInt m => mat "int"%string (mrows m) (mcols m)
  | GMLong m => mat "long"%string (mrows m) (mcols m)
  | GMReal m => mat "double"%string (mrows m) (mcols m)
  | GMComplex m => mat "complex"%string (mrows m) (mcols m)
  | GVStr v => vec "string"%string (zlen v)
  | GVec v => types_elems types_of prefix indent v 0
  | GMap m => types_members types_of prefix indent m
  end.

Example dump_ex :
  omap untxt (dump_of 6 12 (txt ">") (txt "..")
    (GMap [("1##- Title"%string, GMap [("x"%string, GInt 3)]); ("2# v"%string, GStr "a"%string);
           ("c"%string, GMInt (Mat 2 2 [1; 2; 3; -4]));
           ("d"%string, GVec [GVInt [1; 2]; GVec [GBool true; GPtr 255; GInt 16]; GVStr ["p"; "q"]%string; GMInt (Mat 0 3 [])])])) =
  Ok ("
>Title
>-----
>..x: 3
>v: ""a""
>c:
       1        3
       2       -4
>d:
>..0: [ 1 2 ]
>..1:
>..    0: true
>..    1: 0xff
>..    0x2: 0x10
>..0x2:
>..    0: ""p""
>..    0x1: ""q""
>..0x3:
0 by 0x3 matrix
")%string.
Proof. vmc. Qed.

Example types_ex :
  untxt (types_of
    (GMap [("1##- Title"%string, GMap [("x"%string, GInt 3)]); ("2# v"%string, GStr "a"%string);
           ("c"%string, GMInt (Mat 2 2 [1; 2; 3; -4]));
           ("d"%string, GVec [GVInt [1; 2]; GVec [GBool true]; GVStr ["p"; "q"]%string])]) (txt ">") (txt "..")) =
  ("
>Title
>-----
>..x: int
>v: string
>c:
matrix of int[2,2]
>d:
>..0: vector of int[2]
>..1:
>....0: bool
>..2:
vector of string[2]
")%string.
Proof. vmc. Qed.
