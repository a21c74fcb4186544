(** Model of compare_content (src/GenericContainer.cc:404-584). *)
From Coq Require Import ZArith Bool Lia Ascii String List.
From Verif Require Import Base F64 StrMap Value MBasic MMat.
Import ListNotations.
Local Open Scope Z_scope.

(** operator== on double: IEEE comparison (false on NaN, the two zeros are equal). *)
Definition feq (x y : Z) : bool :=
  match fscaled x, fscaled y with
  | Some a, Some b => a =? b
  | None, None => is_inf x && (x =? y)
  | _, _ => false
  end.
(** operator== on std::complex<double>. *)
Definition ceq (a b : cplx) : bool := feq (fst a) (fst b) && feq (snd a) (snd b).

(** The report.  Simplified: the text of each message is replaced by its ingredients (the
    C++ code returns a string; every message is non-empty, so the string is empty exactly
    when the list of messages is). *)
Inductive report : Type :=
| RType (a b : tag)                       (* lines 457-460 *)
| RBool                                   (* line 468 *)
| RInt (a b : Z) | RLong (a b : Z) | RReal (a b : Z) | RPtr (a b : Z)
| RStr (a b : string) | RComplex (a b : cplx)
| RSize (a b : Z)                         (* lines 423, 545, 573 *)
| RAt (i : Z)                             (* line 416 *)
| RDims (ra ca rb cb : Z)                 (* lines 445-447 *)
| RAtM (i j : Z)                          (* line 439 *)
| RPos (i : Z) (r : list report)          (* line 539 *)
| RKey (k : string) (r : list report)     (* line 560 *)
| RKeys (k k' : string).                  (* lines 564-566 *)

(** compare_vector (src/GenericContainer.cc:404-426).  The iterators are never advanced in
    the loop (line 419 increments only [i]): if the first elements are equal the loop does
    not end.  (Strictly the counter then overflows, which is undefined.) *)
Definition compare_vector {A} (eqb : A -> A -> bool) (a b : list A) : out (list report) :=
  if zlen a =? zlen b then
    match a, b with
    | x :: _, y :: _ => if negb (eqb x y) then Ok [RAt 0] else Diverge
    | _, _ => Ok []
    end
  else Ok [RSize (zlen a) (zlen b)].

(** compare_matrix (src/GenericContainer.cc:428-451).  The break leaves the inner loop only. *)
Fixpoint cmp_row {A} (eqb : A -> A -> bool) (a b : mat A) (i : Z) (js : list Z) : out (list report) :=
  match js with
  | [] => Ok []
  | j :: t =>
      do x <- mat_get a i j ;
      do y <- mat_get b i j ;
      if negb (eqb x y) then Ok [RAtM i j] else cmp_row eqb a b i t
  end.
Fixpoint cmp_rows {A} (eqb : A -> A -> bool) (a b : mat A) (is_ : list Z) : out (list report) :=
  match is_ with
  | [] => Ok []
  | i :: t =>
      do r <- cmp_row eqb a b i (zseq (mcols a)) ;
      do rs <- cmp_rows eqb a b t ;
      Ok (r ++ rs)
  end.
Definition compare_matrix {A} (eqb : A -> A -> bool) (a b : mat A) : out (list report) :=
  if (mrows a =? mrows b) && (mcols a =? mcols b) then cmp_rows eqb a b (zseq (mrows a))
  else Ok [RDims (mrows a) (mcols a) (mrows b) (mcols b)].

Definition say (c : bool) (r : report) : list report := if c then [] else [r].

(** [hard]: the REAL case (lines 478-480) has no break and continues with the comparison of
    the pointer member of the union.  [hard = true]: undefined, as in the standard.
    [hard = false]: the bytes of the double are read as a pointer, as compilers do. *)
Section Compare.
Variable hard : bool.

(** compare_content (src/GenericContainer.cc:453-584). *)
Fixpoint compare_content (g h : gc) {struct g} : out (list report) :=
  if negb (tag_eqb (tag_of g) (tag_of h)) then Ok [RType (tag_of g) (tag_of h)] else
  match g, h with
  | GNone, GNone => Ok []
  | GBool a, GBool b => Ok (say (Bool.eqb a b) RBool)
  | GInt a, GInt b => Ok (say (a =? b) (RInt a b))
  | GLong a, GLong b => Ok (say (a =? b) (RLong a b))
  | GReal a, GReal b =>
      if hard then Undef else Ok (say (feq a b) (RReal a b) ++ say (a =? b) (RPtr a b))
  | GPtr a, GPtr b => Ok (say (a =? b) (RPtr a b))
  | GStr a, GStr b => Ok (say (String.eqb a b) (RStr a b))
  | GComplex a, GComplex b => Ok (say (ceq a b) (RComplex a b))
  | GVPtr a, GVPtr b => compare_vector Z.eqb a b
  | GVBool a, GVBool b => compare_vector Bool.eqb a b
  | GVInt a, GVInt b => compare_vector Z.eqb a b
  | GVLong a, GVLong b => compare_vector Z.eqb a b
  | GVReal a, GVReal b => compare_vector feq a b
  | GVComplex a, GVComplex b => compare_vector ceq a b
  | GVStr a, GVStr b => compare_vector String.eqb a b
  | GMInt a, GMInt b => compare_matrix Z.eqb a b
  | GMLong a, GMLong b => compare_matrix Z.eqb a b
  | GMReal a, GMReal b => compare_matrix feq a b
  | GMComplex a, GMComplex b => compare_matrix ceq a b
  | GVec v, GVec w =>
      if zlen v =? zlen w then
        (fix go (i : Z) (v w : list gc) {struct v} : out (list report) :=
           match v, w with
           | x :: v', y :: w' =>
               do r <- compare_content x y ;
               match r with [] => go (i + 1) v' w' | _ => Ok [RPos i r] end
           | _, _ => Ok []
           end) 0 v w
      else Ok [RSize (zlen v) (zlen w)]
  | GMap m, GMap n =>
      if zlen m =? zlen n then
        (fix go (m n : list (string * gc)) {struct m} : out (list report) :=
           match m, n with
           | (k, x) :: m', (k', y) :: n' =>
               if String.eqb k k' then
                 do r <- compare_content x y ;
                 match r with [] => go m' n' | _ => Ok [RKey k r] end
               else Ok [RKeys k k']
           | _, _ => Ok []
           end) m n
      else Ok [RSize (zlen m) (zlen n)]
  | _, _ => Undef (* not reached: the tags are equal *)
  end.
End Compare.
