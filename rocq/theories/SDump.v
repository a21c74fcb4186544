(** Specification vocabulary for dump and print_content_types. *)
From Coq Require Import ZArith Bool Lia Ascii String List.
From Verif Require Import Base F64 StrMap Value SCopy MMap SCapi SCollapse MNum MText MJson SJson SJsonText MToJson.
Import ListNotations.
Local Open Scope Z_scope.

(** Text made of complete lines; [l] is one of the lines of [t] (or several, if it contains
    line ends); every line of [t] starts with [prefix]. *)
Definition complete (t : text) : Prop := t = [] \/ exists u, t = u ++ [nl].
Definition has_line (l t : text) : Prop := exists a b, t = a ++ l ++ nl :: b /\ complete a.
Definition one_line_text (t : text) : Prop := ~ In nl t.
Definition all_lines (prefix t : text) : Prop :=
  exists ls, t = concat (map (fun l => prefix ++ l ++ [nl]) ls) /\ Forall one_line_text ls.

(** Keys with formatting: after blanks, a number and blanks, a # or ##, perhaps a character to
    underline with, blanks, and the title, which has no line end.  All that can belong to the
    formatting does. *)
Definition blank (c : ascii) : Prop := c = ch 32 \/ (9 <= N_of_ascii c <= 13)%N.
Definition decimal (c : ascii) : Prop := (48 <= N_of_ascii c <= 57)%N.
Definition underline (c : ascii) : Prop := In c (txt "-=~_").
Definition ends_line (c : ascii) : Prop := c = ch 10 \/ c = ch 13.
Definition starts_with (P : ascii -> Prop) (t : text) : Prop := exists c t', t = c :: t' /\ P c.
Definition formatted (k : text) (r : bool * option ascii * text) : Prop :=
  let '(two, u, t) := r in
  exists s1 d s2 s3,
    k = s1 ++ d ++ s2 ++ (if two then txt "##" else txt "#") ++ (match u with Some c => [c] | None => [] end) ++ s3 ++ t /\
    Forall blank s1 /\ Forall decimal d /\ d <> [] /\ Forall blank s2 /\ Forall blank s3 /\
    match u with Some c => underline c | None => ~ starts_with underline (s3 ++ t) end /\
    (two = false -> u = None -> ~ starts_with (eq "#"%char) (s3 ++ t)) /\
    ~ starts_with blank t /\ ~ Exists ends_line t.
(** A function that recognises them. *)
Definition recognises (fmt : text -> option (bool * option ascii * text)) : Prop :=
  forall k r, fmt k = Some r <-> formatted k r.

(** All values inside a container with their paths, in the order of the elements and of the
    keys, each before what is inside it. *)
Definition walk_elems (walk : gc -> list (list step * gc)) : Z -> list gc -> list (list step * gc) :=
  fix go i v := match v with [] => [] | a :: v' => map (fun pv => (SIdx i :: fst pv, snd pv)) (walk a) ++ go (i + 1) v' end.
Definition walk_members (walk : gc -> list (list step * gc)) : list (string * gc) -> list (list step * gc) :=
  fix go m := match m with [] => [] | (k, a) :: m' => map (fun pv => (SKey k :: fst pv, snd pv)) (walk a) ++ go m' end.
Fixpoint walk (g : gc) : list (list step * gc) :=
  ([], g) :: match g with
             | GVec v => walk_elems walk 0 v
             | GMap m => walk_members walk m
             | _ => []
             end.

Definition scalar (g : gc) : Prop :=
  match g with GNone | GPtr _ | GBool _ | GInt _ | GLong _ | GReal _ | GComplex _ | GStr _ => True | _ => False end.
Definition scalarb (g : gc) : bool :=
  match g with GNone | GPtr _ | GBool _ | GInt _ | GLong _ | GReal _ | GComplex _ | GStr _ => true | _ => false end.
(** Vectors of pointers, booleans and numbers: their length. *)
Definition numbers (g : gc) : option Z :=
  match g with
  | GVPtr v => Some (zlen v) | GVBool v => Some (zlen v) | GVInt v => Some (zlen v) | GVLong v => Some (zlen v)
  | GVReal v => Some (zlen v) | GVComplex v => Some (zlen v) | _ => None
  end.

(** The title of a key, and the lines above a member that is not on the line of its key. *)
Section Format.
Variable fmt : text -> option (bool * option ascii * text).
Definition key_title (k : string) : text := match fmt (txt k) with Some (_, _, t) => t | None => txt k end.
Definition key_lines (pre : text) (k : string) : list text :=
  match fmt (txt k) with
  | Some (two, u, t) =>
      (if two : bool then [[]] else []) ++
      match u with Some c => [pre ++ t; pre ++ repeat c (List.length t)] | None => [pre ++ t ++ txt ":"] end
  | None => [pre ++ txt k ++ txt ":"]
  end.
Definition label (s : step) : text := match s with SIdx i => print_int i | SKey k => key_title k end.
Definition label_lines (pre : text) (s : step) : list text :=
  match s with SIdx i => [pre ++ print_int i ++ txt ":"] | SKey k => key_lines pre k end.
End Format.

(** Several copies of a text. *)
Definition copies (n : nat) (t : text) : text := concat (repeat t n).
Definition ended (l : text) : text := l ++ [nl].

(** *** dump *)
(** The text of a scalar. *)
Definition scalar_text (P SP : nat) (g : gc) : text :=
  match g with
  | GBool b => if b then txt "true" else txt "false"
  | GInt i => print_int i
  | GLong l => print_int l
  | GReal x => print_g P x
  | GComplex c => cplx_text SP c
  | GStr s => txt """" ++ txt s ++ txt """"
  | _ => txt "null"
  end.
Definition spaced {A} (f : A -> text) (v : list A) : text := txt "[" ++ concat (map (fun a => txt " " ++ f a) v) ++ txt " ]".
Definition right_aligned (n : nat) (t : text) : text := copies (n - List.length t) (txt " ") ++ t.
(** The rows of a matrix stored column after column. *)
Definition row_of {A} (m : mat A) (i : nat) : list A :=
  concat (map (fun c => match nth_error c i with Some a => [a] | None => [] end)
              (columns (Z.to_nat (mrows m)) (Z.to_nat (mcols m)) (mdata m))).
Definition rows_of {A} (m : mat A) : list (list A) := map (row_of m) (seq 0 (Z.to_nat (mrows m))).
Definition row_text {A} (f0 : A -> text) (w : nat) (f : A -> text) (r : list A) : text :=
  match r with [] => [] | a :: r' => right_aligned 8 (f0 a) ++ concat (map (fun b => txt " " ++ right_aligned w (f b)) r') end.
Definition mat_text {A} (f0 : A -> text) (w : nat) (f : A -> text) (m : mat A) : list text :=
  if (mrows m =? 0) || (mcols m =? 0) then [print_int (mrows m) ++ txt " by " ++ print_int (mcols m) ++ txt " matrix"]
  else map (row_text f0 w f) (rows_of m).
(** The lines of a value that is not a map and not a vector of containers. *)
Definition own_lines (P SP : nat) (pre : text) (g : gc) : list text :=
  match g with
  | GVBool v => [pre ++ spaced (fun b : bool => if b then txt "true" else txt "false") v]
  | GVInt v => [pre ++ spaced print_int v]
  | GVLong v => [pre ++ spaced print_int v]
  | GVReal v => [pre ++ spaced (print_g P) v]
  | GVComplex v => [pre ++ spaced (cplx_text SP) v]
  | GVStr v => map (fun iv => pre ++ print_int (Z.of_nat (fst iv)) ++ txt ": """ ++ txt (snd iv) ++ txt """") (combine (seq 0 (List.length v)) v)
  | GMInt m => mat_text print_int 8 print_int m
  | GMLong m => mat_text print_int 8 print_int m
  | GMReal m => mat_text (print_g P) 8 (print_g P) m
  | GMComplex m => mat_text (fun c => txt "(" ++ print_g P (fst c) ++ txt "," ++ print_g P (snd c) ++ txt ")") 12 (cplx_text SP) m
  | GVec _ | GMap _ | GVPtr _ => []
  | _ => [pre ++ scalar_text P SP g]
  end.
(** The indentation below the first level is four spaces, whatever [indent] is. *)
Definition dump_indent (prefix indent : text) (depth : nat) : text :=
  match depth with O => prefix | S n => prefix ++ indent ++ copies n (txt "    ") end.
(** On the line of its index or key. *)
Definition with_label (s : step) (g : gc) : bool :=
  scalarb g || match s, numbers g with SIdx _, Some n => n <=? 10 | _, _ => false end.
Definition dump_lines fmt (P SP : nat) (prefix indent : text) (pv : list step * gc) : list text :=
  let '(p, g) := pv in
  match rev p with
  | [] => own_lines P SP prefix g
  | s :: above =>
      let pre := dump_indent prefix indent (List.length above) in
      if with_label s g
      then map (fun l => pre ++ label fmt s ++ txt ": " ++ l) (own_lines P SP [] g)
      else label_lines fmt pre s ++ own_lines P SP (dump_indent prefix indent (S (List.length above))) g
  end.
Definition dump_text fmt (P SP : nat) (prefix indent : text) (g : gc) : text :=
  concat (map ended (flat_map (dump_lines fmt P SP prefix indent) (walk g))).

(** No pointers; matrices whose dimensions have a 32-bit product. *)
Definition dump_node (g : gc) : Prop :=
  match g with
  | GPtr _ | GVPtr _ => False
  | GMInt m => mrows m * mcols m < 2^32
  | GMLong m => mrows m * mcols m < 2^32
  | GMReal m => mrows m * mcols m < 2^32
  | GMComplex m => mrows m * mcols m < 2^32
  | _ => True
  end.

(** *** print_content_types *)
(** The name of the type and the sizes. *)
Definition kind_text (g : gc) : text :=
  let vec (t : string) (n : Z) := txt "vector of " ++ txt t ++ txt "[" ++ print_int n ++ txt "]" in
  let mat (t : string) (r c : Z) := txt "matrix of " ++ txt t ++ txt "[" ++ print_int r ++ txt "," ++ print_int c ++ txt "]" in
  match g with
  | GNone => txt "Empty!" | GPtr _ => txt "(*void)" | GBool _ => txt "bool" | GInt _ => txt "int" | GLong _ => txt "long int"
  | GReal _ => txt "double" | GComplex _ => txt "complex" | GStr _ => txt "string"
  | GVPtr v => vec "pointer"%string (zlen v) | GVBool v => vec "bool"%string (zlen v) | GVInt v => vec "int"%string (zlen v)
  | GVLong v => vec "long"%string (zlen v) | GVReal v => vec "double"%string (zlen v) | GVComplex v => vec "complex"%string (zlen v)
  | GVStr v => vec "string"%string (zlen v)
  | GMInt m => mat "int"%string (mrows m) (mcols m) | GMLong m => mat "long"%string (mrows m) (mcols m)
  | GMReal m => mat "double"%string (mrows m) (mcols m) | GMComplex m => mat "complex"%string (mrows m) (mcols m)
  | GVec _ | GMap _ => []
  end.
(** Only scalars are printed with the prefix. *)
Definition own_kind (pre : text) (g : gc) : list text :=
  match g with GVec _ | GMap _ => [] | _ => [(if scalarb g then pre else []) ++ kind_text g] end.
Definition types_indent (prefix indent : text) (depth : nat) : text := prefix ++ copies depth indent.
Definition type_lines fmt (prefix indent : text) (pv : list step * gc) : list text :=
  let '(p, g) := pv in
  match rev p with
  | [] => own_kind prefix g
  | s :: above =>
      let pre := types_indent prefix indent (List.length above) in
      if scalarb g || match numbers g with Some _ => true | None => false end
      then [pre ++ label fmt s ++ txt ": " ++ kind_text g]
      else label_lines fmt pre s ++ own_kind [] g
  end.
Definition types_text fmt (prefix indent : text) (g : gc) : text :=
  concat (map ended (flat_map (type_lines fmt prefix indent) (walk g))).

(** Containers that agree in all but the data: types, sizes and keys. *)
Inductive same_shape : gc -> gc -> Prop :=
| ss_none : same_shape GNone GNone
| ss_ptr p p' : same_shape (GPtr p) (GPtr p')
| ss_bool b b' : same_shape (GBool b) (GBool b')
| ss_int i i' : same_shape (GInt i) (GInt i')
| ss_long l l' : same_shape (GLong l) (GLong l')
| ss_real x x' : same_shape (GReal x) (GReal x')
| ss_complex c c' : same_shape (GComplex c) (GComplex c')
| ss_str s s' : same_shape (GStr s) (GStr s')
| ss_vptr v v' : List.length v = List.length v' -> same_shape (GVPtr v) (GVPtr v')
| ss_vbool v v' : List.length v = List.length v' -> same_shape (GVBool v) (GVBool v')
| ss_vint v v' : List.length v = List.length v' -> same_shape (GVInt v) (GVInt v')
| ss_vlong v v' : List.length v = List.length v' -> same_shape (GVLong v) (GVLong v')
| ss_vreal v v' : List.length v = List.length v' -> same_shape (GVReal v) (GVReal v')
| ss_vcomplex v v' : List.length v = List.length v' -> same_shape (GVComplex v) (GVComplex v')
| ss_vstr v v' : List.length v = List.length v' -> same_shape (GVStr v) (GVStr v')
| ss_mint m m' : mrows m = mrows m' -> mcols m = mcols m' -> same_shape (GMInt m) (GMInt m')
| ss_mlong m m' : mrows m = mrows m' -> mcols m = mcols m' -> same_shape (GMLong m) (GMLong m')
| ss_mreal m m' : mrows m = mrows m' -> mcols m = mcols m' -> same_shape (GMReal m) (GMReal m')
| ss_mcomplex m m' : mrows m = mrows m' -> mcols m = mcols m' -> same_shape (GMComplex m) (GMComplex m')
| ss_vec v v' : Forall2 same_shape v v' -> same_shape (GVec v) (GVec v')
| ss_map m m' : Forall2 (fun a b => fst a = fst b /\ same_shape (snd a) (snd b)) m m' -> same_shape (GMap m) (GMap m').

(** What is printed in single lines with the prefix: no matrices, no line ends in strings and
    keys, and no ## above what needs more than a line. *)
Definition lined (fmt : text -> option (bool * option ascii * text)) (pv : list step * gc) : Prop :=
  let '(p, g) := pv in
  match g with
  | GMInt _ | GMLong _ | GMReal _ | GMComplex _ => False
  | GStr s => one_line_text (txt s)
  | GVStr v => Forall (fun s => one_line_text (txt s)) v
  | _ => True
  end /\
  match rev p with
  | SKey k :: _ => one_line_text (txt k) /\ forall u t, fmt (txt k) = Some (true, u, t) -> scalar g
  | _ => True
  end.
(** The same for print_content_types, which also prints vectors without the prefix unless they
    are on the line of a key or index. *)
Definition type_lined (fmt : text -> option (bool * option ascii * text)) (pv : list step * gc) : Prop :=
  let '(p, g) := pv in
  match g with
  | GMInt _ | GMLong _ | GMReal _ | GMComplex _ | GVStr _ => False
  | GVPtr _ | GVBool _ | GVInt _ | GVLong _ | GVReal _ | GVComplex _ => p <> []
  | _ => True
  end /\
  match rev p with
  | SKey k :: _ => one_line_text (txt k) /\ forall u t, fmt (txt k) = Some (true, u, t) -> scalar g \/ numbers g <> None
  | _ => True
  end.
