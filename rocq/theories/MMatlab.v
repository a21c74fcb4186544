(** Model of the exchange of values with MATLAB
    (src_matlab_interface/GenericContainerInterface_matlab.cc:27-653).  The MATLAB library is
    third-party code: an mxArray is modelled by what the functions used here show of it. *)
From Coq Require Import ZArith Bool Lia Ascii String List.
From Verif Require Import Base F64 StrMap Value MBasic MGet MMat MMap.
Import ListNotations.
Local Open Scope Z_scope.

(** Integer classes. *)
Inductive iclass : Type := I8 | U8 | I16 | U16 | I32 | U32 | I64 | U64.

(** mxArray: class, dimensions and the elements in storage order (first index fastest).  There
    are as many elements as the dimensions say.  Elements of class single are represented by the
    doubles of the same value.  Text is given as the bytes mxArrayToString and mxGetString
    return.  [MxNull] is the null pointer (an empty cell or field).  A struct array is given by
    its fields, each with its values for all elements; field names are distinct.  Sparse arrays
    have 0-based row indices, column starts and the stored values, exactly nnz of them (unused
    room at the end is left out).  [MxString]: objects of class string, given by the result of
    the MATLAB function char.  [MxOther]: function handles, objects and so on. *)
Inductive mx : Type :=
| MxNull
| MxLogical (dims : list Z) (d : list bool)
| MxInt (c : iclass) (dims : list Z) (d : list Z)
| MxIntC (c : iclass) (dims : list Z) (d : list (Z * Z))
| MxReal (single : bool) (dims : list Z) (d : list Z)
| MxCplx (single : bool) (dims : list Z) (d : list cplx)
| MxChar (s : string)
| MxString (s : string)
| MxCell (dims : list Z) (d : list mx)
| MxStruct (dims : list Z) (f : list (string * list mx))
| MxSparse (nr nc : Z) (ir jc : list Z) (d : list Z)
| MxSparseC (nr nc : Z) (ir jc : list Z) (d : list cplx)
| MxSparseL (nr nc : Z) (ir jc : list Z) (d : list bool)
| MxOther.

Section MxInd.
  Variable P : mx -> Prop.
  Hypothesis Hflat : forall a, (forall s l, a <> MxCell s l) -> (forall s f, a <> MxStruct s f) -> P a.
  Hypothesis Hcell : forall s l, Forall P l -> P (MxCell s l).
  Hypothesis Hstruct : forall s f, Forall (fun kl => Forall P (snd kl)) f -> P (MxStruct s f).
  Fixpoint mx_nest_ind (a : mx) : P a.
  Proof.
    destruct a as [ | | | | | | | |s l|s f| | | | ]; try (apply Hflat; discriminate).
    - apply Hcell. induction l as [|a l IH]; constructor; [apply mx_nest_ind|exact IH].
    - apply Hstruct. induction f as [|[k l] f IH]; constructor; [|exact IH]. cbn [snd].
      induction l as [|a l IHl]; constructor; [apply mx_nest_ind|exact IHl].
  Defined.
End MxInd.

(** mxGetM and mxGetN: the first dimension and the product of the others. *)
Definition mx_m (dims : list Z) : Z := match dims with [] => 1 | m :: _ => m end.
Definition mx_n (dims : list Z) : Z := fold_right Z.mul 1 (match dims with [] => [] | _ :: r => r end).

(** * From MATLAB *)

(** Writing the elements [d] over the new vector [v] with operator[]: past the end is
    undefined. *)
Definition put_all {A} (mk : list A -> gc) (v d : list A) : out unit * gc :=
  match copy_into d v with Ok v' => (Ok tt, mk v') | _ => (Undef, mk v) end.
(** The pairs (i,j) in the order of the loops over j and i. *)
Definition entries (nr nc : Z) : list (Z * Z) := flat_map (fun j => map (fun i => (i, j)) (zseq nr)) (zseq nc).
(** mat(i,j) = *pr++ (lines 65-68, 103-106); the indices are converted to unsigned. *)
Fixpoint put_entries {A} (m : mat A) (ij : list (Z * Z)) (d : list A) : out unit * mat A :=
  match ij, d with
  | [], _ => (Ok tt, m)
  | (i, j) :: ij', x :: d' =>
      match mat_set m (to_u32 i) (to_u32 j) x with
      | (Ok _, m') => put_entries m' ij' d'
      | rm => rm
      end
  | _ :: _, [] => (Undef, m)
  end.

(** The case distinction of lines 47-76, 85-114, 125-154, 167-196: one element, a vector (one
    dimension or one row), a matrix, or a message and nothing stored. *)
Definition by_shape {A} (one : A -> gc) (vec : list A -> out unit * gc) (mtx : Z -> Z -> list A -> out unit * gc)
    (dims : list Z) (d : list A) : out unit * gc :=
  match d with
  | [x] => (Ok tt, one x)
  | _ =>
      match dims with
      | [_] => vec d
      | [nr; nc] => if nr =? 1 then vec d else mtx nr nc d
      | _ => (Ok tt, GNone)
      end
  end.

(** mx_to_vec_bool (lines 27-39): the shape is ignored. *)
Definition mx_to_vec_bool (d : list bool) : out unit * gc :=
  match d with
  | [b] => (Ok tt, GBool b)
  | _ => put_all GVec (alloc_vec (to_u32 (zlen d)) GNone) (map GBool d)
  end.
(** mx_to_vec_int (lines 41-77): int_type(x) keeps 32 bits. *)
Definition mx_to_vec_int (dims : list Z) (d : list Z) : out unit * gc :=
  by_shape GInt (fun d => put_all GVInt (alloc_vint (to_u32 (zlen d)) GNone) d)
    (fun nr nc d => let '(r, m) := put_entries (alloc_mint (to_u32 nr) (to_u32 nc) GNone) (entries nr nc) d in (r, GMInt m))
    dims (map to_i32 d).
(** mx_to_vec_long (lines 79-115). *)
Definition mx_to_vec_long (dims : list Z) (d : list Z) : out unit * gc :=
  by_shape GLong (fun d => put_all GVLong (alloc_vlong (to_u32 (zlen d)) GNone) d)
    (fun nr nc d => let '(r, m) := put_entries (alloc_mlong (to_u32 nr) (to_u32 nc) GNone) (entries nr nc) d in (r, GMLong m))
    dims (map to_i64 d).
(** mx_to_vec_real (lines 119-155). *)
Definition mx_to_vec_real (dims : list Z) (d : list Z) : out unit * gc :=
  by_shape GReal (fun d => put_all GVReal (alloc_vreal (to_u32 (zlen d)) GNone) d)
    (fun nr nc d => put_all (fun l => GMReal (Mat (to_u32 nr) (to_u32 nc) l)) (mdata (alloc_mreal (to_u32 nr) (to_u32 nc) GNone)) d)
    dims d.
(** mx_to_vec_complex (lines 159-197), after the conversion of the parts to double. *)
Definition mx_to_vec_complex (dims : list Z) (d : list cplx) : out unit * gc :=
  by_shape GComplex (fun d => put_all GVComplex (alloc_vcomplex (to_u32 (zlen d)) GNone) d)
    (fun nr nc d => put_all (fun l => GMComplex (Mat (to_u32 nr) (to_u32 nc) l)) (mdata (alloc_mcomplex (to_u32 nr) (to_u32 nc) GNone)) d)
    dims d.

(** mxSparse_to_GenericContainer (lines 240-263); the number of rows is not looked at.
    [vals] stores the values in the entry "values"; mwIndex is cut to int.  Simplified: for 2^32
    columns or entries or more, where the loops with unsigned counters do not end, the result is
    [Diverge]. *)
Definition sparse_to_GC (nc : Z) (ir jc : list Z) (vals : gc -> out unit * gc) (g : gc) : out unit * gc :=
  if (nc + 1 <? 2^32) && (zlen ir <? 2^32) then
    let g1 := snd (with_key "jc"%string (fun e => (Ok tt, set_vint_sz (nc + 1) e)) g) in
    let g2 := snd (with_key "ir"%string (fun e => (Ok tt, set_vint_sz (zlen ir) e)) g1) in
    match with_key "jc"%string (fun e => put_all GVInt (old_vint e) (map to_i32 jc)) g2 with
    | (Ok _, g3) =>
        match with_key "ir"%string (fun e => put_all GVInt (old_vint e) (map to_i32 ir)) g3 with
        | (Ok _, g4) => with_key "values"%string vals g4
        | rg => rg
        end
    | rg => rg
    end
  else (Diverge, g).
Definition sparse_real (d : list Z) (e : gc) : out unit * gc := put_all GVReal (alloc_vreal (zlen d) e) d.
Definition sparse_complex (d : list cplx) (e : gc) : out unit * gc := put_all GVComplex (alloc_vcomplex (zlen d) e) d.
(** mxGetPr is a null pointer for a sparse array of class logical (line 254, used in 261). *)
Definition sparse_logical (d : list bool) (e : gc) : out unit * gc :=
  (match d with [] => Ok tt | _ => Undef end, GVReal (alloc_vreal (zlen d) e)).

(** mxArray_to_GenericContainer (lines 267-332) with mx_to_vector (lines 201-211) and mx_to_map
    (lines 215-236).  The container is cleared first, so its old content does not occur below.
    Elements that are missing ([MxNull]) leave empty containers. *)
Fixpoint mx_to_GC (a : mx) (g : gc) {struct a} : out unit * gc :=
  let cells := fix cells (l : list mx) (n : Z) : out unit * list gc :=
    match l with
    | [] => (Ok tt, repeat GNone (Z.to_nat n))
    | a :: l' =>
        if n <=? 0 then (Ok tt, [])
        else match mx_to_GC a GNone with
             | (Ok _, e) => let '(r, w) := cells l' (n - 1) in (r, e :: w)
             | (r, e) => (r, e :: repeat GNone (Z.to_nat (n - 1)))
             end
    end in
  match a with
  | MxNull => (Ok tt, clear g)
  | MxCell _ l => let '(r, w) := cells l (to_u32 (zlen l)) in (r, GVec w)
  | MxStruct dims f =>
      let nr := to_u32 (mx_m dims) in
      let nc := to_u32 (mx_n dims) in
      let '(r, m) := (fix fields (f : list (string * list mx)) (acc : list (string * gc)) : out unit * list (string * gc) :=
        match f with
        | [] => (Ok tt, acc)
        | (k, l) :: f' =>
            let '(r, e) :=
              if (nc =? 1) && (nr =? 1) then
                match l with [] => (Ok tt, GNone) | a :: _ => mx_to_GC a GNone end
              else let '(r, w) := cells l (to_u32 (nr * nc)) in (r, GVec w) in
            match r with
            | Ok _ => fields f' (mset (cstr k) e acc)
            | _ => (r, mset (cstr k) e acc)
            end
        end) f [] in (r, GMap m)
  | MxChar s | MxString s => (Ok tt, set_string (cstr s) (clear g))
  | MxSparse _ nc ir jc d => sparse_to_GC nc ir jc (sparse_real d) (clear g)
  | MxSparseC _ nc ir jc d => sparse_to_GC nc ir jc (sparse_complex d) (clear g)
  | MxSparseL _ nc ir jc d => sparse_to_GC nc ir jc (sparse_logical d) (clear g)
  | MxLogical _ d => mx_to_vec_bool d
  | MxInt (I64 | U64) dims d => mx_to_vec_long dims d
  | MxInt _ dims d => mx_to_vec_int dims d
  | MxReal _ dims d => mx_to_vec_real dims d
  | MxIntC _ dims d => mx_to_vec_complex dims (map (fun c => (f_of_Z (fst c), f_of_Z (snd c))) d)
  | MxCplx _ dims d => mx_to_vec_complex dims d
  | MxOther => (Ok tt, clear g)
  end.

(** The loops as functions of their own, for the proofs. *)
Fixpoint mx_cells (l : list mx) (n : Z) : out unit * list gc :=
  match l with
  | [] => (Ok tt, repeat GNone (Z.to_nat n))
  | a :: l' =>
      if n <=? 0 then (Ok tt, [])
      else match mx_to_GC a GNone with
           | (Ok _, e) => let '(r, w) := mx_cells l' (n - 1) in (r, e :: w)
           | (r, e) => (r, e :: repeat GNone (Z.to_nat (n - 1)))
           end
  end.
Definition mx_field (nr nc : Z) (l : list mx) : out unit * gc :=
  if (nc =? 1) && (nr =? 1) then
    match l with [] => (Ok tt, GNone) | a :: _ => mx_to_GC a GNone end
  else let '(r, w) := mx_cells l (to_u32 (nr * nc)) in (r, GVec w).
Definition mx_fields (nr nc : Z) : list (string * list mx) -> list (string * gc) -> out unit * list (string * gc) :=
  fix fields f acc :=
  match f with
  | [] => (Ok tt, acc)
  | (k, l) :: f' =>
      let '(r, e) := mx_field nr nc l in
      match r with
      | Ok _ => fields f' (mset (cstr k) e acc)
      | _ => (r, mset (cstr k) e acc)
      end
  end.
Lemma mx_cell s l g : mx_to_GC (MxCell s l) g = let '(r, w) := mx_cells l (to_u32 (zlen l)) in (r, GVec w).
Proof. reflexivity. Qed.
Lemma mx_struct s f g : mx_to_GC (MxStruct s f) g =
  let '(r, m) := mx_fields (to_u32 (mx_m s)) (to_u32 (mx_n s)) f [] in (r, GMap m).
Proof. reflexivity. Qed.

(** * To MATLAB *)

(** Elements 0, 1, ..., n-1 read with a getter; entries of a matrix in storage order. *)
Definition read_all {A} (f : Z -> out A) (n : Z) : out (list A) := omapM f (zseq n).
Definition read_entries {A} (f : Z -> Z -> out A) (nr nc : Z) : out (list A) :=
  omapM (fun ij => f (fst ij) (snd ij)) (entries nr nc).

(** GenericContainer_to_mxArray (lines 479-653).  Integers are written through a pointer to
    mwSize (64-bit unsigned) into an array of class int64.  mxCreateString and field names take
    C strings.  &fieldnames.front() of an empty map is undefined; so is (simplified) a map of
    2^31 entries or more, whose number of fields is negative.  Nothing is assumed about field
    names that are not MATLAB identifiers. *)
Definition int64_slot (z : Z) : Z := to_i64 (to_u64 z).
Fixpoint GC_to_mx (g : gc) : out mx :=
  let n := num_elements g in
  let nr := num_rows g in
  let nc := num_cols g in
  match g with
  | GNone | GPtr _ | GVPtr _ => Ok (MxReal false [0; 0] [])
  | GBool b => Ok (MxLogical [1; 1] [b])
  | GInt i => Ok (MxInt I64 [1; 1] [int64_slot i])
  | GLong l => Ok (MxInt I64 [1; 1] [int64_slot l])
  | GReal x => Ok (MxReal false [1; 1] [x])
  | GComplex _ => do c <- get_complex_number g ; Ok (MxCplx false [1; 1] [c])
  | GStr s => Ok (MxChar (cstr s))
  | GVBool _ => do d <- read_all (fun i => get_bool_at i g) n ; Ok (MxLogical [1; n] d)
  | GVInt _ => do d <- read_all (fun i => get_int_at i g) n ; Ok (MxInt I64 [1; n] (map int64_slot d))
  | GVLong _ => do d <- read_all (fun i => get_long_at i g) n ; Ok (MxInt I64 [1; n] (map int64_slot d))
  | GVReal _ => do d <- read_all (fun i => get_real_at i g) n ; Ok (MxReal false [1; n] d)
  | GVComplex _ => do d <- read_all (fun i => get_complex_number_at i g) n ; Ok (MxCplx false [1; n] d)
  | GVStr _ => do d <- read_all (fun i => get_string_at i g) n ; Ok (MxCell [1; n] (map (fun s => MxChar (cstr s)) d))
  | GMInt _ => do d <- read_entries (fun i j => get_int_at2 i j g) nr nc ; Ok (MxInt I32 [nr; nc] d)
  | GMLong _ => do d <- read_entries (fun i j => get_long_at2 i j g) nr nc ; Ok (MxInt I64 [nr; nc] d)
  | GMReal _ => do d <- read_entries (fun i j => get_real_at2 i j g) nr nc ; Ok (MxReal false [nr; nc] d)
  | GMComplex _ => do d <- read_entries (fun i j => get_complex_at2 i j g) nr nc ; Ok (MxCplx false [nr; nc] d)
  | GVec v =>
      do d <- (fix go (v : list gc) (n : Z) : out (list mx) :=
                 match v with
                 | [] => Ok []
                 | a :: v' => if n <=? 0 then Ok [] else do x <- GC_to_mx a ; do l <- go v' (n - 1) ; Ok (x :: l)
                 end) v n ;
      Ok (MxCell [1; n] d)
  | GMap [] => Undef
  | GMap m =>
      if zlen m <? 2^31 then
        do f <- (fix go (m : list (string * gc)) : out (list (string * list mx)) :=
                   match m with
                   | [] => Ok []
                   | (k, a) :: m' => do x <- GC_to_mx a ; do l <- go m' ; Ok ((cstr k, [x]) :: l)
                   end) m ;
        Ok (MxStruct [1; 1] f)
      else Undef
  end.

Fixpoint GCs_to_mx (v : list gc) (n : Z) : out (list mx) :=
  match v with
  | [] => Ok []
  | a :: v' => if n <=? 0 then Ok [] else do x <- GC_to_mx a ; do l <- GCs_to_mx v' (n - 1) ; Ok (x :: l)
  end.
Fixpoint fields_to_mx (m : list (string * gc)) : out (list (string * list mx)) :=
  match m with
  | [] => Ok []
  | (k, a) :: m' => do x <- GC_to_mx a ; do l <- fields_to_mx m' ; Ok ((cstr k, [x]) :: l)
  end.
Lemma vec_to_mx v : GC_to_mx (GVec v) = do d <- GCs_to_mx v (num_elements (GVec v)) ; Ok (MxCell [1; num_elements (GVec v)] d).
Proof. reflexivity. Qed.
Lemma map_to_mx m : m <> [] -> zlen m < 2^31 -> GC_to_mx (GMap m) = do f <- fields_to_mx m ; Ok (MxStruct [1; 1] f).
Proof.
  intros N S. destruct m as [|a m]; [easy|]. cbn [GC_to_mx]. replace (zlen (a :: m) <? 2^31) with true by (symmetry; now apply Z.ltb_lt).
  reflexivity.
Qed.

(** The functions to_mxArray for single values (lines 336-475): vectors become columns.
    The argument of type string_view is taken to be the whole of a string. *)
Definition to_mx_bool (b : bool) : mx := MxLogical [1; 1] [b].
Definition to_mx_int (i : Z) : mx := MxInt I64 [1; 1] [int64_slot i].
Definition to_mx_long (l : Z) : mx := MxInt I64 [1; 1] [l].
Definition to_mx_real (x : Z) : mx := MxReal false [1; 1] [x].
Definition to_mx_complex (c : cplx) : mx := MxCplx false [1; 1] [c].
Definition to_mx_string (s : string) : mx := MxChar (cstr s).
Definition to_mx_vbool (v : list bool) : mx := MxLogical [zlen v; 1] v.
Definition to_mx_vint (v : list Z) : mx := MxInt I32 [zlen v; 1] v.
Definition to_mx_vlong (v : list Z) : mx := MxInt I64 [zlen v; 1] v.
Definition to_mx_vreal (v : list Z) : mx := MxReal false [zlen v; 1] v.
Definition to_mx_vcomplex (v : list cplx) : mx := MxCplx false [zlen v; 1] v.
Definition to_mx_vstr (v : list string) : mx := MxCell [zlen v; 1] (map (fun s => MxChar (cstr s)) v).
Definition to_mx_mint (m : mat Z) : out mx := do d <- read_entries (mat_get m) (mrows m) (mcols m) ; Ok (MxInt I32 [mrows m; mcols m] d).
Definition to_mx_mlong (m : mat Z) : out mx := do d <- read_entries (mat_get m) (mrows m) (mcols m) ; Ok (MxInt I64 [mrows m; mcols m] d).
Definition to_mx_mreal (m : mat Z) : out mx := do d <- read_entries (mat_get m) (mrows m) (mcols m) ; Ok (MxReal false [mrows m; mcols m] d).
Definition to_mx_mcomplex (m : mat cplx) : out mx := do d <- read_entries (mat_get m) (mrows m) (mcols m) ; Ok (MxCplx false [mrows m; mcols m] d).

Example mx_to_GC_ex :
  mx_to_GC (MxStruct [1; 1] [("b"%string, [MxInt I16 [2; 2] [1; 2; 3; -4]]); ("a"%string, [MxCell [1; 2] [MxChar "x"%string; MxNull]])]) (GInt 5) =
    (Ok tt, GMap [("a"%string, GVec [GStr "x"%string; GNone]); ("b"%string, GMInt (Mat 2 2 [1; 2; 3; -4]))]) /\
  mx_to_GC (MxStruct [1; 2] [("k"%string, [MxLogical [1; 1] [true]; MxInt U8 [1; 3] [1; 2; 3]])]) GNone =
    (Ok tt, GMap [("k"%string, GVec [GBool true; GVInt [1; 2; 3]])]) /\
  mx_to_GC (MxSparse 5 2 [0; 4] [0; 1; 2] [f_of_Z 1; f_of_Z 2]) GNone =
    (Ok tt, GMap [("ir"%string, GVInt [0; 4]); ("jc"%string, GVInt [0; 1; 2]); ("values"%string, GVReal [f_of_Z 1; f_of_Z 2])]).
Proof. vmc. Qed.
Example GC_to_mx_ex :
  GC_to_mx (GMap [("a"%string, GVec [GInt (-1); GNone]); ("b"%string, GMLong (Mat 2 2 [1; 2; 3; 4]))]) =
    Ok (MxStruct [1; 1] [("a"%string, [MxCell [1; 2] [MxInt I64 [1; 1] [-1]; MxReal false [0; 0] []]]);
                         ("b"%string, [MxInt I64 [2; 2] [1; 2; 3; 4]])]) /\
  GC_to_mx (GMap []) = Undef.
Proof. vmc. Qed.
