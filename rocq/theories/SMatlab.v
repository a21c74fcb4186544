(** Specification vocabulary for MATLAB values: which arrays exist, and the data they stand
    for. *)
From Coq Require Import ZArith Bool Lia Ascii String List.
From Verif Require Import Base F64 StrMap Value SGet SPromote SCollapse MJson SJson MMatlab.
Import ListNotations.
Local Open Scope Z_scope.

(** [P] holds of the array and of every array in it. *)
Fixpoint mx_all (P : mx -> Prop) (a : mx) : Prop :=
  P a /\
  match a with
  | MxCell _ l => (fix all (l : list mx) : Prop := match l with [] => True | a :: l' => mx_all P a /\ all l' end) l
  | MxStruct _ f =>
      (fix allf (f : list (string * list mx)) : Prop :=
         match f with
         | [] => True
         | (_, l) :: f' => (fix all (l : list mx) : Prop := match l with [] => True | a :: l' => mx_all P a /\ all l' end) l /\ allf f'
         end) f
  | _ => True
  end.

(** * Arrays that exist *)
Definition mx_numel (dims : list Z) : Z := fold_right Z.mul 1 dims.
Definition class_range (c : iclass) (z : Z) : Prop :=
  match c with
  | I8 => - 2^7 <= z < 2^7 | U8 => 0 <= z < 2^8
  | I16 => - 2^15 <= z < 2^15 | U16 => 0 <= z < 2^16
  | I32 => - 2^31 <= z < 2^31 | U32 => 0 <= z < 2^32
  | I64 => - 2^63 <= z < 2^63 | U64 => 0 <= z < 2^64
  end.
Definition dims_ok {A} (dims : list Z) (d : list A) : Prop := Forall (fun n => 0 <= n) dims /\ zlen d = mx_numel dims.
Definition sparse_ok {A} (nr nc : Z) (ir jc : list Z) (d : list A) : Prop :=
  0 <= nr /\ 0 <= nc /\ zlen jc = nc + 1 /\ znth nc jc = Some (zlen ir) /\ zlen d = zlen ir /\
  Forall (fun i => 0 <= i < nr) ir /\ Forall (fun j => 0 <= j <= zlen ir) jc.
(** Field names are distinct and have no NUL in them; each field has a value for each element. *)
Definition mx_ok (a : mx) : Prop :=
  match a with
  | MxNull | MxChar _ | MxString _ | MxOther => True
  | MxLogical dims d => dims_ok dims d
  | MxInt c dims d => dims_ok dims d /\ Forall (class_range c) d
  | MxIntC c dims d => dims_ok dims d /\ Forall (fun z => class_range c (fst z) /\ class_range c (snd z)) d
  | MxReal _ dims d => dims_ok dims d /\ Forall f64 d
  | MxCplx _ dims d => dims_ok dims d /\ Forall fc d
  | MxCell dims d => dims_ok dims d
  | MxStruct dims f => Forall (fun n => 0 <= n) dims /\ NoDup (map fst f) /\ Forall (fun kl => no_nul (fst kl) /\ zlen (snd kl) = mx_numel dims) f
  | MxSparse nr nc ir jc d => sparse_ok nr nc ir jc d /\ Forall f64 d
  | MxSparseC nr nc ir jc d => sparse_ok nr nc ir jc d /\ Forall fc d
  | MxSparseL nr nc ir jc d => sparse_ok nr nc ir jc d
  end.

(** * Their data *)
(** A single element is a scalar, one row is a list, a matrix is the list of its columns.
    (Nothing is said about more than two dimensions.) *)
Definition is_row (dims : list Z) : Prop := match dims with [_] => True | [nr; _] => nr = 1 | _ => False end.
Definition arr_data {A} (f : A -> dat) (dims : list Z) (d : list A) : dat :=
  match d with
  | [x] => f x
  | _ =>
      match dims with
      | [_] => DList (map f d)
      | [nr; nc] => if nr =? 1 then DList (map f d) else DList (map (fun c => DList (map f c)) (columns (Z.to_nat nr) (Z.to_nat nc) d))
      | _ => DNull
      end
  end.
(** Rows and columns of cells are lists. *)
Definition cell_data (dims : list Z) (l : list dat) : dat :=
  match dims with
  | [nr; nc] => if (nr <=? 1) || (nc <=? 1) then DList l else DList (map DList (columns (Z.to_nat nr) (Z.to_nat nc) l))
  | _ => DList l
  end.
Definition d_gauss (z : Z * Z) : dat := DNum (num_of_Z (fst z)) (num_of_Z (snd z)).
(** A struct is a map; a struct array is a map of lists, one for each field.  A sparse array is
    the map of its compressed columns, as documented
    (include/GenericContainer/GenericContainerInterface_matlab.hh:24-31). *)
Fixpoint mx_data (a : mx) : dat :=
  match a with
  | MxNull | MxOther => DNull
  | MxLogical dims d => arr_data (fun b : bool => d_int (if b then 1 else 0)) dims d
  | MxInt _ dims d => arr_data d_int dims d
  | MxIntC _ dims d => arr_data d_gauss dims d
  | MxReal _ dims d => arr_data d_real dims d
  | MxCplx _ dims d => arr_data d_cplx dims d
  | MxChar s | MxString s => DStr s
  | MxCell dims l => cell_data dims (map mx_data l)
  | MxStruct dims f =>
      DMap (by_key (map (fun kl => (fst kl,
        match dims with
        | [1; 1] => match snd kl with [a] => mx_data a | _ => DNull end
        | _ => DList (map mx_data (snd kl))
        end)) f))
  | MxSparse _ _ ir jc d => DMap [("ir"%string, DList (map d_int ir)); ("jc"%string, DList (map d_int jc)); ("values"%string, DList (map d_real d))]
  | MxSparseC _ _ ir jc d => DMap [("ir"%string, DList (map d_int ir)); ("jc"%string, DList (map d_int jc)); ("values"%string, DList (map d_cplx d))]
  | MxSparseL _ _ ir jc d =>
      DMap [("ir"%string, DList (map d_int ir)); ("jc"%string, DList (map d_int jc));
            ("values"%string, DList (map (fun b : bool => d_int (if b then 1 else 0)) d))]
  end.

(** * What is read right *)
Definition small_dims (dims : list Z) : Prop := Forall (fun n => n < 2^32) dims /\ mx_numel dims < 2^32.
(** At most two dimensions. *)
Definition planar (dims : list Z) : Prop := match dims with [_] | [_; _] => True | _ => False end.
(** Numbers that fit the type they are stored as. *)
Definition fits_int (c : iclass) (z : Z) : Prop :=
  match c with U32 => z < 2^31 | U64 => z < 2^63 | _ => True end.
Definition mx_node (a : mx) : Prop :=
  match a with
  | MxNull => True
  | MxLogical dims d => small_dims dims /\ is_row dims
  | MxInt c dims d => small_dims dims /\ planar dims /\ Forall (fits_int c) d
  | MxIntC c dims d => small_dims dims /\ planar dims /\ Forall (fun z => representable (fst z) /\ representable (snd z)) d
  | MxReal _ dims _ | MxCplx _ dims _ => small_dims dims /\ planar dims
  | MxChar s | MxString s => no_nul s
  | MxCell dims _ => small_dims dims /\ match dims with [nr; nc] => nr <= 1 \/ nc <= 1 | [_] => True | _ => False end
  | MxStruct dims _ => small_dims dims /\ match dims with [_; _] => True | _ => False end
  | MxSparse _ nc ir _ _ | MxSparseC _ nc ir _ _ => nc + 1 < 2^32 /\ Forall (fun i => i < 2^31) ir /\ zlen ir < 2^31
  | MxSparseL _ _ _ _ _ | MxOther => False
  end.

(** The container for an array of numbers: a scalar, a vector or a matrix of one kind. *)
Definition shaped {A} (one : A -> gc) (vec : list A -> gc) (mtx : mat A -> gc) (dims : list Z) (d : list A) : gc :=
  match d with
  | [x] => one x
  | _ =>
      match dims with
      | [_] => vec d
      | [nr; nc] => if nr =? 1 then vec d else mtx (Mat nr nc d)
      | _ => GNone
      end
  end.

(** * Writing *)
(** Fewer than 2^32 elements or entries (2^31 for maps), no zero characters, no empty map. *)
Definition to_mx_node (g : gc) : Prop :=
  match g with
  | GStr s => no_nul s
  | GVPtr v => zlen v < 2^32
  | GVBool v => zlen v < 2^32
  | GVInt v | GVLong v | GVReal v => zlen v < 2^32
  | GVComplex v => zlen v < 2^32
  | GVStr v => zlen v < 2^32 /\ Forall no_nul v
  | GMInt m | GMLong m | GMReal m => mrows m * mcols m < 2^32
  | GMComplex m => mrows m * mcols m < 2^32
  | GVec v => zlen v < 2^32
  | GMap m => m <> [] /\ zlen m < 2^31 /\ Forall (fun kv => no_nul (fst kv)) m
  | _ => True
  end.
(** What MATLAB can tell apart: no pointers, nothing without a type, no vectors of numbers with
    one element and no matrices of numbers with one row. *)
Definition mx_distinct (g : gc) : Prop :=
  match g with
  | GNone | GPtr _ | GVPtr _ => False
  | GVBool v => zlen v <> 1
  | GVInt v | GVLong v | GVReal v => zlen v <> 1
  | GVComplex v => zlen v <> 1
  | GMInt m | GMLong m | GMReal m => mrows m <> 1
  | GMComplex m => mrows m <> 1
  | _ => True
  end.

(** Class, complexity and size of arrays.  (The size of text is not shown.) *)
Inductive mclass : Type := CLogical | CInteger (c : iclass) | CSingle | CDouble | CText | CCell | CStruct | COther.
Definition mx_class (a : mx) : mclass :=
  match a with
  | MxLogical _ _ | MxSparseL _ _ _ _ _ => CLogical
  | MxInt c _ _ | MxIntC c _ _ => CInteger c
  | MxReal single _ _ | MxCplx single _ _ => if single then CSingle else CDouble
  | MxSparse _ _ _ _ _ | MxSparseC _ _ _ _ _ => CDouble
  | MxChar _ => CText
  | MxCell _ _ => CCell
  | MxStruct _ _ => CStruct
  | MxNull | MxString _ | MxOther => COther
  end.
Definition mx_is_complex (a : mx) : bool := match a with MxIntC _ _ _ | MxCplx _ _ _ | MxSparseC _ _ _ _ _ => true | _ => false end.
Definition mx_size (a : mx) : option (list Z) :=
  match a with
  | MxLogical d _ | MxInt _ d _ | MxIntC _ d _ | MxReal _ d _ | MxCplx _ d _ | MxCell d _ | MxStruct d _ => Some d
  | MxSparse nr nc _ _ _ | MxSparseC nr nc _ _ _ | MxSparseL nr nc _ _ _ => Some [nr; nc]
  | _ => None
  end.
Definition is_array (c : mclass) (cx : bool) (dims : list Z) (a : mx) : Prop :=
  mx_class a = c /\ mx_is_complex a = cx /\ mx_size a = Some dims.
(** The array for each type of container. *)
Definition written_as (g : gc) (a : mx) : Prop :=
  match g with
  | GNone | GPtr _ | GVPtr _ => is_array CDouble false [0; 0] a
  | GBool _ => is_array CLogical false [1; 1] a
  | GInt _ | GLong _ => is_array (CInteger I64) false [1; 1] a
  | GReal _ => is_array CDouble false [1; 1] a
  | GComplex _ => is_array CDouble true [1; 1] a
  | GStr _ => mx_class a = CText
  | GVBool v => is_array CLogical false [1; zlen v] a
  | GVInt v | GVLong v => is_array (CInteger I64) false [1; zlen v] a
  | GVReal v => is_array CDouble false [1; zlen v] a
  | GVComplex v => is_array CDouble true [1; zlen v] a
  | GVStr v => is_array CCell false [1; zlen v] a
  | GMInt m => is_array (CInteger I32) false [mrows m; mcols m] a
  | GMLong m => is_array (CInteger I64) false [mrows m; mcols m] a
  | GMReal m => is_array CDouble false [mrows m; mcols m] a
  | GMComplex m => is_array CDouble true [mrows m; mcols m] a
  | GVec v => is_array CCell false [1; zlen v] a
  | GMap _ => is_array CStruct false [1; 1] a
  end.

(** The container read back from the array written. *)
Fixpoint mx_back (g : gc) : gc :=
  match g with
  | GNone | GPtr _ | GVPtr _ => GMReal (Mat 0 0 [])
  | GInt i => GLong i
  | GVBool v => match v with [b] => GBool b | _ => GVec (map GBool v) end
  | GVInt v | GVLong v => match v with [i] => GLong i | _ => GVLong v end
  | GVReal v => match v with [x] => GReal x | _ => g end
  | GVComplex v => match v with [x] => GComplex x | _ => g end
  | GVStr v => GVec (map GStr v)
  | GMInt m => shaped GInt GVInt GMInt [mrows m; mcols m] (mdata m)
  | GMLong m => shaped GLong GVLong GMLong [mrows m; mcols m] (mdata m)
  | GMReal m => shaped GReal GVReal GMReal [mrows m; mcols m] (mdata m)
  | GMComplex m => shaped GComplex GVComplex GMComplex [mrows m; mcols m] (mdata m)
  | GVec v => GVec (map mx_back v)
  | GMap m => GMap (map (fun kv => (fst kv, mx_back (snd kv))) m)
  | GBool _ | GLong _ | GReal _ | GComplex _ | GStr _ => g
  end.
