(** Specification vocabulary for the Ruby interface. *)
From Coq Require Import ZArith Bool Lia Ascii String List.
From Verif Require Import Base F64 StrMap Value SGet SPromote SCollapse MBasic MMat MCapi SCapi MRuby Props_mat.
Import ListNotations.
Local Open Scope Z_scope.

Definition all_of {A} (P : A -> Prop) : list A -> Prop :=
  fix go (l : list A) : Prop := match l with [] => True | a :: t => P a /\ go t end.

(** ** The data of a Ruby value *)

(** The entries in the order of their keys. *)
Definition by_key {A} (m : list (string * A)) : list (string * A) :=
  fold_left (fun acc kv => mset (fst kv) (snd kv) acc) m [].
(** true and false are the numbers 1 and 0, as in the data of a container; a Symbol is its text,
    a Hash its entries whatever their order. *)
Fixpoint rdat (r : rb) : dat :=
  match r with
  | RNil => DNull
  | RBool b => d_int (if b then 1 else 0)
  | RInt z => d_int z
  | RFloat x => d_real x
  | RStr s | RSym s => DStr s
  | RArr l => DList (map rdat l)
  | RHash m => DMap (by_key (map (fun kv => (fst kv, rdat (snd kv))) m))
  end.
Fixpoint has_hash (r : rb) : bool :=
  match r with RHash _ => true | RArr l => existsb has_hash l | _ => false end.

(** ** What load can store *)

Definition is_scalar (r : rb) : bool := match r with RNil | RArr _ | RHash _ => false | _ => true end.
Definition is_text (r : rb) : bool := match r with RStr _ | RSym _ => true | _ => false end.
(** The elements before the first one that is nil, an Array or a Hash. *)
Fixpoint lead (l : list rb) : list rb :=
  match l with [] => [] | x :: t => if is_scalar x then x :: lead t else [] end.
(** Integers fit a C int, there is no zero byte in a text or key, the keys of a Hash differ, and
    an Array that begins with a text has no number before the first element that is nil, an
    Array or a Hash. *)
Fixpoint storable (r : rb) : Prop :=
  match r with
  | RInt z => int32 z
  | RStr s | RSym s => no_nul s
  | RArr l => zlen l < 2^31 /\
              match l with x :: _ => is_text x = true -> forallb is_text (lead l) = true | [] => True end /\
              all_of storable l
  | RHash m => NoDup (map fst m) /\ all_of no_nul (map fst m) /\ all_of (fun kv => storable (snd kv)) m
  | _ => True
  end.
(** The container type that load begins with, for values that load does not store at once. *)
Definition first_type (r : rb) : option tag :=
  match r with
  | RArr [] | RArr (RBool _ :: _) => Some TVBool
  | RArr (RInt _ :: _) => Some TVInt
  | RArr (RFloat _ :: _) => Some TVReal
  | RArr ((RStr _ | RSym _) :: _) => Some TVStr
  | RArr _ => Some TVec
  | RHash _ => Some TMap
  | _ => None
  end.
(** Loading [r] replaces the old content [e]: it is not of the type that load begins with, and
    it is already empty if [r] is nil. *)
Definition replaces (r : rb) (e : gc) : Prop :=
  match r with RNil => e = GNone | _ => first_type r <> Some (tag_of e) end.

(** ** What get_data gives *)

Definition rows {A} (f : A -> rb) (m : mat A) : rb :=
  RArr (map (fun i => RArr (map (fun j => match entry m i j with Some x => f x | None => RNil end)
                              (map Z.of_nat (seq 0 (Z.to_nat (mcols m))))))
         (map Z.of_nat (seq 0 (Z.to_nat (mrows m))))).
Definition rpair (c : cplx) : rb := RArr [RFloat (fst c); RFloat (snd c)].
(** Containers without a map: booleans become 0 and 1, complex numbers pairs, matrices arrays of
    rows; types that GC_to_hash does not know become nil. *)
Fixpoint rb_of (g : gc) : rb :=
  match g with
  | GBool b => RInt (if b then 1 else 0)
  | GInt i => RInt i
  | GLong i => RInt i
  | GReal x => RFloat x
  | GStr s => RStr (cstr s)
  | GVBool v => RArr (map (fun b : bool => RInt (if b then 1 else 0)) v)
  | GVInt v => RArr (map RInt v)
  | GVReal v => RArr (map RFloat v)
  | GVComplex v => RArr (map rpair v)
  | GVStr v => RArr (map (fun s => RStr (cstr s)) v)
  | GMReal m => rows RFloat m
  | GMComplex m => rows rpair m
  | GVec v => RArr (map rb_of v)
  | _ => RNil
  end.
(** A map somewhere in the container, reachable through VECTORs. *)
Fixpoint has_map (g : gc) : bool :=
  match g with GMap _ => true | GVec v => existsb has_map v | _ => false end.
Fixpoint nesting (g : gc) : nat :=
  match g with GVec v => S (fold_right (fun e n => Nat.max (nesting e) n) O v) | _ => O end.
(** Every number of elements, rows and columns is a positive C int; matrices are well formed. *)
Definition msize {A} (m : mat A) : Prop := mat_ok m /\ mrows m < 2^31 /\ mcols m < 2^31.
Fixpoint small (g : gc) : Prop :=
  match g with
  | GVBool v => zlen v < 2^31
  | GVInt v | GVReal v => zlen v < 2^31
  | GVComplex v => zlen v < 2^31
  | GVStr v => zlen v < 2^31
  | GMReal m => msize m
  | GMComplex m => msize m
  | GVec v => zlen v < 2^31 /\ all_of small v
  | _ => True
  end.

(** Types that come back with the same data. *)
Fixpoint faithful (g : gc) : Prop :=
  match g with
  | GNone | GBool _ | GInt _ | GLong _ | GReal _ => True
  | GStr s => no_nul s
  | GVBool v => zlen v < 2^31
  | GVInt v | GVReal v => zlen v < 2^31
  | GVStr v => zlen v < 2^31 /\ Forall no_nul v
  | GVec v => zlen v < 2^31 /\ all_of faithful v
  | GMap m => True
  | _ => False
  end.

(** ** Objects *)

(** The Ruby object with this id holds [g], and its cursor is at the root. *)
Definition holds_at_root (id : string) (s : cstate) (g : gc) : Prop :=
  exists i x, mfind (cstr id) (c_names s) = Some i /\ nth_error (c_heap s) i = Some x /\
    sane x /\ value (x_data x) = g /\ x_head x = [cid (x_data x)].
