(** Model of the C interface (src/GenericContainerInterface_C.cc).

    The interface keeps raw pointers to containers inside containers, so containers here carry
    an address.  Addresses are numbers, private to each named container; a pointer is an
    address and using it means looking the address up in the tree. *)
From Coq Require Import ZArith Bool Lia Ascii String List.
From Verif Require Import Base F64 StrMap Value MBasic MGet MMap MMat MPromote MNum MRef.
Import ListNotations.
Local Open Scope Z_scope.

(** ** Containers with addresses *)

(** A container object at address [id]: a value that holds no other container, or a VECTOR, or
    a MAP; [mid] is the address of the std::map object itself. *)
Inductive cell : Type :=
| CLeaf (id : nat) (g : gc)
| CVec (id : nat) (l : list cell)
| CMap (id mid : nat) (m : list (string * cell)).

Definition cid (c : cell) : nat := match c with CLeaf i _ => i | CVec i _ => i | CMap i _ _ => i end.
Definition children (c : cell) : list cell :=
  match c with CLeaf _ _ => [] | CVec _ l => l | CMap _ _ m => map snd m end.

(** The value of a container, forgetting addresses. *)
Fixpoint value (c : cell) : gc :=
  match c with
  | CLeaf _ g => g
  | CVec _ l => GVec ((fix go (l : list cell) := match l with [] => [] | a :: t => value a :: go t end) l)
  | CMap _ _ m => GMap ((fix go (m : list (string * cell)) :=
                           match m with [] => [] | a :: t => (fst a, value (snd a)) :: go t end) m)
  end.

(** New container objects for [g], at unused addresses from [n] on; the object itself is at
    [h]. *)
Fixpoint label (h : nat) (g : gc) (n : nat) : cell * nat :=
  match g with
  | GVec v =>
      let '(l, n') := (fix go (v : list gc) (n : nat) : list cell * nat :=
        match v with
        | [] => ([], n)
        | a :: t => let '(c, n1) := label n a (S n) in let '(r, n2) := go t n1 in (c :: r, n2)
        end) v n in
      (CVec h l, n')
  | GMap m =>
      let '(l, n') := (fix go (m : list (string * gc)) (n : nat) : list (string * cell) * nat :=
        match m with
        | [] => ([], n)
        | (k, a) :: t => let '(c, n1) := label n a (S n) in let '(r, n2) := go t n1 in ((k, c) :: r, n2)
        end) m (S n) in
      (CMap h n l, n')
  | _ => (CLeaf h g, n)
  end.

(** The object at address [h], if there is one. *)
Fixpoint find (h : nat) (c : cell) : option cell :=
  if Nat.eqb (cid c) h then Some c else
  match c with
  | CLeaf _ _ => None
  | CVec _ l => (fix go (l : list cell) := match l with
                  | [] => None
                  | a :: t => match find h a with Some r => Some r | None => go t end end) l
  | CMap _ _ m => (fix go (m : list (string * cell)) := match m with
                  | [] => None
                  | a :: t => match find h (snd a) with Some r => Some r | None => go t end end) m
  end.
(** The tree with the object at address [h] replaced. *)
Fixpoint store (h : nat) (new c : cell) : cell :=
  if Nat.eqb (cid c) h then new else
  match c with
  | CLeaf _ _ => c
  | CVec i l => CVec i ((fix go (l : list cell) := match l with [] => [] | a :: t => store h new a :: go t end) l)
  | CMap i mi m => CMap i mi ((fix go (m : list (string * cell)) :=
                     match m with [] => [] | a :: t => (fst a, store h new (snd a)) :: go t end) m)
  end.
(** The entries of the std::map object at address [mi]. *)
Fixpoint find_map (mi : nat) (c : cell) : option (list (string * cell)) :=
  match c with
  | CLeaf _ _ => None
  | CVec _ l => (fix go (l : list cell) := match l with
                  | [] => None
                  | a :: t => match find_map mi a with Some r => Some r | None => go t end end) l
  | CMap _ mi' m => if Nat.eqb mi' mi then Some m else
                  (fix go (m : list (string * cell)) := match m with
                  | [] => None
                  | a :: t => match find_map mi (snd a) with Some r => Some r | None => go t end end) m
  end.

(** ** GenericContainerExplorer (lines 49-191) *)

(** [x_head]: the stack, top first.  [x_map], [x_it]: ptr_map and map_iterator, the iterator
    being the address of the entry it refers to, [None] for end().  [x_next]: first unused
    address. *)
Record explorer : Type := X {
  x_data : cell; x_head : list nat; x_map : option nat; x_it : option nat; x_next : nat }.
(** Constructor, line 70. *)
Definition explorer0 : explorer := X (CLeaf O GNone) [O] None None 1.

(** Values returned to C; [VStr None] is a null char pointer. *)
Inductive rv : Type := VInt (z : Z) | VReal (x : Z) | VCplx (c : cplx) | VStr (s : option string) | VPtr.
Definition c_ok : rv := VInt 0.
Definition c_bad_type : rv := VInt 1.
Definition c_no_data : rv := VInt 2.
Definition c_not_empty : rv := VInt 3.
Definition c_bad_head : rv := VInt 4.

(** What a call does: it ends with an outcome ([Throw]: a C++ exception leaves the function),
    or follows a pointer to an object that does not exist any more. *)
Inductive res : Type := Ret (o : out rv) | Dangling.

(** GC_TRY (lines 193-200): any exception becomes the status NO_DATA. *)
Definition gc_try (wrapped : bool) (o : out rv) : out rv :=
  if wrapped then match o with Throw => Ok c_no_data | _ => o end else o.

(** The object at [h] takes the value [g].  Everything below it gets new addresses: the C++
    containers may keep some of them, but no caller may count on it. *)
Definition overwrite_at (h : nat) (g : gc) (x : explorer) : explorer :=
  let '(c, n) := label h g (x_next x) in
  X (store h c (x_data x)) (x_head x) (x_map x) (x_it x) n.

(** gc_active->top()->f(): top() (lines 91-115) throws when the stack is empty.  [f] returns
    [None] when it leaves the container as it is. *)
Definition on_top (wrapped : bool) (f : gc -> out rv * option gc) (x : explorer) : res * explorer :=
  match x_head x with
  | [] => (Ret (gc_try wrapped Throw), x)
  | h :: _ =>
      match find h (x_data x) with
      | None => (Dangling, x)
      | Some c =>
          match f (value c) with
          | (o, Some g) => (Ret (gc_try wrapped o), overwrite_at h g x)
          | (o, None) => (Ret (gc_try wrapped o), x)
          end
      end
  end.

(** pop (lines 135-140), reset (184-189). *)
Definition x_pop (x : explorer) : res * explorer :=
  match x_head x with
  | [] => (Ret (Ok c_no_data), x)
  | _ :: t => (Ret (Ok c_ok), X (x_data x) t (x_map x) (x_it x) (x_next x))
  end.
Definition x_reset (x : explorer) : res * explorer :=
  match x_head x with
  | [] => (Ret (Ok c_no_data), x)
  | h :: t => (Ret (Ok c_ok), X (x_data x) [last t h] (x_map x) (x_it x) (x_next x))
  end.

(** push_vector_position (lines 148-156): check (117-125), then operator[](unsigned) (model:
    [check_resize]), which may reallocate the elements, and the address of the element. *)
Definition x_push_pos (pos : Z) (x : explorer) : res * explorer :=
  match x_head x with
  | [] => (Ret (Ok c_bad_head), x)
  | h :: _ =>
      match find h (x_data x) with
      | None => (Dangling, x)
      | Some (CVec _ l) =>
          let i := to_u32 pos in
          let x' := if zlen l <=? i
                    then overwrite_at h (GVec (check_resize GNone i (map value l))) x else x in
          match find h (x_data x') with
          | Some (CVec _ l') =>
              match znth i l' with
              | Some e => (Ret (Ok c_ok), X (x_data x') (cid e :: x_head x') (x_map x') (x_it x') (x_next x'))
              | None => (Ret Undef, x')
              end
          | _ => (Dangling, x')
          end
      | Some _ => (Ret (Ok c_bad_type), x)
      end
  end.
(** push_map_position (lines 158-166): operator[](string) inserts a missing key; the other
    entries of a std::map stay where they are. *)
Definition x_push_key (key : string) (x : explorer) : res * explorer :=
  match x_head x with
  | [] => (Ret (Ok c_bad_head), x)
  | h :: _ =>
      match find h (x_data x) with
      | None => (Dangling, x)
      | Some (CMap _ mi m) =>
          match mfind (cstr key) m with
          | Some e => (Ret (Ok c_ok), X (x_data x) (cid e :: x_head x) (x_map x) (x_it x) (x_next x))
          | None =>
              let n := x_next x in
              (Ret (Ok c_ok),
               X (store h (CMap h mi (mset (cstr key) (CLeaf n GNone) m)) (x_data x))
                 (n :: x_head x) (x_map x) (x_it x) (S n))
          end
      | Some _ => (Ret (Ok c_bad_type), x)
      end
  end.
Definition first_entry (m : list (string * cell)) : option nat :=
  match m with [] => None | (_, e) :: _ => Some (cid e) end.
(** init_map_key (lines 168-176). *)
Definition x_init_key (x : explorer) : res * explorer :=
  match x_head x with
  | [] => (Ret (Ok c_bad_head), x)
  | h :: _ =>
      match find h (x_data x) with
      | None => (Dangling, x)
      | Some (CMap _ mi m) => (Ret (Ok c_ok), X (x_data x) (x_head x) (Some mi) (first_entry m) (x_next x))
      | Some _ => (Ret (Ok c_bad_type), x)
      end
  end.
(** The key of the entry at address [e] and the iterator after it. *)
Fixpoint entry_after (e : nat) (m : list (string * cell)) : option (string * option nat) :=
  match m with
  | [] => None
  | (k, c) :: t => if Nat.eqb (cid c) e then Some (k, first_entry t) else entry_after e t
  end.
(** next_map_key (lines 178-182), as seen through char const *; ptr_map->end() with a null
    ptr_map is undefined. *)
Definition x_next_key (x : explorer) : res * explorer :=
  match x_map x with
  | None => (Ret Undef, x)
  | Some mi =>
      match find_map mi (x_data x) with
      | None => (Dangling, x)
      | Some m =>
          match x_it x with
          | None => (Ret (Ok (VStr (Some EmptyString))), x)
          | Some e =>
              match entry_after e m with
              | Some (k, it) =>
                  (Ret (Ok (VStr (Some (cstr k)))), X (x_data x) (x_head x) (x_map x) it (x_next x))
              | None => (Dangling, x)
              end
          end
      end
  end.

(** ** The functions *)

(** The calls that use the current container; pointers to arrays are given as the elements
    found there. *)
Inductive call : Type :=
| PopHead | ResetHead | PrintContentTypes | Dump | GetType | GetTypeName
| SetBool (a : Z) | SetInt (a : Z) | SetReal (a : Z) | SetComplex (a : cplx) | SetString (s : string)
| GetBool | GetInt | GetLong | GetReal | GetComplex | GetComplexRe | GetComplexIm | GetString
| PushBool (a : Z) | PushInt (a : Z) | PushReal (a : Z) | PushComplex (a : cplx) | PushString (s : string)
| GetBoolAtPos (i : Z) | GetIntAtPos (i : Z) | GetRealAtPos (i : Z) | GetComplexAtPos (i : Z)
| GetComplexRealAtPos (i : Z) | GetComplexImagAtPos (i : Z) | GetStringAtPos (i : Z)
| GetRealAtCoor (i j : Z) | GetComplexAtCoor (i j : Z) | GetComplexRealAtCoor (i j : Z)
| GetComplexImagAtCoor (i j : Z)
| SetEmptyVecBool | SetEmptyVecInt | SetEmptyVecReal | SetEmptyVecComplex | SetEmptyVecString
| SetVecBool (a : list Z) (n : Z) | SetVecInt (a : list Z) (n : Z) | SetVecReal (a : list Z) (n : Z)
| SetVecComplex (re im : list Z) (n : Z) | SetVecString (a : list string) (n : Z)
| SetVector (n : Z) | SetEmptyVector | GetVectorSize | GetNumRows | GetNumCols
| PushVectorPosition (pos : Z) | SetMap | PushMapPosition (key : string)
| InitMapKey | GetNextKey.

(** A setter with status OK. *)
Definition sets (g : gc) : out rv * option gc := (Ok c_ok, Some g).
Definition pushes (r : out unit * gc) : out rv * option gc :=
  match r with
  | (Ok _, g) => (Ok c_ok, Some g)
  | (o, g) => (failed o, Some g)
  end.
(** A value read through a reference into the container. *)
Definition shows {A} (k : A -> rv) (r : out A * gc) : out rv * option gc := (omap k (fst r), Some (snd r)).
Definition looks {A} (k : A -> rv) (r : out A) : out rv * option gc := (omap k r, None).

(** std::copy_n(a, n, v.begin()), or the loop over i < unsigned(n), into the vector made by
    set_vec_T(n). *)
Definition copy_n {A B} (f : A -> B) (a : list A) (n : Z) (v : list B) : out (list B) :=
  if zlen a <? n then Undef else copy_into (map f (firstn (Z.to_nat n) a)) v.
Definition loop_n {A B} (f : A -> B) (a : list A) (n : Z) (v : list B) : out (list B) :=
  copy_n f a (to_u32 n) v.
Definition filled {B} (k : list B -> gc) (r : out (list B)) : out rv * option gc :=
  match r with Ok v => (Ok c_ok, Some (k v)) | _ => (Undef, None) end.

(** For the calls that do `gc_active->top()->...`: whether inside GC_TRY, and the effect on
    the top container.  Lines are those of src/GenericContainerInterface_C.cc. *)
Definition top_call (k : call) : option (bool * (gc -> out rv * option gc)) :=
  match k with
  (* 327-339; the printing functions are const *)
  | PrintContentTypes | Dump => Some (true, fun g => (Ok c_ok, None))
  (* 341-352 *)
  | GetType => Some (false, fun g => (Ok (VInt (tag_num (tag_of g))), None))
  | GetTypeName => Some (false, fun g => (Ok (VStr (Some (type_name (tag_of g)))), None))
  (* 356-396 *)
  | SetBool a => Some (true, fun g => sets (set_bool (negb (a =? 0)) g))
  | SetInt a => Some (true, fun g => sets (set_int a g))
  | SetReal a => Some (true, fun g => sets (set_real a g))
  | SetComplex a => Some (true, fun g => sets (set_complex a g))
  | SetString s => Some (true, fun g => sets (set_string (cstr s) g))
  (* 400-451 *)
  | GetBool => Some (false, fun g => shows (fun b => VInt (b2z b)) (sread (ref_bool g)))
  | GetInt => Some (false, fun g => shows VInt (sread (ref_int g)))
  | GetLong => Some (false, fun g => shows VInt (sread (ref_long g)))
  | GetReal => Some (false, fun g => shows VReal (sread (ref_real g)))
  | GetComplex => Some (false, fun g => shows VCplx (rread (ref_complex g)))
  | GetComplexRe => Some (false, fun g => shows (fun c => VReal (fst c)) (rread (ref_complex g)))
  | GetComplexIm => Some (false, fun g => shows (fun c => VReal (snd c)) (rread (ref_complex g)))
  | GetString => Some (false, fun g => shows (fun s => VStr (Some (cstr s))) (rread (ref_string g)))
  (* 455-495 *)
  | PushBool a => Some (true, fun g => pushes (push_bool (negb (a =? 0)) g))
  | PushInt a => Some (true, fun g => pushes (push_int a g))
  | PushReal a => Some (true, fun g => pushes (push_real a g))
  | PushComplex a => Some (true, fun g => pushes (push_complex a g))
  | PushString s => Some (true, fun g => pushes (push_string (cstr s) g))
  (* 499-544 *)
  | GetBoolAtPos i => Some (false, fun g => shows (fun b => VInt (b2z b)) (rread (ref_bool_at (to_u32 i) g)))
  | GetIntAtPos i => Some (false, fun g => shows VInt (rread (ref_int_at (to_u32 i) g)))
  | GetRealAtPos i => Some (false, fun g => looks VReal (get_number_at (to_u32 i) g))
  | GetComplexAtPos i => Some (false, fun g => looks VCplx (get_complex_number_at (to_u32 i) g))
  | GetComplexRealAtPos i => Some (false, fun g => looks (fun c => VReal (fst c)) (get_complex_number_at (to_u32 i) g))
  | GetComplexImagAtPos i => Some (false, fun g => looks (fun c => VReal (snd c)) (get_complex_number_at (to_u32 i) g))
  | GetStringAtPos i => Some (false, fun g => shows (fun s => VStr (Some (cstr s))) (rread (ref_string_at (to_u32 i) g)))
  (* 548-582 *)
  | GetRealAtCoor i j => Some (false, fun g => shows VReal (rread (ref_real_at2 (to_u32 i) (to_u32 j) g)))
  | GetComplexAtCoor i j => Some (false, fun g => shows VCplx (rread (ref_complex_at2 (to_u32 i) (to_u32 j) g)))
  | GetComplexRealAtCoor i j =>
      Some (false, fun g => shows (fun c => VReal (fst c)) (rread (ref_complex_at2 (to_u32 i) (to_u32 j) g)))
  | GetComplexImagAtCoor i j =>
      Some (false, fun g => shows (fun c => VReal (snd c)) (rread (ref_complex_at2 (to_u32 i) (to_u32 j) g)))
  (* 586-619 *)
  | SetEmptyVecBool => Some (true, fun g => sets (set_vbool_sz 0 g))
  | SetEmptyVecInt => Some (true, fun g => sets (set_vint_sz 0 g))
  | SetEmptyVecReal => Some (true, fun g => sets (set_vreal_sz 0 g))
  | SetEmptyVecComplex => Some (true, fun g => sets (set_vcomplex_sz 0 g))
  | SetEmptyVecString => Some (true, fun g => sets (set_vstr_sz 0 g))
  (* 623-663 *)
  | SetVecBool a n => Some (false, fun g => filled GVBool (loop_n (fun z => negb (z =? 0)) a n (alloc_vbool (to_u32 n) g)))
  | SetVecInt a n => Some (false, fun g => filled GVInt (copy_n (fun z => z) a n (alloc_vint (to_u32 n) g)))
  | SetVecReal a n => Some (false, fun g => filled GVReal (copy_n (fun z => z) a n (alloc_vreal (to_u32 n) g)))
  | SetVecComplex re im n =>
      Some (false, fun g => if zlen im <? to_u32 n then (Undef, None)
                            else filled GVComplex (loop_n (fun c => c) (combine re im) n (alloc_vcomplex (to_u32 n) g)))
  | SetVecString a n => Some (false, fun g => filled GVStr (loop_n cstr a n (alloc_vstr (to_u32 n) g)))
  (* 667-679 *)
  | SetVector n => Some (true, fun g => sets (set_vector_sz (to_u32 n) g))
  | SetEmptyVector => Some (true, fun g => match g with GVec _ => (Ok c_ok, None) | _ => sets (set_vector_sz 0 g) end)
  (* 681-697 *)
  | GetVectorSize => Some (false, fun g => (Ok (VInt (to_i32 (num_elements g))), None))
  | GetNumRows => Some (false, fun g => (Ok (VInt (to_i32 (num_rows g))), None))
  | GetNumCols => Some (false, fun g => (Ok (VInt (to_i32 (num_cols g))), None))
  (* 707-712 *)
  | SetMap => Some (true, fun g => match g with GMap _ => (Ok c_ok, None) | _ => sets (set_map0 g) end)
  | PopHead | ResetHead | PushVectorPosition _ | PushMapPosition _ | InitMapKey | GetNextKey => None
  end.

(** A call with an active container. *)
Definition xexec (k : call) (x : explorer) : res * explorer :=
  match top_call k with
  | Some (wrapped, f) => on_top wrapped f x
  | None =>
      match k with
      | PopHead => x_pop x
      | ResetHead => x_reset x
      | PushVectorPosition pos => x_push_pos pos x
      | PushMapPosition key => x_push_key key x
      | InitMapKey => x_init_key x
      | _ => x_next_key x
      end
  end.

(** What each function returns when no container is active. *)
Definition idle (k : call) : rv :=
  match k with
  | GetType => VInt (-1)
  | GetTypeName => VStr (Some EmptyString)
  | GetBool | GetInt | GetLong | GetBoolAtPos _ | GetIntAtPos _ => VInt 0
  | GetReal | GetComplexRe | GetComplexIm | GetRealAtPos _ | GetComplexRealAtPos _ | GetComplexImagAtPos _
  | GetRealAtCoor _ _ | GetComplexRealAtCoor _ _ | GetComplexImagAtCoor _ _ => VReal f_zero
  | GetComplex | GetComplexAtPos _ | GetComplexAtCoor _ _ => VCplx c_zero
  | GetString | GetStringAtPos _ | GetNextKey => VStr None
  | GetVectorSize | GetNumRows | GetNumCols => VInt 0
  | _ => c_bad_head
  end.

(** ** Named containers (lines 204-247) *)

(** gc_explorer maps names to explorers, which are allocated with new and never freed; an
    explorer is its index in [c_heap].  [c_active] is gc_active. *)
Record cstate : Type := C { c_names : list (string * nat); c_heap : list explorer; c_active : option nat }.
Definition cstate0 : cstate := C [] [] None.

Inductive ccall : Type :=
| New (name : string) | Select (name : string) | MemPtr (name : string) | Delete (name : string)
| FillForTest (name : string)
| Do (k : call).

(** GC_new, GC_select (lines 212-234). *)
Definition select (name : string) (s : cstate) : cstate :=
  match mfind (cstr name) (c_names s) with
  | Some i => C (c_names s) (c_heap s) (Some i)
  | None => C (mset (cstr name) (length (c_heap s)) (c_names s)) (c_heap s ++ [explorer0]) (Some (length (c_heap s)))
  end.

(** The value stored by GC_fill_for_test (lines 249-313) in the root container. *)
Definition fnth (i : nat) (v : list gc) : gc := nth i v GNone.
Definition fill_value (g : gc) : gc :=
  let v := resize GNone 11 (old_vec g) in
  GVec [GInt 1;
        GVReal (lset 2 (f_of_Z 123) (resize f_zero 10 (old_vreal (fnth 1 v))));
        GMap (mset "bbb" (GStr "stringa2") (mset "aaa" (GStr "stringa1")
             (mset "paperino" (GInt 3) (mset "pluto" (GInt 1) (mset "pippo" (GInt 13) (old_map (fnth 2 v)))))))%string;
        GVStr (old_vstr (fnth 3 v) ++ ["string1"%string; "string2"%string; "string3"%string; "string4"%string]);
        GReal (f_of_Q 13 10);
        GStr "pippo"%string;
        (let m := mset "bbb"%string (GReal (f_of_Q 34 10)) (mset "aaa"%string (GInt 123) (old_map (fnth 6 v))) in
         let vi := match mfind "vector"%string m with Some (GVInt w) => w | _ => [] end in
         GMap (mset "vector"%string (GVInt (vi ++ [12; 10; 1])) m));
        (let w := resize GNone 4 (old_vec (fnth 7 v)) in
         GVec [GInt 123; GReal (f_of_Q 314 100); GStr "nonna papera"%string;
               GVComplex (old_vcomplex (fnth 3 w) ++
                 [(f_of_Z 1, f_zero); (f_of_Z 2, f_zero); (f_of_Z 3, f_zero); (f_of_Z (-12), f_of_Z 2)])]);
        (let m := mresize f_zero 2 2 (old_mreal (fnth 8 v)) in
         GMReal (Mat 2 2 (lset 2 (f_of_Z 3) (lset 3 (f_of_Z 2) (mdata m)))));
        (let m := mresize c_zero 2 2 (old_mcomplex (fnth 9 v)) in
         GMComplex (Mat 2 2 (lset 2 (f_of_Z 1, f_of_Z (-1)) (lset 3 (f_of_Z 2, f_of_Z 2) (mdata m)))));
        GBool true].

Definition set_heap (i : nat) (x : explorer) (s : cstate) : cstate :=
  C (c_names s) (lset i x (c_heap s)) (c_active s).

Definition exec (k : ccall) (s : cstate) : res * cstate :=
  match k with
  | New name | Select name => (Ret (Ok c_ok), select name s)
  (* 236-241: the address of the root container *)
  | MemPtr name => (Ret (Ok VPtr), select name s)
  (* 243-247: only the entry of the table is removed *)
  | Delete name => (Ret (Ok c_ok), C (merase (cstr name) (c_names s)) (c_heap s) (c_active s))
  | FillForTest name =>
      let s' := select name s in
      match c_active s' with
      | Some i =>
          match nth_error (c_heap s') i with
          | Some x => (Ret (Ok c_ok),
                       set_heap i (overwrite_at (cid (x_data x)) (fill_value (value (x_data x))) x) s')
          | None => (Dangling, s')
          end
      | None => (Ret Undef, s')
      end
  | Do k =>
      match c_active s with
      | None => (Ret (Ok (idle k)), s)
      | Some i =>
          match nth_error (c_heap s) i with
          | Some x => let '(r, x') := xexec k x in (r, set_heap i x' s)
          | None => (Dangling, s)
          end
      end
  end.

(** A sequence of calls: the results and the final state. *)
Fixpoint run (ks : list ccall) (s : cstate) : list res * cstate :=
  match ks with
  | [] => ([], s)
  | k :: t => let '(r, s1) := exec k s in let '(rs, s2) := run t s1 in (r :: rs, s2)
  end.

Example capi_ex :
  fst (run [New "a"; Do SetMap; Do (PushMapPosition "x"); Do (SetInt 5); Do PopHead;
            Do (PushMapPosition "b"); Do (SetVector 2); Do (PushVectorPosition 3); Do (SetString "q"); Do GetString;
            Do PopHead; Do GetVectorSize; Do ResetHead;
            Do InitMapKey; Do GetNextKey; Do (PushMapPosition "x"); Do GetInt; Do PopHead; Do GetNextKey; Do GetNextKey;
            Do GetInt]%string cstate0)
  = map (fun z => Ret (Ok z))
     [c_ok; c_ok; c_ok; c_ok; c_ok; c_ok; c_ok; c_ok; c_ok; VStr (Some "q"%string); c_ok; VInt 4; c_ok;
      c_ok; VStr (Some "b"%string); c_ok; VInt 5; c_ok; VStr (Some "x"%string); VStr (Some EmptyString)]
    ++ [Ret Throw].
Proof. vmc. Qed.
