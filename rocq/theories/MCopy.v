(** Model of deep copy, assignment and merge (src/GenericContainer.cc:3718-3876). *)
From Coq Require Import ZArith Bool Lia Ascii String List.
From Verif Require Import Base F64 StrMap Value MBasic.
Import ListNotations.
Local Open Scope Z_scope.

Definition odflt (o : option gc) : gc := match o with Some g => g | None => GNone end.

(** src/GenericContainer.cc:3774-3855 from_gc; also operator=(GenericContainer const &),
    load and the copy constructor (include/GenericContainer/GenericContainer.hh:3691, 3699),
    which call it.  [dst] is the container before the call.  In the map case
    `( *this )[fst]` (src/GenericContainer.cc:3397-3401) builds the key from `fst.data()`, so
    it stops at the first NUL byte, and inserts an empty container when the key is absent.
    Simplification: source and destination are distinct objects (MAlias.v is without that),
    and the copies made when std::vector reallocates are exact. *)
Fixpoint from_gc (src dst : gc) {struct src} : out gc :=
  match src with
  | GNone => Ok (clear dst)
  | GPtr p => Ok (set_pointer p dst)
  | GBool b => Ok (set_bool b dst)
  | GInt i => Ok (set_int i dst)
  | GLong l => Ok (set_long l dst)
  | GReal r => Ok (set_real r dst)
  | GComplex c => Ok (set_complex c dst)
  | GStr s => Ok (set_string s dst)
  | GVPtr v => set_vptr v dst
  | GVBool v => set_vbool v dst
  | GVInt v => set_vint v dst
  | GVLong v => set_vlong v dst
  | GVReal v => set_vreal v dst
  | GVComplex v => set_vcomplex v dst
  | GVStr v => set_vstr v dst
  | GMInt m => set_mint m dst
  | GMLong m => set_mlong m dst
  | GMReal m => set_mreal m dst
  | GMComplex m => set_mcomplex m dst
  | GVec v =>
      let w := alloc_vec (to_u32 (zlen v)) dst in
      do w' <- (fix go (v w : list gc) : out (list gc) :=
                  match v, w with
                  | [], _ => Ok w
                  | a :: v', b :: w' =>
                      do b' <- from_gc a b ; do r <- go v' w' ; Ok (b' :: r)
                  | _ :: _, [] => Undef
                  end) v w ;
      Ok (GVec w')
  | GMap m =>
      do m' <- (fix go (m : list (string * gc)) (acc : list (string * gc))
                  : out (list (string * gc)) :=
                  match m with
                  | [] => Ok acc
                  | (k, a) :: m' =>
                      do b <- from_gc a (odflt (mfind (cstr k) acc)) ;
                      go m' (mset (cstr k) b acc)
                  end) m (old_map dst) ;
      Ok (GMap m')
  end.

(** The two loops of [from_gc], named. *)
Fixpoint assign_vec (v w : list gc) : out (list gc) :=
  match v, w with
  | [], _ => Ok w
  | a :: v', b :: w' => do b' <- from_gc a b ; do r <- assign_vec v' w' ; Ok (b' :: r)
  | _ :: _, [] => Undef
  end.
Fixpoint assign_map (m acc : list (string * gc)) : out (list (string * gc)) :=
  match m with
  | [] => Ok acc
  | (k, a) :: m' =>
      do b <- from_gc a (odflt (mfind (cstr k) acc)) ; assign_map m' (mset (cstr k) b acc)
  end.

Lemma from_gc_vec v dst :
  from_gc (GVec v) dst = do w <- assign_vec v (alloc_vec (to_u32 (zlen v)) dst) ; Ok (GVec w).
Proof. reflexivity. Qed.

Lemma from_gc_map m dst :
  from_gc (GMap m) dst = do m' <- assign_map m (old_map dst) ; Ok (GMap m').
Proof. reflexivity. Qed.

(** src/GenericContainer.cc:3718-3763 to_gc: writes this container into another one. *)
Fixpoint to_gc (this other : gc) {struct this} : out gc :=
  match this with
  | GNone => Ok (clear other)
  | GBool b => Ok (set_bool b other)
  | GInt i => Ok (set_int i other)
  | GLong l => Ok (set_long l other)
  | GReal r => Ok (set_real r other)
  | GComplex c => Ok (set_complex c other)
  | GStr s => Ok (set_string s other)
  | GVBool v => set_vbool v other
  | GVInt v => set_vint v other
  | GVLong v => set_vlong v other
  | GVReal v => set_vreal v other
  | GVStr v => set_vstr v other
  | GVec v =>
      let w := alloc_vec (to_u32 (zlen v)) other in
      do w' <- (fix go (v w : list gc) : out (list gc) :=
                  match v, w with
                  | [], _ => Ok w
                  | a :: v', b :: w' => do b' <- to_gc a b ; do r <- go v' w' ; Ok (b' :: r)
                  | _ :: _, [] => Undef
                  end) v w ;
      Ok (GVec w')
  | GMap m =>
      do m' <- (fix go (m : list (string * gc)) (acc : list (string * gc))
                  : out (list (string * gc)) :=
                  match m with
                  | [] => Ok acc
                  | (k, a) :: m' =>
                      do b <- to_gc a (odflt (mfind (cstr k) acc)) ;
                      go m' (mset (cstr k) b acc)
                  end) m (old_map other) ;
      Ok (GMap m')
  | GMInt m => set_mint m other
  | GMLong m => set_mlong m other
  | GMReal m => set_mreal m other
  | GVComplex v => set_vcomplex v other
  | GMComplex m => set_mcomplex m other
  | GPtr p => Ok (set_pointer p other)
  | GVPtr v => set_vptr v other
  end.

(** src/GenericContainer.cc:3861-3876 merge: outcome and destination afterwards. *)
Definition merge (src dst : gc) : out unit * gc :=
  match src with
  | GNone => (Ok tt, dst)
  | GMap m =>
      let dst' := match dst with GNone => set_map0 dst | _ => dst end in
      match dst' with
      | GMap acc => match assign_map m acc with
                    | Ok r => (Ok tt, GMap r)
                    | Throw => (Throw, dst')
                    | Undef => (Undef, dst')
                    | Diverge => (Diverge, dst')
                    end
      | _ => (Throw, dst')
      end
  | _ => (Throw, dst)
  end.
