(** Model of collapse (src/GenericContainerCollapse.cc:45-145). *)
From Coq Require Import ZArith Bool Lia Ascii String List.
From Verif Require Import Base F64 StrMap Value MBasic MGet MMat MPromote.
Import ListNotations.
Local Open Scope Z_scope.

(** The variables of the scan loop, lines 57-60. *)
Record scan : Type := Scan { max_sub : tag; can_collapse : bool; all_string : bool; last_nelem : Z }.
Definition scan0 : scan := Scan TNone true true (-1).

(** One turn of the loop after the child has been collapsed, lines 64-71.  The element count
    is converted to a signed 32-bit int. *)
Definition scan_step (s : scan) (vi : gc) : scan :=
  let ti := tag_of vi in
  let ne := to_i32 (num_elements vi) in
  Scan (if tag_num (max_sub s) <? tag_num ti then ti else max_sub s)
       (if (0 <=? last_nelem s) && can_collapse s then last_nelem s =? ne else can_collapse s)
       (if tag_eqb ti TStr then all_string s else false)
       ne.

(** Result of a typed copy as a value. *)
Definition copied {A} (r : out unit * list A) : out (list A) :=
  match r with
  | (Ok _, l) => Ok l
  | (Throw, _) => Throw
  | (Undef, _) => Undef
  | (Diverge, _) => Diverge
  end.

(** Overwriting the container when the computation of the new value succeeds; otherwise the
    exception leaves the container as it is. *)
Definition overwrite (r : out gc) (g : gc) : out unit * gc :=
  match r with
  | Ok g' => (Ok tt, g')
  | Throw => (Throw, g)
  | Undef => (Undef, g)
  | Diverge => (Diverge, g)
  end.

(** vi.get_bool() of each child, lines 84-85.  This is the non-const getter, which on a
    NOTYPE child sets the tag and reads the uninitialised union. *)
Fixpoint bools_of (v : list gc) : out (list bool) :=
  match v with
  | [] => Ok []
  | GBool b :: v' => do r <- bools_of v' ; Ok (b :: r)
  | GNone :: _ => Undef
  | _ :: _ => Throw
  end.

(** vi.get_string() of each child, lines 76-78; reached only when all are strings. *)
Fixpoint strings_of (v : list gc) : out (list string) :=
  match v with
  | [] => Ok []
  | e :: v' => do s <- get_string e ; do r <- strings_of v' ; Ok (s :: r)
  end.

(** Lines 93-136: the NR x NC matrix whose j-th column is v[j] copied to a typed vector. *)
Definition mat_of {A} (d : A) (cv : gc -> list A -> out unit * list A) (nelem : Z) (v : list gc) : out (mat A) :=
  let nr := to_u32 nelem in
  let nc := to_u32 (zlen v) in
  fill_cols cv nr (visit v) 0 (mresize d nr nc []).

(** Lines 73-139, after the loop over a non-empty vector. *)
Definition collapse_vec (v : list gc) : out unit * gc :=
  let s := fold_left scan_step v scan0 in
  let this := GVec v in
  if negb (can_collapse s) then (Ok tt, this)
  else if all_string s then overwrite (do t <- strings_of v ; set_vstr t this) this
  else match max_sub s with
  | TBool => overwrite (do t <- bools_of v ; set_vbool t this) this
  | TInt => overwrite (do t <- copied (copyto_vec_int this []) ; set_vint t this) this
  | TLong => overwrite (do t <- copied (copyto_vec_long this []) ; set_vlong t this) this
  | TReal => overwrite (do t <- copied (copyto_vec_real this []) ; set_vreal t this) this
  | TComplex => overwrite (do t <- copied (copyto_vec_complex this []) ; set_vcomplex t this) this
  | TVInt => overwrite (do m <- mat_of 0 copyto_vec_int (last_nelem s) v ; set_mint m this) this
  | TVLong => overwrite (do m <- mat_of 0 copyto_vec_long (last_nelem s) v ; set_mlong m this) this
  | TVReal => overwrite (do m <- mat_of f_zero copyto_vec_real (last_nelem s) v ; set_mreal m this) this
  | TVComplex => overwrite (do m <- mat_of c_zero copyto_vec_complex (last_nelem s) v ; set_mcomplex m this) this
  | _ => (Ok tt, this)
  end.

(** Lines 45-145.  Children are collapsed in order; an exception in one of them leaves the
    following ones untouched.  The loop of the VECTOR case also updates the scan variables,
    which depend only on the collapsed children, so they are computed afterwards here. *)
Fixpoint collapse (g : gc) : out unit * gc :=
  match g with
  | GMap m =>
      let '(r, m') :=
        (fix go (m : list (string * gc)) : out unit * list (string * gc) :=
           match m with
           | [] => (Ok tt, [])
           | (k, e) :: t =>
               match collapse e with
               | (Ok _, e') => let '(r, t') := go t in (r, (k, e') :: t')
               | (r, e') => (r, (k, e') :: t)
               end
           end) m in
      (r, GMap m')
  | GVec [] => (Ok tt, GVec [])
  | GVec v =>
      let '(r, v') :=
        (fix go (v : list gc) : out unit * list gc :=
           match v with
           | [] => (Ok tt, [])
           | e :: t =>
               match collapse e with
               | (Ok _, e') => let '(r, t') := go t in (r, e' :: t')
               | (r, e') => (r, e' :: t)
               end
           end) v in
      match r with
      | Ok _ => collapse_vec v'
      | _ => (r, GVec v')
      end
  | _ => (Ok tt, g)
  end.

(** The two loops as functions of their own, for the proofs. *)
Fixpoint collapse_all (v : list gc) : out unit * list gc :=
  match v with
  | [] => (Ok tt, [])
  | e :: t =>
      match collapse e with
      | (Ok _, e') => let '(r, t') := collapse_all t in (r, e' :: t')
      | (r, e') => (r, e' :: t)
      end
  end.
Fixpoint collapse_entries (m : list (string * gc)) : out unit * list (string * gc) :=
  match m with
  | [] => (Ok tt, [])
  | (k, e) :: t =>
      match collapse e with
      | (Ok _, e') => let '(r, t') := collapse_entries t in (r, (k, e') :: t')
      | (r, e') => (r, (k, e') :: t)
      end
  end.
Lemma collapse_vec_eq e v : collapse (GVec (e :: v)) =
  let '(r, v') := collapse_all (e :: v) in
  match r with Ok _ => collapse_vec v' | _ => (r, GVec v') end.
Proof. reflexivity. Qed.
Lemma collapse_map_eq m : collapse (GMap m) =
  let '(r, m') := collapse_entries m in (r, GMap m').
Proof. reflexivity. Qed.

Example collapse_ex1 :
  collapse (GVec [GInt 1; GBool true; GReal (f_of_Z 3)]) = (Ok tt, GVReal [f_of_Z 1; f_of_Z 1; f_of_Z 3]) /\
  collapse (GVec [GVec [GInt 1; GInt 2]; GVec [GInt 3; GLong 4]]) =
    (Ok tt, GMLong (Mat 2 2 [1; 2; 3; 4])) /\
  collapse (GVec [GStr "a"%string; GVec [GInt 1]]) = (Throw, GVec [GStr "a"%string; GVInt [1]]) /\
  collapse (GVec [GInt 1; GVec [GInt 2]]) = (Ok tt, GMInt (Mat 1 2 [1; 2])) /\
  collapse (GVec [GInt 1; GStr "a"%string]) = (Ok tt, GVec [GInt 1; GStr "a"%string]).
Proof. vmc. Qed.
