(** Specification vocabulary for the exchange of values with Lua. *)
From Coq Require Import ZArith Bool Lia Ascii String List.
From Verif Require Import Base F64 StrMap Value MBasic SPromote SCollapse SJson MLua.
Import ListNotations.
Local Open Scope Z_scope.

(** The Lua value shows the data of the container: nil for nothing, booleans, numbers equal to
    the stored ones, the same strings, a table with exactly the keys 1..n for a vector and with
    exactly the keys of a map.  (In Lua a table has no entry whose value is nil, so a null
    element is a missing entry.)  Nothing shows pointers, complex numbers and matrices. *)
Definition shows_int (n : Z) (v : lua) : Prop := exists x, v = LNum x /\ fis x n.
Definition only_keys (P : lua -> Prop) (t : list (lua * lua)) : Prop := forall k, tget k t <> LNil -> P k.
Definition upto (n : Z) (k : lua) : Prop := exists i, k = LInt i /\ 1 <= i <= n.
Definition shows_list {A} (S : A -> lua -> Prop) (l : list A) (v : lua) : Prop :=
  exists t, v = LTab t /\ only_keys (upto (zlen l)) t /\
    forall i a, znth i l = Some a -> S a (tget (LInt (i + 1)) t).
Fixpoint shows (g : gc) (v : lua) : Prop :=
  match g with
  | GNone => v = LNil
  | GBool b => v = LBool b
  | GInt n | GLong n => shows_int n v
  | GReal x => v = LNum x
  | GStr s => v = LStr s
  | GVBool l => shows_list (fun b v => v = LBool b) l v
  | GVInt l | GVLong l => shows_list shows_int l v
  | GVReal l => shows_list (fun x v => v = LNum x) l v
  | GVStr l => shows_list (fun s v => v = LStr s) l v
  | GVec l =>
      exists t, v = LTab t /\ only_keys (upto (zlen l)) t /\
        (fix all (l : list gc) (i : Z) : Prop :=
           match l with [] => True | e :: l' => shows e (tget (LInt i) t) /\ all l' (i + 1) end) l 1
  | GMap m =>
      exists t, v = LTab t /\ only_keys (fun k => exists s, k = LStr s /\ In s (map fst m)) t /\
        (fix all (m : list (string * gc)) : Prop :=
           match m with [] => True | (k, e) :: m' => shows e (tget (LStr k) t) /\ all m' end) m
  | _ => False
  end.

(** Free stack slots the conversion takes. *)
Definition list_slots {A} (l : list A) : Z := match l with [] => 1 | _ => 2 end.
Fixpoint slots (g : gc) : Z :=
  match g with
  | GVBool l => 2
  | GVInt l | GVLong l | GVReal l => list_slots l
  | GVStr l => list_slots l
  | GVec l => 1 + (fix most (l : list gc) : Z := match l with [] => 0 | e :: l' => Z.max (slots e) (most l') end) l
  | GMap m => 1 + (fix most (m : list (string * gc)) : Z :=
                     match m with [] => 0 | (_, e) :: m' => Z.max (1 + slots e) (most m') end) m
  | _ => 1
  end.

(** Fewer than 2^32 elements in each vector (otherwise the loops do not end); no VEC_BOOL. *)
Definition ends_node (g : gc) : Prop :=
  match g with
  | GVInt l | GVLong l | GVReal l => zlen l < 2^32
  | GVStr l => zlen l < 2^32
  | GVec l => zlen l < 2^32
  | GVBool _ => False
  | _ => True
  end.
(** What Lua can show: no pointers, complex numbers, matrices and zero characters, longs that
    are doubles exactly, fewer than 2^31 elements in each vector. *)
Definition showable_node (g : gc) : Prop :=
  match g with
  | GNone | GBool _ | GInt _ | GReal _ => True
  | GLong n => representable n
  | GStr s => no_nul s
  | GVInt l | GVReal l => zlen l < 2^31
  | GVLong l => zlen l < 2^31 /\ Forall representable l
  | GVStr l => zlen l < 2^31 /\ Forall no_nul l
  | GVec l => zlen l < 2^31
  | GMap m => Forall no_nul (map fst m)
  | _ => False
  end.

(** * Reading *)

(** The data of a Lua value: a table with string keys is a map, any other table the list of
    its values. *)
Definition named (t : list (lua * lua)) : bool :=
  forallb (fun kv => match fst kv with LStr _ => true | _ => false end) t.
Definition name_of (k : lua) : string := match k with LStr s => s | _ => EmptyString end.
Fixpoint lua_data (v : lua) : dat :=
  match v with
  | LNil | LOther => DNull
  | LBool b => d_int (if b then 1 else 0)
  | LInt z => d_int z
  | LNum x => d_real x
  | LStr s => DStr s
  | LTab t =>
      if named t then DMap (by_key (map (fun kv => (name_of (fst kv), lua_data (snd kv))) t))
      else DList (map (fun kv => lua_data (snd kv)) t)
  end.

(** [P] holds of the value and of every value in its tables (keys not included). *)
Fixpoint lall (P : lua -> Prop) (v : lua) : Prop :=
  P v /\
  match v with
  | LTab t => (fix all (t : list (lua * lua)) : Prop :=
                 match t with [] => True | kv :: t' => lall P (snd kv) /\ all t' end) t
  | _ => True
  end.
Lemma lall_tab P t : lall P (LTab t) <-> P (LTab t) /\ Forall (fun kv => lall P (snd kv)) t.
Proof.
  cbn [lall]. apply and_iff_compat_l. induction t as [|kv t IH]; split; intros H; auto.
  - destruct H. constructor; [assumption|]. now apply IH.
  - inversion H; subst. split; [assumption|]. now apply IH.
Qed.
Lemma lall_here P v : lall P v -> P v.
Proof. destruct v; intros [H _]; exact H. Qed.

(** The table whose entries are the values [l] under the keys i, i+1, ..., traversed in this
    order. *)
Fixpoint entries (i : Z) (l : list lua) : list (lua * lua) :=
  match l with [] => [] | v :: l' => (LInt i, v) :: entries (i + 1) l' end.
Definition named_entries (m : list (string * lua)) : list (lua * lua) :=
  map (fun kv => (LStr (fst kv), snd kv)) m.

(** Lists whose elements all survive: a boolean has only booleans before it; a table is first,
    or has a table before it, or both a string and something else. *)
Definition is_bool (v : lua) : Prop := exists b, v = LBool b.
Definition is_str (v : lua) : Prop := exists s, v = LStr s.
Definition is_tab (v : lua) : Prop := exists t, v = LTab t.
Definition fits_after (before : list lua) (v : lua) : Prop :=
  match v with
  | LBool _ => Forall is_bool before
  | LTab _ => before = [] \/ Exists is_tab before \/ (Exists is_str before /\ Exists (fun u => ~ is_str u) before)
  | _ => True
  end.
Definition list_ok (l : list lua) : Prop := forall a v c, l = (a ++ v :: c)%list -> fits_after a v.

(** Numbers in the range of 64-bit integers, exact as doubles; no zero characters; nonempty
    tables with string keys only, or with the keys 1..n in order. *)
Definition readable_node (v : lua) : Prop :=
  match v with
  | LNil | LOther => False
  | LBool _ => True
  | LInt z => int64 z /\ representable z
  | LNum x => f64 x /\ exists w, fscaled x = Some w /\ - 2^63 * fone <= w < 2^63 * fone
  | LStr s => no_nul s
  | LTab t =>
      (exists m, m <> [] /\ t = named_entries m /\ NoDup (map fst m) /\ Forall no_nul (map fst m)) \/
      (exists l, l <> [] /\ t = entries 1 l /\ zlen l < 2^32 /\ list_ok l)
  end.

(** Free stack slots that reading takes, on top of the value. *)
Fixpoint lslots (v : lua) : Z :=
  match v with
  | LTab [] => 1
  | LTab t => 2 + (fix most (t : list (lua * lua)) : Z :=
                     match t with [] => 0 | (_, x) :: t' => Z.max (lslots x) (most t') end) t
  | _ => 0
  end.

(** * Writing and reading back *)

Definition is_compound (g : gc) : Prop :=
  match g with GVInt _ | GVLong _ | GVReal _ | GVStr _ | GVec _ | GMap _ => True | _ => False end.
Definition is_gbool (g : gc) : Prop := exists b, g = GBool b.
Definition is_gstr (g : gc) : Prop := exists s, g = GStr s.
(** As [fits_after]. *)
Definition gfits_after (before : list gc) (e : gc) : Prop :=
  (is_gbool e -> Forall is_gbool before) /\
  (is_compound e -> before = [] \/ Exists is_compound before \/ (Exists is_gstr before /\ Exists (fun u => ~ is_gstr u) before)).
(** No nulls in vectors and maps (Lua tables cannot hold nil). *)
Definition no_null_node (g : gc) : Prop :=
  match g with
  | GVec v => Forall (fun e => e <> GNone) v
  | GMap m => Forall (fun kv => snd kv <> GNone) m
  | _ => True
  end.
(** No empty vectors (an empty Lua table stands for a vector as well as for a map). *)
Definition nonempty_node (g : gc) : Prop :=
  match g with
  | GVInt l | GVLong l | GVReal l => l <> []
  | GVStr l => l <> [] | GVec l => l <> [] | _ => True
  end.
(** Nothing empty, reals in the range of 64-bit integers, list elements in an order that the
    reader can store. *)
Definition long_range (x : Z) : Prop := exists w, fscaled x = Some w /\ - 2^63 * fone <= w < 2^63 * fone.
Definition rereadable_node (g : gc) : Prop :=
  match g with
  | GReal x => long_range x
  | GVInt l | GVLong l => l <> []
  | GVReal l => l <> [] /\ Forall long_range l
  | GVStr l => l <> []
  | GVec v => v <> [] /\ forall a e c, v = (a ++ e :: c)%list -> gfits_after a e
  | GMap m => m <> []
  | _ => True
  end.
