(** Specification vocabulary for collapse: the nested data a container stands for,
    independent of how it is stored. *)
From Coq Require Import ZArith Bool Lia Ascii String List.
From Verif Require Import Base F64 StrMap Value SGet SPromote.
Import ListNotations.
Local Open Scope Z_scope.

(** A real number: an exact value in units of 2^-1074, or an infinity/NaN with its bits. *)
Inductive num : Type := NFin (v : Z) | NSpec (bits : Z).
Definition num_of_Z (n : Z) : num := NFin (n * fone).
Definition num_of_f (x : Z) : num := match fscaled x with Some v => NFin v | None => NSpec x end.

(** Nested data: booleans are the numbers 0 and 1, numbers are complex. *)
Inductive dat : Type :=
| DNull
| DPtr (p : Z)
| DNum (re im : num)
| DStr (s : string)
| DList (l : list dat)
| DMap (m : list (string * dat)).

Definition d_int (n : Z) : dat := DNum (num_of_Z n) (num_of_Z 0).
Definition d_real (x : Z) : dat := DNum (num_of_f x) (num_of_Z 0).
Definition d_cplx (c : cplx) : dat := DNum (num_of_f (fst c)) (num_of_f (snd c)).

(** The [nc] columns of [nr] entries each of a matrix stored column after column. *)
Fixpoint columns {A} (nr nc : nat) (l : list A) : list (list A) :=
  match nc with
  | O => []
  | S k => firstn nr l :: columns nr k (skipn nr l)
  end.
Definition d_mat {A} (f : A -> dat) (m : mat A) : dat :=
  DList (map (fun c => DList (map f c)) (columns (Z.to_nat (mrows m)) (Z.to_nat (mcols m)) (mdata m))).

(** The data of a container; a matrix is the list of its columns. *)
Fixpoint data_of (g : gc) : dat :=
  match g with
  | GNone => DNull
  | GPtr p => DPtr p
  | GBool b => d_int (if b then 1 else 0)
  | GInt i => d_int i
  | GLong l => d_int l
  | GReal r => d_real r
  | GComplex c => d_cplx c
  | GStr s => DStr s
  | GVPtr v => DList (map DPtr v)
  | GVBool v => DList (map (fun b : bool => d_int (if b then 1 else 0)) v)
  | GVInt v => DList (map d_int v)
  | GVLong v => DList (map d_int v)
  | GVReal v => DList (map d_real v)
  | GVComplex v => DList (map d_cplx v)
  | GVStr v => DList (map DStr v)
  | GMInt m => d_mat d_int m
  | GMLong m => d_mat d_int m
  | GMReal m => d_mat d_real m
  | GMComplex m => d_mat d_cplx m
  | GVec v => DList (map data_of v)
  | GMap m => DMap (map (fun kv => (fst kv, data_of (snd kv))) m)
  end.

(** Same data up to two kinds of change, each allowed only if its flag is set: [rnd], an
    integer replaced by the nearest double; [one], a number replaced by the list holding just
    it, or null by the empty list. *)
Inductive sim (rnd one : bool) : dat -> dat -> Prop :=
| sim_refl d : sim rnd one d d
| sim_trans a b c : sim rnd one a b -> sim rnd one b c -> sim rnd one a c
| sim_round n x : rnd = true -> fnearest x n -> sim rnd one (d_int n) (d_real x)
| sim_one re im : one = true -> sim rnd one (DNum re im) (DList [DNum re im])
| sim_null : one = true -> sim rnd one DNull (DList [])
| sim_cons d d' l l' : sim rnd one d d' -> sim rnd one (DList l) (DList l') ->
    sim rnd one (DList (d :: l)) (DList (d' :: l'))
| sim_entry k d d' m m' : sim rnd one d d' -> sim rnd one (DMap m) (DMap m') ->
    sim rnd one (DMap ((k, d) :: m)) (DMap ((k, d') :: m')).

(** With neither change allowed, the data are equal. *)
Lemma sim_eq a b : sim false false a b -> a = b.
Proof.
  induction 1; try congruence.
Qed.

(** [P] holds of the container and of everything nested in it. *)
Fixpoint everywhere (P : gc -> Prop) (g : gc) : Prop :=
  P g /\
  match g with
  | GVec v => (fix all (l : list gc) : Prop :=
                 match l with [] => True | a :: l' => everywhere P a /\ all l' end) v
  | GMap m => (fix all (l : list (string * gc)) : Prop :=
                 match l with [] => True | a :: l' => everywhere P (snd a) /\ all l' end) m
  | _ => True
  end.

Lemma everywhere_vec P v : everywhere P (GVec v) <-> P (GVec v) /\ Forall (everywhere P) v.
Proof.
  cbn. apply and_iff_compat_l. induction v as [|a v IH]; split; intros H; auto.
  - destruct H. constructor; [assumption|]. now apply IH.
  - inversion H; subst. split; [assumption|]. now apply IH.
Qed.
Lemma everywhere_map P m : everywhere P (GMap m) <-> P (GMap m) /\ Forall (fun kv => everywhere P (snd kv)) m.
Proof.
  cbn. apply and_iff_compat_l. induction m as [|a m IH]; split; intros H; auto.
  - destruct H. constructor; [assumption|]. now apply IH.
  - inversion H; subst. split; [assumption|]. now apply IH.
Qed.
Lemma everywhere_here P g : everywhere P g -> P g.
Proof. destruct g; intros [H _]; exact H. Qed.

(** An integer that is exactly a double. *)
Definition representable (n : Z) : Prop := exists x, f64 x /\ fis x n.
(** The numbers that collapse can merge into one typed vector or matrix with those of other
    elements: the elements of sequences and the scalars themselves. *)
Definition merging (g : gc) : list gc :=
  match g with GMInt _ | GMLong _ | GMReal _ | GMComplex _ => [] | _ => elems g end.
Definition no_real (g : gc) : Prop := match g with GReal _ | GComplex _ => False | _ => True end.
Definition long_ok (g : gc) : Prop := match g with GLong l => representable l | _ => True end.
(** No vector merges a real or complex number with a long that is not exactly a double. *)
Definition unrounded_node (g : gc) : Prop :=
  match g with
  | GVec v => (forall c, In c v -> Forall no_real (merging c)) \/ (forall c, In c v -> Forall long_ok (merging c))
  | _ => True
  end.
Definition unrounded : gc -> Prop := everywhere unrounded_node.
(** In particular when every stored long is a double exactly. *)
Definition longs_representable (g : gc) : Prop :=
  match g with
  | GLong l => representable l
  | GVLong v => Forall representable v
  | GMLong m => Forall representable (mdata m)
  | _ => True
  end.
Definition exact_longs : gc -> Prop := everywhere longs_representable.

(** No subnormal double among the scalars. *)
Definition calm : gc -> Prop := everywhere no_tiny.

(** Scalars (including nothing at all) and sequences. *)
Definition scalar (g : gc) : Prop :=
  In (tag_of g) [TNone; TPtr; TBool; TInt; TLong; TReal; TComplex; TStr].
Definition sequence (g : gc) : Prop :=
  In (tag_of g) [TVPtr; TVBool; TVInt; TVLong; TVReal; TVComplex; TVStr; TVec].

(** A vector is mixed when it contains a scalar and a sequence of one element, or a null and
    a sequence of no elements. *)
Definition not_mixed (g : gc) : Prop :=
  match g with
  | GVec v => forall a b, In a v -> In b v -> scalar a -> sequence b -> zlen (elems a) <> zlen (elems b)
  | _ => True
  end.
Definition unmixed : gc -> Prop := everywhere not_mixed.

(** Total size: one per container plus one per stored element. *)
Fixpoint weight (g : gc) : Z :=
  match g with
  | GVPtr v | GVInt v | GVLong v | GVReal v => 1 + zlen v
  | GVBool v => 1 + zlen v
  | GVComplex v => 1 + zlen v
  | GVStr v => 1 + zlen v
  | GMInt m | GMLong m | GMReal m => 1 + zlen (mdata m)
  | GMComplex m => 1 + zlen (mdata m)
  | GVec v => 1 + (fix sum (l : list gc) : Z := match l with [] => 0 | a :: l' => weight a + sum l' end) v
  | GMap m => 1 + (fix sum (l : list (string * gc)) : Z :=
                     match l with [] => 0 | a :: l' => weight (snd a) + sum l' end) m
  | _ => 1
  end.

Definition sumw (v : list gc) : Z := fold_right (fun g s => weight g + s) 0 v.
Definition sumwm (m : list (string * gc)) : Z := fold_right (fun kv s => weight (snd kv) + s) 0 m.
Lemma weight_vec v : weight (GVec v) = 1 + sumw v.
Proof. reflexivity. Qed.
Lemma weight_map m : weight (GMap m) = 1 + sumwm m.
Proof. reflexivity. Qed.

(** What the data readers produce: no pointers and no complex numbers. *)
Definition parsed_node (g : gc) : Prop :=
  In (tag_of g) [TNone; TBool; TInt; TLong; TReal; TStr; TVBool; TVInt; TVLong; TVReal; TVStr;
                 TMInt; TMLong; TMReal; TVec; TMap].
Definition parsed : gc -> Prop := everywhere parsed_node.
