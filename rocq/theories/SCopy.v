(** Specifications for copy, assignment and merge, independent of the model functions. *)
From Coq Require Import ZArith Bool Lia Ascii String List.
From Verif Require Import Base F64 StrMap Value.
Import ListNotations.
Local Open Scope Z_scope.

(** All map keys, at every depth, are free of NUL bytes. *)
Fixpoint keys_ok (g : gc) : Prop :=
  match g with
  | GVec v => (fix all (l : list gc) : Prop :=
                 match l with [] => True | a :: l' => keys_ok a /\ all l' end) v
  | GMap m => (fix all (l : list (string * gc)) : Prop :=
                 match l with [] => True
                 | a :: l' => no_nul (fst a) /\ keys_ok (snd a) /\ all l' end) m
  | _ => True
  end.

(** Every vector, at every depth, has fewer than 2^32 elements. *)
Definition few {A} (v : list A) : Prop := zlen v < 2^32.
Fixpoint fits (g : gc) : Prop :=
  match g with
  | GVPtr v => few v
  | GVBool v => few v
  | GVInt v => few v
  | GVLong v => few v
  | GVReal v => few v
  | GVComplex v => few v
  | GVStr v => few v
  | GVec v => few v /\
              (fix all (l : list gc) : Prop :=
                 match l with [] => True | a :: l' => fits a /\ all l' end) v
  | GMap m => (fix all (l : list (string * gc)) : Prop :=
                 match l with [] => True | a :: l' => fits (snd a) /\ all l' end) m
  | _ => True
  end.

Lemma keys_ok_vec v : keys_ok (GVec v) <-> Forall keys_ok v.
Proof.
  simpl. induction v as [|a v IH]; split; intros H; auto.
  - destruct H. constructor; [assumption|]. now apply IH.
  - inversion H; subst. split; [assumption|]. now apply IH.
Qed.
Lemma keys_ok_map m : keys_ok (GMap m) <-> Forall (fun kv => no_nul (fst kv) /\ keys_ok (snd kv)) m.
Proof.
  simpl. induction m as [|a v IH]; split; intros H; auto.
  - destruct H as (? & ? & ?). constructor; [auto|]. now apply IH.
  - inversion H as [|? ? [? ?] ?]; subst. split; [assumption|]. split; [assumption|]. now apply IH.
Qed.
Lemma fits_vec v : fits (GVec v) <-> few v /\ Forall fits v.
Proof.
  simpl. apply and_iff_compat_l. induction v as [|a v IH]; split; intros H; auto.
  - destruct H. constructor; [assumption|]. now apply IH.
  - inversion H; subst. split; [assumption|]. now apply IH.
Qed.
Lemma fits_map m : fits (GMap m) <-> Forall (fun kv => fits (snd kv)) m.
Proof.
  simpl. induction m as [|a v IH]; split; intros H; auto.
  - destruct H. constructor; [assumption|]. now apply IH.
  - inversion H; subst. split; [assumption|]. now apply IH.
Qed.

(** A container value as a C++ program can hold and copy it: typed ranges, NUL-free keys,
    32-bit vector sizes. *)
Definition value_ok (g : gc) : Prop := wf g /\ keys_ok g /\ fits g.

(** Typed vectors without elements. *)
Definition empty_tvec (g : gc) : Prop :=
  g = GVPtr [] \/ g = GVBool [] \/ g = GVInt [] \/ g = GVLong [] \/ g = GVReal [] \/
  g = GVComplex [] \/ g = GVStr [].

Definition nth_or_empty (i : nat) (w : list gc) : gc := nth i w GNone.
Definition find_or_empty (k : string) (m : list (string * gc)) : gc :=
  match mfind k m with Some g => g | None => GNone end.

(** [assigned a b r]: the documented-by-code meaning of `a = b`, with [r] the new content
    of [a]. *)
Inductive assigned : gc -> gc -> gc -> Prop :=
| as_other_type : forall a b, tag_of a <> tag_of b -> assigned a b b
| as_plain : forall a b, tag_of b <> TVec -> tag_of b <> TMap -> ~ empty_tvec b -> assigned a b b
| as_empty_tvec : forall a b, tag_of a = tag_of b -> empty_tvec b -> assigned a b a
| as_empty_vec : forall w, assigned (GVec w) (GVec []) (GVec w)
| as_vec : forall w v r, v <> [] -> length r = length v ->
    (forall i x, nth_error v i = Some x ->
       exists y, nth_error r i = Some y /\ assigned (nth_or_empty i w) x y) ->
    assigned (GVec w) (GVec v) (GVec r)
| as_map : forall m n r, msorted r ->
    (forall k, mfind k n = None -> mfind k r = mfind k m) ->
    (forall k x, mfind k n = Some x ->
       exists y, mfind k r = Some y /\ assigned (find_or_empty k m) x y) ->
    assigned (GMap m) (GMap n) (GMap r).

(** [clean a b]: nothing of [a] can survive in it after `a = b`. *)
Fixpoint clean (a b : gc) {struct b} : Prop :=
  match b with
  | GVPtr v => v = [] -> forall w, a = GVPtr w -> w = []
  | GVBool v => v = [] -> forall w, a = GVBool w -> w = []
  | GVInt v => v = [] -> forall w, a = GVInt w -> w = []
  | GVLong v => v = [] -> forall w, a = GVLong w -> w = []
  | GVReal v => v = [] -> forall w, a = GVReal w -> w = []
  | GVComplex v => v = [] -> forall w, a = GVComplex w -> w = []
  | GVStr v => v = [] -> forall w, a = GVStr w -> w = []
  | GVec v =>
      match a with
      | GVec w =>
          (v = [] -> w = []) /\
          (fix all (v w : list gc) {struct v} : Prop :=
             match v, w with
             | y :: v', x :: w' => clean x y /\ all v' w'
             | _, _ => True
             end) v w
      | _ => True
      end
  | GMap n =>
      match a with
      | GMap m =>
          incl (map fst m) (map fst n) /\
          (fix all (n : list (string * gc)) : Prop :=
             match n with
             | [] => True
             | (k, y) :: n' =>
                 clean (find_or_empty k m) y /\ all n'
             end) n
      | _ => True
      end
  | _ => True
  end.
