(** Programs that work on several parts of a container. *)
From Coq Require Import ZArith Bool Lia Ascii String List.
From Verif Require Import Base F64 StrMap Value SCopy MOps SLocal.
Import ListNotations.
Local Open Scope Z_scope.

(** A statement and the chain of accesses to the part it works on. *)
Definition stmt : Type := (list access * op)%type.
Definition places (a : list access) : list place := map place_of a.
(** All statements one after the other, each in a try block. *)
Fixpoint run (prog : list stmt) (g : gc) : list (out unit) * gc :=
  match prog with
  | [] => ([], g)
  | (a, o) :: prog' => let '(r, g1) := perform (nest a o) g in let '(rs, g2) := run prog' g1 in (r :: rs, g2)
  end.
Definition run_here (ops : list op) (g : gc) : list (out unit) * gc := run (map (fun o => ([], o)) ops) g.
(** The statements on the part that [a] leads to. *)
Definition place_dec (p q : place) : {p = q} + {p <> q}.
Proof. decide equality; [apply string_dec | apply Z.eq_dec]. Defined.
Definition same_part (a b : list access) : bool := if list_eq_dec place_dec (places a) (places b) then true else false.
Definition on (a : list access) (prog : list stmt) : list op := map snd (filter (fun s => same_part a (fst s)) prog).
Fixpoint results (a : list access) (prog : list stmt) (rs : list (out unit)) : list (out unit) :=
  match prog, rs with
  | s :: prog', r :: rs' => if same_part a (fst s) then r :: results a prog' rs' else results a prog' rs'
  | _, _ => []
  end.
(** Any two statements work on the same part or on different members or elements. *)
Definition separate (prog : list stmt) : Prop :=
  forall s t, In s prog -> In t prog -> places (fst s) = places (fst t) \/ beside (fst s) (fst t).
(** The value that a setter stores. *)
Definition stores (o : op) (v : gc) : Prop :=
  match o with
  | Clear => v = GNone
  | SetPtr p => v = GPtr p | SetBool b => v = GBool b | SetInt i => v = GInt i | SetLong l => v = GLong l
  | SetReal r => v = GReal r | SetComplex c => v = GComplex c | SetStr s => v = GStr s
  | SetVPtr w => few w /\ w <> [] /\ v = GVPtr w
  | SetVBool w => few w /\ w <> [] /\ v = GVBool w
  | SetVInt w => few w /\ w <> [] /\ v = GVInt w
  | SetVLong w => few w /\ w <> [] /\ v = GVLong w
  | SetVReal w => few w /\ w <> [] /\ v = GVReal w
  | SetVComplex w => few w /\ w <> [] /\ v = GVComplex w
  | SetVStr w => few w /\ w <> [] /\ v = GVStr w
  | SetMInt m => wf_mat int32 m /\ v = GMInt m
  | SetMLong m => wf_mat int64 m /\ v = GMLong m
  | SetMReal m => wf_mat f64 m /\ v = GMReal m
  | SetMComplex m => wf_mat fc m /\ v = GMComplex m
  | _ => False
  end.
