(** Specification vocabulary for the C interface: positions inside a container as paths, and
    the interface as a machine that works on a value and a path, without addresses. *)
From Coq Require Import ZArith Bool Lia Ascii String List.
From Verif Require Import Base F64 StrMap Value MBasic MGet MMap MMat MPromote MRef MCapi.
Import ListNotations.
Local Open Scope Z_scope.

(** [reaches c hs p c']: starting at [c] and following the path [p] one meets the objects at
    the addresses [hs], each a direct element of the previous one, and ends at [c']. *)
Inductive reaches : cell -> list nat -> list step -> cell -> Prop :=
| reach_here c : reaches c [cid c] [] c
| reach_idx i l n e hs p c' :
    znth n l = Some e -> reaches e hs p c' -> reaches (CVec i l) (i :: hs) (SIdx n :: p) c'
| reach_key i mi m k e hs p c' :
    mfind k m = Some e -> reaches e hs p c' -> reaches (CMap i mi m) (i :: hs) (SKey k :: p) c'.

(** All addresses in use, objects and std::map objects. *)
Fixpoint addrs (c : cell) : list nat :=
  match c with
  | CLeaf i _ => [i]
  | CVec i l => i :: (fix go (l : list cell) := match l with [] => [] | a :: t => addrs a ++ go t end) l
  | CMap i mi m => i :: mi :: (fix go (m : list (string * cell)) :=
                                 match m with [] => [] | a :: t => addrs (snd a) ++ go t end) m
  end.

(** The value at a path, and the replacement of the value at a path. *)
Fixpoint sub (p : list step) (g : gc) : option gc :=
  match p, g with
  | [], _ => Some g
  | SIdx i :: p', GVec v => match znth i v with Some e => sub p' e | None => None end
  | SKey k :: p', GMap m => match mfind k m with Some e => sub p' e | None => None end
  | _, _ => None
  end.
Fixpoint mupd (k : string) (x : gc) (m : list (string * gc)) : list (string * gc) :=
  match m with
  | [] => []
  | (k', e) :: t => if String.eqb k k' then (k', x) :: t else (k', e) :: mupd k x t
  end.
Fixpoint put (p : list step) (x g : gc) : gc :=
  match p, g with
  | [], _ => x
  | SIdx i :: p', GVec v =>
      match znth i v with Some e => GVec (lset (Z.to_nat i) (put p' x e) v) | None => g end
  | SKey k :: p', GMap m =>
      match mfind k m with Some e => GMap (mupd k (put p' x e) m) | None => g end
  | _, _ => g
  end.

(** The cursor machine: the root value and the current position ([None]: every position,
    also that of the root, has been popped). *)
Definition sstate : Type := gc * option (list step).
Definition sstate0 : sstate := (GNone, Some []).

Definition sexec (k : call) (s : sstate) : out rv * sstate :=
  let '(g, cur) := s in
  match top_call k, cur with
  | Some (wrapped, f), None => (gc_try wrapped Throw, s)
  | Some (wrapped, f), Some p =>
      match sub p g with
      | Some e => let '(o, e') := f e in
                  (gc_try wrapped o, (match e' with Some e' => put p e' g | None => g end, cur))
      | None => (Undef, s)
      end
  | None, None =>
      (Ok (match k with PopHead | ResetHead => c_no_data | _ => c_bad_head end), s)
  | None, Some p =>
      match k with
      | PopHead => (Ok c_ok, (g, match p with [] => None | _ => Some (removelast p) end))
      | ResetHead => (Ok c_ok, (g, Some []))
      | PushVectorPosition pos =>
          match sub p g with
          | Some (GVec v) =>
              let i := to_u32 pos in
              if i <? 2^32 - 1 then
                (Ok c_ok, (put p (GVec (if zlen v <=? i then resize GNone (Z.to_nat (i + 1)) v else v)) g,
                           Some (p ++ [SIdx i])))
              else if i <? zlen v then (Ok c_ok, (g, Some (p ++ [SIdx i])))
              else (Undef, (put p (GVec []) g, cur))
          | Some _ => (Ok c_bad_type, s)
          | None => (Undef, s)
          end
      | PushMapPosition key =>
          match sub p g with
          | Some (GMap m) =>
              (Ok c_ok, (match mfind (cstr key) m with
                         | Some _ => g
                         | None => put p (GMap (mset (cstr key) GNone m)) g
                         end, Some (p ++ [SKey (cstr key)])))
          | Some _ => (Ok c_bad_type, s)
          | None => (Undef, s)
          end
      | InitMapKey =>
          match sub p g with
          | Some (GMap _) => (Ok c_ok, s)
          | Some _ => (Ok c_bad_type, s)
          | None => (Undef, s)
          end
      | _ => (Ok c_ok, s)   (* GetNextKey: not described by this machine *)
      end
  end.

(** ** Iterating over keys *)

Definition step_eqb (a b : step) : bool :=
  match a, b with
  | SKey k, SKey k' => String.eqb k k'
  | SIdx i, SIdx j => i =? j
  | _, _ => false
  end.
Fixpoint prefixb (p q : list step) : bool :=
  match p, q with
  | [], _ => true
  | a :: p', b :: q' => step_eqb a b && prefixb p' q'
  | _ :: _, [] => false
  end.

(** Whether the call [k] changes the container at the cursor. *)
Definition writes (k : call) (s : sstate) : bool :=
  let '(g, cur) := s in
  match cur with
  | None => false
  | Some p =>
      match sub p g with
      | None => false
      | Some e =>
          match top_call k with
          | Some (_, f) => match snd (f e) with Some _ => true | None => false end
          | None =>
              match k, e with
              | PushVectorPosition pos, GVec v => zlen v <=? to_u32 pos
              | PushMapPosition key, GMap m => match mfind (cstr key) m with Some _ => false | None => true end
              | _, _ => false
              end
          end
      end
  end.

(** The iterator: never started, at a place in the map at path [p] where the keys [ks] are still
    to come, or lost because the map or a container around it was changed. *)
Inductive iter : Type := NoIter | Live (p : list step) (ks : list string) | Lost.
Definition istate : Type := sstate * iter.
Definition istate0 : istate := (sstate0, NoIter).

(** One call; [None]: the call uses an iterator that is lost. *)
Definition iexec (k : call) (s : istate) : option (out rv * istate) :=
  let '((g, cur), it) := s in
  match k with
  | GetNextKey =>
      match it with
      | NoIter => Some (Undef, s)
      | Lost => None
      | Live p [] => Some (Ok (VStr (Some EmptyString)), s)
      | Live p (key :: ks) => Some (Ok (VStr (Some (cstr key))), ((g, cur), Live p ks))
      end
  | InitMapKey =>
      let '(o, s') := sexec k (g, cur) in
      Some (o, (s', match cur with
                    | Some p => match sub p g with Some (GMap m) => Live p (map fst m) | _ => it end
                    | None => it
                    end))
  | _ =>
      let '(o, s') := sexec k (g, cur) in
      Some (o, (s', match it, cur with
                    | Live p ks, Some c => if writes k (g, cur) && prefixb c p then Lost else it
                    | _, _ => it
                    end))
  end.

(** ** Named containers *)

Record nstate : Type := N { n_names : list (string * nat); n_all : list istate; n_active : option nat }.
Definition nstate0 : nstate := N [] [] None.
Definition nselect (name : string) (s : nstate) : nstate :=
  match mfind (cstr name) (n_names s) with
  | Some i => N (n_names s) (n_all s) (Some i)
  | None => N (mset (cstr name) (length (n_all s)) (n_names s)) (n_all s ++ [istate0]) (Some (length (n_all s)))
  end.
(** [None]: a lost iterator is used, or the container is filled while the cursor is inside it. *)
Definition nexec (k : ccall) (s : nstate) : option (out rv * nstate) :=
  match k with
  | New name | Select name => Some (Ok c_ok, nselect name s)
  | MemPtr name => Some (Ok VPtr, nselect name s)
  | Delete name => Some (Ok c_ok, N (merase (cstr name) (n_names s)) (n_all s) (n_active s))
  | FillForTest name =>
      let s' := nselect name s in
      match n_active s' with
      | None => None
      | Some i =>
          match nth_error (n_all s') i with
          | Some ((g, cur), it) =>
              match cur with
              | Some (_ :: _) => None
              | _ => Some (Ok c_ok,
                       N (n_names s')
                         (lset i ((fill_value g, cur), match it with NoIter => NoIter | _ => Lost end) (n_all s'))
                         (n_active s'))
              end
          | None => None
          end
      end
  | Do k =>
      match n_active s with
      | None => Some (Ok (idle k), s)
      | Some i =>
          match nth_error (n_all s) i with
          | Some st => match iexec k st with
                       | Some (o, st') => Some (o, N (n_names s) (lset i st' (n_all s)) (n_active s))
                       | None => None
                       end
          | None => None
          end
      end
  end.
Fixpoint nrun (ks : list ccall) (s : nstate) : option (list (out rv) * nstate) :=
  match ks with
  | [] => Some ([], s)
  | k :: t => match nexec k s with
              | None => None
              | Some (o, s1) => match nrun t s1 with None => None | Some (os, s2) => Some (o :: os, s2) end
              end
  end.

(** ** The model's states as seen by these machines *)

(** The state of an explorer seen by the cursor machine. *)
Definition sees (x : explorer) (s : sstate) : Prop :=
  value (x_data x) = fst s /\
  match snd s with
  | None => x_head x = []
  | Some p => exists c', reaches (x_data x) (rev (x_head x)) p c'
  end.
(** VECTOR and MAP values are always broken up into objects. *)
Fixpoint tidy (c : cell) : Prop :=
  match c with
  | CLeaf _ g => match g with GVec _ | GMap _ => False | _ => True end
  | CVec _ l => (fix go (l : list cell) := match l with [] => True | a :: t => tidy a /\ go t end) l
  | CMap _ _ m => (fix go (m : list (string * cell)) := match m with [] => True | a :: t => tidy (snd a) /\ go t end) m
  end.
(** Addresses are distinct and below the next unused one. *)
Definition sane (x : explorer) : Prop :=
  NoDup (addrs (x_data x)) /\ Forall (fun a => (a < x_next x)%nat) (addrs (x_data x)) /\ tidy (x_data x).

(** The iterator of an explorer is at the entry after which come the keys [ks] of the map at
    path [p]. *)
Definition tracks (x : explorer) (p : list step) (ks : list string) : Prop :=
  exists hs i mi m1 m2,
    reaches (x_data x) hs p (CMap i mi (m1 ++ m2)) /\ x_map x = Some mi /\
    map fst m2 = ks /\ x_it x = first_entry m2.
Definition isees (x : explorer) (s : istate) : Prop :=
  sees x (fst s) /\
  match snd s with
  | NoIter => x_map x = None
  | Live p ks => tracks x p ks
  | Lost => True
  end.
Definition nsees (s : cstate) (t : nstate) : Prop :=
  c_names s = n_names t /\ c_active s = n_active t /\
  Forall2 (fun x st => sane x /\ isees x st) (c_heap s) (n_all t) /\
  (forall i, c_active s = Some i -> (i < length (c_heap s))%nat) /\
  Forall (fun ni => (snd ni < length (c_heap s))%nat) (c_names s).
