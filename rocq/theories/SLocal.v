(** Parts of a container and statements on parts. *)
From Coq Require Import ZArith Bool Lia Ascii String List.
From Verif Require Import Base F64 StrMap Value MOps.
Import ListNotations.
Local Open Scope Z_scope.

(** A member of a map or an element of a vector. *)
Inductive place : Type := Name (k : string) | Pos (i : Z).
(** The part of a container at the end of a list of places. *)
Fixpoint part (p : list place) (g : gc) : option gc :=
  match p, g with
  | [], _ => Some g
  | Name k :: p', GMap m => match mfind k m with Some e => part p' e | None => None end
  | Pos i :: p', GVec v => match nth_error v (Z.to_nat i) with Some e => part p' e | None => None end
  | _, _ => None
  end.
Definition part_or_empty (p : list place) (g : gc) : gc := match part p g with Some e => e | None => GNone end.
(** Two lists of places that separate at some point. *)
Inductive apart : list place -> list place -> Prop :=
| ap_name k k' p q : k <> k' -> apart (Name k :: p) (Name k' :: q)
| ap_pos i j p q : 0 <= i -> 0 <= j -> i <> j -> apart (Pos i :: p) (Pos j :: q)
| ap_name_pos k j p q : apart (Name k :: p) (Pos j :: q)
| ap_pos_name i k p q : apart (Pos i :: p) (Name k :: q)
| ap_deeper x p q : apart p q -> apart (x :: p) (x :: q).

(** How a program gets to a part: g[k], g[i], g(k), g(i), g.get_map()[k]. *)
Inductive access : Type := Brk (k : string) | BrkI (i : Z) | Par (k : string) | ParI (i : Z) | MAt (k : string).
Definition place_of (a : access) : place :=
  match a with Brk k | Par k | MAt k => Name k | BrkI i | ParI i => Pos i end.
Definition apply (a : access) (o : op) : op :=
  match a with Brk k => Key k o | BrkI i => Idx i o | Par k => CallKey k o | ParI i => CallIdx i o | MAt k => MapAt k o end.
(** The statement [o] on the part that [a] leads to. *)
Definition nest (a : list access) (o : op) : op := fold_right apply o a.
(** Names without NUL bytes; indices from 0 to 2^32-2. *)
Definition usable (a : access) : Prop :=
  match a with Brk k | Par k => no_nul k | BrkI i | ParI i => 0 <= i < 2^32 - 1 | MAt _ => True end.
(** Brackets with a name are used on maps or nothing, with an index on vectors of containers
    or nothing. *)
Fixpoint suits (a : list access) (g : gc) : Prop :=
  match a with
  | [] => True
  | x :: a' =>
      match x, g with
      | Brk _, GMap _ | Brk _, GNone | BrkI _, GVec _ | BrkI _, GNone | Par _, _ | ParI _, _ | MAt _, _ => True
      | _, _ => False
      end /\ suits a' (part_or_empty [place_of x] g)
  end.
(** The accesses that do not make the part they lead to. *)
Fixpoint available (a : list access) (g : gc) : Prop :=
  match a with
  | [] => True
  | x :: a' =>
      match x with
      | Par _ | ParI _ => part [place_of x] g <> None
      | MAt _ => exists m, g = GMap m
      | _ => True
      end /\ available a' (part_or_empty [place_of x] g)
  end.
(** Two chains of accesses that use different names, or different indices, from some point on. *)
Inductive beside : list access -> list access -> Prop :=
| be_name x y a b k k' : place_of x = Name k -> place_of y = Name k' -> k <> k' -> beside (x :: a) (y :: b)
| be_pos x y a b i j : place_of x = Pos i -> place_of y = Pos j -> i <> j -> beside (x :: a) (y :: b)
| be_deeper x y a b : place_of x = place_of y -> beside a b -> beside (x :: a) (y :: b).
