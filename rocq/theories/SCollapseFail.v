(** What collapse does to the members and elements of a container. *)
From Coq Require Import ZArith Bool Lia Ascii String List.
From Verif Require Import Base StrMap Value MCollapse.
Import ListNotations.

Definition succeeds (g : gc) : Prop := exists g', collapse g = (Ok tt, g').
(** What collapse makes of [g] on its own. *)
Definition collapsed (g : gc) : gc := snd (collapse g).
(** All elements before the i-th are collapsed without failure. *)
Definition reached_at (v : list gc) (i : nat) : Prop := forall j e, (j < i)%nat -> nth_error v j = Some e -> succeeds e.
(** All members with a smaller name are collapsed without failure. *)
Definition reached_name (m : list (string * gc)) (k : string) : Prop :=
  forall k' e, String.compare k' k = Lt -> mfind k' m = Some e -> succeeds e.
(** The member of a member ... of a map. *)
Fixpoint member (p : list string) (g : gc) : option gc :=
  match p, g with
  | [], _ => Some g
  | k :: p', GMap m => match mfind k m with Some e => member p' e | None => None end
  | _, _ => None
  end.
