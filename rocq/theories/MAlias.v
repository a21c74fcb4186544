(** Model of assignment and merge when source and destination are parts of one container
    (src/GenericContainer.cc:3774-3876, again, without the simplification of MCopy). *)
From Coq Require Import ZArith Bool Lia Ascii String List.
From Verif Require Import Base F64 StrMap Value MBasic MMap MCopy SCapi.
Import ListNotations.
Local Open Scope Z_scope.

(** Positions are paths from the root (SCapi.v: [sub] reads, [put] replaces).  What remains of
    the path [w] below the path [d]. *)
Fixpoint below (d w : list step) : option (list step) :=
  match d, w with
  | [], _ => Some w
  | a :: d', b :: w' => if step_eqb a b then below d' w' else None
  | _ :: _, [] => None
  end.
(** clear() at [d] (src/GenericContainer.cc:587-624) destroys what is at [d] and below. *)
Definition cleared (d : list step) (ws : list (list step)) : bool :=
  existsb (fun w => match below d w with Some _ => true | None => false end) ws.
(** resize of the vector at [d] to more elements moves all of them: GenericContainer has a copy
    constructor and no move constructor (include/GenericContainer/GenericContainer.hh:3881), so
    they are copied and the old ones destroyed.  Simplification: a vector has no spare
    capacity. *)
Definition moved (d : list step) (ws : list (list step)) : bool :=
  existsb (fun w => match below d w with Some (_ :: _) => true | _ => false end) ws.
(** resize to [n] elements, fewer than before, destroys the others. *)
Definition cut (n : Z) (d : list step) (ws : list (list step)) : bool :=
  existsb (fun w => match below d w with Some (SIdx i :: _) => n <=? i | _ => false end) ws.
Definition has_parts (g : gc) : bool := match g with GVec _ | GMap _ => true | _ => false end.

(** ++it: the first key after [c]; begin() when there is no [c]. *)
Fixpoint next_key (c : option string) (m : list (string * gc)) : option string :=
  match m with
  | [] => None
  | (k, _) :: t => match c with
                   | None => Some k
                   | Some x => match String.compare x k with Lt => Some k | _ => next_key c t end
                   end
  end.

(** The loops of the cases VECTOR (3811-3814) and MAP (3818-3821), also merge (3872-3875).  [rec]
    is the call of from_gc; [p] is the path of the destination, [q] of the source.  Both vectors
    (maps) are looked at again in each round: v.size() is evaluated again, and the iterator
    moves on in the map as it is then.  [fuel] bounds the number of rounds. *)
Fixpoint vec_loop (rec : list step -> list step -> list (list step) -> gc -> out gc) (p q : list step) (ws : list (list step))
  (fuel : nat) (i : Z) (root : gc) : out gc :=
  match fuel with
  | O => Diverge
  | S m =>
      match sub q root, sub p root with
      | Some (GVec v), Some (GVec vv) =>
          if i <? zlen v then
            if i <? zlen vv then
              do root' <- rec (p ++ [SIdx i]) (q ++ [SIdx i]) (q :: ws) root ; vec_loop rec p q ws m (i + 1) root'
            else Undef
          else Ok root
      | _, _ => Undef
      end
  end.
Fixpoint map_loop (rec : list step -> list step -> list (list step) -> gc -> out gc) (p q : list step) (ws : list (list step))
  (fuel : nat) (c : option string) (root : gc) : out gc :=
  match fuel with
  | O => Diverge
  | S m =>
      match sub q root, sub p root with
      | Some (GMap sm), Some (GMap dm) =>
          match next_key c sm with
          | None => Ok root
          | Some k =>
              let root1 := match mfind (cstr k) dm with Some _ => root | None => put p (GMap (mset (cstr k) GNone dm)) root end in
              do root' <- rec (p ++ [SKey (cstr k)]) (q ++ [SKey k]) (q :: ws) root1 ; map_loop rec p q ws m (Some k) root'
          end
      | _, _ => Undef
      end
  end.

(** from_gc (3774-3855) called for the container at [p] with a reference to the one at [q]; [ws]
    are the sources of the calls that are under way: their loops go on afterwards.  A source
    whose elements were destroyed may not be looked at again ([Undef]).
    - NOTYPE and data passed by value: the source is not used after the destination was cleared.
    - COMPLEX: set_complex (965-970) clears the destination and then reads the source.
    - STRING, vectors and matrices of one type: the destination is cleared if it has another
      type, then the source is copied.  Copying a vector onto itself (std::copy with equal
      ranges) is taken to change nothing.
    - VECTOR, MAP: cleared if of another type, a vector is resized, then the loop. *)
Fixpoint copy_at (fuel : nat) (p q : list step) (ws : list (list step)) (root : gc) : out gc :=
  match fuel with
  | O => Diverge
  | S n =>
      match sub p root, sub q root with
      | Some d, Some s =>
          match s with
          | GNone | GPtr _ | GBool _ | GInt _ | GLong _ | GReal _ =>
              if has_parts d && cleared p ws then Undef else do r <- from_gc s d ; Ok (put p r root)
          | GComplex _ =>
              if cleared p (q :: ws) then Undef else do r <- from_gc s d ; Ok (put p r root)
          | GVec v =>
              let len := to_u32 (zlen v) in
              let have := zlen (old_vec d) in
              if has_parts d && negb (tag_eqb (tag_of d) TVec) && cleared p (q :: ws) then Undef
              else if (have <? len) && moved p (q :: ws) then Undef
              else if (0 <? len) && (len <? have) && cut len p (q :: ws) then Undef
              else vec_loop (copy_at n) p q ws n 0 (put p (GVec (alloc_vec len d)) root)
          | GMap _ =>
              if has_parts d && negb (tag_eqb (tag_of d) TMap) && cleared p (q :: ws) then Undef
              else map_loop (copy_at n) p q ws n None (put p (GMap (old_map d)) root)
          | _ =>
              if has_parts d && cleared p (q :: ws) then Undef else do r <- from_gc s d ; Ok (put p r root)
          end
      | _, _ => Undef
      end
  end.

(** operator=(GenericContainer const &), load and from_gc on parts of one container:
    root[p] = root[q]. *)
Definition assign_part (fuel : nat) (p q : list step) (root : gc) : out gc := copy_at fuel p q [] root.
(** merge (3861-3876): root[p].merge( root[q] ). *)
Definition merge_part (fuel : nat) (p q : list step) (root : gc) : out gc :=
  match sub p root, sub q root with
  | Some d, Some s =>
      match s with
      | GNone => Ok root
      | GMap _ =>
          match d with
          | GNone => map_loop (copy_at fuel) p q [] fuel None (put p (GMap []) root)
          | GMap _ => map_loop (copy_at fuel) p q [] fuel None root
          | _ => Throw
          end
      | _ => Throw
      end
  | _, _ => Undef
  end.

Example copy_at_ex :
  let g := GMap [("a"%string, GVec [GInt 1; GStr "s"%string]); ("b"%string, GNone)] in
  assign_part 9 [SKey "b"%string] [SKey "a"%string] g =
    Ok (GMap [("a"%string, GVec [GInt 1; GStr "s"%string]); ("b"%string, GVec [GInt 1; GStr "s"%string])]) /\
  assign_part 9 [] [SKey "a"%string; SIdx 0] g = Ok (GInt 1) /\
  assign_part 9 [] [SKey "a"%string; SIdx 1] g = Undef /\ assign_part 9 [SKey "b"%string] [] g = Diverge /\
  assign_part 9 [] [] (GComplex (0, 0)) = Undef.
Proof. vm_compute. auto. Qed.
