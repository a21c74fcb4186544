(** The type of a container after a call. *)
From Coq Require Import ZArith List String.
From Verif Require Import Base Value MOps.
Import ListNotations.

Definition target_type (t : target) : tag :=
  match t with
  | ToInt => TInt | ToLong => TLong | ToReal => TReal | ToComplex => TComplex
  | ToVInt => TVInt | ToVLong => TVLong | ToVReal => TVReal | ToVComplex => TVComplex
  | ToMInt => TMInt | ToMLong => TMLong | ToMReal => TMReal | ToMComplex => TMComplex | ToVec => TVec
  end.
(** [t] is the type before the call.  Nothing is said about collapse, de_serialize and the
    readers of documents. *)
Definition type_after (o : op) (t : tag) : option tag :=
  match o with
  | Clear | FreePointer => Some TNone
  | SetPtr _ => Some TPtr | SetBool _ | PutBool _ => Some TBool
  | SetInt _ | PutInt _ | SetUint _ => Some TInt
  | SetLong _ | PutLong _ | SetUlong _ => Some TLong | SetReal _ | PutReal _ => Some TReal
  | SetComplex _ | PutComplex _ => Some TComplex | SetStr _ | PutStr _ => Some TStr
  | SizeVPtr _ | SetVPtr _ | PutVPtr _ => Some TVPtr
  | SizeVBool _ | SetVBool _ | PutVBool _ => Some TVBool
  | SizeVInt _ | SetVInt _ | PutVInt _ => Some TVInt
  | SizeVLong _ | SetVLong _ | PutVLong _ => Some TVLong
  | SizeVReal _ | SetVReal _ | PutVReal _ => Some TVReal
  | SizeVComplex _ | SetVComplex _ | PutVComplex _ => Some TVComplex
  | SizeVStr _ | SetVStr _ | PutVStr _ => Some TVStr
  | SizeVec _ => Some TVec | SetMap => Some TMap
  | SizeMInt _ _ | SetMInt _ | PutMInt _ | PutIntAt2 _ _ _ | MatPush _ => Some TMInt
  | SizeMLong _ _ | SetMLong _ | PutMLong _ | PutLongAt2 _ _ _ => Some TMLong
  | SizeMReal _ _ | SetMReal _ | PutMReal _ | PutRealAt2 _ _ _ => Some TMReal
  | SizeMComplex _ _ | SetMComplex _ | PutMComplex _ | PutComplexAt2 _ _ _ => Some TMComplex
  (* the exceptions found in the code: *)
  | Promote p => match p, t with
                 | ToComplex, (TVBool | TVInt | TVLong | TVReal) => Some TVComplex
                 | ToMLong, TVBool => Some TMReal
                 | _, _ => Some (target_type p)
                 end
  (* a vector that can hold the new element keeps its type *)
  | PushBool _ => Some t
  | PushInt _ => match t with TVInt | TVLong | TVReal | TVComplex | TVec => Some t | _ => Some TVInt end
  | PushLong _ => match t with TVLong | TVReal | TVComplex | TVec => Some t | _ => Some TVLong end
  | PushReal _ => match t with TVReal | TVComplex | TVec => Some t | _ => Some TVReal end
  | PushComplex _ => match t with TVComplex | TVec => Some t | _ => Some TVComplex end
  | PushStr _ => match t with TVStr => Some t | _ => Some TVec end
  | Assign src | ToGc src => Some (tag_of src)
  | Merge src => match tag_of src with TNone => Some t | _ => Some TMap end
  | Erase _ | Key _ _ | CallKey _ _ | ConstKey _ | MapAt _ _ => Some TMap
  | Idx _ _ | CallIdx _ _ | Grow | DropBack | Back _ => Some TVec
  (* get_T_at(i) *)
  | ShowBoolAt _ => match t with TNone | TVBool => Some TVBool | _ => Some TVec end
  | PutIntAt _ _ => match t with TNone | TBool | TInt | TVBool | TVInt => Some TVInt | _ => Some TVec end
  | PutLongAt _ _ => match t with TNone | TBool | TInt | TLong | TVBool | TVInt | TVLong => Some TVLong | _ => Some TVec end
  | PutRealAt _ _ => match t with TNone | TVBool | TVInt | TVLong | TVReal => Some TVReal | _ => Some TVec end
  | PutComplexAt _ _ => match t with TNone | TVBool | TVInt | TVLong | TVReal | TVComplex => Some TVComplex | _ => Some TVec end
  | PutStrAt _ _ => match t with TNone | TVStr => Some TVStr | _ => Some TVec end
  | ReadTable _ _ _ | ReadTable2 _ _ _ _ => Some TMap
  | _ => None
  end.
