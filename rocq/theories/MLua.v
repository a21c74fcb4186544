(** Model of the exchange of values with Lua
    (src_lua_interface/GenericContainerInterface_lua.cc:77-331, 396-480).  The Lua library is
    third-party code: its value stack and tables are modelled by what the functions used here
    do to them (src_lua_interface/lua-5.4.6/src/lapi.c).  The execution of Lua code is not
    modelled. *)
From Coq Require Import ZArith Bool Lia Ascii String List.
From Verif Require Import Base F64 StrMap Value MBasic MGet MMap MRef.
Import ListNotations.
Local Open Scope Z_scope.

(** Lua values.  Numbers have two subtypes, 64-bit integers and doubles (bit pattern).  A table
    is the list of its entries in the order of traversal; there is no nil value in it and no
    key twice.  Tables are objects with identity in Lua; every table built here has exactly one
    owner (a stack slot or a table), so its content stands for it.  [LOther]: functions,
    userdata, threads. *)
Inductive lua : Type :=
| LNil
| LBool (b : bool)
| LInt (z : Z)
| LNum (x : Z)
| LStr (s : string)
| LTab (t : list (lua * lua))
| LOther.

(** Induction over values; nothing is claimed about keys. *)
Section LuaInd.
  Variable P : lua -> Prop.
  Hypothesis Hflat : forall v, (forall t, v <> LTab t) -> P v.
  Hypothesis Htab : forall t, Forall (fun kv => P (snd kv)) t -> P (LTab t).
  Fixpoint lua_nest_ind (v : lua) : P v.
  Proof.
    destruct v as [ | | | | | t | ]; try (apply Hflat; discriminate).
    apply Htab. induction t as [|a t IH]; constructor; [apply lua_nest_ind | exact IH].
  Defined.
End LuaInd.

(** Equality of keys (a double used as a key is not an integer, so it is determined by its
    bits).  Two tables are never the same key here, since the table used as a key
    is a new object. *)
Definition key_eqb (a b : lua) : bool :=
  match a, b with
  | LBool x, LBool y => Bool.eqb x y
  | LInt x, LInt y | LNum x, LNum y => x =? y
  | LStr x, LStr y => String.eqb x y
  | _, _ => false
  end.
Definition is_nil (v : lua) : bool := match v with LNil => true | _ => false end.
(** t[k] = v: nil removes the entry.  (New entries are added at the end of the traversal; Lua
    promises no order, and the theorems about tables do not depend on it.) *)
Fixpoint tset (k v : lua) (t : list (lua * lua)) : list (lua * lua) :=
  match t with
  | [] => if is_nil v then [] else [(k, v)]
  | (k', v') :: t' =>
      if key_eqb k k' then (if is_nil v then t' else (k, v) :: t') else (k', v') :: tset k v t'
  end.
(** t[k]. *)
Fixpoint tget (k : lua) (t : list (lua * lua)) : lua :=
  match t with
  | [] => LNil
  | (k', v') :: t' => if key_eqb k k' then v' else tget k t'
  end.

(** The stack, top first, with room for [cap] values.  Pushing more without lua_checkstack
    (never called by this code) is undefined (Lua 5.4 reference manual, 4.1.1; lapi.c:
    api_incr_top).  A C function and a new state have LUA_MINSTACK = 20 free slots (lua.h:80). *)
Definition push (cap : Z) (v : lua) (st : list lua) : out (list lua) :=
  if zlen st <? cap then Ok (v :: st) else Undef.
(** lua_rawseti(L,-2,i) (lapi.c:921-930): undefined if there is no table at -2. *)
Definition rawseti (i : Z) (st : list lua) : out (list lua) :=
  match st with
  | v :: LTab t :: st' => Ok (LTab (tset (LInt i) v t) :: st')
  | _ => Undef
  end.
(** lua_settable(L,-3) (lapi.c:855-868) on values without __newindex: a Lua error if there is
    no table at -3 or the key is nil.  [Throw] is a Lua error outside of a protected call: the
    panic handler installed by luaL_newstate runs and the program is aborted.  (Keys that are
    doubles never get here.) *)
Definition settable (st : list lua) : out (list lua) :=
  match st with
  | v :: k :: LTab t :: st' =>
      match k with
      | LNil => Throw
      | LNum _ => Undef
      | _ => Ok (LTab (tset k v t) :: st')
      end
  | _ :: _ :: _ :: _ => Throw
  | _ => Undef
  end.

(** The loops over typed vectors (GenericContainerInterface_lua.cc:256-299): push one element,
    store it at i+1.  [i] is unsigned and i+1 is converted to int; the loop does not end for
    2^32 elements or more, see [GC_to_lua]. *)
Fixpoint fill (cap : Z) (l : list lua) (i : Z) (st : list lua) : out (list lua) :=
  match l with
  | [] => Ok st
  | v :: l' =>
      do st1 <- push cap v st ;
      do st2 <- rawseti (to_i32 (i + 1)) st1 ;
      fill cap l' (i + 1) st2
  end.
Definition table_of (cap : Z) (l : list lua) (st : list lua) : out (list lua) :=
  if 2^32 <=? zlen l then Diverge else do st1 <- push cap (LTab []) st ; fill cap l 0 st1.

(** GC_to_lua (GenericContainerInterface_lua.cc:227-331).  The size passed to lua_createtable
    is only a hint.  Strings are passed as C strings. *)
Fixpoint GC_to_lua (cap : Z) (g : gc) (st : list lua) : out (list lua) :=
  match g with
  | GNone | GPtr _ | GVPtr _ => push cap LNil st
  | GBool b => push cap (LBool b) st
  | GInt i => push cap (LNum (f_of_Z i)) st
  | GLong l => push cap (LNum (f_of_Z l)) st
  | GReal r => push cap (LNum r) st
  | GStr s => push cap (LStr (cstr s)) st
  | GVBool v => do st1 <- table_of cap (map LBool v) st ; push cap LNil st1
  | GVInt v => table_of cap (map (fun i => LNum (f_of_Z i)) v) st
  | GVLong v => table_of cap (map (fun l => LNum (f_of_Z l)) v) st
  | GVReal v => table_of cap (map LNum v) st
  | GVStr v => table_of cap (map (fun s => LStr (cstr s)) v) st
  | GVec v =>
      if 2^32 <=? zlen v then Diverge else
      do st1 <- push cap (LTab []) st ;
      (fix go (v : list gc) (i : Z) (st : list lua) : out (list lua) :=
         match v with
         | [] => Ok st
         | e :: v' =>
             do st1 <- GC_to_lua cap e st ;
             do st2 <- rawseti (to_i32 (i + 1)) st1 ;
             go v' (i + 1) st2
         end) v 0 st1
  | GMap m =>
      do st1 <- push cap (LTab []) st ;
      (fix go (m : list (string * gc)) (st : list lua) : out (list lua) :=
         match m with
         | [] => Ok st
         | (k, e) :: m' =>
             do st1 <- push cap (LStr (cstr k)) st ;
             do st2 <- GC_to_lua cap e st1 ;
             do st3 <- settable st2 ;
             go m' st3
         end) m st1
  | GComplex _ | GVComplex _ | GMInt _ | GMLong _ | GMReal _ | GMComplex _ => push cap LNil st
  end.
(** The two loops as functions of their own, for the proofs. *)
Definition vec_items (cap : Z) : list gc -> Z -> list lua -> out (list lua) :=
  fix go (v : list gc) (i : Z) (st : list lua) : out (list lua) :=
  match v with
  | [] => Ok st
  | e :: v' =>
      do st1 <- GC_to_lua cap e st ;
      do st2 <- rawseti (to_i32 (i + 1)) st1 ;
      go v' (i + 1) st2
  end.
Definition map_items (cap : Z) : list (string * gc) -> list lua -> out (list lua) :=
  fix go (m : list (string * gc)) (st : list lua) : out (list lua) :=
  match m with
  | [] => Ok st
  | (k, e) :: m' =>
      do st1 <- push cap (LStr (cstr k)) st ;
      do st2 <- GC_to_lua cap e st1 ;
      do st3 <- settable st2 ;
      go m' st3
  end.
Lemma lua_vec cap v st : GC_to_lua cap (GVec v) st =
  if 2^32 <=? zlen v then Diverge else do st1 <- push cap (LTab []) st ; vec_items cap v 0 st1.
Proof. reflexivity. Qed.
Lemma lua_map cap m st : GC_to_lua cap (GMap m) st = do st1 <- push cap (LTab []) st ; map_items cap m st1.
Proof. reflexivity. Qed.

(** Lua_GC_to_global (GenericContainerInterface_lua.cc:471-480): the value the global gets and
    the stack afterwards. *)
Definition Lua_GC_to_global (cap : Z) (g : gc) (st : list lua) : out (lua * list lua) :=
  do st1 <- GC_to_lua cap g st ; match st1 with v :: st2 => Ok (v, st2) | [] => Undef end.

(** isInteger64 and long_type(val) (87-91): the conversion of floor(x) to 64 bits is undefined
    outside their range and for NaN; x - floor(x) is zero exactly for integers. *)
Definition is_integer64 (x : Z) : out bool :=
  match fscaled x with
  | Some v => if (- 2^63 <=? v / fone) && (v / fone <? 2^63) then Ok (v mod fone =? 0) else Undef
  | None => Undef
  end.
Definition long_of (x : Z) : Z := match fscaled x with Some v => v / fone | None => 0 end.
(** lua_tonumber: integers are converted to double. *)
Definition tonumber (v : lua) : Z := match v with LInt z => f_of_Z z | LNum x => x | _ => f_zero end.
(** lua_tointeger of a key: 0 for a double (doubles with integer values are integer keys). *)
Definition tointeger (k : lua) : Z := match k with LInt z => z | _ => 0 end.

Definition stored (g : gc) : out unit * gc := (Ok tt, g).
(** The numeric branch of push_hash_element (156-161), lua_to_GC (200-204) and
    Lua_global_to_GC (443-447). *)
Definition put_number (x : Z) (g : gc) : out unit * gc :=
  match is_integer64 x with
  | Ok true => (Ok tt, set_long (long_of x) g)
  | Ok false => (Ok tt, set_real x g)
  | Throw => (Throw, g) | Undef => (Undef, g) | Diverge => (Diverge, g)
  end.
(** gc.get_bool_at(i), then gc.get_vec_bool()[i] = b (115-119). *)
Definition put_bool_at (i : Z) (b : bool) (g : gc) : out unit * gc :=
  match rread (ref_bool_at i g) with
  | (Ok _, g') =>
      match ref_vec_bool g' with
      | Ref v put =>
          match znth i v with
          | Some _ => (Ok tt, put (lset (Z.to_nat i) b v))
          | None => (Undef, put v)
          end
      | Bad o g2 => (failed o, g2)
      end
  | (Throw, g') => (Throw, g')
  | (Undef, g') => (Undef, g')
  | (Diverge, g') => (Diverge, g')
  end.
(** The numeric branch of push_vec_element (121-132). *)
Definition put_number_at (i x : Z) (g : gc) : out unit * gc :=
  match g with
  | GVReal _ | GMReal _ => rwrite x (ref_real_at i g)
  | _ =>
      match is_integer64 x with
      | Ok true => rwrite (long_of x) (ref_long_at i g)
      | Ok false => rwrite x (ref_real_at i g)
      | Throw => (Throw, g) | Undef => (Undef, g) | Diverge => (Diverge, g)
      end
  end.
(** push_vec_element (106-141); [sub] is lua_table_to_GC on the value.  The key minus one is
    converted to unsigned. *)
Definition push_vec_element (sub : gc -> out unit * gc) (k x : lua) (g : gc) : out unit * gc :=
  let i := to_u32 (tointeger k - 1) in
  match x with
  | LBool b => put_bool_at i b g
  | LInt _ | LNum _ => put_number_at i (tonumber x) g
  | LStr s => rwrite (cstr s) (ref_string_at i g)
  | LTab _ => with_idx i sub g
  | LNil | LOther => (Ok tt, g)
  end.
(** push_hash_element (145-169).  gc[key] is evaluated inside the branches. *)
Definition push_hash_element (sub : gc -> out unit * gc) (k : string) (x : lua) (g : gc) : out unit * gc :=
  match x with
  | LBool b => with_key (cstr k) (fun e => stored (set_bool b e)) g
  | LInt _ | LNum _ =>
      match is_integer64 (tonumber x) with
      | Ok _ => with_key (cstr k) (put_number (tonumber x)) g
      | Throw => (Throw, g) | Undef => (Undef, g) | Diverge => (Diverge, g)
      end
  | LStr s => with_key (cstr k) (fun e => stored (set_string (cstr s) e)) g
  | LTab _ => with_key (cstr k) sub g
  | LNil | LOther => (Ok tt, g)
  end.
(** lua_table_to_GC (173-190), the table on top of a stack with [used] values.  lua_pushnil
    needs one free slot, lua_next a second one when there is an entry; a nested table is on
    top of both.  Keys that are neither numbers nor strings are skipped. *)
Fixpoint lua_table_to_GC (cap used : Z) (v : lua) (g : gc) : out unit * gc :=
  match v with
  | LTab t =>
      if used <? cap then
        (fix go (t : list (lua * lua)) (g : gc) : out unit * gc :=
           match t with
           | [] => (Ok tt, g)
           | (k, x) :: t' =>
               if used + 1 <? cap then
                 match (match k with
                        | LInt _ | LNum _ => push_vec_element (lua_table_to_GC cap (used + 2) x) k x g
                        | LStr s => push_hash_element (lua_table_to_GC cap (used + 2) x) s x g
                        | _ => (Ok tt, g)
                        end) with
                 | (Ok _, g') => go t' g'
                 | r => r
                 end
               else (Undef, g)
           end) t g
      else (Undef, g)
  | _ => (Ok tt, g)
  end.
(** One entry, and the loop, for the proofs. *)
Definition table_entry (cap used : Z) (k x : lua) (g : gc) : out unit * gc :=
  match k with
  | LInt _ | LNum _ => push_vec_element (lua_table_to_GC cap (used + 2) x) k x g
  | LStr s => push_hash_element (lua_table_to_GC cap (used + 2) x) s x g
  | _ => (Ok tt, g)
  end.
Definition table_entries (cap used : Z) : list (lua * lua) -> gc -> out unit * gc :=
  fix go (t : list (lua * lua)) (g : gc) : out unit * gc :=
  match t with
  | [] => (Ok tt, g)
  | (k, x) :: t' =>
      if used + 1 <? cap then
        match table_entry cap used k x g with
        | (Ok _, g') => go t' g'
        | r => r
        end
      else (Undef, g)
  end.
Lemma lua_table cap used t g : lua_table_to_GC cap used (LTab t) g =
  if used <? cap then table_entries cap used t g else (Undef, g).
Proof. reflexivity. Qed.

(** lua_to_GC (192-216) of the value [v] on top of the stack [v :: st]: the container and the
    stack afterwards.  The value is not popped, except that lua_settop(L,0) empties the stack
    after a table. *)
Definition lua_to_GC (cap : Z) (v : lua) (st : list lua) (g : gc) : out unit * gc * list lua :=
  match v with
  | LBool b => (Ok tt, set_bool b (clear g), v :: st)
  | LInt _ | LNum _ => (put_number (tonumber v) (clear g), v :: st)
  | LStr s => (Ok tt, set_string (cstr s) (clear g), v :: st)
  | LTab _ =>
      match lua_table_to_GC cap (1 + zlen st) v (clear g) with
      | (Ok _, g') => (Ok tt, g', [])
      | r => (r, v :: st)
      end
  | LNil | LOther => (Ok tt, clear g, v :: st)
  end.
(** Lua_global_to_GC (420-467) when the global has the value [v]: lua_getglobal pushes it; nil
    throws before, other types of no use throw after the container has been cleared. *)
Definition Lua_global_to_GC (cap : Z) (v : lua) (st : list lua) (g : gc) : out unit * gc * list lua :=
  match push cap v st with
  | Ok _ =>
      match v with
      | LNil => (Throw, g, v :: st)
      | LOther => (Throw, clear g, v :: st)
      | _ => lua_to_GC cap v st g
      end
  | Throw => (Throw, g, st) | Undef => (Undef, g, st) | Diverge => (Diverge, g, st)
  end.

(** LuaInterpreter::call (396-416): [f] is the function as seen by lua_pcall, which consumes
    the function and its argument and leaves one result ([None]: it reports an error, and its
    message is left on the stack); [fn] is the value of the global. *)
Definition lua_call (cap : Z) (f : lua -> option lua) (fn : lua) (args : gc) (st : list lua) (res : gc) : out unit * gc * list lua :=
  match (do st1 <- push cap fn st ; GC_to_lua cap args st1) with
  | Ok (a :: fn' :: st2) =>
      match (match fn' with LOther => f a | _ => None end) with
      | Some v => lua_to_GC cap v st2 res
      | None => (Throw, res, LStr EmptyString :: st2)
      end
  | Ok _ => (Undef, res, st)
  | Throw => (Throw, res, st) | Undef => (Undef, res, st) | Diverge => (Diverge, res, st)
  end.

(** The whole of call (396-416): the throwing accesses fun_io("function") and fun_io("args")
    come first.  [global] is the value of each global variable, [run] what the function of that
    name makes of its argument. *)
Definition interpreter_call (cap : Z) (global : string -> lua) (run : string -> lua -> option lua) (io : gc) (st : list lua) (res : gc)
  : out unit * gc * list lua :=
  match (do f <- call_key "function" io ; do name <- get_string f ; do args <- call_key "args" io ; Ok (name, args)) with
  | Ok (name, args) => lua_call cap (run (cstr name)) (global (cstr name)) args st res
  | Throw => (Throw, res, st) | Undef => (Undef, res, st) | Diverge => (Diverge, res, st)
  end.

Example GC_to_lua_ex :
  GC_to_lua 20 (GMap [("a"%string, GVec [GBool true; GNone; GStr "x"%string]); ("b"%string, GInt 0)]) [] =
    Ok [LTab [(LStr "a"%string, LTab [(LInt 1, LBool true); (LInt 3, LStr "x"%string)]); (LStr "b"%string, LNum f_zero)]] /\
  GC_to_lua 20 (GMap [("a"%string, GVBool [true])]) [] = Throw /\
  GC_to_lua 20 (GVec [GVBool [true]; GInt 0]) [] = Ok [LTab [(LInt 2, LNum f_zero)]; LTab []].
Proof. vmc. Qed.
Example Lua_global_to_GC_ex :
  Lua_global_to_GC 20 (LTab [(LInt 1, LInt 0); (LInt 2, LInt 0)]) [] GNone = (Ok tt, GVLong [0; 0], []) /\
  Lua_global_to_GC 20 (LTab [(LInt 1, LInt 0); (LInt 2, LTab [(LInt 1, LBool true)])]) [] GNone =
    (Ok tt, GVec [GNone; GVBool [true]], []) /\
  Lua_global_to_GC 20 (LTab [(LInt 1, LInt 0); (LInt 2, LBool true)]) [] GNone = (Throw, GVec [GLong 0; GBool false], [LTab [(LInt 1, LInt 0); (LInt 2, LBool true)]]).
Proof. vmc. Qed.
