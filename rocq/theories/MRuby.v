(** Model of the Ruby interface (src_ruby_interface/GenericContainer_ffi.rb), which calls the
    C interface through FFI.  Lines are those of that file. *)
From Coq Require Import ZArith Bool Lia Ascii String List.
From Verif Require Import Base F64 StrMap Value MBasic MGet MMap MMat MPromote MNum MRef MCapi.
Import ListNotations.
Local Open Scope Z_scope.

(** Ruby values.  Integers are Integer objects of any size: Fixnum is taken to be Integer, as
    from Ruby 2.4 to 3.1 (the constant is gone after that).  Keys of a Hash are given by their
    to_s, in the order of each.  [RNil] also stands for any other object that responds neither
    to to_hash nor to []. *)
Inductive rb : Type :=
| RNil
| RBool (b : bool)
| RInt (z : Z)
| RFloat (x : Z)
| RStr (s : string)
| RSym (s : string)
| RArr (l : list rb)
| RHash (m : list (string * rb)).

(** ** Ruby methods as programs that call C functions *)

(** [PRaise]: a Ruby exception; [PLoop]: more steps than the fuel allows. *)
Inductive prog (A : Type) : Type :=
| PRet (a : A)
| PRaise
| PLoop
| PCall (k : ccall) (f : rv -> prog A).
Arguments PRet {A} a.
Arguments PRaise {A}.
Arguments PLoop {A}.
Arguments PCall {A} k f.

Fixpoint pbind {A B} (p : prog A) (f : A -> prog B) : prog B :=
  match p with
  | PRet a => f a
  | PRaise => PRaise
  | PLoop => PLoop
  | PCall k g => PCall k (fun v => pbind (g v) f)
  end.

(** `ok = call; raise RuntimeError, ... unless ok == 0`, then [p]. *)
Definition ck {A} (k : ccall) (p : prog A) : prog A :=
  PCall k (fun v => match v with VInt 0 => p | _ => PRaise end).
(** A call whose status is not looked at. *)
Definition nock {A} (k : ccall) (p : prog A) : prog A := PCall k (fun _ => p).
(** FFI: an argument declared :int outside the range of int is a RangeError, an argument
    declared :string with a zero byte inside is an ArgumentError. *)
Definition ffi_int {A} (z : Z) (p : prog A) : prog A :=
  if (- 2^31 <=? z) && (z <? 2^31) then p else PRaise.
Definition ffi_str {A} (s : string) (p : prog A) : prog A :=
  if String.eqb (cstr s) s then p else PRaise.

(** What FFI makes of a result declared :int or :long, :double, :string. *)
Definition rb_of_rv (v : rv) : rb :=
  match v with
  | VInt z => RInt z
  | VReal x => RFloat x
  | VStr (Some s) => RStr s
  | _ => RNil
  end.
(** A call whose result is the value of the expression. *)
Definition ask (k : call) : prog rb := PCall (Do k) (fun v => PRet (rb_of_rv v)).
(** A call that gives an int. *)
Definition ask_int {A} (k : call) (f : Z -> prog A) : prog A :=
  PCall (Do k) (fun v => match v with VInt z => f z | _ => PRaise end).

(** `l.each { |x| res << body(x) }`. *)
Fixpoint each {A B} (body : A -> prog B) (l : list A) : prog (list B) :=
  match l with
  | [] => PRet []
  | a :: t => pbind (body a) (fun b => pbind (each body t) (fun r => PRet (b :: r)))
  end.

(** ** GC_to_hash and what it uses *)

(** toBoolVector, toIntVector, toRealVector, toStringVector (150-169, 178-183). *)
Definition to_array (getter : Z -> call) : prog rb :=
  ask_int GetVectorSize (fun n => pbind (each (fun i => ask (getter i)) (zseq n)) (fun l => PRet (RArr l))).
(** [ re(i), im(i) ] *)
Definition ask_pair (re im : call) : prog rb :=
  pbind (ask re) (fun a => pbind (ask im) (fun b => PRet (RArr [a; b]))).
(** toComplexVector (171-176). *)
Definition to_complex_array : prog rb :=
  ask_int GetVectorSize (fun n =>
    pbind (each (fun i => ask_pair (GetComplexRealAtPos i) (GetComplexImagAtPos i)) (zseq n)) (fun l => PRet (RArr l))).
(** toRealMatrix, toComplexMatrix (198-224). *)
Definition to_matrix (cell : Z -> Z -> prog rb) : prog rb :=
  ask_int GetNumRows (fun nr => ask_int GetNumCols (fun nc =>
    pbind (each (fun i => pbind (each (cell i) (zseq nc)) (fun row => PRet (RArr row))) (zseq nr))
      (fun l => PRet (RArr l)))).
(** toVector (185-196). *)
Definition to_vector (go : prog rb) : prog rb :=
  ask_int GetVectorSize (fun n =>
    pbind (each (fun i => ck (Do (PushVectorPosition i))
                            (pbind go (fun r => ck (Do PopHead) (PRet r)))) (zseq n))
      (fun l => PRet (RArr l))).
(** `while (key = self.GC_get_next_key) do keys << key end` (231): every string is true, a null
    pointer is nil. *)
Fixpoint next_keys (fuel : nat) : prog (list string) :=
  match fuel with
  | O => PLoop
  | S n => PCall (Do GetNextKey) (fun v =>
             match v with
             | VStr (Some k) => pbind (next_keys n) (fun t => PRet (k :: t))
             | _ => PRet []
             end)
  end.
(** toMixedHash (226-241); keys that occur once only, as those of a map do. *)
Definition to_hash (fuel : nat) (go : prog rb) : prog rb :=
  ck (Do InitMapKey)
    (pbind (next_keys fuel) (fun keys =>
       pbind (each (fun k => ck (Do (PushMapPosition k))
                               (pbind go (fun r => ck (Do PopHead) (PRet (k, r))))) keys)
         (fun m => PRet (RHash m)))).
(** GC_to_hash (243-281), with fuel for the nesting and for the loop over the keys. *)
Fixpoint to_rb (fuel : nat) : prog rb :=
  match fuel with
  | O => PLoop
  | S n =>
      PCall (Do GetTypeName) (fun v =>
        match v with
        | VStr (Some t) =>
            if String.eqb t "bool_type" then ask GetBool
            else if String.eqb t "int_type" then ask GetInt
            else if String.eqb t "long_type" then ask GetLong
            else if String.eqb t "real_type" then ask GetReal
            else if String.eqb t "string_type" then ask GetString
            else if String.eqb t "vec_bool_type" then to_array GetBoolAtPos
            else if String.eqb t "vec_int_type" then to_array GetIntAtPos
            else if String.eqb t "vec_real_type" then to_array GetRealAtPos
            else if String.eqb t "vec_string_type" then to_array GetStringAtPos
            else if String.eqb t "vec_complex_type" then to_complex_array
            else if String.eqb t "mat_real_type" then to_matrix (fun i j => ask (GetRealAtCoor i j))
            else if String.eqb t "mat_complex_type" then
              to_matrix (fun i j => ask_pair (GetComplexRealAtCoor i j) (GetComplexImagAtCoor i j))
            else if String.eqb t "vector_type" then to_vector (to_rb n)
            else if String.eqb t "map_type" then to_hash n (to_rb n)
            else nock (Do GetTypeName) (PRet RNil)
        | _ => nock (Do GetTypeName) (PRet RNil)
        end)
  end%string.

(** ** GC_from_hash and what it uses *)

(** fromVector (338-348): the status of GC_set_vector is not looked at.  [go] is
    GC_from_hash; [i] is the position of the first element of [l]. *)
Definition from_elems (go : rb -> prog unit) : Z -> list rb -> prog unit :=
  fix loop (i : Z) (l : list rb) : prog unit :=
    match l with
    | [] => PRet tt
    | x :: t => ck (Do (PushVectorPosition i))
                  (pbind (go x) (fun _ => ck (Do PopHead) (loop (i + 1) t)))
    end.
Definition from_vector (go : rb -> prog unit) (l : list rb) : prog unit :=
  ffi_int (zlen l) (nock (Do (SetVector (zlen l))) (from_elems go 0 l)).
(** The loop of addToVector (312-335); [fallback] is `self.fromVector vec`. *)
Fixpoint add_elems (fallback : prog unit) (l : list rb) : prog unit :=
  match l with
  | [] => PRet tt
  | RBool b :: t => ck (Do (PushBool (b2z b))) (add_elems fallback t)
  | RInt z :: t => ffi_int z (ck (Do (PushInt z)) (add_elems fallback t))
  | RFloat x :: t => ck (Do (PushReal x)) (add_elems fallback t)
  | RStr s :: t | RSym s :: t => ffi_str s (ck (Do (PushString s)) (add_elems fallback t))
  | (RNil | RArr _ | RHash _) :: _ => fallback
  end.
(** addToVector (290-336). *)
Definition add_to_vector (go : rb -> prog unit) (l : list rb) : prog unit :=
  match l with
  | RBool _ :: _ => ck (Do SetEmptyVecBool) (add_elems (from_vector go l) l)
  | RInt _ :: _ => ck (Do SetEmptyVecInt) (add_elems (from_vector go l) l)
  | RFloat _ :: _ => ck (Do SetEmptyVecReal) (add_elems (from_vector go l) l)
  | (RStr _ | RSym _) :: _ => ck (Do SetEmptyVecString) (add_elems (from_vector go l) l)
  | _ => from_vector go l
  end.
(** fromMixedHash (350-359). *)
Definition from_entries (go : rb -> prog unit) : list (string * rb) -> prog unit :=
  fix loop (m : list (string * rb)) : prog unit :=
    match m with
    | [] => PRet tt
    | (k, v) :: t => ffi_str k (ck (Do (PushMapPosition k))
                       (pbind (go v) (fun _ => ck (Do PopHead) (loop t))))
    end.
Definition from_mixed_hash (go : rb -> prog unit) (m : list (string * rb)) : prog unit :=
  nock (Do SetMap) (from_entries go m).
(** GC_from_hash (361-396).  Objects that respond to to_hash or to [] are not modelled. *)
Fixpoint from_rb (r : rb) : prog unit :=
  match r with
  | RNil => PRet tt
  | RBool b => ck (Do (SetBool (b2z b))) (PRet tt)
  | RInt z => ffi_int z (ck (Do (SetInt z)) (PRet tt))
  | RFloat x => ck (Do (SetReal x)) (PRet tt)
  | RStr s | RSym s => ffi_str s (ck (Do (SetString s)) (PRet tt))
  | RArr [] => ck (Do SetEmptyVecBool) (PRet tt)
  | RArr l => add_to_vector from_rb l
  | RHash m => from_mixed_hash from_rb m
  end.

(** ** The class GenericContainer (398-436) *)

(** initialize, fill_for_test, load, get_pointer, get_data, dump; [id] is the decimal text of
    the object's __id__. *)
Definition rb_new (id : string) : prog unit := nock (New id) (PRet tt).
Definition rb_fill (id : string) : prog unit := nock (FillForTest id) (PRet tt).
Definition rb_load (id : string) (data : rb) : prog unit := ck (Select id) (from_rb data).
Definition rb_pointer (id : string) : prog unit := nock (MemPtr id) (PRet tt).
Definition rb_get_data (fuel : nat) (id : string) : prog rb := ck (Select id) (to_rb fuel).
Definition rb_dump (id : string) : prog unit := ck (Select id) (nock (Do Dump) (PRet tt)).

(** ** Running a program *)

(** A C++ exception that reaches the FFI boundary ends the process or worse, like any other
    undefined behaviour of the C function. *)
Fixpoint prun {A} (p : prog A) (s : cstate) : out A * cstate :=
  match p with
  | PRet a => (Ok a, s)
  | PRaise => (Throw, s)
  | PLoop => (Diverge, s)
  | PCall k f =>
      match exec k s with
      | (Ret (Ok v), s') => prun (f v) s'
      | (Ret Diverge, s') => (Diverge, s')
      | (_, s') => (Undef, s')
      end
  end.

Example ruby_ex :
  fst (prun (pbind (rb_new "7") (fun _ => pbind (rb_load "7" (RArr [RInt 1; RBool true; RArr [RStr "a"; RSym "b"; RNil]; RFloat 0]))
                                          (fun _ => rb_get_data 3 "7"))) cstate0)
  = Ok (RArr [RInt 1; RInt 1; RArr [RStr "a"; RStr "b"; RNil]; RFloat 0]) /\
  fst (prun (pbind (rb_new "7") (fun _ => pbind (rb_load "7" (RArr [RInt 1; RInt (2^40)])) (fun _ => rb_get_data 3 "7"))) cstate0) = Throw.
Proof. vmc. Qed.
