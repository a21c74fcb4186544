(** Model of map lookups, indexing, alternative keys and get_if_exists
    (src/GenericContainer.cc:2322-2916, 3263-3412).  A key argument is a std::string (or a
    NUL-terminated string_view); the functions that pass [s.data()] to std::map see the C
    string [cstr s]. *)
From Coq Require Import ZArith Bool Lia Ascii String List.
From Verif Require Import Base F64 StrMap Value MBasic MGet.
Import ListNotations.
Local Open Scope Z_scope.

(** exists(s) (src/GenericContainer.cc:2548-2553). *)
Definition exists_key (k : string) (g : gc) : bool :=
  match g with GMap m => mhas (cstr k) m | _ => false end.

(** exists(vs) (src/GenericContainer.cc:2555-2561). *)
Definition exists_any (ks : list string) (g : gc) : bool :=
  match g with GMap m => existsb (fun k => mhas (cstr k) m) ks | _ => false end.

(** The loop of must_exists and of operator()(vec_string) over candidate keys
    (src/GenericContainer.cc:2570-2572, 3365-3367): full keys, not C strings. *)
Fixpoint first_key (ks : list string) (m : list (string * gc)) : option (string * gc) :=
  match ks with
  | [] => None
  | k :: ks' => match mfind k m with Some e => Some (k, e) | None => first_key ks' m end
  end.

(** must_exists (src/GenericContainer.cc:2562-2574). *)
Definition must_exists (ks : list string) (g : gc) : out string :=
  match g with
  | GMap m => match first_key ks m with Some (k, _) => Ok k | None => Throw end
  | _ => Throw
  end.

(** operator()(vec_string) (src/GenericContainer.cc:3356-3386). *)
Definition call_keys (ks : list string) (g : gc) : out gc :=
  match g with
  | GMap m => match first_key ks m with Some (_, e) => Ok e | None => Throw end
  | _ => Throw
  end.

(** operator()(string) (src/GenericContainer.cc:3318-3352). *)
Definition call_key (k : string) (g : gc) : out gc :=
  match g with
  | GMap m => match mfind (cstr k) m with Some e => Ok e | None => Throw end
  | _ => Throw
  end.

(** operator()(unsigned) (src/GenericContainer.cc:3298-3316) and const operator[](unsigned)
    (3273-3286); get_gc_at const 3168-3171. *)
Definition call_idx (i : Z) (g : gc) : out gc :=
  match g with
  | GVec v => gc_assert (i <? zlen v) (raw_at i v)
  | _ => Throw
  end.

(** std::map::at. *)
Definition map_at (k : string) (g : gc) : out gc :=
  match g with
  | GMap m => match mfind k m with Some e => Ok e | None => Throw end
  | _ => Undef
  end.

(** get_map_T(key): exists(key), then at(key.data()) and the getter
    (src/GenericContainer.cc:2354-2361, 2386-2393, 2418-2425, 2450-2457, 2482-2489,
    2514-2521); get_map_bool 2322-2329 uses at(string(key)) instead. *)
Definition get_map_c {A} (get : gc -> out A) (k : string) (g : gc) : out A :=
  gc_assert (exists_key k g) (do e <- map_at (cstr k) g ; get e).
Definition get_map_bool (k : string) (g : gc) : out bool :=
  gc_assert (exists_key k g) (do e <- map_at k g ; get_bool e).
Definition get_map_int := get_map_c get_as_int.
Definition get_map_number := get_map_c get_number.
Definition get_map_string := get_map_c get_string.
Definition get_map_vec_real := get_map_c get_vec_real.
Definition get_map_vec_complex := get_map_c get_vec_complex.
Definition get_map_vec_string := get_map_c get_vec_string.

(** get_map_T(vec of alternatives): must_exists, then at(who)
    (src/GenericContainer.cc:2345-2352, 2377-2384, 2409-2416, 2441-2448, 2473-2480,
    2505-2512, 2537-2544). *)
Definition get_map_any {A} (get : gc -> out A) (ks : list string) (g : gc) : out A :=
  do k <- must_exists ks g ; do e <- map_at k g ; get e.

(** get_map_T(initializer_list): walk through nested maps
    (src/GenericContainer.cc:2331-2343, 2363-2375, 2395-2407, 2427-2439, 2459-2471,
    2491-2503, 2523-2535).  get_map_int uses the strict get_int at the end (2374). *)
Fixpoint map_walk (ks : list string) (g : gc) : out gc :=
  match ks with
  | [] => Ok g
  | k :: ks' => gc_assert (exists_key k g) (do e <- call_key k g ; map_walk ks' e)
  end.
Definition get_map_path {A} (get : gc -> out A) (ks : list string) (g : gc) : out A :=
  do e <- map_walk ks g ; get e.

(** get_if_exists(field, value): [Ok (Some v)] is `true` with value = v, [Ok None] is
    `false` with value unchanged. *)
Definition if_map {A} (k : string) (g : gc) (f : gc -> out (option A)) : out (option A) :=
  match g with
  | GMap m => match mfind (cstr k) m with Some e => f e | None => Ok None end
  | _ => Ok None
  end.
Definition if_num {A} (c : bool) (x : out A) : out (option A) :=
  if c then omap Some x else Ok None.

(** src/GenericContainer.cc:2578-2586. *)
Definition gie_bool (k : string) (g : gc) : out (option bool) :=
  if_map k g (fun e => match e with GBool b => Ok (Some b) | _ => Ok None end).
(** src/GenericContainer.cc:2606-2652. *)
Definition gie_int (k : string) (g : gc) : out (option Z) :=
  if_map k g (fun e => match e with
    | GBool b => Ok (Some (b2z b))
    | GInt i => Ok (Some i)
    | GLong l => Ok (Some (to_i32 l))
    | GReal r => if_num (is_integer r) (f_to_i32 r)
    | GComplex (re, im) => if_num (is_integer re && is_zero0 im) (f_to_i32 re)
    | _ => Ok None
    end).
(** src/GenericContainer.cc:2656-2704. *)
Definition gie_uint (k : string) (g : gc) : out (option Z) :=
  if_map k g (fun e => match e with
    | GBool b => Ok (Some (b2z b))
    | GInt i => if i <? 0 then Ok None else Ok (Some (to_u32 i))
    | GLong l => if l <? 0 then Ok None else Ok (Some (to_u32 l))
    | GReal r => if_num (is_unsigned r) (f_to_u32 r)
    | GComplex (re, im) => if_num (is_unsigned re && is_zero0 im) (f_to_u32 re)
    | _ => Ok None
    end).
(** src/GenericContainer.cc:2708-2754. *)
Definition gie_long (k : string) (g : gc) : out (option Z) :=
  if_map k g (fun e => match e with
    | GBool b => Ok (Some (b2z b))
    | GInt i => Ok (Some i)
    | GLong l => Ok (Some l)
    | GReal r => if_num (is_integer r) (f_to_i64 r)
    | GComplex (re, im) => if_num (is_integer re && is_zero0 im) (f_to_i64 re)
    | _ => Ok None
    end).
(** src/GenericContainer.cc:2758-2806. *)
Definition gie_ulong (k : string) (g : gc) : out (option Z) :=
  if_map k g (fun e => match e with
    | GBool b => Ok (Some (b2z b))
    | GInt i => if i <? 0 then Ok None else Ok (Some (to_u64 i))
    | GLong l => if l <? 0 then Ok None else Ok (Some (to_u64 l))
    | GReal r => if_num (is_unsigned r) (f_to_u64 r)
    | GComplex (re, im) => if_num (is_unsigned re && is_zero0 im) (f_to_u64 re)
    | _ => Ok None
    end).
(** src/GenericContainer.cc:2810-2854. *)
Definition gie_real (k : string) (g : gc) : out (option Z) :=
  if_map k g (fun e => match e with
    | GBool b => Ok (Some (f_of_bool b))
    | GInt i => Ok (Some (f_of_Z i))
    | GLong l => Ok (Some (f_of_Z l))
    | GReal r => Ok (Some r)
    | GComplex (re, im) => if_num (is_zero0 im) (Ok re)
    | _ => Ok None
    end).
(** src/GenericContainer.cc:2858-2901. *)
Definition gie_complex (k : string) (g : gc) : out (option cplx) :=
  if_map k g (fun e => match e with
    | GBool b => Ok (Some (f_of_bool b, f_zero))
    | GInt i => Ok (Some (f_of_Z i, f_zero))
    | GLong l => Ok (Some (f_of_Z l, f_zero))
    | GReal r => Ok (Some (r, f_zero))
    | GComplex c => Ok (Some c)
    | _ => Ok None
    end).
(** src/GenericContainer.cc:2905-2916. *)
Definition gie_string (k : string) (g : gc) : out (option string) :=
  if_map k g (fun e => match e with GStr s => Ok (Some s) | _ => Ok None end).

(** get_if_exists(fields, value) template (GenericContainer.hh:3983-3991): the keys in turn
    until one succeeds. *)
Fixpoint gie_list {A} (get : string -> gc -> out (option A)) (ks : list string) (g : gc)
  : out (option A) :=
  match ks with
  | [] => Ok None
  | k :: ks' => do r <- get k g ; match r with Some v => Ok (Some v) | None => gie_list get ks' g end
  end.

(** get_if_exists(fields, bool&) (src/GenericContainer.cc:2588-2602): a separate overload;
    the test is `!= BOOL`, so it reads the bool member of a value of another type. *)
Fixpoint gie_bool_list_m (ks : list string) (m : list (string * gc)) : out (option bool) :=
  match ks with
  | [] => Ok None
  | k :: ks' => match mfind k m with
                | Some (GBool _) => gie_bool_list_m ks' m
                | Some _ => Undef
                | None => gie_bool_list_m ks' m
                end
  end.
Definition gie_bool_list (ks : list string) (g : gc) : out (option bool) :=
  match g with GMap m => gie_bool_list_m ks m | _ => Ok None end.

(** Non-const operator[](string) (src/GenericContainer.cc:3397-3401) followed by an operation
    [f] on the returned reference (its outcome and the new content of the element). *)
Definition with_key {A} (k : string) (f : gc -> out A * gc) (g : gc) : out A * gc :=
  let m := old_map g in
  let '(r, e) := f (match mfind (cstr k) m with Some e => e | None => GNone end) in
  (r, GMap (mset (cstr k) e m)).

(** CHECK_RESIZE (src/GenericContainer.cc:43): [i] is a 32-bit unsigned, so i+1 wraps. *)
Definition check_resize {A} (d : A) (i : Z) (v : list A) : list A :=
  if zlen v <=? i then resize d (Z.to_nat (to_u32 (i + 1))) v else v.

(** Non-const operator[](unsigned) (src/GenericContainer.cc:3263-3271) followed by an
    operation on the returned reference. *)
Definition with_idx {A} (i : Z) (f : gc -> out A * gc) (g : gc) : out A * gc :=
  let v := check_resize GNone i (old_vec g) in
  match znth i v with
  | Some e => let '(r, e') := f e in (r, GVec (lset (Z.to_nat i) e' v))
  | None => (Undef, GVec v)
  end.

(** operator()(string) and operator()(unsigned) returning a reference used for writing
    (src/GenericContainer.cc:3298-3306, 3318-3334). *)
Definition call_key_with {A} (k : string) (f : gc -> out A * gc) (g : gc) : out A * gc :=
  match g with
  | GMap m => match mfind (cstr k) m with
              | Some e => let '(r, e') := f e in (r, GMap (mset (cstr k) e' m))
              | None => (Throw, g)
              end
  | _ => (Throw, g)
  end.
Definition call_idx_with {A} (i : Z) (f : gc -> out A * gc) (g : gc) : out A * gc :=
  match g with
  | GVec v => if i <? zlen v
              then match znth i v with
                   | Some e => let '(r, e') := f e in (r, GVec (lset (Z.to_nat i) e' v))
                   | None => (Undef, g)
                   end
              else (Throw, g)
  | _ => (Throw, g)
  end.

(** const operator[](string) (src/GenericContainer.cc:3403-3412): declared const, but the map
    is reached through a pointer and the missing key is inserted. *)
Definition const_idx_key (k : string) (g : gc) : out gc * gc :=
  match g with
  | GMap m => match mfind (cstr k) m with
              | Some e => (Ok e, g)
              | None => (Ok GNone, GMap (mset (cstr k) GNone m))
              end
  | _ => (Throw, g)
  end.

(** A chain of operator[] with keys and indices, then an operation on the last reference. *)
Inductive step : Type := SKey (k : string) | SIdx (i : Z).

Fixpoint with_path {A} (p : list step) (f : gc -> out A * gc) (g : gc) : out A * gc :=
  match p with
  | [] => f g
  | SKey k :: p' => with_key k (with_path p' f) g
  | SIdx i :: p' => with_idx i (with_path p' f) g
  end.

(** The const chain operator()(..)(..).. *)
Fixpoint read_path (p : list step) (g : gc) : out gc :=
  match p with
  | [] => Ok g
  | SKey k :: p' => do e <- call_key k g ; read_path p' e
  | SIdx i :: p' => do e <- call_idx i g ; read_path p' e
  end.
