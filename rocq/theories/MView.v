(** Keys given as std::string_view.  A view is a part of some text in memory; the functions of
    src/GenericContainer.cc that pass [key.data()] to std::map look at the memory from the start
    of the view up to the first NUL, those that pass [string(key)] see the view. *)
From Coq Require Import ZArith Bool Ascii String List.
From Verif Require Import Base Value StrMap MBasic MGet MMap.
Import ListNotations.
Local Open Scope Z_scope.

(** The view shows [seen]; the memory continues with [behind] and then a NUL.  Simplification: a
    NUL follows somewhere (otherwise reading data() as a C string is undefined). *)
Record view : Type := View { seen : string; behind : string }.
(** What starts at data(), without the NUL at the end. *)
Definition buffer (v : view) : string := (seen v ++ behind v)%string.

(** exists(s): find(s.data()) (src/GenericContainer.cc:2548-2553). *)
Definition v_exists (v : view) (g : gc) : bool := exists_key (buffer v) g.
(** operator()(s) const: find(s.data()) (3336-3352). *)
Definition v_call (v : view) (g : gc) : out gc := call_key (buffer v) g.
(** operator()(s): find(s.data()) (3318-3334). *)
Definition v_call_with {A} (v : view) (f : gc -> out A * gc) (g : gc) : out A * gc := call_key_with (buffer v) f g.
(** operator[](s): the element s.data() of the map (3397-3401), and the const one (3403-3412). *)
Definition v_key {A} (v : view) (f : gc -> out A * gc) (g : gc) : out A * gc := with_key (buffer v) f g.
Definition v_const_key (v : view) (g : gc) : out gc * gc := const_idx_key (buffer v) g.
(** get_map_bool(key): exists(key), then at(string(key)) (2322-2329). *)
Definition v_get_map_bool (v : view) (g : gc) : out bool :=
  gc_assert (v_exists v g) (do e <- map_at (seen v) g ; get_bool e).
(** The other get_map_T(key): exists(key), then at(key.data()) (2354-2361, 2386-2393, 2418-2425,
    2450-2457, 2482-2489, 2514-2521). *)
Definition v_get_map_c {A} (get : gc -> out A) (v : view) (g : gc) : out A := get_map_c get (buffer v) g.
(** get_if_exists(field, value): find(field.data()) (2578-2586, 2606-2916). *)
Definition v_if {A} (get : string -> gc -> out (option A)) (v : view) (g : gc) : out (option A) := get (buffer v) g.
(** erase(name): erase(string(name)) (626-635). *)
Definition v_erase (v : view) (g : gc) : out unit * gc := erase (seen v) g.
