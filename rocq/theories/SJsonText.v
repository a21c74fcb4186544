(** Specification: the texts that are JSON documents (RFC 8259) and the document each stands
    for.  The flag [esc] says whether the escapes \/ and \uXXXX may occur. *)
From Coq Require Import ZArith Bool Lia Ascii String List.
From Verif Require Import Base MNum MJson.
Import ListNotations.
Local Open Scope Z_scope.

Definition ch (n : N) : ascii := ascii_of_N n.
Definition byte (c : ascii) : N := N_of_ascii c.

(** White space: blank, tab, line feed, carriage return. *)
Definition blank (c : ascii) : Prop := In (byte c) [32; 9; 10; 13]%N.
Definition ws (t : text) : Prop := Forall blank t.

(** Digits. *)
Definition dig (c : ascii) (d : Z) : Prop := 0 <= d <= 9 /\ c = ch (Z.to_N (48 + d)).
Definition hex (c : ascii) (d : Z) : Prop :=
  dig c d \/ (10 <= d <= 15 /\ (c = ch (Z.to_N (55 + d)) \/ c = ch (Z.to_N (87 + d)))).
Definition digits (t : text) (l : list Z) : Prop := Forall2 dig t l.

(** The UTF-8 form of a code point. *)
Definition utf8 (n : Z) : text :=
  map (fun z => ch (Z.to_N z))
    (if n <? 128 then [n]
     else if n <? 2048 then [192 + n / 64; 128 + n mod 64]
     else if n <? 65536 then [224 + n / 4096; 128 + (n / 64) mod 64; 128 + n mod 64]
     else [240 + n / 262144; 128 + (n / 4096) mod 64; 128 + (n / 64) mod 64; 128 + n mod 64]).
Definition hex4 (t : text) (n : Z) : Prop :=
  exists a b c d x y z w, t = [a; b; c; d] /\ hex a x /\ hex b y /\ hex c z /\ hex d w /\
    n = ((x * 16 + y) * 16 + z) * 16 + w.

(** The escapes of one character after the backslash. *)
Definition simple_escape (esc : bool) (c d : ascii) : Prop :=
  In (c, d) [(ch 34, ch 34); (ch 92, ch 92); ("b"%char, ch 8); ("f"%char, ch 12); ("n"%char, ch 10);
             ("r"%char, ch 13); ("t"%char, ch 9)] \/
  (esc = true /\ c = "/"%char /\ d = "/"%char).

(** The inside of a string and the characters it stands for. *)
Inductive jchars (esc : bool) : text -> text -> Prop :=
| jc_nil : jchars esc [] []
| jc_plain c t s : (32 <= byte c < 128)%N -> c <> ch 34 -> c <> ch 92 ->
    jchars esc t s -> jchars esc (c :: t) (c :: s)
| jc_utf8 n t s : 128 <= n < 1114112 -> ~ (55296 <= n < 57344) ->
    jchars esc t s -> jchars esc (utf8 n ++ t) (utf8 n ++ s)
| jc_escape c d t s : simple_escape esc c d ->
    jchars esc t s -> jchars esc (ch 92 :: c :: t) (d :: s)
| jc_code h n t s : esc = true -> hex4 h n -> ~ (55296 <= n < 57344) ->
    jchars esc t s -> jchars esc (ch 92 :: "u"%char :: h ++ t) (utf8 n ++ s)
| jc_pair h1 n1 h2 n2 t s : esc = true -> hex4 h1 n1 -> 55296 <= n1 < 56320 -> hex4 h2 n2 -> 56320 <= n2 < 57344 ->
    jchars esc t s ->
    jchars esc (ch 92 :: "u"%char :: h1 ++ ch 92 :: "u"%char :: h2 ++ t)
               (utf8 (65536 + (n1 - 55296) * 1024 + (n2 - 56320)) ++ s).
Inductive jstring (esc : bool) : text -> string -> Prop :=
| js t s : jchars esc t s -> jstring esc (ch 34 :: t ++ [ch 34]) (untxt s).

(** Numbers: an optional minus sign, digits without a superfluous leading zero, an optional
    fraction and an optional exponent.  Without the last two it is an integer, else the nearest
    double ([scale m k] is m * 10^k rounded). *)
Definition minus (neg : bool) : text := if neg then ["-"%char] else [].
Definition int_part (l : list Z) : Prop := l = [0] \/ (exists d r, l = d :: r /\ d <> 0).
Definition frac_part (t : text) (l : list Z) : Prop :=
  (t = [] /\ l = []) \/ (exists u, t = "."%char :: u /\ digits u l /\ l <> []).
Definition exp_part (t : text) (e : Z) : Prop :=
  (t = [] /\ e = 0) \/
  (exists c u l (neg : bool) sg, t = c :: sg ++ u /\ (c = "e"%char \/ c = "E"%char) /\ digits u l /\ l <> [] /\
     (sg = minus neg \/ (neg = false /\ sg = ["+"%char])) /\ e = if neg then - dval l else dval l).
Inductive jnumber : text -> json -> Prop :=
| jn_int neg t l : digits t l -> int_part l ->
    jnumber (minus neg ++ t) (JInt (if neg then - dval l else dval l))
| jn_real (neg : bool) t l tf lf te e : digits t l -> int_part l -> frac_part tf lf -> exp_part te e ->
    tf ++ te <> [] ->
    jnumber (minus neg ++ t ++ tf ++ te) (JDbl ((if neg then 2^63 else 0) + scale (dval (l ++ lf)) (e - zlen lf))).

(** Values, the elements of an array and the members of an object (at least one). *)
Inductive jval (esc : bool) : text -> json -> Prop :=
| jv_null : jval esc (txt "null") JNull
| jv_true : jval esc (txt "true") (JBool true)
| jv_false : jval esc (txt "false") (JBool false)
| jv_number t j : jnumber t j -> jval esc t j
| jv_string t s : jstring esc t s -> jval esc t (JStr s)
| jv_arr0 w : ws w -> jval esc ("["%char :: w ++ ["]"%char]) (JArr [])
| jv_arr t l : jelems esc t l -> jval esc ("["%char :: t ++ ["]"%char]) (JArr l)
| jv_obj0 w : ws w -> jval esc ("{"%char :: w ++ ["}"%char]) (JObj [])
| jv_obj t m : jmembers esc t m -> jval esc ("{"%char :: t ++ ["}"%char]) (JObj m)
with jelems (esc : bool) : text -> list json -> Prop :=
| je_one w t j w' : ws w -> jval esc t j -> ws w' -> jelems esc (w ++ t ++ w') [j]
| je_more w t j w' ts l : ws w -> jval esc t j -> ws w' -> jelems esc ts l ->
    jelems esc (w ++ t ++ w' ++ ","%char :: ts) (j :: l)
with jmembers (esc : bool) : text -> list (string * json) -> Prop :=
| jm_one w k s w1 w2 t j w' : ws w -> jstring esc k s -> ws w1 -> ws w2 -> jval esc t j -> ws w' ->
    jmembers esc (w ++ k ++ w1 ++ ":"%char :: w2 ++ t ++ w') [(s, j)]
| jm_more w k s w1 w2 t j w' ts m : ws w -> jstring esc k s -> ws w1 -> ws w2 -> jval esc t j -> ws w' ->
    jmembers esc ts m ->
    jmembers esc (w ++ k ++ w1 ++ ":"%char :: w2 ++ t ++ w' ++ ","%char :: ts) ((s, j) :: m).

(** Documents. *)
Definition json_text (esc : bool) (t : text) (j : json) : Prop :=
  exists w u w', t = w ++ u ++ w' /\ ws w /\ jval esc u j /\ ws w'.
