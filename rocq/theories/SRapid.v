(** Specification: JSON documents again (SJsonText.v), with the strings and the numbers left
    open, so that one can say what a reader accepts beyond or short of RFC 8259. *)
From Coq Require Import ZArith Bool Lia Ascii String List.
From Verif Require Import Base F64 MNum MJson SJsonText.
Import ListNotations.
Local Open Scope Z_scope.

Section Grammar.
  Variable str : text -> string -> Prop.
  Variable num : text -> json -> Prop.
  Inductive gval : text -> json -> Prop :=
  | gv_null : gval (txt "null") JNull
  | gv_true : gval (txt "true") (JBool true)
  | gv_false : gval (txt "false") (JBool false)
  | gv_number t j : num t j -> gval t j
  | gv_string t s : str t s -> gval t (JStr s)
  | gv_arr0 w : ws w -> gval ("["%char :: w ++ ["]"%char]) (JArr [])
  | gv_arr t l : gelems t l -> gval ("["%char :: t ++ ["]"%char]) (JArr l)
  | gv_obj0 w : ws w -> gval ("{"%char :: w ++ ["}"%char]) (JObj [])
  | gv_obj t m : gmembers t m -> gval ("{"%char :: t ++ ["}"%char]) (JObj m)
  with gelems : text -> list json -> Prop :=
  | ge_one w t j w' : ws w -> gval t j -> ws w' -> gelems (w ++ t ++ w') [j]
  | ge_more w t j w' ts l : ws w -> gval t j -> ws w' -> gelems ts l ->
      gelems (w ++ t ++ w' ++ ","%char :: ts) (j :: l)
  with gmembers : text -> list (string * json) -> Prop :=
  | gm_one w k s w1 w2 t j w' : ws w -> str k s -> ws w1 -> ws w2 -> gval t j -> ws w' ->
      gmembers (w ++ k ++ w1 ++ ":"%char :: w2 ++ t ++ w') [(s, j)]
  | gm_more w k s w1 w2 t j w' ts m : ws w -> str k s -> ws w1 -> ws w2 -> gval t j -> ws w' ->
      gmembers ts m ->
      gmembers (w ++ k ++ w1 ++ ":"%char :: w2 ++ t ++ w' ++ ","%char :: ts) ((s, j) :: m).
  Definition gtext (t : text) (j : json) : Prop :=
    exists w u w', t = w ++ u ++ w' /\ ws w /\ gval u j /\ ws w'.
End Grammar.
Scheme gval_mind := Induction for gval Sort Prop
  with gelems_mind := Induction for gelems Sort Prop
  with gmembers_mind := Induction for gmembers Sort Prop.
Combined Scheme gjson_ind from gval_mind, gelems_mind, gmembers_mind.

(** With the strings and numbers of RFC 8259 these are the JSON texts of SJsonText.v. *)
Scheme jval_m := Induction for jval Sort Prop
  with jelems_m := Induction for jelems Sort Prop
  with jmembers_m := Induction for jmembers Sort Prop.
Combined Scheme jjson_ind from jval_m, jelems_m, jmembers_m.
Lemma gval_jval esc :
  (forall t j, jval esc t j -> gval (jstring esc) jnumber t j) /\
  (forall t l, jelems esc t l -> gelems (jstring esc) jnumber t l) /\
  (forall t m, jmembers esc t m -> gmembers (jstring esc) jnumber t m).
Proof. apply jjson_ind; intros; first [apply gv_null | apply gv_true | apply gv_false | now apply gv_string | now apply gv_arr0 | now apply gv_arr | now apply gv_obj0 |
  now apply gv_obj | now apply ge_one | now apply ge_more | now apply gm_one | now apply gm_more | now apply gv_number]. Qed.
Lemma jval_gval esc :
  (forall t j, gval (jstring esc) jnumber t j -> jval esc t j) /\
  (forall t l, gelems (jstring esc) jnumber t l -> jelems esc t l) /\
  (forall t m, gmembers (jstring esc) jnumber t m -> jmembers esc t m).
Proof. apply gjson_ind; intros; first [apply jv_null | apply jv_true | apply jv_false | now apply jv_string | now apply jv_arr0 | now apply jv_arr | now apply jv_obj0 |
  now apply jv_obj | now apply je_one | now apply je_more | now apply jm_one | now apply jm_more | now apply jv_number]. Qed.
Lemma gtext_json esc t j : gtext (jstring esc) jnumber t j <-> json_text esc t j.
Proof.
  split; intros (w & u & w' & E & W & V & W'); exists w, u, w'; (split; [exact E|]); (split; [exact W|]); (split; [|exact W']).
  - now apply jval_gval.
  - now apply gval_jval.
Qed.

(** Strings in which the bytes from 128 on need not be UTF-8. *)
Inductive bchars : text -> text -> Prop :=
| bc_nil : bchars [] []
| bc_plain c t s : (32 <= byte c)%N -> c <> ch 34 -> c <> ch 92 -> bchars t s -> bchars (c :: t) (c :: s)
| bc_escape c d t s : simple_escape true c d -> bchars t s -> bchars (ch 92 :: c :: t) (d :: s)
| bc_code h n t s : hex4 h n -> ~ (55296 <= n < 57344) -> bchars t s ->
    bchars (ch 92 :: "u"%char :: h ++ t) (utf8 n ++ s)
| bc_pair h1 n1 h2 n2 t s : hex4 h1 n1 -> 55296 <= n1 < 56320 -> hex4 h2 n2 -> 56320 <= n2 < 57344 -> bchars t s ->
    bchars (ch 92 :: "u"%char :: h1 ++ ch 92 :: "u"%char :: h2 ++ t)
           (utf8 (65536 + (n1 - 55296) * 1024 + (n2 - 56320)) ++ s).
Inductive bstring : text -> string -> Prop :=
| bs t s : bchars t s -> bstring (ch 34 :: t ++ [ch 34]) (untxt s).

(** UTF-8 texts. *)
Inductive utf8_text : text -> Prop :=
| ut_nil : utf8_text []
| ut_char n t : 0 <= n < 1114112 -> ~ (55296 <= n < 57344) -> utf8_text t -> utf8_text (utf8 n ++ t).

(** Documents that are the same but for the values of their numbers, related by [R]. *)
Section Same.
  Variable R : json -> json -> Prop.
  Inductive same_doc : json -> json -> Prop :=
  | sd_null : same_doc JNull JNull
  | sd_bool b : same_doc (JBool b) (JBool b)
  | sd_str s : same_doc (JStr s) (JStr s)
  | sd_num j j' : R j j' -> same_doc j j'
  | sd_arr l l' : same_docs l l' -> same_doc (JArr l) (JArr l')
  | sd_obj m m' : same_members m m' -> same_doc (JObj m) (JObj m')
  with same_docs : list json -> list json -> Prop :=
  | sds_nil : same_docs [] []
  | sds_cons j j' l l' : same_doc j j' -> same_docs l l' -> same_docs (j :: l) (j' :: l')
  with same_members : list (string * json) -> list (string * json) -> Prop :=
  | sdm_nil : same_members [] []
  | sdm_cons k j j' m m' : same_doc j j' -> same_members m m' -> same_members ((k, j) :: m) ((k, j') :: m').
End Same.

(** * Numbers *)
(** The number of a text: sign, digits before and after the point, exponent, and whether it has
    a fraction or an exponent. *)
Definition number (t : text) (neg : bool) (l lf : list Z) (e : Z) (real : bool) : Prop :=
  exists u tf te, t = minus neg ++ u ++ tf ++ te /\ digits u l /\ int_part l /\ frac_part tf lf /\ exp_part te e /\
    (real = true <-> tf ++ te <> []).
(** The number without its sign is [vnum m p / vden p], that is m * 10^p, with the digits [m] and
    the power of ten [p]. *)
Definition vnum (m p : Z) : Z := if 0 <=? p then m * 10 ^ p else m.
Definition vden (p : Z) : Z := if 0 <=? p then 1 else 10 ^ (- p).

(** Integers of 64 bits. *)
Definition limit (neg : bool) : Z := if neg then 2^63 else 2^64 - 1.
(** Numbers with few digits and a small exponent, and their value: integers of 64 bits and reals
    m * 10^p with m below 2^53 and p from -22 to 22. *)
Definition plain (t : text) (j : json) : Prop :=
  exists neg l lf e real, number t neg l lf e real /\
    ((real = false /\ dval l <= limit neg /\ j = JInt (if neg then - dval l else dval l)) \/
     (real = true /\ dval (l ++ lf) < 2^53 /\ -22 <= e - zlen lf <= 22 /\
      j = JDbl ((if neg then 2^63 else 0) + scale (dval (l ++ lf)) (e - zlen lf)))).
(** Numbers up to 10^308 with at most 308 digits before the point; zero may have no exponent
    above 308. *)
Definition moderate (t : text) : Prop :=
  exists neg l lf e real, number t neg l lf e real /\ zlen l <= 308 /\ zlen lf <= 2 * 10^9 /\
    vnum (dval (l ++ lf)) (e - zlen lf) <= 10^308 * vden (e - zlen lf) /\
    (dval (l ++ lf) = 0 -> e <= 308 + zlen lf).
(** What stands for the number of a text up to rounding errors: integers of 64 bits as they are;
    for other numbers a finite double of the right sign, whose distance from the number, relative
    to the number, is at most k / (2^52 - k) with k = 10, or twice the number of digits before the
    point if there are more than 5.  Nothing is said about numbers below 10^-307. *)
Definition near_number (neg : bool) (l lf : list Z) (e x : Z) : Prop :=
  let m := dval (l ++ lf) in
  let p := e - zlen lf in
  let k := Z.max 10 (2 * zlen l) in
  f64 x /\ is_finite x = true /\ fsign x = neg /\ (m = 0 -> fmag x = 0) /\
  (0 < m -> vden p <= 10^307 * vnum m p ->
   Z.abs (fmag x * vden p - vnum m p * fone) * (2^52 - k) <= k * (vnum m p * fone)).
Definition close (t : text) (j : json) : Prop :=
  exists neg l lf e real, number t neg l lf e real /\
    ((real = false /\ dval l <= limit neg /\ j = JInt (if neg then - dval l else dval l)) \/
     ((real = true \/ limit neg < dval l) /\ exists x, j = JDbl x /\ near_number neg l lf e x)).
(** Numbers of the same kind: equal integers, a double for a double of the same sign or for an
    integer of more than 64 bits. *)
Inductive like : json -> json -> Prop :=
| like_int i : - 2^63 <= i < 2^64 -> like (JInt i) (JInt i)
| like_real x y : is_finite x = true -> fsign x = fsign y -> like (JDbl x) (JDbl y)
| like_big x i : is_finite x = true -> i < - 2^63 \/ 2^64 <= i -> fsign x = (i <? 0) -> like (JDbl x) (JInt i).
