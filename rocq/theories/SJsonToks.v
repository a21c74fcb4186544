(** Specification: the texts that from_json2 takes.  More than JSON: the tokens below are less
    strict, nothing at all is taken, and the text may go on after the value as long as what
    follows does not begin with a token. *)
From Coq Require Import ZArith Bool Lia Ascii String List.
From Verif Require Import Base MNum SJsonText.
Import ListNotations.
Local Open Scope Z_scope.

(** Blank, tab, line feed, vertical tab, form feed, carriage return. *)
Definition lblank (c : ascii) : Prop := byte c = 32%N \/ (9 <= byte c <= 13)%N.
Definition lws (t : text) : Prop := Forall lblank t.

(** The inside of a string: any ASCII characters, a backslash with any byte after it, and
    sequences of bytes with the high bit set, as long as the first one says. *)
Definition cont (c : ascii) : Prop := (128 <= byte c < 192)%N.
Inductive lchars : text -> Prop :=
| lc_nil : lchars []
| lc_plain c t : (byte c < 128)%N -> c <> ch 34 -> c <> ch 92 -> lchars t -> lchars (c :: t)
| lc_escape c t : lchars t -> lchars (ch 92 :: c :: t)
| lc_2 c c1 t : (128 <= byte c < 224)%N -> cont c1 -> lchars t -> lchars (c :: c1 :: t)
| lc_3 c c1 c2 t : (224 <= byte c < 240)%N -> cont c1 -> cont c2 -> lchars t -> lchars (c :: c1 :: c2 :: t)
| lc_4 c c1 c2 c3 t : (240 <= byte c)%N -> cont c1 -> cont c2 -> cont c3 -> lchars t -> lchars (c :: c1 :: c2 :: c3 :: t).

(** Numbers: a sign of either kind, leading zeros, digits missing before or after the point
    (even both, with a sign), and an exponent that may be just a sign. *)
Definition ldigit (c : ascii) : Prop := exists d, dig c d.
Definition lsign (c : ascii) : Prop := c = "+"%char \/ c = "-"%char.
Definition lint (t : text) : Prop :=
  exists sg ds, t = sg ++ ds /\ (sg = [] \/ exists c, lsign c /\ sg = [c]) /\ Forall ldigit ds /\ ds <> [].
Definition lfrac (t : text) : Prop :=
  exists sg ds fs, t = sg ++ ds ++ "."%char :: fs /\ (sg = [] \/ exists c, lsign c /\ sg = [c]) /\ Forall ldigit ds /\ Forall ldigit fs /\
    sg ++ ds <> [].
Definition lexp (t : text) : Prop :=
  exists m e x ds, t = m ++ e :: x :: ds /\ (lint m \/ lfrac m) /\ (e = "e"%char \/ e = "E"%char) /\ (lsign x \/ ldigit x) /\ Forall ldigit ds.
(** The character after a number: there is one, and it cannot be part of a number. *)
Definition after_number (t : text) : Prop :=
  exists c t', t = c :: t' /\ ~ ldigit c /\ ~ lsign c /\ c <> "."%char /\ c <> "e"%char /\ c <> "E"%char.

Inductive tk : Type := Lcurly | Rcurly | Lbrack | Rbrack | Comma | Colon | KTrue | KFalse | KNull | Str | Int | Real.
(** [u] is a token of kind [k] when [r] follows. *)
Inductive ltoken : tk -> text -> text -> Prop :=
| lt_lcurly r : ltoken Lcurly (txt "{") r
| lt_rcurly r : ltoken Rcurly (txt "}") r
| lt_lbrack r : ltoken Lbrack (txt "[") r
| lt_rbrack r : ltoken Rbrack (txt "]") r
| lt_comma r : ltoken Comma (txt ",") r
| lt_colon r : ltoken Colon (txt ":") r
| lt_true r : ltoken KTrue (txt "true") r
| lt_false r : ltoken KFalse (txt "false") r
| lt_null r : ltoken KNull (txt "null") r
| lt_str u r : lchars u -> ltoken Str (ch 34 :: u ++ [ch 34]) r
| lt_int u r : lint u -> after_number r -> ltoken Int u r
| lt_real u r : lfrac u \/ lexp u -> after_number r -> ltoken Real u r.
(** The text [t] is the tokens [ks] and the rest [r], with white space before each token. *)
Inductive tokens : text -> list tk -> text -> Prop :=
| ts_nil t : tokens t [] t
| ts_cons w k u r ks r' : lws w -> ltoken k u r -> tokens r ks r' -> tokens (w ++ u ++ r) (k :: ks) r'.
(** Here the lexer sees the end: white space, then the end of the text or an ASCII character
    that begins no token. *)
Definition ends (t : text) : Prop :=
  exists w r, t = w ++ r /\ lws w /\
    match r with
    | [] => True
    | c :: _ => ~ lblank c /\ (byte c < 128)%N /\ forall k u r', r = u ++ r' -> ~ ltoken k u r'
    end.

(** The grammar of JSON on tokens. *)
Inductive value : list tk -> Prop :=
| v_scalar k : In k [KTrue; KFalse; KNull; Str; Int; Real] -> value [k]
| v_arr0 : value [Lbrack; Rbrack]
| v_arr ks : elems ks -> value (Lbrack :: ks ++ [Rbrack])
| v_obj0 : value [Lcurly; Rcurly]
| v_obj ks : members ks -> value (Lcurly :: ks ++ [Rcurly])
with elems : list tk -> Prop :=
| e_one ks : value ks -> elems ks
| e_more ks ls : elems ks -> value ls -> elems (ks ++ Comma :: ls)
with members : list tk -> Prop :=
| m_one ks : value ks -> members (Str :: Colon :: ks)
| m_more ks ls : members ks -> value ls -> members (ks ++ Comma :: Str :: Colon :: ls).

Definition taken (t : text) : Prop :=
  exists ks r, tokens t ks r /\ ends r /\ (ks = [] \/ value ks).
