(** Model of the JSON parser that from_json calls (src_json_interface/from_json.cc:95-120,
    document.ParseStream(isw)): the recursive reader of rapidjson with its default flags
    (src_json_interface/rapidjson/reader.h, kParseNoFlags: no comments, no trailing commas, no
    encoding validation, normal precision).  A text is the list of the bytes of the stream; the
    stream wrapper (rapidjson/istreamwrapper.h:66-100) shows a NUL byte when they are used up, as
    does a NUL byte of the text itself.  A parse error of any kind is [None] (from_json prints
    it and returns false).  Simplified: the recursion is as deep as the document (reader.h
    has no limit either), there is memory for the document, and the text is shorter than
    2^31 bytes, so that the int counters do not overflow.  Multiplication and addition of
    doubles are rounded separately (no fused multiply-add). *)
From Coq Require Import ZArith Bool Lia Ascii String List.
From Verif Require Import Base F64 Value MNum MJson.
Import ListNotations.
Local Open Scope Z_scope.

Notation "'may' x <- e ; f" := (match e with Some x => f | None => None end)
  (at level 200, x name, e at level 100, f at level 200, right associativity).
Notation "'may' ' p <- e ; f" := (match e with Some p => f | None => None end)
  (at level 200, p strict pattern, e at level 100, f at level 200, right associativity).

(** reader.h:894-902 Consume. *)
Definition consume (c : ascii) (t : text) : option text :=
  match t with x :: r => if Ascii.eqb x c then Some r else None | [] => None end.

(** reader.h:264-273 SkipWhitespace: blank, line feed, carriage return, tab. *)
Definition rj_blank (c : ascii) : bool :=
  (Ascii.eqb c " " || Ascii.eqb c (ascii_of_N 10) || Ascii.eqb c (ascii_of_N 13) || Ascii.eqb c (ascii_of_N 9))%bool.
Fixpoint skip_blanks (t : text) : text :=
  match t with c :: r => if rj_blank c then skip_blanks r else t | [] => [] end.

(** reader.h:905-926 ParseHex4. *)
Definition hex_val (c : ascii) : option Z :=
  let n := Z.of_N (N_of_ascii c) in
  if (48 <=? n) && (n <=? 57) then Some (n - 48)
  else if (65 <=? n) && (n <=? 70) then Some (n - 65 + 10)
  else if (97 <=? n) && (n <=? 102) then Some (n - 97 + 10)
  else None.
Fixpoint parse_hex (k : nat) (code : Z) (t : text) : option (Z * text) :=
  match k with
  | O => Some (code, t)
  | S k' =>
      match t with
      | c :: r => may d <- hex_val c ; parse_hex k' (code * 16 + d) r
      | [] => None
      end
  end.

(** rapidjson/encodings.h:101-121 UTF8::Encode. *)
Definition put_byte (z : Z) : ascii := ascii_of_N (Z.to_N z).
Definition encode (n : Z) : text :=
  if n <=? 0x7F then [put_byte (Z.land n 0xFF)]
  else if n <=? 0x7FF then
    [put_byte (Z.lor 0xC0 (Z.land (Z.shiftr n 6) 0xFF)); put_byte (Z.lor 0x80 (Z.land n 0x3F))]
  else if n <=? 0xFFFF then
    [put_byte (Z.lor 0xE0 (Z.land (Z.shiftr n 12) 0xFF)); put_byte (Z.lor 0x80 (Z.land (Z.shiftr n 6) 0x3F));
     put_byte (Z.lor 0x80 (Z.land n 0x3F))]
  else
    [put_byte (Z.lor 0xF0 (Z.land (Z.shiftr n 18) 0xFF)); put_byte (Z.lor 0x80 (Z.land (Z.shiftr n 12) 0x3F));
     put_byte (Z.lor 0x80 (Z.land (Z.shiftr n 6) 0x3F)); put_byte (Z.lor 0x80 (Z.land n 0x3F))].

(** reader.h:994-1003, the table of escapes. *)
Definition escape_of (e : ascii) : option ascii :=
  if Ascii.eqb e (ascii_of_N 34) then Some (ascii_of_N 34)
  else if Ascii.eqb e "/" then Some "/"%char
  else if Ascii.eqb e (ascii_of_N 92) then Some (ascii_of_N 92)
  else if Ascii.eqb e "b" then Some (ascii_of_N 8)
  else if Ascii.eqb e "f" then Some (ascii_of_N 12)
  else if Ascii.eqb e "n" then Some (ascii_of_N 10)
  else if Ascii.eqb e "r" then Some (ascii_of_N 13)
  else if Ascii.eqb e "t" then Some (ascii_of_N 9)
  else None.

(** reader.h:1022-1045, the code point after \u: a surrogate must be the first of a pair. *)
Definition parse_code (t : text) : option (Z * text) :=
  may ' (n, t1) <- parse_hex 4 0 t ;
  if (0xD800 <=? n) && (n <=? 0xDFFF) then
    if n <=? 0xDBFF then
      may t2 <- consume (ascii_of_N 92) t1 ;
      may t3 <- consume "u" t2 ;
      may ' (m, t4) <- parse_hex 4 0 t3 ;
      if (m <? 0xDC00) || (0xDFFF <? m) then None
      else Some (Z.lor (Z.shiftl (n - 0xD800) 10) (m - 0xDC00) + 0x10000, t4)
    else None
  else Some (n, t1).

(** reader.h:988-1069 ParseStringToStream after the opening quote: the characters of the
    string and the text after the closing quote.  Bytes from 0x80 are copied as they are.  The
    first argument bounds the number of rounds of the loop; every round uses up a
    character. *)
Fixpoint string_loop (fuel : nat) (t : text) : option (text * text) :=
  match fuel, t with
  | S n, c :: r =>
      if Ascii.eqb c (ascii_of_N 92) then
        match r with
        | [] => None
        | e :: r1 =>
            match escape_of e with
            | Some x => may ' (s, r2) <- string_loop n r1 ; Some (x :: s, r2)
            | None =>
                if Ascii.eqb e "u" then
                  may ' (code, r2) <- parse_code r1 ;
                  may ' (s, r3) <- string_loop n r2 ; Some (encode code ++ s, r3)
                else None
            end
        end
      else if Ascii.eqb c (ascii_of_N 34) then Some ([], r)
      else if (N_of_ascii c <? 0x20)%N then None
      else may ' (s, r1) <- string_loop n r ; Some (c :: s, r1)
  | _, _ => None
  end.
(** reader.h:958-985 ParseString. *)
Definition parse_string (t : text) : option (string * text) :=
  may r <- consume (ascii_of_N 34) t ;
  may ' (s, r1) <- string_loop (S (List.length r)) r ; Some (untxt s, r1).

(** Doubles that are zero, positive or plus infinity, as bit patterns. *)
Definition inf : Z := 2047 * 2^52.
Definition rnd (num den : Z) : Z := if num =? 0 then 0 else f_of_Q num den.
Definition dmul (a b : Z) : Z := if inf <=? a then inf else rnd (fmag a * fmag b) (fone * fone).
Definition ddiv (a b : Z) : Z := if inf <=? a then inf else rnd (fmag a) (fmag b).
Definition dadd (a b : Z) : Z := if inf <=? a then inf else rnd (fmag a + fmag b) fone.
Definition ften : Z := f_of_Z 10.

(** rapidjson/internal/pow10.h:28-51, a table of the literals 1e+0 to 1e+308. *)
Definition pow10 (n : Z) : Z := f_of_Q (10^n) 1.
(** rapidjson/internal/strtod.h:28-35 FastPath. *)
Definition fast_path (d e : Z) : Z :=
  if e <? -308 then 0 else if 0 <=? e then dmul d (pow10 e) else ddiv d (pow10 (- e)).
(** rapidjson/internal/strtod.h:37-46 StrtodNormalPrecision. *)
Definition strtod_normal (d p : Z) : Z :=
  if p <? -308 then fast_path (fast_path d (-308)) (p + 308) else fast_path d p.

(** reader.h:1498-1521 and 1552-1576, the loops over the digits of an integer: [lim] and
    [last] say when one more digit would not fit (the flag in the result), [sd] is
    significandDigit. *)
Fixpoint int_loop (lim last i sd : Z) (t : text) : Z * Z * bool * text :=
  match t with
  | c :: r =>
      match digit_val c with
      | Some d =>
          if (lim <=? i) && (negb (i =? lim) || (last <? d)) then (i, sd, true, t)
          else int_loop lim last (i * 10 + d) (sd + 1) r
      | None => (i, sd, false, t)
      end
  | [] => (i, sd, false, [])
  end.
(** reader.h:1578-1582, further digits of an integer above 64 bits. *)
Definition next_digit (x d : Z) : Z := dadd (dmul x ften) (f_of_Z d).
Fixpoint big_loop (t : text) (x : Z) : Z * text :=
  match t with
  | c :: r => match digit_val c with Some d => big_loop r (next_digit x d) | None => (x, t) end
  | [] => (x, [])
  end.
(** reader.h:1599-1608, digits of the fraction while the significand is below 2^53. *)
Fixpoint frac_int (i ef sd : Z) (t : text) : Z * Z * Z * text :=
  match t with
  | c :: r =>
      match digit_val c with
      | Some d =>
          if 0x1FFFFFFFFFFFFF <? i then (i, ef, sd, t)
          else let i' := i * 10 + d in frac_int i' (ef - 1) (if i' =? 0 then sd else sd + 1) r
      | None => (i, ef, sd, t)
      end
  | [] => (i, ef, sd, [])
  end.
(** reader.h:1618-1627, the digits after that: only up to 17 significant ones count. *)
Fixpoint frac_dbl (t : text) (x ef sd : Z) : Z * Z * text :=
  match t with
  | c :: r =>
      match digit_val c with
      | Some d =>
          if sd <? 17 then
            let x' := next_digit x d in frac_dbl r x' (ef - 1) (if 0 <? x' then sd + 1 else sd)
          else frac_dbl r x ef sd
      | None => (x, ef, t)
      end
  | [] => (x, ef, [])
  end.
Fixpoint skip_digits (t : text) : text :=
  match t with c :: r => match digit_val c with Some _ => skip_digits r | None => t end | [] => [] end.
(** reader.h:1658-1664, the digits of a negative exponent: those after it is too large are
    skipped. *)
Fixpoint exp_neg (lim e : Z) (t : text) : Z * text :=
  match t with
  | c :: r =>
      match digit_val c with
      | Some d => let e' := e * 10 + d in if lim <? e' then (e', skip_digits r) else exp_neg lim e' r
      | None => (e, t)
      end
  | [] => (e, [])
  end.
(** reader.h:1668-1672, the digits of a positive exponent. *)
Fixpoint exp_pos (lim e : Z) (t : text) : option (Z * text) :=
  match t with
  | c :: r =>
      match digit_val c with
      | Some d => let e' := e * 10 + d in if lim <? e' then None else exp_pos lim e' r
      | None => Some (e, t)
      end
  | [] => Some (e, [])
  end.
Definition digit_next (t : text) : bool :=
  match t with c :: _ => match digit_val c with Some _ => true | None => false end | [] => false end.

(** reader.h:1483-1484 and 1640-1644, the signs. *)
Definition take_minus (t : text) : bool * text :=
  match consume "-" t with Some r => (true, r) | None => (false, t) end.
Definition take_sign (t : text) : bool * text :=
  match consume "+" t with Some r => (false, r) | None => take_minus t end.

(** reader.h:1483-1582, sign and integer part: sign, integer, significandDigit, useDouble,
    the double, rest. *)
Definition parse_int (t : text) : option (bool * Z * Z * bool * Z * text) :=
  let '(neg, t0) := take_minus t in
  match t0 with
  | [] => None
  | c :: t1 =>
      may d0 <- digit_val c ;
      let last := if neg then 8 else 5 in
      let '(i1, sd1, more, r1) :=
        if d0 =? 0 then (0, 0, false, t1) else int_loop (if neg then 214748364 else 429496729) last d0 0 t1 in
      let '(i2, sd2, big, r2) :=
        if more then int_loop (if neg then 0x0CCCCCCCCCCCCCCC else 0x1999999999999999) last i1 sd1 r1
        else (i1, sd1, false, r1) in
      let '(x, r3) := if big then big_loop r2 (f_of_Z i2) else (0, r2) in
      Some (neg, i2, sd2, big, x, r3)
  end.
(** reader.h:1584-1630, the fraction: useDouble, the double, expFrac, rest. *)
Definition parse_frac (i sd : Z) (big : bool) (x : Z) (t : text) : option (bool * Z * Z * text) :=
  match consume "." t with
  | None => Some (big, x, 0, t)
  | Some r =>
      if digit_next r then
        let '(x1, ef1, sd1, r1) :=
          if big then (x, 0, sd, r)
          else let '(i', ef, sd', r') := frac_int i 0 sd r in (f_of_Z i', ef, sd', r') in
        let '(x2, ef2, r2) := frac_dbl r1 x1 ef1 sd1 in
        Some (true, x2, ef2, r2)
      else None
  end.
(** reader.h:1632-1680, the exponent: useDouble, the double, exp, rest. *)
Definition parse_exp (i : Z) (dbl : bool) (x ef : Z) (t : text) : option (bool * Z * Z * text) :=
  match (match consume "e" t with Some r => Some r | None => consume "E" t end) with
  | None => Some (dbl, x, 0, t)
  | Some r =>
      let x' := if dbl then x else f_of_Z i in
      let '(minus, r1) := take_sign r in
      match r1 with
      | [] => None
      | c :: r2 =>
          may d <- digit_val c ;
          if minus then let '(e, r3) := exp_neg ((ef + 2147483639) ÷ 10) d r2 in Some (true, x', - e, r3)
          else may ' (e, r3) <- exp_pos (308 - ef) d r2 ; Some (true, x', e, r3)
      end
  end.
(** reader.h:1467-1748 ParseNumber. *)
Definition parse_number (t : text) : option (json * text) :=
  may ' (neg, i, sd, big, x, r1) <- parse_int t ;
  may ' (dbl, x1, ef, r2) <- parse_frac i sd big x r1 ;
  may ' (dbl', x2, e, r3) <- parse_exp i dbl x1 ef r2 ;
  if dbl' then
    let x3 := strtod_normal x2 (e + ef) in
    if inf <=? x3 then None else Some (JDbl (if neg then fneg x3 else x3), r3)
  else Some (JInt (if neg then - i else i), r3).

(** reader.h:855-892 ParseNull, ParseTrue, ParseFalse (the first letter is known). *)
Fixpoint consume_all (w : text) (t : text) : option text :=
  match w with c :: w' => may r <- consume c t ; consume_all w' r | [] => Some t end.

(** reader.h:1751-1764 ParseValue, 807-853 ParseArray, 739-804 ParseObject.  The first argument
    bounds the number of calls; [parse] gives enough. *)
Fixpoint parse_value (fuel : nat) (t : text) : option (json * text) :=
  match fuel, t with
  | S n, c :: r =>
      if Ascii.eqb c "n" then may r1 <- consume_all (txt "ull") r ; Some (JNull, r1)
      else if Ascii.eqb c "t" then may r1 <- consume_all (txt "rue") r ; Some (JBool true, r1)
      else if Ascii.eqb c "f" then may r1 <- consume_all (txt "alse") r ; Some (JBool false, r1)
      else if Ascii.eqb c (ascii_of_N 34) then may ' (s, r1) <- parse_string t ; Some (JStr s, r1)
      else if Ascii.eqb c "{" then
        let r0 := skip_blanks r in
        match consume "}" r0 with
        | Some r1 => Some (JObj [], r1)
        | None => may ' (m, r1) <- parse_members n r0 ; Some (JObj m, r1)
        end
      else if Ascii.eqb c "[" then
        let r0 := skip_blanks r in
        match consume "]" r0 with
        | Some r1 => Some (JArr [], r1)
        | None => may ' (l, r1) <- parse_elems n r0 ; Some (JArr l, r1)
        end
      else parse_number t
  | _, _ => None
  end
with parse_elems (fuel : nat) (t : text) : option (list json * text) :=
  match fuel with
  | O => None
  | S n =>
      may ' (j, r) <- parse_value n t ;
      let r0 := skip_blanks r in
      match consume "," r0 with
      | Some r1 => may ' (l, r2) <- parse_elems n (skip_blanks r1) ; Some (j :: l, r2)
      | None => may r1 <- consume "]" r0 ; Some ([j], r1)
      end
  end
with parse_members (fuel : nat) (t : text) : option (list (string * json) * text) :=
  match fuel with
  | O => None
  | S n =>
      may ' (k, r) <- parse_string t ;
      may r1 <- consume ":" (skip_blanks r) ;
      may ' (j, r2) <- parse_value n (skip_blanks r1) ;
      let r3 := skip_blanks r2 in
      match consume "," r3 with
      | Some r4 => may ' (m, r5) <- parse_members n (skip_blanks r4) ; Some ((k, j) :: m, r5)
      | None => may r4 <- consume "}" r3 ; Some ([(k, j)], r4)
      end
  end.

(** reader.h:558-588 Parse: nothing but white space may follow the value up to the end (or a
    NUL byte). *)
Definition at_end (t : text) : bool :=
  match t with [] => true | c :: _ => (N_of_ascii c =? 0)%N end.
Definition rapidjson (t : text) : option json :=
  let t0 := skip_blanks t in
  if at_end t0 then None else
  may ' (j, r) <- parse_value (2 * List.length t0 + 2) t0 ;
  if at_end (skip_blanks r) then Some j else None.

(** from_json (from_json.cc:95-120) and JSON_to_GC (include/GenericContainer/
    GenericContainerInterface_json.hh:48-98) on the text of the stream. *)
Definition from_json_text (t : text) (g : gc) : out bool * gc := from_json (rapidjson t) g.
Definition JSON_text_to_GC (t : text) (g : gc) : out bool * gc := JSON_to_GC (rapidjson t) g.
Definition quoted (s : string) : text :=
  map (fun c => if Ascii.eqb c "'" then ascii_of_N 34 else c) (txt s).

Example rapidjson_ex :
  rapidjson (quoted " {'a' : [1, -2, 2.5, 1e3], 'b':{}, 'c':[ ], 'd\u00e9\n': null } ") =
    Some (JObj [("a"%string, JArr [JInt 1; JInt (-2); JDbl (f_of_Q 5 2); JDbl (f_of_Z 1000)]);
                ("b"%string, JObj []); ("c"%string, JArr []);
                (untxt (quoted "d" ++ encode 233 ++ [ascii_of_N 10]), JNull)]) /\
  rapidjson (quoted "[1,]") = None /\ rapidjson (quoted "01") = None /\ rapidjson (quoted "1.") = None /\
  rapidjson (quoted "'\ud83d\uDE00'") = Some (JStr (untxt (map ascii_of_N [240; 159; 152; 128]%N))) /\
  rapidjson (quoted "'\ud83d'") = None /\
  rapidjson (quoted "0e309") = None /\ rapidjson (quoted "-0.0") = Some (JDbl (2^63)) /\ rapidjson (quoted "-0") = Some (JInt 0) /\
  rapidjson (quoted "18446744073709551615") = Some (JInt (2^64 - 1)) /\
  rapidjson (quoted "18446744073709551616") = Some (JDbl (f_of_Q (2^64) 1)) /\
  rapidjson (quoted "-9223372036854775808") = Some (JInt (- 2^63)) /\
  rapidjson (quoted "1e-23") = Some (JDbl (scale 1 (-23) + 1)) /\
  rapidjson (quoted "0.1") = Some (JDbl (scale 1 (-1))).
Proof. repeat (match goal with |- _ /\ _ => split end); vm_compute; reflexivity. Qed.
