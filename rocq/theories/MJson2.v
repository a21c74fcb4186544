(** Model of from_json2 (src_json_interface/from_json2.cc:15-31): the lexer
    (jsonLexer.cc:24-169), the bison automaton (jsonParser.tab.cc) and the actions
    (GenericContainerWrapper, jsonParser.tab.hh:62-134). *)
From Coq Require Import ZArith Bool Lia Ascii String List.
From Verif Require Import Base F64 StrMap Value MBasic MCollapse MNum MText MJson.
Import ListNotations.
Local Open Scope Z_scope.

Definition code (c : ascii) : Z := Z.of_N (N_of_ascii c).

(** Symbol kinds of the tokens (jsonParser.tab.hh:350-369); yytranslate_
    (jsonParser.tab.cc:1120-1165) gives the end of file for 0 and for the negative code of a
    lexical error. *)
Definition S_EOF := 0.   Definition S_LCURLY := 3. Definition S_RCURLY := 4.
Definition S_LBRACE := 5. Definition S_RBRACE := 6. Definition S_COMMA := 7.
Definition S_COLON := 8. Definition S_TRUE := 9.   Definition S_FALSE := 10.
Definition S_NULL := 11. Definition S_STRING := 12. Definition S_FLOAT := 13.
Definition S_INTEGER := 14. Definition S_ERROR := 15.

(** A token: its kind, its text and the input left. *)
Definition token : Type := (Z * text) * text.

(** unicode_1, ok_unicode, unicode_min_3, unicode_min_4 (jsonLexer.cc:11, 17-20). *)
Definition unicode_1 (c : ascii) : bool := code c <? 128.
Definition ok_unicode (c : ascii) : bool := (128 <=? code c) && (code c <? 192).
Definition unicode_min_3 (c : ascii) : bool := 224 <=? code c.
Definition unicode_min_4 (c : ascii) : bool := 240 <=? code c.

(** What a backslash and this character become (jsonLexer.cc:77-88). *)
Definition unescape (c : ascii) : text :=
  match c with
  | "n"%char => [ascii_of_N 10]
  | "t"%char => [ascii_of_N 9]
  | "r"%char => [ascii_of_N 13]
  | "b"%char => [ascii_of_N 8]
  | "f"%char => [ascii_of_N 12]
  | _ => if (Ascii.eqb c bslash || Ascii.eqb c quote)%bool then [c] else [bslash; c]
  end.

(** The string case (jsonLexer.cc:67-112), after the opening quote: the decoded text and the
    rest, or [None] for an invalid or unterminated string (returned as 0 or -1, both the end
    of file).  A multi-byte character: a continuation byte, a second one if the lead byte is
    at least E0, a third one if it is at least F0. *)
Fixpoint lex_string (t : text) : option (text * text) :=
  match t with
  | [] => None
  | c :: t1 =>
      if Ascii.eqb c quote then Some ([], t1)
      else if unicode_1 c then
        if Ascii.eqb c bslash then
          match t1 with
          | [] => None
          | e :: t2 => match lex_string t2 with
                       | Some (s, r) => Some (unescape e ++ s, r)
                       | None => None
                       end
          end
        else match lex_string t1 with
             | Some (s, r) => Some (c :: s, r)
             | None => None
             end
      else
        match t1 with
        | [] => None
        | c1 :: t2 =>
            if negb (ok_unicode c1) then None
            else if unicode_min_3 c then
              match t2 with
              | [] => None
              | c2 :: t3 =>
                  if negb (ok_unicode c2) then None
                  else if unicode_min_4 c then
                    match t3 with
                    | [] => None
                    | c3 :: t4 =>
                        if negb (ok_unicode c3) then None
                        else match lex_string t4 with
                             | Some (s, r) => Some (c :: c1 :: c2 :: c3 :: s, r)
                             | None => None
                             end
                    end
                  else match lex_string t3 with
                       | Some (s, r) => Some (c :: c1 :: c2 :: s, r)
                       | None => None
                       end
              end
            else match lex_string t2 with
                 | Some (s, r) => Some (c :: c1 :: s, r)
                 | None => None
                 end
        end
  end.

Definition isdig (c : ascii) : bool := match digit_val c with Some _ => true | None => false end.
Definition is_e (c : ascii) : bool := (Ascii.eqb c "e" || Ascii.eqb c "E")%bool.
Definition is_sign (c : ascii) : bool := (Ascii.eqb c "+" || Ascii.eqb c "-")%bool.

(** The number case (jsonLexer.cc:113-150), after the first character, in the given state:
    the kind, the rest of the lexeme and the input left; [None] is an error, also when the
    input ends with the number. *)
Fixpoint lex_number (st : Z) (t : text) : option (token) :=
  match t with
  | [] => None
  | c :: t1 =>
      let go st' := match lex_number st' t1 with
                    | Some (k, l, r) => Some (k, c :: l, r)
                    | None => None
                    end in
      if isdig c then go (if st =? 0 then 1 else if st =? 3 then 4 else st)
      else if Ascii.eqb c "." then if 1 <? st then None else go 2
      else if is_e c then if (2 <? st) || (st =? 0) then None else go 3
      else if is_sign c then if st =? 3 then go 4 else None
      else if st =? 1 then Some (S_INTEGER, [], t)
      else if (st =? 4) || (st =? 2) then Some (S_FLOAT, [], t)
      else None
  end.

(** std::strncmp(p, text, length of p) == 0: [Some rest] if [t] begins with [p]. *)
Fixpoint skip_prefix (p t : text) : option text :=
  match p, t with
  | [], _ => Some t
  | a :: p', b :: t' => if Ascii.eqb a b then skip_prefix p' t' else None
  | _ :: _, [] => None
  end.
Definition keyword (p : string) (k : Z) (t : text) : token :=
  match skip_prefix (txt p) t with
  | Some r => ((k, txt p), r)
  | None => ((S_EOF, []), t)
  end.

(** yylex (jsonLexer.cc:24-169).  At the end of the text after blanks the code reads the
    terminating zero character, which gives -1.  isspace is false for bytes from 128 on. *)
Definition lex (t0 : text) : token :=
  let t := skip_space t0 in
  match t with
  | [] => ((S_EOF, []), [])
  | c :: r =>
      if negb (unicode_1 c) then ((S_ERROR, []), t)
      else if Ascii.eqb c quote then
        match lex_string r with Some (s, r') => ((S_STRING, s), r') | None => ((S_EOF, []), t) end
      else if (is_sign c || isdig c)%bool then
        match lex_number (if is_sign c then 0 else 1) r with
        | Some (k, l, r') => ((k, c :: l), r')
        | None => ((S_EOF, []), t)
        end
      else
        match c with
        | "{"%char => ((S_LCURLY, [c]), r)
        | "}"%char => ((S_RCURLY, [c]), r)
        | "["%char => ((S_LBRACE, [c]), r)
        | "]"%char => ((S_RBRACE, [c]), r)
        | ","%char => ((S_COMMA, [c]), r)
        | ":"%char => ((S_COLON, [c]), r)
        | "t"%char => keyword "true" S_TRUE t
        | "f"%char => keyword "false" S_FALSE t
        | "n"%char => keyword "null" S_NULL t
        | _ => ((S_EOF, []), t)
        end
  end.

(** GenericContainerWrapper: the container that m_stack.back() points to, and for each
    pointer below it the container that one points to as a function of the one above.  The
    pointers in m_stack are always to nested containers, the outermost first, possibly the
    same one twice. *)
Record wrap := Wrap { cur : gc; outer : list (gc -> gc) }.

(** The container the parser was given. *)
Definition plug (w : wrap) : gc := fold_left (fun c p => p c) (outer w) (cur w).

(** get_gc() followed by an operation on the result (jsonParser.tab.hh:80-89). *)
Definition on_slot (f : gc -> gc) (g : gc) : gc :=
  match g with GVec v => GVec (v ++ [f GNone]) | _ => f g end.
Definition on_top (f : gc -> gc) (w : wrap) : wrap := Wrap (on_slot f (cur w)) (outer w).

(** strtoll of a lexeme of the number case, base 10: the value is clamped to 64 bits.  [None]
    if part of the lexeme is left (`*end != 0`). *)
Definition strtoll_all (t : text) : option Z :=
  let (neg, t0) := read_sign t in
  match read_digits t0 with
  | (l, []) => match l with
               | [] => None
               | _ => let z := if neg then - dval l else dval l in
                      Some (Z.max (- 2^63) (Z.min z (2^63 - 1)))
               end
  | _ => None
  end.
(** strtod of a lexeme of the number case. *)
Definition strtod_all (t : text) : option Z :=
  let (neg, t0) := read_sign t in
  let (li, t1) := read_digits t0 in
  let (lf, t2) := read_frac t1 in
  match li ++ lf with
  | [] => None
  | l => match read_exp t2 with
         | (e, []) => Some ((if neg then 2^63 else 0) + scale (dval l) (e - zlen lf))
         | _ => None
         end
  end.

(** set_integer and set_float (jsonParser.tab.hh:95-117) on the slot: when the lexeme is not
    consumed the new slot stays as it is. *)
Definition set_integer (t : text) (g : gc) : gc :=
  match strtoll_all t with
  | Some z => if (z <=? 2^31 - 1) && (- 2^31 <=? z) then set_int z g else set_long z g
  | None => g
  end.
Definition set_float (t : text) (g : gc) : gc :=
  match strtod_all t with Some x => set_real x g | None => g end.

(** open_map (jsonParser.tab.hh:122): the slot becomes a map and the top of the stack. *)
Definition open_map (w : wrap) : wrap :=
  match cur w with
  | GVec v => Wrap (set_map0 GNone) ((fun c => GVec (v ++ [c])) :: outer w)
  | c => Wrap (set_map0 c) ((fun c => c) :: outer w)
  end.
(** set_key (jsonParser.tab.hh:128-131). *)
Definition set_key (t : text) (w : wrap) : wrap :=
  let k := untxt t in
  match cur w with
  | GVec v => Wrap GNone ((fun e => GVec (v ++ [GMap (mset k e [])])) :: outer w)
  | c => let m := old_map c in
         Wrap (match mfind k m with Some e => e | None => GNone end)
              ((fun e => GMap (mset k e m)) :: outer w)
  end.
(** close_map and pop (jsonParser.tab.hh:123, 133); with one pointer left m_stack would be
    empty. *)
Definition pop (w : wrap) : option wrap :=
  match outer w with
  | [] => None
  | p :: o => Some (Wrap (p (cur w)) o)
  end.

(** The actions of the rules (jsonParser.tab.cc:613-684) with the value of the topmost
    symbol.  open_vector calls set_vector() on the slot but does not push it; close_vector
    does nothing. *)
Definition action (rule : Z) (v : text) (w : wrap) : option wrap :=
  match rule with
  | 6 => Some (on_top (set_string (untxt v)) w)
  | 7 => Some (on_top (set_integer v) w)
  | 8 => Some (on_top (set_float v) w)
  | 9 => Some (on_top (set_bool true) w)
  | 10 => Some (on_top (set_bool false) w)
  | 11 => Some (on_top clear w)
  | 12 => Some (open_map w)
  | 13 => pop w
  | 18 => Some (set_key v w)
  | 19 => pop w
  | 20 => Some (on_top (set_vector_sz 0) w)
  | _ => Some w
  end.

(** The tables of the automaton (jsonParser.tab.cc:1009-1080). *)
Definition tab (t : list Z) (i : Z) : Z := nth (Z.to_nat i) t 0.
Definition yypact : list Z :=
  [  -2;   -15;   -15;   -15;   -15;   -15;   -15;   -15;   -15;     2;
    -15;   -15;   -15;    -8;    -2;   -15;   -15;     1;    -1;   -15;
    -15;     9;    10;     8;   -15;    -8;   -15;    -2;    -2;   -15;
    -15;   -15 ].
Definition yydefact : list Z :=
  [   2;    12;    20;     9;    10;    11;     6;     8;     7;     0;
      3;     4;     5;    14;    22;     1;    18;     0;    15;    16;
     24;     0;    23;     0;    13;     0;    21;     0;     0;    17;
     25;    19 ].
Definition yypgoto : list Z :=
  [ -15;   -15;   -14;   -15;   -15;   -15;   -15;    -7;   -15;   -15;
    -15;   -15;   -15 ].
Definition yydefgoto : list Z :=
  [   0;     9;    10;    11;    13;    17;    18;    19;    23;    12;
     14;    21;    22 ].
Definition yytable : list Z :=
  [  20;     1;    15;     2;    16;    24;    25;     3;     4;     5;
      6;     7;     8;    30;    31;    26;    28;    27;    29 ].
Definition yycheck : list Z :=
  [  14;     3;     0;     5;    12;     4;     7;     9;    10;    11;
     12;    13;    14;    27;    28;     6;     8;     7;    25 ].
Definition yyr1 : list Z :=
  [   0;    16;    17;    17;    18;    18;    18;    18;    18;    18;
     18;    18;    20;    19;    21;    21;    22;    22;    24;    23;
     26;    25;    27;    27;    28;    28 ].
Definition yyr2 : list Z :=
  [   0;     2;     0;     1;     1;     1;     1;     1;     1;     1;
      1;     1;     0;     4;     0;     1;     1;     3;     0;     4;
      0;     4;     0;     1;     1;     3 ].

(** yy_lr_goto_state_ (jsonParser.tab.cc:425-433). *)
Definition goto (s sym : Z) : Z :=
  let r := tab yypgoto (sym - 16) + s in
  if (0 <=? r) && (r <=? 18) && (tab yycheck r =? s) then tab yytable r else tab yydefgoto (sym - 16).

(** The parser: yystack_ (state and value, top first), yyla, the input left and gcw. *)
Record pst := Pst { stk : list (Z * text); la : option (Z * text); inp : text; wr : wrap }.
(** The next state of the parser, or its end: accepted, an exception (parser::error,
    jsonParser.yy:150-162, throws) or undefined behaviour. *)
Inductive next := Run (p : pst) | Stop (r : out unit) (w : wrap).

(** yyreduce (jsonParser.tab.cc:578-711). *)
Definition reduce (rule : Z) (p : pst) : next :=
  let len := Z.to_nat (tab yyr2 rule) in
  match stk p, skipn len (stk p) with
  | (_, v) :: _, (s, _) :: _ =>
      match action rule v (wr p) with
      | None => Stop Undef (wr p)
      | Some w =>
          let v' := match len with
                    | O => v
                    | S n => match nth_error (stk p) n with Some (_, x) => x | None => [] end
                    end in
          Run (Pst ((goto s (tab yyr1 rule), v') :: skipn len (stk p)) (la p) (inp p) w)
      end
  | _, _ => Stop Undef (wr p)
  end.
(** yydefault (jsonParser.tab.cc:567-572). *)
Definition default (s : Z) (p : pst) : next :=
  let r := tab yydefact s in if r =? 0 then Stop Throw (wr p) else reduce r p.
(** yynewstate and yybackup (jsonParser.tab.cc:487-564); yylex never returns the error
    token. *)
Definition pstep (p : pst) : next :=
  match stk p with
  | [] => Stop Undef (wr p)
  | (s, _) :: _ =>
      if s =? 15 then Stop (Ok tt) (wr p)
      else
        let n := tab yypact s in
        if n =? -15 then default s p
        else
          let '(k, v, r) := match la p with
                            | Some (k, v) => ((k, v), inp p)
                            | None => lex (inp p)
                            end in
          let p1 := Pst (stk p) (Some (k, v)) r (wr p) in
          let i := n + k in
          if (i <? 0) || (18 <? i) || negb (tab yycheck i =? k) then default s p1
          else
            let a := tab yytable i in
            if 0 <? a then Run (Pst ((a, v) :: stk p) None r (wr p))
            else if a =? -1 then Stop Throw (wr p)
            else reduce (- a) p1
  end.

Fixpoint run (fuel : nat) (p : pst) : out unit * wrap :=
  match fuel with
  | O => (Diverge, wr p)
  | S f => match pstep p with Run p' => run f p' | Stop r w => (r, w) end
  end.
(** parser() on a text; the number of steps is bounded (LJson2Run.v), so [Diverge] never
    comes out. *)
Definition parse_fuel (t : text) : nat := (20 * length t + 30)%nat.
Definition parse (t : text) (g : gc) : out unit * gc :=
  let '(r, w) := run (parse_fuel t) (Pst [(0, [])] None t (Wrap g [])) in (r, plug w).

(** from_json2 (from_json2.cc:15-31): parser() returns 0 or an exception escapes, as do those
    of collapse. *)
Definition from_json2 (t : text) (g : gc) : out bool * gc :=
  match parse t g with
  | (Ok _, g') => finish g'
  | (r, g') => (omap (fun _ => true) r, g')
  end.

Definition fj (s : string) : out bool * gc := from_json2 (txt s) GNone.
Example from_json2_ex :
  fj "{""a"": [1, 2], ""b"" : ""x\ny"", ""c"":{""d"" :-1.5e0}}" =
    (Ok true, GMap [("a"%string, GVInt [1; 2]); ("b"%string, GStr (String "x" (String (ascii_of_N 10) "y")));
                    ("c"%string, GMap [("d"%string, GReal (f_of_Q 3 2 + 2^63))])]) /\
  parse (txt "[[1],[2]]") GNone = (Ok tt, GVec [GVec []; GInt 1; GVec []; GInt 2]) /\
  fj "12" = (Ok true, GNone) /\ fj "{} x" = (Ok true, GMap []) /\ fj "{} {" = (Throw, GMap []) /\
  fj "[1,]" = (Throw, GVec [GInt 1]) /\ fj "" = (Ok true, GNone) /\ fj "[+1 ]" = (Ok true, GVInt [1]).
Proof. vmc. Qed.
