(** Specification of the text functions, independent of the model's helpers. *)
From Coq Require Import ZArith Bool Lia Ascii String List.
From Verif Require Import Base F64 StrMap Value MNum LNum MText.
Import ListNotations.
Local Open Scope Z_scope.

(** ** C41: how a quoted string is read.  The meaning of a character after a backslash is
    that of a C string literal. *)
Definition unescape (c : ascii) : option ascii :=
  match c with
  | "n"%char => Some (ascii_of_nat 10)
  | "r"%char => Some (ascii_of_nat 13)
  | "t"%char => Some (ascii_of_nat 9)
  | "v"%char => Some (ascii_of_nat 11)
  | "b"%char => Some (ascii_of_nat 8)
  | "a"%char => Some (ascii_of_nat 7)
  | "\"%char => Some "\"%char
  | """"%char => Some """"%char
  | _ => None
  end.
(** Reads up to the first quote that is not escaped: content and rest of the input. *)
Fixpoint read_body (t : text) : option (text * text) :=
  match t with
  | [] => None
  | """"%char :: r => Some ([], r)
  | "\"%char :: c :: r =>
      match unescape c, read_body r with
      | Some c', Some (s, rest) => Some (c' :: s, rest)
      | _, _ => None
      end
  | c :: r => match read_body r with Some (s, rest) => Some (c :: s, rest) | None => None end
  end.
Definition read_quoted (t : text) : option (text * text) :=
  match t with """"%char :: r => read_body r | _ => None end.

(** ** C42: [splits d s ts]: [s] is the tokens [ts], each non-empty, free of delimiters and
    as long as possible, separated by delimiters. *)
Inductive splits (d : text) : text -> list text -> Prop :=
| splits_end gap : Forall (fun c => In c d) gap -> splits d gap []
| splits_token gap t r ts :
    Forall (fun c => In c d) gap ->
    t <> [] -> Forall (fun c => ~ In c d) t ->
    (forall c, hd_error r = Some c -> In c d) ->
    splits d r ts ->
    splits d (gap ++ t ++ r) (t :: ts).

(** The token starts with an end-of-line character. *)
Definition starts_eol (t : text) : Prop :=
  hd_error t = Some (ascii_of_nat 10) \/ hd_error t = Some (ascii_of_nat 13).

(** [tokens d s ts]: the tokens of [s], where a last one that starts with an end-of-line
    character is dropped. *)
Inductive tokens (d s : text) : list text -> Prop :=
| tokens_all ts : splits d s ts -> (forall ts' t, ts = ts' ++ [t] -> ~ starts_eol t) -> tokens d s ts
| tokens_eol ts t : splits d s (ts ++ [t]) -> starts_eol t -> tokens d s ts.

(** ** C44: lines. *)
Definition newline : ascii := ascii_of_nat 10.
Definition one_line (l : text) : Prop := ~ In newline l.
Definition commented (cc l : text) : Prop := exists c, In c l /\ In c cc.
(** A text made of complete lines. *)
Definition lines (ls : list text) : text := concat (map (fun l => l ++ [newline]) ls).
(** The lines obtained by calling get_line_and_skip_comments until it returns 0; [line] is
    the initial content of the variable that receives the lines. *)
Inductive reads (cc : text) : text -> stream -> list text -> Prop :=
| reads_end line st l st' :
    get_line_and_skip_comments cc line st = Ok (0, l, st') -> reads cc line st []
| reads_next line st n l st' ls :
    get_line_and_skip_comments cc line st = Ok (n, l, st') -> 0 < n ->
    reads cc l st' ls -> reads cc line st (l :: ls).
(** [kept cc ls ls']: the lines of [ls] that are not commented. *)
Inductive kept (cc : text) : list text -> list text -> Prop :=
| kept_nil : kept cc [] []
| kept_skip l ls ls' : commented cc l -> kept cc ls ls' -> kept cc (l :: ls) ls'
| kept_keep l ls ls' : ~ commented cc l -> kept cc ls ls' -> kept cc (l :: ls) (l :: ls').

(** ** C43: tables. *)
(** [table_rows d ncol ls rows ok]: the rows of a table with [ncol] columns given by the
    lines [ls].  A line without tokens ends the table; a line with another number of tokens
    is an error ([ok] is false) and ends it too. *)
Inductive table_rows (d : text) (ncol : nat) : list text -> list (list text) -> bool -> Prop :=
| rows_end : table_rows d ncol [] [] true
| rows_blank l ls : tokens d l [] -> table_rows d ncol (l :: ls) [] true
| rows_row l ls ts rows ok :
    tokens d l ts -> ts <> [] -> length ts = ncol -> table_rows d ncol ls rows ok ->
    table_rows d ncol (l :: ls) (ts :: rows) ok
| rows_bad l ls ts :
    tokens d l ts -> ts <> [] -> length ts <> ncol -> table_rows d ncol (l :: ls) [] false.

(** The numbers of a column. *)
Definition column (c : gc) : option (list Z) :=
  match c with
  | GVBool v => Some (map f_of_bool v)
  | GVInt v => Some (map f_of_Z v)
  | GVLong v => Some (map f_of_Z v)
  | GVReal v => Some v
  | _ => None
  end.
(** The characters of a written finite number. *)
Definition number_chars : text := list_ascii_of_string "0123456789+-.e".
(** A header name that survives: not empty, no delimiter, comment or newline character, not
    starting with a carriage return. *)
Definition plain_header (cc dl : text) (h : string) : Prop :=
  let t := list_ascii_of_string h in
  t <> [] /\ hd_error t <> Some (ascii_of_nat 13) /\
  (forall c, In c t -> ~ In c cc /\ ~ In c dl /\ c <> newline).
(** The formatting characters do not clash with each other or with numbers. *)
Definition plain_format (cc dl : text) (delim : ascii) : Prop :=
  In delim dl /\ ~ In delim cc /\ delim <> newline /\
  (forall c, In c number_chars -> ~ In c cc /\ ~ In c dl).
