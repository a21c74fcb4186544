(** Model of string_escape (src/GenericContainer.cc:83-98), of the text table functions
    (src/GenericContainerSupport.cc:49-264) and of write_table
    (src/GenericContainerTables.cc:33-79). *)
From Coq Require Import ZArith Bool Lia Ascii String List.
From Verif Require Import Base F64 StrMap Value MBasic MGet MMap MMat MNum.
Import ListNotations.
Local Open Scope Z_scope.

Definition chr (n : nat) : ascii := ascii_of_nat n.
Definition nl : ascii := chr 10.
Definition cr : ascii := chr 13.
Definition bslash : ascii := chr 92.
Definition quote : ascii := chr 34.

(** string_escape (src/GenericContainer.cc:83-98): what is appended to the stream. *)
Definition escape_char (c : ascii) : text :=
  if Ascii.eqb c quote then [bslash; quote]
  else if Ascii.eqb c nl then [bslash; "n"%char]
  else if Ascii.eqb c cr then [bslash; "r"%char]
  else if Ascii.eqb c (chr 9) then [bslash; "t"%char]
  else if Ascii.eqb c (chr 11) then [bslash; "v"%char]
  else if Ascii.eqb c (chr 8) then [bslash; "b"%char]
  else if Ascii.eqb c (chr 7) then [bslash; "a"%char]
  else if Ascii.eqb c bslash then [bslash; bslash]
  else [c].
Definition string_escape (s : string) : text := quote :: flat_map escape_char (txt s) ++ [quote].

(** Membership in a set of characters given as a string. *)
Definition inset (d : text) (c : ascii) : bool := existsb (Ascii.eqb c) d.

(** Index of the first character satisfying [p]. *)
Fixpoint index (p : ascii -> bool) (t : text) : option nat :=
  match t with
  | [] => None
  | c :: t' => if p c then Some O else option_map S (index p t')
  end.
(** find_first_of / find_first_not_of from a position; npos is [None]. *)
Definition find_from (p : ascii -> bool) (s : text) (pos : option nat) : option nat :=
  match pos with
  | None => None
  | Some i => option_map (Nat.add i) (index p (skipn i s))
  end.

(** The loop of tokenizeString (src/GenericContainerSupport.cc:59-70). *)
Fixpoint tok_loop (fuel : nat) (s d : text) (last pos : option nat) : out (list text) :=
  match last, pos with
  | None, None => Ok []
  | _, _ =>
      match fuel with
      | O => Diverge
      | S f =>
          do t <- (match last, pos with
                   | Some l, Some p => Ok (firstn (p - l) (skipn l s))
                   | Some l, None => Ok (skipn l s)
                   | None, _ => Throw (* substr at npos *)
                   end) ;
          let last' := find_from (fun c => negb (inset d c)) s pos in
          let pos' := find_from (inset d) s last' in
          do ts <- tok_loop f s d last' pos' ;
          Ok (t :: ts)
      end
  end.
(** Lines 72-75: a last token that starts with an end-of-line character is dropped. *)
Definition drop_eol (ts : list text) : list text :=
  match rev ts with
  | (c :: _) :: r => if Ascii.eqb c nl || Ascii.eqb c cr then rev r else ts
  | _ => ts
  end.
(** tokenizeString (src/GenericContainerSupport.cc:49-76). *)
Definition tokenize (s d : text) : out (list text) :=
  let last := find_from (fun c => negb (inset d c)) s (Some O) in
  let pos := find_from (inset d) s last in
  do ts <- tok_loop (S (length s)) s d last pos ;
  Ok (drop_eol ts).

(** std::istream as far as it is used: remaining characters, eofbit, failbit. *)
Record stream : Type := Stream { s_rest : text; s_eof : bool; s_fail : bool }.
Definition open (t : text) : stream := Stream t false false.
Fixpoint cut_line (t : text) : text * option text :=
  match t with
  | [] => ([], None)
  | c :: t' => if Ascii.eqb c nl then ([], Some t') else let (l, r) := cut_line t' in (c :: l, r)
  end.
(** std::getline( stream, line ).  When the stream is not good the sentry fails: failbit is
    set and the string is left as it was. *)
Definition getline (line : text) (st : stream) : text * stream :=
  if s_eof st || s_fail st then (line, Stream (s_rest st) (s_eof st) true)
  else match cut_line (s_rest st) with
       | (l, Some r) => (l, Stream r false false)
       | (l, None) => (l, Stream [] true (match l with [] => true | _ => false end))
       end.

Definition has_comment (cc line : text) : bool := existsb (inset cc) line.

(** get_line_and_skip_comments (src/GenericContainerSupport.cc:86-100): the number of lines
    read (0 at the end), the line, the stream. *)
Fixpoint get_line (fuel : nat) (cc line : text) (n : Z) (st : stream) : out (Z * text * stream) :=
  match fuel with
  | O => Diverge
  | S f =>
      if s_fail st then Ok (0, line, st)
      else let (line', st') := getline line st in
           if has_comment cc line' then get_line f cc line' (n + 1) st'
           else Ok (n + 1, line', st')
  end.
(** Enough for every stream: every getline consumes a character or sets a flag. *)
Definition fuel_of (st : stream) : nat := length (s_rest st) + 4.
Definition get_line_and_skip_comments (cc line : text) (st : stream) : out (Z * text * stream) :=
  get_line (fuel_of st) cc line 0 st.

(** Trimming of spaces and tabs (src/GenericContainerSupport.cc:117-122); a string of blanks
    only is left alone. *)
Fixpoint trim_front (t : text) : text :=
  match t with c :: t' => if Ascii.eqb c " " || Ascii.eqb c (chr 9) then trim_front t' else t | [] => [] end.
Definition trim (t : text) : text :=
  match trim_front t with [] => t | t1 => rev (trim_front (rev t1)) end.

(** The parameter lines of get_line_and_skip_comments2
    (src/GenericContainerSupport.cc:110-126): [pars] is the content of *ptr_pars if given. *)
Definition read_param (line : text) (pars : option gc) : out (option gc) :=
  match pars, line with
  | Some p, _ :: c :: (_ :: _) as rest =>
      if Ascii.eqb c "!" then
        do ts <- tokenize (skipn 2 line) (txt "=") ;
        match ts with
        | l :: r :: _ =>
            let lhs := untxt (trim l) in
            let rhs := trim r in
            let v := match strtod rhs with Some x => GReal x | None => GStr (untxt rhs) end in
            Ok (Some (snd (with_key lhs (fun _ => (Ok tt, v)) p)))
        | _ => Ok pars
        end
      else Ok pars
  | _, _ => Ok pars
  end.
(** get_line_and_skip_comments2 (src/GenericContainerSupport.cc:102-139). *)
Fixpoint get_line2 (fuel : nat) (cc line : text) (n : Z) (pars : option gc) (st : stream)
    : out (Z * text * stream * option gc) :=
  match fuel with
  | O => Diverge
  | S f =>
      if s_fail st then Ok (0, line, st, pars)
      else let (line', st') := getline line st in
           if (match line' with [] => true | _ => false end) || has_comment cc line' then
             do pars' <- read_param line' pars ;
             get_line2 f cc line' (n + 1) pars' st'
           else Ok (n + 1, line', st', pars)
  end.

(** * Writing tables *)

Definition sep_by (delim : ascii) (cells : list text) : text :=
  match cells with [] => [] | c :: r => c ++ flat_map (fun x => delim :: x) r end.

(** write_table for a vector of columns (src/GenericContainerTables.cc:33-55): the text
    written.  [P] is the precision of the stream.  Access to headers[0] and data[0] when
    empty, and to data[icol] beyond the end, is undefined.  Simplified: when a cell throws,
    the part already written is not recorded. *)
Definition write_table_vec (P : nat) (headers : list string) (data : list gc) (delim : ascii) : out text :=
  match data, headers with
  | d0 :: _, _ :: _ =>
      let ncol := zlen headers in
      let nrow := num_elements d0 in
      do rows <- omapM (fun row =>
           do cells <- omapM (fun icol =>
             do c <- raw_at icol data ;
             do x <- get_number_at row c ;
             Ok (print_g P x)) (zseq ncol) ;
           Ok (sep_by delim cells ++ [nl])) (zseq nrow) ;
      Ok (sep_by delim (map txt headers) ++ [nl] ++ concat rows)
  | _, _ => Undef
  end.
(** write_table for a real matrix (src/GenericContainerTables.cc:57-79): the number of
    columns is that of the matrix; headers[icol] beyond the end is undefined. *)
Definition write_table_mat (P : nat) (headers : list string) (data : mat Z) (delim : ascii) : out text :=
  do h0 <- raw_at 0 headers ;
  do hs <- omapM (fun icol => raw_at icol headers) (map (fun k => k + 1) (zseq (mcols data - 1))) ;
  do rows <- omapM (fun row =>
       do c0 <- mat_get data row 0 ;
       do cells <- omapM (fun icol => mat_get data row icol) (map (fun k => k + 1) (zseq (mcols data - 1))) ;
       Ok (sep_by delim (map (print_g P) (c0 :: cells)) ++ [nl])) (zseq (mrows data)) ;
  Ok (sep_by delim (map txt (h0 :: hs)) ++ [nl] ++ concat rows).

Definition k_headers : string := "headers".
Definition k_data : string := "data".
(** write_formatted_data (src/GenericContainerSupport.cc:145-165). *)
Definition write_formatted_data (P : nat) (delim : ascii) (g : gc) : out text :=
  if exists_key k_headers g then
    if exists_key k_data g then
      do data <- call_key k_data g ;
      do h <- call_key k_headers g ;
      do headers <- get_vec_string h ;
      match data with
      | GMReal m => write_table_mat P headers m delim
      | _ => do v <- get_vector data ; write_table_vec P headers v delim
      end
    else Throw
  else Throw.

(** * Reading tables *)

(** data[icol].get_vec_real().push_back(x).  The columns are VEC_REAL by construction. *)
Definition push_cell (x : Z) (c : gc) : gc :=
  match c with GVReal v => GVReal (v ++ [x]) | _ => c end.
Fixpoint push_cells (ts : list text) (cols : list gc) : list gc :=
  match ts, cols with
  | t :: ts', c :: cols' => push_cell (atof t) c :: push_cells ts' cols'
  | _, _ => cols
  end.
(** The reading loop of read_formatted_data (src/GenericContainerSupport.cc:189-209): the
    first [ncol] columns of [cols] receive the cells. *)
Fixpoint read_rows (fuel : nat) (cc dl line : text) (ncol : Z) (st : stream) (cols : list gc) : out unit * list gc :=
  match fuel with
  | O => (Diverge, cols)
  | S f =>
      match get_line_and_skip_comments cc line st with
      | Ok (n, line', st') =>
          if n =? 0 then (Ok tt, cols) else
          match tokenize line' dl with
          | Ok [] => (Ok tt, cols)
          | Ok ts => if zlen ts =? ncol then read_rows f cc dl line' ncol st' (push_cells ts cols)
                     else (Throw, cols)
          | Throw => (Throw, cols) | Undef => (Undef, cols) | Diverge => (Diverge, cols)
          end
      | Throw => (Throw, cols) | Undef => (Undef, cols) | Diverge => (Diverge, cols)
      end
  end.
(** The first [n] columns become VEC_REAL (a column that is one keeps its content,
    set_vec_real() without size). *)
Fixpoint real_cols (n : nat) (cols : list gc) : list gc :=
  match n, cols with
  | S n', c :: t => set_vreal_sz 0 c :: real_cols n' t
  | _, _ => cols
  end.
(** read_formatted_data (src/GenericContainerSupport.cc:169-211). *)
Definition read_formatted_data (cc dl : text) (st : stream) (g : gc) : out unit * gc :=
  let m0 := old_map (set_map0 g) in
  match get_line_and_skip_comments cc [] st with
  | Ok (_, line, st') =>
      match tokenize line dl with
      | Ok hs =>
          let m1 := mset k_headers (GVStr (map untxt hs)) m0 in
          let ncol := zlen hs in
          let v := alloc_vec ncol (match mfind k_data m1 with Some e => e | None => GNone end) in
          let '(r, cols) := read_rows (fuel_of st) cc dl line ncol st' (real_cols (Z.to_nat ncol) v) in
          (r, GMap (mset k_data (GVec cols) m1))
      | Throw => (Throw, GMap m0) | Undef => (Undef, GMap m0) | Diverge => (Diverge, GMap m0)
      end
  | Throw => (Throw, GMap m0) | Undef => (Undef, GMap m0) | Diverge => (Diverge, GMap m0)
  end.

(** read_formatted_data2 (src/GenericContainerSupport.cc:215-264): the columns are the
    entries of a map, found again through pointers. *)
Definition add_col (h : string) (g : gc) : gc :=
  snd (with_key h (fun e => (Ok tt, set_vreal_sz 0 e)) g).
Definition push_col (h : string) (x : Z) (g : gc) : gc :=
  snd (with_key h (fun e => (Ok tt, push_cell x e)) g).
Fixpoint push_cols (hs : list string) (ts : list text) (data : gc) : gc :=
  match hs, ts with
  | h :: hs', t :: ts' => push_cols hs' ts' (push_col h (atof t) data)
  | _, _ => data
  end.
Fixpoint read_rows2 (fuel : nat) (cc dl line : text) (hs : list string) (st : stream) (pars : option gc) (data : gc)
    : out unit * gc * option gc :=
  match fuel with
  | O => (Diverge, data, pars)
  | S f =>
      match get_line2 (fuel_of st) cc line 0 pars st with
      | Ok (n, line', st', pars') =>
          if n =? 0 then (Ok tt, data, pars') else
          match tokenize line' dl with
          | Ok [] => (Ok tt, data, pars')
          | Ok ts => if zlen ts =? zlen hs then read_rows2 f cc dl line' hs st' pars' (push_cols hs ts data)
                     else (Throw, data, pars')
          | Throw => (Throw, data, pars') | Undef => (Undef, data, pars') | Diverge => (Diverge, data, pars')
          end
      | Throw => (Throw, data, pars) | Undef => (Undef, data, pars) | Diverge => (Diverge, data, pars)
      end
  end.
Definition read_formatted_data2 (cc dl : text) (st : stream) (pars : option gc) (g : gc) : out unit * gc * option gc :=
  let m0 := old_map (set_map0 g) in
  match get_line2 (fuel_of st) cc [] 0 pars st with
  | Ok (_, line, st', pars') =>
      match tokenize line dl with
      | Ok ts =>
          let hs := map untxt ts in
          let m1 := mset k_headers (GVStr hs) m0 in
          let data0 := match mfind k_data m1 with Some e => e | None => GNone end in
          let data1 := fold_left (fun d h => add_col h d) hs data0 in
          let '(r, data, pars2) := read_rows2 (fuel_of st) cc dl line hs st' pars' data1 in
          (r, GMap (mset k_data data m1), pars2)
      | Throw => (Throw, GMap m0, pars') | Undef => (Undef, GMap m0, pars') | Diverge => (Diverge, GMap m0, pars')
      end
  | Throw => (Throw, GMap m0, pars) | Undef => (Undef, GMap m0, pars) | Diverge => (Diverge, GMap m0, pars)
  end.

Definition ln (s : string) : text := txt s ++ [nl].
Example read_ex : read_formatted_data (txt "#") (txt " ") (open (ln "# c" ++ ln "a b" ++ ln "1 2.5" ++ ln "#x" ++ ln "3 4")) GNone
  = (Ok tt, GMap [("data"%string, GVec [GVReal [f_of_Z 1; f_of_Z 3]; GVReal [f_of_Q 5 2; f_of_Z 4]]); ("headers"%string, GVStr ["a"; "b"]%string)]).
Proof. vm_compute. reflexivity. Qed.
Example read_ex2 : read_formatted_data2 (txt "#") (txt " ") (open (ln "#! k = 7 " ++ ln "a b" ++ ln "" ++ ln "1 2.5" ++ txt "3 4")) (Some GNone) GNone
  = (Ok tt, GMap [("data"%string, GMap [("a"%string, GVReal [f_of_Z 1; f_of_Z 3; f_of_Z 3]); ("b"%string, GVReal [f_of_Q 5 2; f_of_Z 4; f_of_Z 4])]); ("headers"%string, GVStr ["a"; "b"]%string)],
     Some (GMap [("k"%string, GReal (f_of_Z 7))])).
Proof. vm_compute. reflexivity. Qed.
