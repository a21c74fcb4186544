(** Properties of the text functions: escaping, tokens, comment lines, tables. *)
From Coq Require Import ZArith Bool Lia Ascii String List.
From Verif Require Import Base F64 StrMap Value WfDec MBasic MGet MMap MMat MNum LNum LNum2 MText SText LText LTable.
Import ListNotations.
Local Open Scope Z_scope.

(** ** C41: string_escape is unambiguous. *)
Lemma read_body_plain c r : c <> """"%char -> c <> "\"%char ->
  read_body (c :: r) = match read_body r with Some (s, rest) => Some (c :: s, rest) | None => None end.
Proof.
  intros H1 H2. destruct c as [[] [] [] [] [] [] [] []]; try reflexivity; exfalso; (now apply H1) || (now apply H2).
Qed.
Lemma read_body_escape c t rest s r : read_body t = Some (s, r) -> rest = escape_char c ++ t -> read_body rest = Some (c :: s, r).
Proof.
  intros H ->. unfold escape_char.
  repeat match goal with
  | |- context [Ascii.eqb c ?x] => destruct (Ascii.eqb_spec c x) as [->|?]; [cbn [app]; cbn [read_body]; cbn; rewrite H; reflexivity|]
  end.
  cbn [app]. rewrite read_body_plain by assumption. now rewrite H.
Qed.
(** Reading the quoted text gives back exactly the string and leaves exactly what follows:
    the closing quote is the first quote that is not escaped. *)
Theorem C41_round_trip s rest : read_quoted (string_escape s ++ rest) = Some (txt s, rest).
Proof.
  unfold string_escape. cbn [app read_quoted]. rewrite <- app_assoc.
  change (read_quoted (quote :: ?t)) with (read_body t). induction (txt s) as [|c t IH].
  - reflexivity.
  - cbn [flat_map]. rewrite <- app_assoc. eapply read_body_escape; [|reflexivity]. exact IH.
Qed.
(** Two strings with the same quoted form are equal. *)
Theorem C41_injective s s' rest rest' : string_escape s ++ rest = string_escape s' ++ rest' -> s = s' /\ rest = rest'.
Proof.
  intros E. pose proof (C41_round_trip s rest) as H. rewrite E, C41_round_trip in H. assert (H1 : txt s' = txt s /\ rest' = rest) by (split; congruence).
  destruct H1 as (H1 & ->). split; [|reflexivity]. apply (f_equal untxt) in H1. now rewrite !untxt_txt in H1.
Qed.
(** No control character of the escaped kinds is written as such. *)
Theorem C41_one_line s : ~ In newline (string_escape s).
Proof.
  unfold string_escape. intros [H|H]; [discriminate|]. apply in_app_or in H as [H|H]; [|destruct H as [H|[]]; discriminate].
  apply in_flat_map in H as (c & _ & H). unfold escape_char in H.
  repeat match type of H with
  | In _ (if Ascii.eqb c ?x then _ else _) => destruct (Ascii.eqb_spec c x) as [?|?]; [destruct H as [H|[H|[]]]; discriminate|]
  end. destruct H as [H|[]]. now subst.
Qed.
Example C41_example : string_escape "a\""b" = txt """a\\\""b"""%string
  /\ read_quoted (txt """a\\\""b"" tail"%string) = Some (txt "a\""b"%string, txt " tail"%string).
Proof. split; vm_compute; reflexivity. Qed.

(** ** C42: the tokenizer. *)
(** Every string has exactly one decomposition. *)
Theorem C42_splits_unique d s : exists ts, splits d s ts /\ forall ts', splits d s ts' -> ts' = ts.
Proof.
  destruct (splits_exists d s) as (ts & H). exists ts. split; [assumption|]. intros ts' H'. symmetry. now apply (splits_unique d s ts H).
Qed.
(** The result for every string: the maximal runs, except that a last token that starts with
    an end-of-line character is missing. *)
Theorem C42_result d s ts : tokenize s d = Ok ts <-> tokens d s ts.
Proof. symmetry. apply tokens_iff. Qed.
(** Missing for the full property: strings whose last token starts with an end-of-line
    character. *)
Theorem C42_partial d s ts : splits d s ts -> (forall ts' t, ts = ts' ++ [t] -> ~ starts_eol t) -> tokenize s d = Ok ts.
Proof. intros H He. apply tokens_iff. now apply tokens_all. Qed.
(** In particular it holds in full when both end-of-line characters are delimiters. *)
Theorem C42_eol_delims d s ts : In (ascii_of_nat 10) d -> In (ascii_of_nat 13) d -> splits d s ts -> tokenize s d = Ok ts.
Proof.
  intros H1 H2 H. apply C42_partial; [assumption|]. intros ts' t -> He.
  assert (G : forall s ts, splits d s ts -> Forall (fun t => Forall (fun c => ~ In c d) t) ts).
  { clear. induction 1; constructor; assumption. }
  apply G in H. apply Forall_app in H as (_ & H). apply Forall_inv in H.
  destruct t as [|c t]; [destruct He; easy|]. apply Forall_inv in H. destruct He as [E|E]; apply Some_inj in E; subst c; easy.
Qed.
Example C42_example : splits (txt " ,") (txt "  ab, c ") [txt "ab"; txt "c"].
Proof.
  assert (D : forall c, In c (txt " ,") -> In c (txt " ,")) by auto.
  assert (Sp : In " "%char (txt " ,")) by (now left). assert (Cm : In ","%char (txt " ,")) by (right; now left).
  apply (splits_token (txt " ,") (txt "  ") (txt "ab") (txt ", c ") [txt "c"]).
  - now repeat constructor.
  - discriminate.
  - repeat constructor; intros [H|[H|[]]]; discriminate.
  - intros c H. apply Some_inj in H. now subst.
  - apply (splits_token (txt " ,") (txt ", ") (txt "c") (txt " ") []).
    + now repeat constructor.
    + discriminate.
    + repeat constructor; intros [H|[H|[]]]; discriminate.
    + intros c H. apply Some_inj in H. now subst.
    + apply splits_end. now repeat constructor.
Qed.
(** A last token that starts with a carriage return is lost. *)
Theorem C42_refuted : exists d s ts, splits d s ts /\ tokenize s d = Ok (removelast ts) /\ removelast ts <> ts.
Proof.
  exists (txt " "), ["a"; " "; ascii_of_nat 13; "b"]%char, [["a"]; [ascii_of_nat 13; "b"]]%char. split; [|split; [vm_compute; reflexivity | discriminate]].
  apply (splits_token (txt " ") [] ["a"%char] [" "%char; ascii_of_nat 13; "b"%char] [[ascii_of_nat 13; "b"%char]]).
  - constructor.
  - discriminate.
  - repeat constructor; intros [H|[]]; discriminate.
  - intros c H. apply Some_inj in H. subst. now left.
  - apply (splits_token (txt " ") [" "%char] [ascii_of_nat 13; "b"%char] [] []).
    + repeat constructor.
    + discriminate.
    + repeat constructor; intros [H|[]]; discriminate.
    + easy.
    + apply splits_end. constructor.
Qed.

(** ** C44: comment lines. *)
(** What is returned for a text made of the complete lines [ls]: the lines without comment
    characters, in order, then one empty line that is not in the text, then the end. *)
Theorem C44_lines_partial cc line ls ks : Forall one_line ls -> kept cc ls ks ->
  reads cc line (open (lines ls)) (ks ++ [[]]).
Proof.
  intros H K. rewrite <- (app_nil_r (lines ls)). apply reads_lines; [assumption | assumption | apply reads_last_empty].
Qed.
(** When the last line [l] is not terminated: nothing more if it is a comment; otherwise it is
    returned twice. *)
Theorem C44_last_line cc line ls ks l : Forall one_line ls -> one_line l -> l <> [] -> kept cc ls ks ->
  (commented cc l -> reads cc line (open (lines ls ++ l)) ks) /\
  (~ commented cc l -> reads cc line (open (lines ls ++ l)) (ks ++ [l; l])).
Proof.
  intros H Hl Hne K. split; intros C.
  - rewrite <- (app_nil_r ks). apply reads_lines; [assumption|assumption|]. now apply reads_last_comment.
  - apply reads_lines; [assumption|assumption|]. now apply reads_last_data.
Qed.
(** Reading always ends, with one sequence of lines, and no returned line contains a comment
    character. *)
Theorem C44_ends cc line st : exists ls, reads cc line st ls /\ (forall ls', reads cc line st ls' -> ls' = ls) /\ Forall (fun l => ~ commented cc l) ls.
Proof.
  destruct (reads_exists cc st line) as (ls & H). exists ls. split; [assumption|]. split; [intros ls' H'; symmetry; now apply (reads_unique _ _ _ _ H)|].
  induction H as [|line st n l st' ls E Hn H IH]; constructor; [|assumption].
  destruct (get_line_ok cc st (fuel_of st) line 0 (measure_fuel st) ltac:(lia)) as (k & l' & st2 & E2 & D).
  unfold get_line_and_skip_comments in E. rewrite E in E2. inversion E2; subst. destruct D as [D|(_ & _ & D)]; [lia | assumption].
Qed.
Example C44_example : Forall one_line [txt "a b"; txt "1 # x"; txt ""; txt "c"]
  /\ kept (txt "#") [txt "a b"; txt "1 # x"; txt ""; txt "c"] [txt "a b"; txt ""; txt "c"].
Proof.
  split.
  - repeat constructor; intros H; repeat (destruct H as [H|H]; [discriminate|]); exact H.
  - apply kept_keep. { intros (c & H & [<-|[]]). repeat (destruct H as [H|H]; [discriminate|]). exact H. }
    apply kept_skip. { exists "#"%char. split; [do 2 right; now left | now left]. }
    apply kept_keep. { intros (c & [] & _). }
    apply kept_keep. { intros (c & H & [<-|[]]). repeat (destruct H as [H|H]; [discriminate|]). exact H. }
    constructor.
Qed.
(** A data line returned twice: the last line of a text without final newline. *)
Theorem C44_refuted : exists cc t, one_line t /\ ~ commented cc t /\ reads cc [] (open t) [t; t].
Proof.
  exists (txt "#"), (txt "1 2"). split; [|split].
  - intros H. repeat (destruct H as [H|H]; [discriminate|]). exact H.
  - intros (c & H & [<-|[]]). repeat (destruct H as [H|H]; [discriminate|]). exact H.
  - apply reads_last_data; [| |discriminate].
    + intros H. repeat (destruct H as [H|H]; [discriminate|]). exact H.
    + intros (c & H & [<-|[]]). repeat (destruct H as [H|H]; [discriminate|]). exact H.
Qed.
(** A text that is only a comment, without final newline: the comment becomes the header. *)
Theorem C44_header_refuted : read_formatted_data (txt "#") (txt " ") (open (txt "#x")) GNone =
  (Ok tt, GMap [("data"%string, GVec [GVReal []]); ("headers"%string, GVStr ["#x"%string])]).
Proof. vm_compute. reflexivity. Qed.

(** ** C43: table round trip. *)
(** Each column of the table holds [n] numbers that survive the precision [P]: either they
    have at most P significant digits, or P is at least 17. *)
Definition writable (P : nat) (x : Z) : Prop := f64 x /\ is_finite x = true /\ (dec_digits P x \/ (17 <= P)%nat).
Lemma writable_cell P x : (1 <= P)%nat -> writable P x -> cell_ok P x.
Proof.
  intros HP (Hx & Hf & [D|D]); (split; [assumption|]).
  - now apply atof_print.
  - now apply atof_print17.
Qed.

(** Writing a table of [n] rows and reading the text into an empty container gives the same
    headers and the same columns (as real numbers).  Missing for the full property: numbers
    that the precision of the stream cannot represent, see [C43_refuted]. *)
Theorem C43_round_trip_partial P cc dl delim m headers data cols n :
  (1 <= P)%nat -> plain_format cc dl delim ->
  headers <> [] -> Forall (plain_header cc dl) headers -> length headers = length data ->
  Z.of_nat n < 2^32 ->
  Forall2 (fun c xs => column c = Some xs /\ length xs = n /\ Forall (writable P) xs) data cols ->
  mfind "headers" m = Some (GVStr headers) -> mfind "data" m = Some (GVec data) ->
  exists t, write_formatted_data P delim (GMap m) = Ok t /\
    read_formatted_data cc dl (open t) GNone =
      (Ok tt, GMap [("data"%string, GVec (map GVReal cols)); ("headers"%string, GVStr headers)]).
Proof.
  intros HP Hf Hh Hhs Hl Hn H2 Mh Md.
  assert (Hlc : length data = length cols) by now apply F2_len in H2.
  exists (table_text P delim headers cols n). split.
  - unfold write_formatted_data. unfold exists_key, call_key. change (cstr k_headers) with "headers"%string. change (cstr k_data) with "data"%string.
    unfold mhas. rewrite Mh, Md. cbn [bind get_vec_string]. cbn [get_vector bind]. 
    apply write_table_vec_text; try assumption.
    clear - H2. induction H2 as [|? ? ? ? (A & B & _)]; constructor; auto.
  - rewrite (round_trip_table P cc dl delim headers cols n GNone HP Hf Hh Hhs); [reflexivity | lia | | reflexivity].
    clear - H2 HP. induction H2 as [|? ? ? ? (A & B & C)]; constructor; auto. split; [assumption|].
    eapply Forall_impl; [|exact C]. intros z Hz. now apply writable_cell.
Qed.
(** The same when the data is a real matrix: its columns are read back. *)
Theorem C43_matrix_partial P cc dl delim m headers a :
  (1 <= P)%nat -> plain_format cc dl delim ->
  Forall (plain_header cc dl) headers -> zlen headers = mcols a ->
  zlen (mdata a) = mrows a * mcols a -> mrows a * mcols a < 2^32 -> 0 <= mrows a -> 0 < mcols a ->
  Forall (writable P) (mdata a) ->
  mfind "headers" m = Some (GVStr headers) -> mfind "data" m = Some (GMReal a) ->
  exists t cols, write_formatted_data P delim (GMap m) = Ok t /\
    read_formatted_data cc dl (open t) GNone =
      (Ok tt, GMap [("data"%string, GVec (map GVReal cols)); ("headers"%string, GVStr headers)]) /\
    zlen cols = mcols a /\
    forall i j, 0 <= i < mrows a -> 0 <= j < mcols a ->
      exists xs, znth j cols = Some xs /\ zlen xs = mrows a /\ znth i xs = znth (i + j * mrows a) (mdata a).
Proof.
  intros HP Hf Hhs Hl Hd Hs Hr Hc Hw Mh Md.
  assert (Hh : headers <> []) by (intros ->; change (zlen (@nil string)) with 0 in Hl; lia).
  exists (table_text P delim headers (mat_cols a) (Z.to_nat (mrows a))), (mat_cols a). split; [|split; [|split]].
  - unfold write_formatted_data. unfold exists_key, call_key. change (cstr k_headers) with "headers"%string. change (cstr k_data) with "data"%string.
    unfold mhas. rewrite Mh, Md. cbn [bind get_vec_string]. now apply write_table_mat_text.
  - rewrite (round_trip_table P cc dl delim headers (mat_cols a) (Z.to_nat (mrows a)) GNone HP Hf Hh Hhs); [reflexivity | | | reflexivity].
    + rewrite mat_cols_len. unfold zlen in Hl. lia.
    + apply Forall_forall. intros xs Hxs. destruct (mat_cols_In _ _ Hxs) as (L & I). split; [assumption|].
      apply Forall_forall. intros x Hx. apply writable_cell; [assumption|]. rewrite Forall_forall in Hw. apply Hw. now apply I.
  - unfold zlen. rewrite mat_cols_len. lia.
  - intros i j Hi Hj. exists (nth (Z.to_nat j) (mat_cols a) []).
    assert (J : (Z.to_nat j < length (mat_cols a))%nat) by (rewrite mat_cols_len; lia).
    destruct (mat_cols_In a (nth (Z.to_nat j) (mat_cols a) [])) as (L & _); [now apply nth_In|].
    rewrite <- (Z2Nat.id j) at 1 by lia. rewrite znth_nat. split; [now apply nth_error_nth'|]. split; [unfold zlen; lia|].
    rewrite <- (Z2Nat.id i) at 1 by lia. rewrite znth_nat. rewrite (nth_error_nth' _ 0) by lia.
    rewrite mat_cols_nth by lia.
    replace (i + j * mrows a) with (Z.of_nat (Z.to_nat j * Z.to_nat (mrows a) + Z.to_nat i)) by (rewrite Nat2Z.inj_add, Nat2Z.inj_mul, !Z2Nat.id; lia).
    rewrite znth_nat. symmetry. apply nth_error_nth'.
    apply Nat2Z.inj_lt. rewrite Nat2Z.inj_add, Nat2Z.inj_mul, !Z2Nat.id by lia. unfold zlen in Hd. nia.
Qed.
Lemma C43_format : plain_format (txt "#") [ascii_of_nat 9; " "%char] (ascii_of_nat 9).
Proof.
  split; [now left|]. split; [intros [H|[]]; discriminate|]. split; [discriminate|].
  intros c Hc. split.
  - intros [<-|[]]. apply inset_In in Hc. discriminate.
  - intros [<-|[<-|[]]]; apply inset_In in Hc; discriminate.
Qed.
Example C43_example : plain_format (txt "#") [ascii_of_nat 9; " "%char] (ascii_of_nat 9)
  /\ Forall (plain_header (txt "#") [ascii_of_nat 9; " "%char]) ["time"; "x"]%string
  /\ Forall2 (fun c xs => column c = Some xs /\ length xs = 2%nat /\ Forall (writable 6) xs)
       [GVInt [1; -20]; GVReal [f_of_Z 3; f_of_Z 1000000]] [[f_of_Z 1; f_of_Z (-20)]; [f_of_Z 3; f_of_Z 1000000]]
  /\ writable 17 (f_of_Q 1 3).
Proof.
  assert (W : forall n, Z.abs n <= 1000000 -> n <> 0 -> Z.abs n < 1000000 -> writable 6 (f_of_Z n)).
  { intros n H _ H1. split; [apply f_of_Z_range; lia|]. split.
    - apply (dec_digits_int 6 n); [assumption | lia].
    - left. apply dec_digits_int; [assumption | lia]. }
  assert (W6 : writable 6 (f_of_Z 1000000)).
  { split; [apply f_of_Z_range; lia|]. split; [vm_compute; reflexivity|]. left. split; [vm_compute; reflexivity|].
    exists 1, 6. split; [lia|]. exists 0. split; [lia|]. split; [lia|]. vm_compute. reflexivity. }
  split; [exact C43_format|]. split; [|split].
  - repeat (apply Forall_cons || apply Forall_nil).
    + split; [discriminate|]. split; [discriminate|]. intros c H. repeat split; intros Hc; cbn in H;
      repeat (destruct H as [<-|H]; [cbn in Hc; intuition discriminate|]); exact H.
    + split; [discriminate|]. split; [discriminate|]. intros c H. repeat split; intros Hc; cbn in H;
      repeat (destruct H as [<-|H]; [cbn in Hc; intuition discriminate|]); exact H.
  - apply Forall2_cons; [|apply Forall2_cons; [|apply Forall2_nil]].
    + split; [reflexivity|]. split; [reflexivity|]. apply Forall_cons; [apply W; lia|]. apply Forall_cons; [apply W; lia|apply Forall_nil].
    + split; [reflexivity|]. split; [reflexivity|]. apply Forall_cons; [apply W; lia|]. apply Forall_cons; [exact W6|apply Forall_nil].
  - split; [split; vm_compute; congruence|]. split; [vm_compute; reflexivity|]. right. lia.
Qed.
(** With the default precision of a stream (6) the number 1/3 does not come back. *)
Theorem C43_refuted : exists x t y, f64 x /\ is_finite x = true /\
  write_formatted_data 6 (ascii_of_nat 9) (GMap [("data"%string, GVec [GVReal [x]]); ("headers"%string, GVStr ["x"%string])]) = Ok t /\
  read_formatted_data (txt "#") [ascii_of_nat 9; " "%char] (open t) GNone =
    (Ok tt, GMap [("data"%string, GVec [GVReal [y]]); ("headers"%string, GVStr ["x"%string])]) /\ y <> x.
Proof.
  exists (f_of_Q 1 3), (txt "x" ++ [nl] ++ txt "0.333333" ++ [nl]), (f_of_Q 333333 1000000).
  split; [split; vm_compute; congruence|]. split; [vm_compute; reflexivity|]. split; [vm_compute; reflexivity|]. split; vm_compute; [reflexivity|discriminate].
Qed.

(** ** What read_formatted_data does with any text. *)
(** [hl] is the first line returned and [ls] the following ones: the headers are the tokens of
    [hl], each column the numbers of the rows, up to the first line without tokens; the call
    throws exactly when a row before that has another number of tokens than the headers, and
    then the rows before it have been stored. *)
Theorem C54_reading cc dl t hl ls hs rows ok :
  reads cc [] (open t) (hl :: ls) -> tokens dl hl hs -> table_rows dl (length hs) ls rows ok ->
  read_formatted_data cc dl (open t) GNone =
    ((if ok : bool then Ok tt else Throw),
     GMap [("data"%string, GVec (map (fun j => GVReal (map (fun r => atof (nth j r [])) rows)) (seq 0 (length hs))));
           ("headers"%string, GVStr (map untxt hs))]).
Proof.
  intros R T Tr. destruct (read_formatted_data_reads cc dl (open t) GNone hl ls hs rows ok R T Tr eq_refl) as (cs & -> & L & N).
  f_equal. cbn [set_map0 old_map].
  assert (cs = map (fun j => GVReal (map (fun r => atof (nth j r [])) rows)) (seq 0 (length hs))) as ->; [|reflexivity].
  apply nth_error_ext. intros j. rewrite nth_error_map. destruct (Nat.lt_ge_cases j (length hs)) as [H|H].
  - rewrite N by assumption. rewrite (nth_error_nth' _ 0%nat) by now rewrite seq_length. rewrite seq_nth by assumption. reflexivity.
  - rewrite !(proj2 (nth_error_None _ _)); [reflexivity | rewrite seq_length; lia | lia].
Qed.
(** Such a decomposition exists as soon as a line is returned, so this describes every call
    that finds a header line. *)
Theorem C54_total cc dl t hl ls : reads cc [] (open t) (hl :: ls) ->
  exists hs rows ok, tokens dl hl hs /\ table_rows dl (length hs) ls rows ok.
Proof.
  intros _. destruct (splits_exists dl hl) as (full & H). pose proof (tokenize_splits _ _ _ H) as E. apply tokens_iff in E.
  destruct (table_rows_exists dl (length (drop_eol full)) ls) as (rows & ok & T). exists (drop_eol full), rows, ok. auto.
Qed.
Example C54_example : exists hs rows, reads (txt "#") [] (open (lines [txt "a b"; txt "1 2"])) [txt "a b"; txt "1 2"; txt ""]
  /\ tokens (txt " ") (txt "a b") hs /\ table_rows (txt " ") (length hs) [txt "1 2"; txt ""] rows true /\ length rows = 1%nat.
Proof.
  exists [txt "a"; txt "b"], [[txt "1"; txt "2"]]. split; [|split; [|split; [|reflexivity]]].
  - apply (C44_lines_partial _ _ _ [txt "a b"; txt "1 2"]).
    + repeat constructor; intros H; repeat (destruct H as [H|H]; [discriminate|]); exact H.
    + apply kept_all. intros l [<-|[<-|[]]] (c & H & [<-|[]]); repeat (destruct H as [H|H]; [discriminate|]); exact H.
  - apply tokens_iff. vm_compute. reflexivity.
  - apply rows_row; [apply tokens_iff; vm_compute; reflexivity | discriminate | reflexivity |]. apply rows_blank. apply tokens_iff. vm_compute. reflexivity.
Qed.

(** ** C55: reading replaces the previous table: refuted, rows accumulate. *)
Theorem C55_refuted : exists t g g2,
  read_formatted_data (txt "#") (txt " ") (open t) GNone = (Ok tt, g) /\
  read_formatted_data (txt "#") (txt " ") (open t) g = (Ok tt, g2) /\ g2 <> g.
Proof.
  exists (lines [txt "a"; txt "1"]).
  exists (GMap [("data"%string, GVec [GVReal [f_of_Z 1]]); ("headers"%string, GVStr ["a"%string])]).
  exists (GMap [("data"%string, GVec [GVReal [f_of_Z 1; f_of_Z 1]]); ("headers"%string, GVStr ["a"%string])]).
  split; [vm_compute; reflexivity|]. split; [vm_compute; reflexivity|]. discriminate.
Qed.
(** It does when the container holds no columns before: any container that is not a map, or a
    map without "data". *)
Theorem C55_partial cc dl t hl ls hs rows ok g :
  reads cc [] (open t) (hl :: ls) -> tokens dl hl hs -> table_rows dl (length hs) ls rows ok ->
  (forall m, g = GMap m -> mfind "data" m = None) ->
  exists m', read_formatted_data cc dl (open t) g = ((if ok : bool then Ok tt else Throw), GMap m') /\
    mfind "data" m' = Some (GVec (map (fun j => GVReal (map (fun r => atof (nth j r [])) rows)) (seq 0 (length hs)))) /\
    mfind "headers" m' = Some (GVStr (map untxt hs)) /\
    (forall k, k <> "data"%string -> k <> "headers"%string -> mfind k m' = match g with GMap m => mfind k m | _ => None end).
Proof.
  intros R T Tr Hg.
  assert (D : mfind k_data (old_map (set_map0 g)) = None) by (destruct g; try reflexivity; now apply Hg).
  destruct (read_formatted_data_reads cc dl (open t) g hl ls hs rows ok R T Tr D) as (cs & -> & L & N).
  eexists. split; [reflexivity|]. split; [|split].
  - rewrite mfind_mset_same. do 2 f_equal. apply nth_error_ext. intros j. rewrite nth_error_map. destruct (Nat.lt_ge_cases j (length hs)) as [H|H].
    + rewrite N by assumption. rewrite (nth_error_nth' _ 0%nat) by now rewrite seq_length. rewrite seq_nth by assumption. reflexivity.
    + rewrite !(proj2 (nth_error_None _ _)); [reflexivity | rewrite seq_length; lia | lia].
  - rewrite mfind_mset_other by discriminate. apply mfind_mset_same.
  - intros k H1 H2. rewrite !mfind_mset_other by assumption. destruct g; reflexivity.
Qed.

Print Assumptions C41_round_trip.
Print Assumptions C41_injective.
Print Assumptions C41_one_line.
Print Assumptions C42_splits_unique.
Print Assumptions C42_result.
Print Assumptions C42_partial.
Print Assumptions C42_eol_delims.
Print Assumptions C42_refuted.
Print Assumptions C43_round_trip_partial.
Print Assumptions C43_matrix_partial.
Print Assumptions C43_refuted.
Print Assumptions C44_lines_partial.
Print Assumptions C44_last_line.
Print Assumptions C44_ends.
Print Assumptions C44_refuted.
Print Assumptions C44_header_refuted.
Print Assumptions C54_reading.
Print Assumptions C54_total.
Print Assumptions C55_refuted.
Print Assumptions C55_partial.
