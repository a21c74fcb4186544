(** Specification of the aligned tables, independent of the model's helpers. *)
From Coq Require Import ZArith Bool Lia Ascii String List.
From Verif Require Import Base F64 StrMap Value MNum MText SText.
Import ListNotations.

Definition blanks (n : nat) : text := repeat " "%char n.
(** [c] at the right end of a field of [w] characters; a longer [c] is not cut. *)
Definition field (w : nat) (c : text) : text := blanks (w - List.length c) ++ c.
(** Fields separated by one blank. *)
Fixpoint spread (w : nat) (cells : list text) : text :=
  match cells with
  | [] => []
  | [c] => field w c
  | c :: r => field w c ++ " "%char :: spread w r
  end.
(** The width of the columns: that of the longest header, at least 8 and at most 20. *)
Definition col_width (headers : list string) : nat :=
  Nat.min 20 (Nat.max 8 (list_max (map String.length headers))).
Definition dashes (n : nat) : text := repeat "-"%char n.
(** Header names as C strings. *)
Definition names (headers : list string) : list text := map (fun h => txt (cstr h)) headers.
(** Row [i] of the columns. *)
Definition row_text (P : nat) (cols : list (list Z)) (i : nat) : list text :=
  map (fun xs => print_g P (nth i xs 0%Z)) cols.
(** The lines of a table with [n] rows. *)
Definition table_lines (P : nat) (headers : list string) (cols : list (list Z)) (n : nat) : list text :=
  let w := col_width headers in
  let rule := dashes (List.length cols * (w + 1) - 1) in
  spread w (names headers) :: rule :: map (fun i => spread w (row_text P cols i)) (seq 0 n) ++ [rule].

(** [in_columns w cells l]: the line has the width of the table and cell number j ends at the
    right end of field number j, the characters [j*(w+1), j*(w+1)+w) of the line. *)
Definition in_columns (w : nat) (cells : list text) (l : text) : Prop :=
  List.length l = (List.length cells * (w + 1) - 1)%nat /\
  forall j c, nth_error cells j = Some c ->
    firstn w (skipn (j * (w + 1)) l) = blanks (w - List.length c) ++ c /\
    (j <> 0%nat -> nth_error l (j * (w + 1) - 1) = Some " "%char).
