(** Model of write_table_formatted (src/GenericContainerTables.cc:81-155). *)
From Coq Require Import ZArith Bool Lia Ascii String List.
From Verif Require Import Base F64 StrMap Value MBasic MGet MMat MNum MText MDump.
Import ListNotations.
Local Open Scope Z_scope.

(** Longest header as an unsigned, then cut to 8..20 (src/GenericContainerTables.cc:93-101,
    130-138). *)
Definition max_header (headers : list string) : Z :=
  fold_left (fun ml h => if ml <? Z.of_nat (String.length h) then to_u32 (Z.of_nat (String.length h)) else ml) headers 0.
Definition fmt_width (headers : list string) : Z :=
  let ml := max_header headers in if ml <? 8 then 8 else if 20 <? ml then 20 else ml.
(** The line of [-]: string_type(ncol*(ml+1)-1, '-'), computed in unsigned arithmetic
    (src/GenericContainerTables.cc:103, 140). *)
Definition fmt_rule (ncol ml : Z) : text := repeat "-"%char (Z.to_nat (to_u32 (ncol * (ml + 1) - 1))).
(** The headers, passed as C strings (src/GenericContainerTables.cc:105-109, 142-146). *)
Definition fmt_head (ml : Z) (headers : list string) : text :=
  sep_by " " (map (fun h => pad (Z.to_nat ml) (txt (cstr h))) headers).

(** write_table_formatted for a vector of columns (src/GenericContainerTables.cc:81-117).
    [P] is the precision of the stream, otherwise with its default flags.  data[0] is used
    before the test for no headers; it is undefined when there is no data, as data[icol]
    beyond the end.  Simplified: when a cell throws, the part already written is not
    recorded. *)
Definition write_fmt_vec (P : nat) (headers : list string) (data : list gc) : out text :=
  match data with
  | [] => Undef
  | d0 :: _ =>
      let ncol := to_u32 (zlen headers) in
      let nrow := num_elements d0 in
      if ncol =? 0 then Ok []
      else
        let ml := fmt_width headers in
        do rows <- omapM (fun row =>
             do c0 <- get_number_at row d0 ;
             do cells <- omapM (fun icol => do c <- raw_at icol data ; get_number_at row c)
                               (map (fun k => k + 1) (zseq (ncol - 1))) ;
             Ok (sep_by " " (map (fun x => pad (Z.to_nat ml) (print_g P x)) (c0 :: cells)) ++ [nl])) (zseq nrow) ;
        Ok (fmt_head ml headers ++ [nl] ++ fmt_rule ncol ml ++ [nl] ++ concat rows ++ fmt_rule ncol ml ++ [nl])
  end.
(** write_table_formatted for a real matrix (src/GenericContainerTables.cc:119-154): the
    number of columns is that of the matrix, all headers are written; without headers the
    first one is read beyond the end. *)
Definition write_fmt_mat (P : nat) (headers : list string) (data : mat Z) : out text :=
  let ncol := mcols data in
  if ncol =? 0 then Ok []
  else
    match headers with
    | [] => Undef
    | _ =>
        let ml := fmt_width headers in
        do rows <- omapM (fun row =>
             do c0 <- mat_get data row 0 ;
             do cells <- omapM (fun icol => mat_get data row icol) (map (fun k => k + 1) (zseq (ncol - 1))) ;
             Ok (sep_by " " (map (fun x => pad (Z.to_nat ml) (print_g P x)) (c0 :: cells)) ++ [nl])) (zseq (mrows data)) ;
        Ok (fmt_head ml headers ++ [nl] ++ fmt_rule ncol ml ++ [nl] ++ concat rows ++ fmt_rule ncol ml ++ [nl])
    end.

Example fmt_ex1 : write_fmt_vec 6 ["a"; "time"]%string [GVInt [1; -2]; GVReal [f_of_Q 1 2; f_of_Z 10]] =
  Ok (txt "       a     time" ++ [nl] ++ txt "-----------------" ++ [nl] ++ txt "       1      0.5" ++ [nl] ++
      txt "      -2       10" ++ [nl] ++ txt "-----------------" ++ [nl]).
Proof. vm_compute. reflexivity. Qed.
Example fmt_ex2 : write_fmt_mat 6 ["a"; "b"]%string (Mat 1 2 [f_of_Z 1; f_of_Z 2]) =
  Ok (txt "       a        b" ++ [nl] ++ txt "-----------------" ++ [nl] ++ txt "       1        2" ++ [nl] ++
      txt "-----------------" ++ [nl]).
Proof. vm_compute. reflexivity. Qed.
Example fmt_ex3 : write_fmt_vec 6 [] [GVInt [1]] = Ok [] /\ write_fmt_vec 6 [] [] = Undef /\
  write_fmt_mat 6 [] (Mat 1 1 [0]) = Undef /\ write_fmt_mat 6 [] (Mat 0 0 []) = Ok [].
Proof. vm_compute. auto. Qed.
