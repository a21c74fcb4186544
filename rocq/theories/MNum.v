(** Text form of numbers: what ostream << writes for int, long and double and what atof and
    strtod read.  The library relies on the C++ standard library for these; they are modelled
    here as correctly rounding implementations (glibc, libc++, MSVC UCRT).  Used by
    src/GenericContainerTables.cc:33-79 and src/GenericContainerSupport.cc:124, 207, 261 and
    by the text writers.  Text is a list of characters. *)
From Coq Require Import ZArith Bool Lia Ascii String List.
From Verif Require Import Base F64.
Import ListNotations.
Local Open Scope Z_scope.

Definition text : Type := list ascii.
Definition txt (s : string) : text := list_ascii_of_string s.
Definition untxt (t : text) : string := string_of_list_ascii t.

Definition digit (d : Z) : ascii := ascii_of_N (Z.to_N (48 + d)).
Definition digit_val (c : ascii) : option Z :=
  let n := Z.of_N (N_of_ascii c) in
  if (48 <=? n) && (n <=? 57) then Some (n - 48) else None.

(** The last [k] decimal digits of [n], most significant first. *)
Fixpoint digs (k : nat) (n : Z) : list Z :=
  match k with O => [] | S k' => digs k' (n / 10) ++ [n mod 10] end.
(** Number of decimal digits of [n]. *)
Fixpoint ndig_from (fuel : nat) (n : Z) : nat :=
  match fuel with
  | O => 1
  | S f => if n <? 10 then 1%nat else S (ndig_from f (n / 10))
  end.
Definition ndig (n : Z) : nat := ndig_from (Z.to_nat (Z.log2 n)) n.

(** ostream << of an integer type. *)
Definition print_nat (n : Z) : text := map digit (digs (ndig n) n).
Definition print_int (n : Z) : text := if n <? 0 then "-"%char :: print_nat (- n) else print_nat n.

(** a/b rounded to the nearest integer, ties to even. *)
Definition rnd_even (a b : Z) : Z :=
  let q := a / b in
  let r := a mod b in
  if 2 * r <? b then q else if b <? 2 * r then q + 1 else if Z.even q then q else q + 1.

(** The decimal exponent of num/den: 10^e <= num/den < 10^(e+1).  The search below one stops
    after 400 steps, enough for every double. *)
Fixpoint neg_exp (fuel : nat) (num den : Z) : Z :=
  match fuel with
  | O => 0
  | S f => if den <=? num then 0 else neg_exp f (num * 10) den - 1
  end.
Definition dexp (num den : Z) : Z :=
  if den <=? num then Z.of_nat (ndig (num / den)) - 1 else neg_exp 400 num den.

Fixpoint strip_front (l : list Z) : list Z :=
  match l with 0 :: t => strip_front t | _ => l end.
Definition strip0 (l : list Z) : list Z := rev (strip_front (rev l)).

(** Decimal digits [m] (P of them) and exponent of num/den rounded to P digits. *)
Definition round_dec (P : nat) (num den : Z) : Z * Z :=
  let e := dexp num den in
  let k := Z.of_nat P - 1 - e in
  let m := if 0 <=? k then rnd_even (num * 10^k) den else rnd_even num (den * 10^(-k)) in
  if m =? 10^(Z.of_nat P) then (10^(Z.of_nat P - 1), e + 1) else (m, e).

Definition frac (l : list Z) : text :=
  match strip0 l with [] => [] | d => "."%char :: map digit d end.
(** At least two digits. *)
Definition print_exp (e : Z) : text :=
  (if e <? 0 then "-"%char else "+"%char) :: map digit (digs (Nat.max 2 (ndig (Z.abs e))) (Z.abs e)).
Definition print_pos (P : nat) (num den : Z) : text :=
  let (m, e) := round_dec P num den in
  let d := digs P m in
  if (e <? -4) || (Z.of_nat P <=? e) then
    map digit (firstn 1 d) ++ frac (skipn 1 d) ++ "e"%char :: print_exp e
  else if 0 <=? e then
    map digit (firstn (Z.to_nat (e + 1)) d) ++ frac (skipn (Z.to_nat (e + 1)) d)
  else
    "0"%char :: frac (repeat 0 (Z.to_nat (- e - 1)) ++ d).
(** ostream << double with precision [P] (printf %.Pg); [P] is at least 1. *)
Definition print_g (P : nat) (x : Z) : text :=
  (if fsign x then ["-"%char] else []) ++
  (if is_nan x then txt "nan" else if is_inf x then txt "inf"
   else if fmag x =? 0 then ["0"%char] else print_pos P (fmag x) fone).

(** The double nearest to num/den (ties to even; overflow gives infinity). *)
Definition f_of_Q (num den : Z) : Z :=
  let e0 := Z.log2 num - Z.log2 den in
  let below := if 0 <=? e0 then num <? den * 2^e0 else num * 2^(-e0) <? den in
  let e := if below then e0 - 1 else e0 in
  let k := Z.max (e - 52) (-1074) in
  let s := if 0 <=? k then rnd_even num (den * 2^k) else rnd_even (num * 2^(-k)) den in
  let bits := (k + 1074) * 2^52 + s in
  if bits <? 2047 * 2^52 then bits else 2047 * 2^52.

(** Reading. *)
Fixpoint read_digits (t : text) : list Z * text :=
  match t with
  | c :: t' =>
      match digit_val c with
      | Some d => let (l, r) := read_digits t' in (d :: l, r)
      | None => ([], t)
      end
  | [] => ([], [])
  end.
Definition dval (l : list Z) : Z := fold_left (fun a d => 10 * a + d) l 0.

Definition is_space (c : ascii) : bool :=
  let n := N_of_ascii c in ((n =? 32) || ((9 <=? n) && (n <=? 13)))%N.
Fixpoint skip_space (t : text) : text :=
  match t with c :: t' => if is_space c then skip_space t' else t | [] => [] end.
Definition read_sign (t : text) : bool * text :=
  match t with
  | "-"%char :: t' => (true, t')
  | "+"%char :: t' => (false, t')
  | _ => (false, t)
  end.
(** The optional exponent: only if at least one digit follows. *)
Definition read_exp (t : text) : Z * text :=
  match t with
  | c :: t' =>
      if (Ascii.eqb c "e" || Ascii.eqb c "E")%bool then
        let (neg, t1) := read_sign t' in
        match read_digits t1 with
        | ([], _) => (0, t)
        | (l, r) => (if neg then - dval l else dval l, r)
        end
      else (0, t)
  | [] => (0, [])
  end.
Definition lower (c : ascii) : ascii :=
  let n := N_of_ascii c in if ((65 <=? n) && (n <=? 90))%N then ascii_of_N (n + 32) else c.
Definition starts (p : string) (t : text) : bool :=
  String.eqb (untxt (map lower (firstn (String.length p) t))) p.
Definition scale (m k : Z) : Z :=
  if m =? 0 then 0 else if 0 <=? k then f_of_Q (m * 10^k) 1 else f_of_Q m (10^(-k)).
Definition read_frac (t : text) : list Z * text :=
  match t with "."%char :: t' => read_digits t' | _ => ([], t) end.
(** strtod: the value and whether anything was converted.  Simplified: hexadecimal numbers
    are not recognised and the sign and payload of a NaN are fixed. *)
Definition strtod (t : text) : option Z :=
  let (neg, t) := read_sign (skip_space t) in
  let s := if neg then 2^63 else 0 in
  if starts "inf" t then Some (s + 2047 * 2^52) else
  if starts "nan" t then Some (s + 2047 * 2^52 + 2^51) else
  let (li, t1) := read_digits t in
  let (lf, t2) := read_frac t1 in
  match li ++ lf with
  | [] => None
  | l => let (e, _) := read_exp t2 in Some (s + scale (dval l) (e - zlen lf))
  end.
(** atof gives 0 if nothing can be converted. *)
Definition atof (t : text) : Z := match strtod t with Some x => x | None => 0 end.

Example print_ex1 : map (fun x => untxt (print_g 6 x)) [f_of_Z 1234567; f_of_Z (-10); f_of_Q 1 3; f_of_Q 1 100000; 2^63; 2047 * 2^52; f_of_Q 999999999 1000; f_of_Q 1 1000]
  = ["1.23457e+06"; "-10"; "0.333333"; "1e-05"; "-0"; "inf"; "1e+06"; "0.001"]%string.
Proof. vm_compute. reflexivity. Qed.
Example atof_ex : map (fun s => atof (txt s)) ["1.5"; " -2e2x"; "1e-05"; ".5"; "."; "1e400"; "-INF"; "1e+06"; "4.9e-324"]%string
  = [f_of_Q 3 2; f_of_Z (-200); f_of_Q 1 100000; f_of_Q 1 2; 0; 2047 * 2^52; 2^63 + 2047 * 2^52; f_of_Z 1000000; 1].
Proof. vm_compute. reflexivity. Qed.
