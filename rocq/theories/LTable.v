(** Lemmas about reading and writing tables. *)
From Coq Require Import ZArith Bool Lia Ascii String List.
From Verif Require Import Base F64 StrMap Value MBasic MGet MMap MMat MNum LNum MText SText LText.
Import ListNotations.
Local Open Scope Z_scope.

(** ** Characters of numbers *)
Lemma digit_number d : is_digit d -> In (digit d) number_chars.
Proof.
  intros H. assert (C : d = 0 \/ d = 1 \/ d = 2 \/ d = 3 \/ d = 4 \/ d = 5 \/ d = 6 \/ d = 7 \/ d = 8 \/ d = 9) by (unfold is_digit in H; lia).
  apply inset_In. repeat destruct C as [->|C]; try reflexivity. subst. reflexivity.
Qed.
Lemma digits_number l : Forall is_digit l -> Forall (fun c => In c number_chars) (map digit l).
Proof. induction 1; constructor; [now apply digit_number | assumption]. Qed.
Lemma strip_front_digits l : Forall is_digit l -> Forall is_digit (strip_front l).
Proof.
  intros H. destruct (strip_front_spec l) as (n & E). rewrite E in H. now apply Forall_app in H.
Qed.
Lemma frac_number l : Forall is_digit l -> Forall (fun c => In c number_chars) (frac l).
Proof.
  intros H. rewrite frac_dotted. apply strip0_digits in H. unfold dotted. destruct (strip0 l); constructor.
  - apply inset_In. reflexivity.
  - now apply digits_number.
Qed.
Lemma digit_app a b : Forall is_digit (a ++ b) <-> Forall is_digit a /\ Forall is_digit b.
Proof. apply Forall_app. Qed.
Lemma firstn_digit n l : Forall is_digit l -> Forall is_digit (firstn n l).
Proof. intros H. rewrite <- (firstn_skipn n l) in H. now apply Forall_app in H. Qed.
Lemma skipn_digit n l : Forall is_digit l -> Forall is_digit (skipn n l).
Proof. intros H. rewrite <- (firstn_skipn n l) in H. now apply Forall_app in H. Qed.

Ltac one_char := constructor; [apply inset_In; reflexivity|].

Lemma print_pos_number P num den : Forall (fun c => In c number_chars) (print_pos P num den).
Proof.
  unfold print_pos. destruct (round_dec P num den) as [m e]. pose proof (digs_digit P m) as D.
  destruct (_ || _).
  - apply Forall_app. split; [apply digits_number; now apply firstn_digit|].
    apply Forall_app. split; [apply frac_number; now apply skipn_digit|]. one_char. unfold print_exp.
    constructor; [destruct (e <? 0); apply inset_In; reflexivity|]. apply digits_number. apply digs_digit.
  - destruct (0 <=? e).
    + apply Forall_app. split; [apply digits_number; now apply firstn_digit | apply frac_number; now apply skipn_digit].
    + one_char. apply frac_number. apply Forall_app. split; [|assumption].
      apply Forall_forall. intros x Hx. apply repeat_spec in Hx. subst x. unfold is_digit. lia.
Qed.
Lemma print_g_number P x : is_finite x = true -> Forall (fun c => In c number_chars) (print_g P x).
Proof.
  intros Hf. unfold print_g.
  assert (N : is_nan x = false /\ is_inf x = false).
  { unfold is_finite in Hf. unfold is_nan, is_inf. destruct (fexp x =? 2047); [discriminate|]. auto. }
  destruct N as [-> ->]. apply Forall_app. split.
  - destruct (fsign x); [one_char|]; constructor.
  - destruct (_ =? _); [one_char; constructor|]. apply print_pos_number.
Qed.
Lemma print_g_nonempty P x : (1 <= P)%nat -> print_g P x <> [].
Proof.
  intros HP H. unfold print_g in H. apply app_eq_nil in H as (_ & H).
  destruct (is_nan x); [discriminate|]. destruct (is_inf x); [discriminate|]. destruct (_ =? _); [discriminate|].
  unfold print_pos in H. destruct (round_dec P (fmag x) fone) as [m e].
  destruct (_ || _).
  - apply app_eq_nil in H as (_ & H). apply app_eq_nil in H as (_ & H). discriminate.
  - destruct (Z.leb_spec 0 e); [|discriminate]. apply app_eq_nil in H as (H & _). apply map_eq_nil in H.
    apply (f_equal (@length Z)) in H. rewrite firstn_length, digs_length in H. cbn in H. lia.
Qed.

(** ** Reading *)
Lemma reads_measure cc line st ls : reads cc line st ls -> (length ls <= measure st)%nat.
Proof.
  induction 1 as [|line st n l st' ls E Hn H IH]; [simpl; lia|].
  destruct (get_line_ok cc st (fuel_of st) line 0 (measure_fuel st) ltac:(lia)) as (k & l' & st2 & E2 & D).
  unfold get_line_and_skip_comments in E. rewrite E in E2. inversion E2; subst. simpl. lia.
Qed.

Lemma measure_open t : (measure (open t) = length t + 2)%nat.
Proof. unfold measure, open. simpl. lia. Qed.

(** The general statement: see [table_rows] in SText. *)
Lemma read_rows_reads dl cc line st ls : reads cc line st ls ->
  forall rows ok ncol fuel cols, table_rows dl ncol ls rows ok -> (length ls < fuel)%nat ->
  read_rows fuel cc dl line (Z.of_nat ncol) st cols = ((if ok : bool then Ok tt else Throw), fold_left (fun c r => push_cells r c) rows cols).
Proof.
  induction 1 as [line st l st' E | line st n l st' ls E Hn H IH]; intros rows ok ncol fuel cols T Hf.
  - destruct fuel as [|fuel]; [lia|]. cbn [read_rows]. rewrite E. inversion T; subst. reflexivity.
  - destruct fuel as [|fuel]; [lia|]. cbn [read_rows]. rewrite E. destruct (Z.eqb_spec n 0); [lia|].
    inversion T as [|? ? Tk | ? ? ts ? ? Tk Hne Hlen Tr | ? ? ts Tk Hne Hlen]; subst; apply tokens_iff in Tk; rewrite Tk.
    + reflexivity.
    + destruct ts as [|t ts]; [easy|]. unfold zlen. rewrite Z.eqb_refl. cbn [fold_left]. apply IH; [assumption|]. simpl in Hf. lia.
    + destruct ts as [|t ts]; [easy|]. unfold zlen. destruct (Z.eqb_spec (Z.of_nat (length (t :: ts))) (Z.of_nat ncol)); [lia|]. reflexivity.
Qed.
Lemma table_rows_exists dl ncol ls : exists rows ok, table_rows dl ncol ls rows ok.
Proof.
  induction ls as [|l ls (rows & ok & IH)]; [eexists _, _; apply rows_end|].
  destruct (splits_exists dl l) as (full & H). pose proof (tokenize_splits _ _ _ H) as E. apply tokens_iff in E.
  destruct (drop_eol full) as [|t ts] eqn:Ef.
  - eexists _, _. apply rows_blank. exact E.
  - destruct (Nat.eq_dec (length (t :: ts)) ncol).
    + eexists _, _. eapply rows_row; [exact E | easy | assumption | exact IH].
    + eexists _, _. eapply rows_bad; [exact E | easy | assumption].
Qed.

(** The cells of column [j] of the rows. *)
Definition col_cells (rows : list (list text)) (j : nat) : list Z := map (fun r => atof (nth j r [])) rows.
Lemma push_cells_nth : forall ts cols j, length ts = length cols ->
  nth_error (push_cells ts cols) j = match nth_error cols j with Some c => Some (push_cell (atof (nth j ts [])) c) | None => None end.
Proof.
  induction ts as [|t ts IH]; intros [|c cols] j E; simpl in E; try lia; cbn [push_cells].
  - now destruct j.
  - destruct j as [|j]; [reflexivity|]. cbn [nth_error nth]. apply IH. lia.
Qed.
Lemma push_cells_len : forall ts cols, length (push_cells ts cols) = length cols.
Proof. induction ts as [|t ts IH]; intros [|c cols]; cbn [push_cells length]; try reflexivity. now rewrite IH. Qed.
Lemma push_rows_nth rows : forall cols j v, Forall (fun r => length r = length cols) rows ->
  nth_error cols j = Some (GVReal v) ->
  nth_error (fold_left (fun c r => push_cells r c) rows cols) j = Some (GVReal (v ++ col_cells rows j)).
Proof.
  induction rows as [|r rows IH]; intros cols j v Hr Hj; cbn [fold_left].
  - unfold col_cells. cbn [map]. now rewrite app_nil_r.
  - rewrite (IH _ j (v ++ [atof (nth j r [])])).
    + unfold col_cells. cbn [map]. now rewrite <- app_assoc.
    + rewrite push_cells_len. now apply Forall_inv_tail in Hr.
    + rewrite push_cells_nth by now apply Forall_inv in Hr. now rewrite Hj.
Qed.
Lemma push_rows_len rows : forall cols, length (fold_left (fun c r => push_cells r c) rows cols) = length cols.
Proof. induction rows as [|r rows IH]; intros cols; cbn [fold_left]; [reflexivity|]. now rewrite IH, push_cells_len. Qed.

(** read_formatted_data on any input, into a container without previous columns. *)
Lemma read_formatted_data_reads cc dl st g hl ls hs rows ok :
  reads cc [] st (hl :: ls) -> tokens dl hl hs -> table_rows dl (length hs) ls rows ok ->
  mfind k_data (old_map (set_map0 g)) = None ->
  exists cols,
    read_formatted_data cc dl st g =
      ((if ok : bool then Ok tt else Throw), GMap (mset k_data (GVec cols) (mset k_headers (GVStr (map untxt hs)) (old_map (set_map0 g))))) /\
    length cols = length hs /\
    forall j, (j < length hs)%nat -> nth_error cols j = Some (GVReal (col_cells rows j)).
Proof.
  intros R Th Tr Hd. inversion R as [|? ? n ? st' ? E Hn R']; subst. unfold read_formatted_data. rewrite E.
  pose proof Th as Tk. apply tokens_iff in Tk. rewrite Tk.
  rewrite mfind_mset_other by discriminate. rewrite Hd.
  pose proof (reads_measure _ _ _ _ R) as HM. cbn [length] in HM. pose proof (measure_fuel st).
  rewrite (read_rows_reads _ _ _ _ _ R' _ _ _ (fuel_of st) _ Tr) by lia.
  eexists. split; [reflexivity|].
  set (cols0 := real_cols _ _).
  assert (C : cols0 = repeat (GVReal []) (length hs)).
  { subst cols0. unfold zlen. rewrite Nat2Z.id. unfold alloc_vec, valloc. cbn [old_vec].
    destruct (Z.ltb_spec 0 (Z.of_nat (length hs))) as [L|L].
    - unfold resize. cbn [length]. rewrite firstn_nil, Nat2Z.id, Nat.sub_0_r. cbn [app].
      clear. induction (length hs); [reflexivity|]. cbn [repeat real_cols]. rewrite IHn. reflexivity.
    - assert (length hs = 0)%nat as -> by lia. reflexivity. }
  rewrite C. split; [now rewrite push_rows_len, repeat_length|].
  intros j Hj. rewrite (push_rows_nth rows _ j []); [reflexivity | |].
  - rewrite repeat_length. clear - Tr. induction Tr; constructor; assumption || auto.
  - clear - Hj. revert j Hj. induction (length hs); intros j Hj; [lia|]. destruct j; [reflexivity|]. cbn [repeat nth_error]. apply IHn. lia.
Qed.

(** ** Writing *)
Lemma omapM_ext {A B} (f g : A -> out B) l : (forall a, In a l -> f a = g a) -> omapM f l = omapM g l.
Proof.
  intros H. induction l as [|a l IH]; [reflexivity|]. cbn [omapM]. rewrite (H a) by now left. rewrite IH; [reflexivity|].
  intros x Hx. apply H. now right.
Qed.
Lemma map_znth {A B} (f : A -> B) i l : znth i (map f l) = option_map f (znth i l).
Proof. unfold znth. destruct (i <? 0); [reflexivity|]. apply nth_error_map. Qed.
Lemma F2_len {A B} (R : A -> B -> Prop) l l' : Forall2 R l l' -> length l = length l'.
Proof. induction 1; simpl; congruence. Qed.
Lemma F2_nth {A B} (R : A -> B -> Prop) l l' : Forall2 R l l' -> forall i a b, nth_error l i = Some a -> nth_error l' i = Some b -> R a b.
Proof.
  induction 1 as [|a b l l' Hab H IH]; intros i x y Hx Hy; [now destruct i|].
  destruct i as [|i]; [|now apply (IH i)]. cbn in Hx, Hy. apply Some_inj in Hx, Hy. now subst.
Qed.
Lemma column_at c xs i : column c = Some xs -> get_number_at i c = (match znth i xs with Some x => Ok x | None => Undef end).
Proof.
  destruct c; cbn [column]; intros E; try discriminate; apply Some_inj in E; subst xs; cbn [get_number_at]; unfold raw_at;
    rewrite ?map_znth; try destruct (znth i _); reflexivity.
Qed.
Lemma column_len c xs : column c = Some xs -> zlen xs < 2^32 -> num_elements c = zlen xs.
Proof.
  destruct c; cbn [column]; intros E; try discriminate; apply Some_inj in E; subst xs; cbn [num_elements]; rewrite ?zlen_map;
    intros; apply to_u32_id; unfold uint32; pose proof (zlen_nonneg v); lia.
Qed.

(** Row [i] of a table of columns. *)
Definition row_cells (P : nat) (cols : list (list Z)) (i : nat) : list text := map (fun xs => print_g P (nth i xs 0)) cols.
Definition table_text (P : nat) (delim : ascii) (headers : list string) (cols : list (list Z)) (n : nat) : text :=
  lines (sep_by delim (map txt headers) :: map (fun i => sep_by delim (row_cells P cols i)) (seq 0 n)).

Lemma znth_nat {A} (l : list A) i : znth (Z.of_nat i) l = nth_error l i.
Proof. unfold znth. destruct (Z.ltb_spec (Z.of_nat i) 0); [lia|]. now rewrite Nat2Z.id. Qed.

Lemma omapM_seq {A B} (f : Z -> out B) (g : A -> B) (l : list A) : (forall i a, nth_error l i = Some a -> f (Z.of_nat i) = Ok (g a)) ->
  omapM f (zseq (zlen l)) = Ok (map g l).
Proof.
  intros H. unfold zseq, zlen. rewrite Nat2Z.id.
  assert (G : forall k, (forall i a, nth_error l i = Some a -> f (Z.of_nat (k + i)) = Ok (g a)) -> omapM f (map Z.of_nat (seq k (length l))) = Ok (map g l)).
  { clear H. induction l as [|a l IH]; intros k H; [reflexivity|]. cbn [length seq map omapM].
    rewrite <- (Nat.add_0_r k) at 1. rewrite (H 0%nat a eq_refl). cbn [bind]. rewrite IH; [reflexivity|].
    intros i b Hi. replace (S k + i)%nat with (k + S i)%nat by lia. now apply H. }
  apply (G 0%nat). exact H.
Qed.

Lemma write_table_vec_text P headers data delim cols n :
  headers <> [] -> length headers = length data -> Z.of_nat n < 2^32 ->
  Forall2 (fun c xs => column c = Some xs /\ length xs = n) data cols ->
  write_table_vec P headers data delim = Ok (table_text P delim headers cols n).
Proof.
  intros Hh Hl Hn H. unfold write_table_vec. destruct data as [|d0 data]; [destruct headers; easy|]. destruct headers as [|h0 headers]; [easy|].
  assert (N : num_elements d0 = Z.of_nat n).
  { inversion H as [|? xs ? ? (E1 & E2)]; subst. rewrite (column_len d0 xs); [reflexivity | assumption | assumption]. }
  rewrite N. pose proof (F2_len _ _ _ H) as Hlc.
  rewrite (omapM_ext _ (fun row => Ok (sep_by delim (row_cells P cols (Z.to_nat row)) ++ [nl]))).
  - rewrite omapM_total. cbn [bind]. unfold table_text, lines. cbn [map concat]. rewrite <- app_assoc.
    unfold zseq. rewrite !map_map, Nat2Z.id.
    rewrite (List.map_ext _ (fun i => sep_by delim (row_cells P cols i) ++ [newline])); [reflexivity|]. intros i. now rewrite Nat2Z.id.
  - intros row Hrow. unfold zseq in Hrow. apply in_map_iff in Hrow as (i & <- & Hi). apply in_seq in Hi. rewrite Nat2Z.id.
    replace (zlen (h0 :: headers)) with (zlen cols) by (unfold zlen; rewrite <- Hlc, Hl; reflexivity).
    unfold row_cells. rewrite (omapM_seq _ (fun xs => print_g P (nth i xs 0)) cols); [reflexivity|].
    intros j xs Hj. unfold raw_at. rewrite znth_nat.
    destruct (nth_error (d0 :: data) j) as [c|] eqn:Ec.
    + cbn [bind]. destruct (F2_nth _ _ _ H _ _ _ Ec Hj) as (Q1 & Q2). rewrite (column_at _ _ _ Q1), znth_nat.
      destruct (nth_error xs i) eqn:Ei; [|apply nth_error_None in Ei; lia]. cbn [bind]. now rewrite (nth_error_nth _ _ _ Ei).
    + apply nth_error_None in Ec. assert (nth_error cols j <> None) as Q by congruence. apply nth_error_Some in Q. lia.
Qed.

(** The matrix version writes the same text as the list of its columns. *)
Definition mat_cols (m : mat Z) : list (list Z) :=
  map (fun j => map (fun i => nth (j * Z.to_nat (mrows m) + i) (mdata m) 0) (seq 0 (Z.to_nat (mrows m)))) (seq 0 (Z.to_nat (mcols m))).

Lemma mat_cols_nth m j i : (j < Z.to_nat (mcols m))%nat -> (i < Z.to_nat (mrows m))%nat ->
  nth i (nth j (mat_cols m) []) 0 = nth (j * Z.to_nat (mrows m) + i) (mdata m) 0.
Proof.
  intros Hj Hi. unfold mat_cols.
  set (f := fun j : nat => map _ _). rewrite (nth_indep _ [] (f 0%nat)) by (rewrite map_length, seq_length; lia).
  rewrite (map_nth f), seq_nth by lia. subst f. cbn beta.
  set (f := fun i : nat => nth _ _ _). rewrite (nth_indep _ 0 (f 0%nat)) by (rewrite map_length, seq_length; lia).
  rewrite (map_nth f), seq_nth by lia. reflexivity.
Qed.
Lemma mat_get_nth m j i : zlen (mdata m) = mrows m * mcols m -> mrows m * mcols m < 2^32 -> 0 <= mrows m -> 0 <= mcols m ->
  (j < Z.to_nat (mcols m))%nat -> (i < Z.to_nat (mrows m))%nat ->
  mat_get m (Z.of_nat i) (Z.of_nat j) = Ok (nth i (nth j (mat_cols m) []) 0).
Proof.
  intros Hd Hs Hr Hc Hj Hi. rewrite mat_cols_nth by assumption. unfold mat_get, vat, mpos.
  assert (B : Z.of_nat i + Z.of_nat j * mrows m < mrows m * mcols m).
  { assert (Z.of_nat j + 1 <= mcols m) by lia. assert (Z.of_nat i + 1 <= mrows m) by lia. nia. }
  rewrite to_u32_id by (unfold uint32; nia).
  replace (Z.of_nat i + Z.of_nat j * mrows m) with (Z.of_nat (j * Z.to_nat (mrows m) + i)) by (rewrite Nat2Z.inj_add, Nat2Z.inj_mul, Z2Nat.id; lia).
  rewrite znth_nat. rewrite (nth_error_nth' _ 0); [reflexivity|].
  apply Nat2Z.inj_lt. rewrite Nat2Z.inj_add, Nat2Z.inj_mul, Z2Nat.id by lia. unfold zlen in Hd. lia.
Qed.

Lemma zseq_S n : 0 < n -> zseq n = 0 :: map (fun k => k + 1) (zseq (n - 1)).
Proof.
  intros H. unfold zseq. replace (Z.to_nat n) with (S (Z.to_nat (n - 1))) by lia. cbn [seq map]. f_equal.
  rewrite <- seq_shift, !map_map. apply List.map_ext. intros. lia.
Qed.

Lemma write_table_mat_text P headers m delim :
  zlen (mdata m) = mrows m * mcols m -> mrows m * mcols m < 2^32 -> 0 <= mrows m -> 0 < mcols m -> zlen headers = mcols m ->
  write_table_mat P headers m delim = Ok (table_text P delim headers (mat_cols m) (Z.to_nat (mrows m))).
Proof.
  intros Hd Hs Hr Hc Hh. unfold write_table_mat.
  assert (E1 : omapM (fun icol => raw_at icol headers) (zseq (mcols m)) = Ok headers).
  { rewrite <- Hh. rewrite (omapM_seq _ (fun h => h)); [now rewrite map_id|]. intros i a Hi. unfold raw_at. now rewrite znth_nat, Hi. }
  rewrite zseq_S in E1 by assumption. cbn [omapM] in E1.
  destruct (raw_at 0 headers) as [h0| | |]; try discriminate. cbn [bind] in E1 |- *.
  destruct (omapM (fun icol => raw_at icol headers) (map (fun k => k + 1) (zseq (mcols m - 1)))) as [hs| | |]; try discriminate. cbn [bind] in E1 |- *.
  apply Ok_inj in E1. subst headers.
  rewrite (omapM_ext _ (fun row => Ok (sep_by delim (row_cells P (mat_cols m) (Z.to_nat row)) ++ [nl]))).
  - rewrite omapM_total. cbn [bind]. unfold table_text, lines. cbn [map concat]. rewrite <- app_assoc.
    unfold zseq. rewrite !map_map.
    rewrite (List.map_ext _ (fun i => sep_by delim (row_cells P (mat_cols m) i) ++ [newline])); [reflexivity|]. intros i. now rewrite Nat2Z.id.
  - intros row Hrow. unfold zseq in Hrow. apply in_map_iff in Hrow as (i & <- & Hi). apply in_seq in Hi. rewrite Nat2Z.id.
    assert (E2 : omapM (fun icol => mat_get m (Z.of_nat i) icol) (zseq (mcols m)) = Ok (map (fun xs => nth i xs 0) (mat_cols m))).
    { replace (mcols m) with (zlen (mat_cols m)) by (unfold zlen, mat_cols; rewrite map_length, seq_length; lia).
      apply omapM_seq. intros j xs Hj. rewrite mat_get_nth; try assumption; try lia.
      - now rewrite (nth_error_nth _ _ _ Hj).
      - assert (J : nth_error (mat_cols m) j <> None) by congruence. apply nth_error_Some in J. unfold mat_cols in J. now rewrite map_length, seq_length in J. }
    rewrite zseq_S in E2 by assumption. cbn [omapM] in E2.
    destruct (mat_get m (Z.of_nat i) 0) as [c0| | |]; try discriminate. cbn [bind] in E2 |- *.
    destruct (omapM (fun icol => mat_get m (Z.of_nat i) icol) (map (fun k => k + 1) (zseq (mcols m - 1)))) as [cs| | |]; try discriminate. cbn [bind] in E2 |- *.
    apply Ok_inj in E2. rewrite E2. rewrite map_map. reflexivity.
Qed.
Lemma mat_cols_len m : length (mat_cols m) = Z.to_nat (mcols m).
Proof. unfold mat_cols. now rewrite map_length, seq_length. Qed.
Lemma mat_cols_In m xs : In xs (mat_cols m) -> length xs = Z.to_nat (mrows m) /\
  (zlen (mdata m) = mrows m * mcols m -> 0 <= mrows m -> forall x, In x xs -> In x (mdata m)).
Proof.
  intros H. unfold mat_cols in H. apply in_map_iff in H as (j & <- & Hj). apply in_seq in Hj. split.
  - now rewrite map_length, seq_length.
  - intros Hd Hr x Hx. apply in_map_iff in Hx as (i & <- & Hi). apply in_seq in Hi. apply nth_In.
    apply Nat2Z.inj_lt. rewrite Nat2Z.inj_add, Nat2Z.inj_mul, Z2Nat.id by lia. unfold zlen in Hd.
    assert (Z.of_nat j + 1 <= mcols m) by lia. assert (Z.of_nat i + 1 <= mrows m) by lia. nia.
Qed.

(** ** Round trip *)
Lemma commented_app cc a b : commented cc (a ++ b) <-> commented cc a \/ commented cc b.
Proof.
  unfold commented. split.
  - intros (c & H & E). apply in_app_or in H as [H|H]; eauto.
  - intros [(c & H & E)|(c & H & E)]; exists c; split; auto; apply in_or_app; auto.
Qed.
Lemma sep_by_In delim ts c : In c (sep_by delim ts) -> c = delim \/ exists t, In t ts /\ In c t.
Proof.
  destruct ts as [|t ts]; [easy|]. cbn [sep_by]. intros H. apply in_app_or in H as [H|H].
  - right. exists t. split; [now left|assumption].
  - apply in_flat_map in H as (u & Hu & [H|H]); [now left|]. right. exists u. split; [now right|assumption].
Qed.
Lemma kept_all cc ls : (forall l, In l ls -> ~ commented cc l) -> kept cc ls ls.
Proof.
  induction ls as [|l ls IH]; intros H; [constructor|]. apply kept_keep; [apply H; now left|]. apply IH. intros x Hx. apply H. now right.
Qed.

Lemma map_nth_seq {A} (d : A) l : map (fun i => nth i l d) (seq 0 (length l)) = l.
Proof.
  apply nth_error_ext. intros i. rewrite nth_error_map. destruct (nth_error l i) as [x|] eqn:E.
  - assert (i < length l)%nat by (apply nth_error_Some; congruence). rewrite (nth_error_nth' _ 0%nat) by now rewrite seq_length.
    cbn [option_map]. rewrite seq_nth by assumption. cbn [Nat.add]. f_equal. now apply nth_error_nth.
  - apply nth_error_None in E. rewrite (proj2 (nth_error_None _ _)); [reflexivity|]. now rewrite seq_length.
Qed.

(** A cell that reads back. *)
Definition cell_ok (P : nat) (x : Z) : Prop := is_finite x = true /\ atof (print_g P x) = x.

Lemma newline_not_number : ~ In newline number_chars.
Proof. intros H. apply inset_In in H. discriminate. Qed.
Lemma cr_not_number : ~ In (ascii_of_nat 13) number_chars.
Proof. intros H. apply inset_In in H. discriminate. Qed.

Lemma round_trip_table P cc dl delim headers cols n g :
  (1 <= P)%nat -> plain_format cc dl delim ->
  headers <> [] -> Forall (plain_header cc dl) headers -> length headers = length cols ->
  Forall (fun xs => length xs = n /\ Forall (cell_ok P) xs) cols ->
  mfind k_data (old_map (set_map0 g)) = None ->
  read_formatted_data cc dl (open (table_text P delim headers cols n)) g =
    (Ok tt, GMap (mset k_data (GVec (map GVReal cols)) (mset k_headers (GVStr headers) (old_map (set_map0 g))))).
Proof.
  intros HP (Fd & Fc & Fn & Fnum) Hh Hhs Hlen Hc Hg.
  set (rows := map (row_cells P cols) (seq 0 n)).
  set (hl := sep_by delim (map txt headers)). set (ls := map (sep_by delim) rows).
  assert (Cell : forall r t c, In r rows -> In t r -> In c t -> In c number_chars).
  { intros r t c Hr Ht Hct. subst rows. apply in_map_iff in Hr as (i & <- & Hi). apply in_seq in Hi. unfold row_cells in Ht.
    apply in_map_iff in Ht as (xs & <- & Hxs). rewrite Forall_forall in Hc. destruct (Hc xs Hxs) as (L & Cx).
    assert (Q : is_finite (nth i xs 0) = true). { rewrite Forall_forall in Cx. apply Cx. apply nth_In. lia. }
    pose proof (print_g_number P _ Q) as N. rewrite Forall_forall in N. now apply N. }
  assert (Hls : Forall one_line (hl :: ls) /\ (forall l, In l (hl :: ls) -> ~ commented cc l)).
  { assert (G : forall l c, In l (hl :: ls) -> In c l -> c <> newline /\ ~ In c cc).
    { intros l c [<-|Hl] Hcl.
      - subst hl. apply sep_by_In in Hcl as [->|(t & Ht & Hct)]; [easy|]. apply in_map_iff in Ht as (h & <- & Hin).
        rewrite Forall_forall in Hhs. destruct (Hhs h Hin) as (_ & _ & A). destruct (A c Hct) as (A1 & A2 & A3). easy.
      - subst ls. apply in_map_iff in Hl as (r & <- & Hr). apply sep_by_In in Hcl as [->|(t & Ht & Hct)]; [easy|].
        pose proof (Cell r t c Hr Ht Hct) as N. split; [intros ->; now apply newline_not_number in N|]. now apply Fnum. }
    split.
    - apply Forall_forall. intros l Hl Hi. destruct (G l newline Hl Hi). easy.
    - intros l Hl (c & C1 & C2). destruct (G l c Hl C1). easy. }
  destruct Hls as (Hone & Hnc).
  assert (T : table_text P delim headers cols n = lines (hl :: ls) ++ []).
  { rewrite app_nil_r. unfold table_text. subst hl ls rows. now rewrite map_map. }
  assert (Ne : cols <> []) by (destruct cols, headers; easy).
  assert (Toks : forall ts, ts <> [] -> Forall (fun t => t <> [] /\ Forall (fun c => ~ In c dl) t) ts -> (forall t, In t ts -> ~ starts_eol t) ->
    tokens dl (sep_by delim ts) ts).
  { intros ts Hne Hts He. destruct ts as [|t ts]; [easy|]. apply tokens_plain; [|assumption]. now apply splits_join. }
  destruct (read_formatted_data_reads cc dl (open (table_text P delim headers cols n)) g hl (ls ++ [[]]) (map txt headers) rows true) as (cs & -> & Hlc & Hnth).
  - rewrite T. change (hl :: ls ++ [[]]) with ((hl :: ls) ++ [[]]). apply reads_lines; [assumption | now apply kept_all | apply reads_last_empty].
  - subst hl. apply Toks.
    + destruct headers; easy.
    + apply Forall_forall. intros t Ht. apply in_map_iff in Ht as (h & <- & Hin). rewrite Forall_forall in Hhs. destruct (Hhs h Hin) as (A & _ & B).
      split; [exact A|]. apply Forall_forall. intros c Hc'. now apply B.
    + intros t Ht. apply in_map_iff in Ht as (h & <- & Hin). rewrite Forall_forall in Hhs. destruct (Hhs h Hin) as (A & A' & B). intros [E|E].
      * unfold txt in E. destruct (list_ascii_of_string h) eqn:El; [easy|]. apply Some_inj in E. destruct (B a ltac:(now left)) as (_ & _ & B'). now apply B'.
      * now apply A'.
  - rewrite map_length, Hlen.
    assert (R : forall r, In r rows -> tokens dl (sep_by delim r) r /\ r <> [] /\ length r = length cols).
    { intros r Hr. pose proof Hr as Hr'. subst rows. apply in_map_iff in Hr as (i & <- & Hi).
      assert (N1 : row_cells P cols i <> []) by (unfold row_cells; destruct cols; easy).
      split; [|split; [assumption|apply map_length]]. apply Toks; [assumption| |].
      - apply Forall_forall. intros t Ht. split.
        + unfold row_cells in Ht. apply in_map_iff in Ht as (xs & <- & _). now apply print_g_nonempty.
        + apply Forall_forall. intros c Hct. apply Fnum. now apply (Cell _ t c Hr').
      - intros t Ht [E|E]; (destruct t as [|c t]; [easy|]); apply Some_inj in E; subst c.
        + apply newline_not_number. apply (Cell _ _ _ Hr' Ht). now left.
        + apply cr_not_number. apply (Cell _ _ _ Hr' Ht). now left. }
    subst ls. clear - R. induction rows as [|r rows IH].
    + apply rows_blank. apply tokens_plain; [|easy]. apply splits_end. constructor.
    + cbn [map app]. destruct (R r (or_introl eq_refl)) as (R1 & R2 & R3). apply rows_row; try assumption.
      apply IH. intros x Hx. apply R. now right.
  - assumption.
  - f_equal. f_equal. rewrite map_map. rewrite (List.map_ext _ (fun x => x)) by (intros; apply untxt_txt). rewrite map_id. f_equal. f_equal.
    rewrite map_length in Hlc, Hnth. apply nth_error_ext. intros j. rewrite nth_error_map.
    destruct (nth_error cols j) as [xs|] eqn:Ej.
    + assert (J : (j < length cols)%nat) by (apply nth_error_Some; congruence). rewrite Hnth by lia. cbn [option_map]. do 2 f_equal.
      rewrite Forall_forall in Hc. destruct (Hc xs) as (L & Cx); [eapply nth_error_In; exact Ej|].
      subst rows. unfold col_cells. rewrite map_map. rewrite <- (map_nth_seq 0 xs), L.
      apply map_ext_in. intros i Hi. apply in_seq in Hi. unfold row_cells.
      rewrite (nth_indep _ [] (print_g P (nth i [] 0))) by (rewrite map_length; lia).
      rewrite (map_nth (fun xs => print_g P (nth i xs 0))). rewrite (nth_error_nth _ _ _ Ej).
      rewrite Forall_forall in Cx. apply Cx. apply nth_In. lia.
    + apply nth_error_None in Ej. apply nth_error_None. lia.
Qed.
