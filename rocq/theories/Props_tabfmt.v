(** Property C85: write_table_formatted. *)
From Coq Require Import ZArith Bool Lia Ascii String List.
From Verif Require Import Base F64 StrMap Value MBasic MGet MMat MNum LNum MText SText LText LTable MTabFmt STabFmt LTabFmt Props_mat.
Import ListNotations.
Local Open Scope Z_scope.

(** The text is a header line, a rule, [n] rows and the rule again; headers and cells are in
    columns of the same width, and the rule is as long as the other lines. *)
Definition aligned (P : nat) (headers : list string) (cols : list (list Z)) (n : nat) (t : text) : Prop :=
  let w := col_width headers in
  exists h r rows,
    t = lines (h :: r :: rows ++ [r]) /\
    in_columns w (names headers) h /\
    r = dashes (length headers * (w + 1) - 1) /\
    length rows = n /\
    forall i l, nth_error rows i = Some l -> in_columns w (row_text P cols i) l.
(** The headers are short enough, and each number as printed fits the columns. *)
Definition headers_fit (headers : list string) : Prop := Forall (fun h => String.length h <= 20)%nat headers.
Definition cells_fit (P : nat) (headers : list string) (cols : list (list Z)) : Prop :=
  Forall (Forall (fun x => length (print_g P x) <= col_width headers)%nat) cols.

Lemma cstr_short h : (String.length (cstr h) <= String.length h)%nat.
Proof. induction h as [|c h IH]; cbn [cstr]; [easy|]. destruct (_ =? _)%char; cbn [String.length]; lia. Qed.
Lemma txt_length s : length (txt s) = String.length s.
Proof. induction s as [|c s IH]; [reflexivity|]. cbn. now rewrite <- IH. Qed.
Lemma list_max_in l x : In x l -> (x <= list_max l)%nat.
Proof. intros H. pose proof (proj1 (list_max_le l (list_max l)) (le_n _)) as F. rewrite Forall_forall in F. now apply F. Qed.
Lemma names_fit headers : headers_fit headers -> Forall (fun c => (length c <= col_width headers)%nat) (names headers).
Proof.
  intros H. unfold names. apply Forall_forall. intros c Hc. apply in_map_iff in Hc as (h & <- & Hh). rewrite txt_length.
  unfold headers_fit in H. rewrite Forall_forall in H. specialize (H h Hh). cbn beta in H. pose proof (cstr_short h).
  pose proof (list_max_in _ _ (in_map String.length _ _ Hh)). unfold col_width. lia.
Qed.
Lemma headers_short headers : headers_fit headers -> Forall (fun h => Z.of_nat (String.length h) < 2^32) headers.
Proof. unfold headers_fit. intros H. eapply Forall_impl; [|exact H]. cbn beta. intros h Hh. lia. Qed.
Lemma table_aligned P headers cols n : length headers = length cols -> headers_fit headers -> cells_fit P headers cols ->
  Forall (fun xs => length xs = n) cols -> aligned P headers cols n (lines (table_lines P headers cols n)).
Proof.
  intros Hl Hh Hc Hn. unfold aligned, table_lines. eexists _, _, _. split; [reflexivity|]. split; [|split; [|split]].
  - apply spread_in_columns. now apply names_fit.
  - now rewrite Hl.
  - now rewrite map_length, seq_length.
  - intros i l Hi. rewrite nth_error_map in Hi. destruct (nth_error (seq 0 n) i) as [k|] eqn:Ek; [|discriminate]. cbn [option_map] in Hi. apply Some_inj in Hi. subst l.
    assert (Li : (i < n)%nat) by (assert (Q : nth_error (seq 0 n) i <> None) by congruence; apply nth_error_Some in Q; now rewrite seq_length in Q).
    rewrite (nth_error_nth' _ 0%nat) in Ek by now rewrite seq_length. apply Some_inj in Ek. rewrite seq_nth in Ek by assumption. subst k. cbn [Nat.add].
    apply spread_in_columns. unfold row_text. apply Forall_forall. intros c Hin. apply in_map_iff in Hin as (xs & <- & Hx).
    unfold cells_fit in Hc. rewrite Forall_forall in Hc, Hn. specialize (Hc xs Hx). specialize (Hn xs Hx). rewrite Forall_forall in Hc. apply Hc. apply nth_In. lia.
Qed.

(** A table of columns.  Missing for the full property: headers of more than 20 characters and
    numbers that need more characters than the columns have, see [C85_header_refuted] and
    [C85_number_refuted]. *)
Theorem C85_vector_partial P headers data cols n :
  headers <> [] -> length headers = length data -> Z.of_nat n < 2^32 -> Z.of_nat (length headers) * 21 < 2^32 ->
  Forall2 (fun c xs => column c = Some xs /\ length xs = n) data cols ->
  headers_fit headers -> cells_fit P headers cols ->
  exists t, write_fmt_vec P headers data = Ok t /\ aligned P headers cols n t.
Proof.
  intros H0 Hl Hn Hb H Hh Hc. eexists. split; [apply write_fmt_vec_text; eauto; now apply headers_short|].
  pose proof (F2_len _ _ _ H) as L. apply table_aligned; auto; [congruence|].
  clear - H. induction H as [|? ? ? ? (_ & E)]; constructor; auto.
Qed.
(** A real matrix: column j of the text is column j of the matrix. *)
Theorem C85_matrix_partial P headers a :
  mat_ok a -> 0 < mcols a -> zlen headers = mcols a -> Z.of_nat (length headers) * 21 < 2^32 ->
  headers_fit headers -> Forall (fun x => length (print_g P x) <= col_width headers)%nat (mdata a) ->
  exists t cols, write_fmt_mat P headers a = Ok t /\ aligned P headers cols (Z.to_nat (mrows a)) t /\
    zlen cols = mcols a /\
    forall i j, 0 <= i < mrows a -> 0 <= j < mcols a ->
      exists xs, znth j cols = Some xs /\ zlen xs = mrows a /\ znth i xs = znth (i + j * mrows a) (mdata a).
Proof.
  intros (Hr & Hc & Hs & Hd) Hp Hz Hb Hh Hf. eexists _, (mat_cols a). split; [apply write_fmt_mat_text; eauto; now apply headers_short|].
  split; [|split].
  - apply table_aligned; auto.
    + rewrite mat_cols_len. unfold zlen in Hz. lia.
    + apply Forall_forall. intros xs Hx. apply Forall_forall. intros x Hin. rewrite Forall_forall in Hf. apply Hf.
      destruct (mat_cols_In a xs Hx) as (_ & I). now apply I.
    + apply Forall_forall. intros xs Hx. now destruct (mat_cols_In a xs Hx).
  - unfold zlen. rewrite mat_cols_len. lia.
  - intros i j Hi Hj. exists (nth (Z.to_nat j) (mat_cols a) []).
    assert (J : (Z.to_nat j < length (mat_cols a))%nat) by (rewrite mat_cols_len; lia).
    destruct (mat_cols_In a (nth (Z.to_nat j) (mat_cols a) [])) as (L & _); [now apply nth_In|].
    rewrite <- (Z2Nat.id j) at 1 by lia. rewrite znth_nat. split; [now apply nth_error_nth'|]. split; [unfold zlen; lia|].
    rewrite <- (Z2Nat.id i) at 1 by lia. rewrite znth_nat. rewrite (nth_error_nth' _ 0) by lia.
    rewrite mat_cols_nth by lia.
    replace (i + j * mrows a) with (Z.of_nat (Z.to_nat j * Z.to_nat (mrows a) + Z.to_nat i)) by (rewrite Nat2Z.inj_add, Nat2Z.inj_mul, !Z2Nat.id; lia).
    rewrite znth_nat. symmetry. apply nth_error_nth'.
    apply Nat2Z.inj_lt. rewrite Nat2Z.inj_add, Nat2Z.inj_mul, !Z2Nat.id by lia. unfold zlen in Hd. nia.
Qed.
(** All numbers fit, whatever their values, when one header has at least P+7 characters
    (13 with the default precision). *)
Theorem C85_wide P headers cols h : (1 <= P)%nat -> In h headers -> (P + 7 <= String.length h <= 20)%nat ->
  Forall (Forall f64) cols -> cells_fit P headers cols.
Proof.
  intros HP Hin Hh Hc. unfold cells_fit. eapply Forall_impl; [|exact Hc]. intros xs Hx. cbn beta in Hx. eapply Forall_impl; [|exact Hx]. intros x Hx'. cbn beta in Hx' |- *.
  pose proof (print_g_length P x HP Hx'). pose proof (list_max_in _ _ (in_map String.length _ _ Hin)). unfold col_width. lia.
Qed.
(** Aligned or not: splitting a row at blanks gives the numbers in the order of the columns,
    splitting the first line gives the headers when they are names without blanks. *)
Theorem C85_cells P headers data cols n :
  (1 <= P)%nat -> headers <> [] -> length headers = length data -> Z.of_nat n < 2^32 -> Z.of_nat (length headers) * 21 < 2^32 ->
  Forall (fun h => Z.of_nat (String.length h) < 2^32 /\ h <> ""%string /\ no_nul h /\ ~ In " "%char (txt h)) headers ->
  Forall2 (fun c xs => column c = Some xs /\ length xs = n) data cols -> Forall (Forall (fun x => is_finite x = true)) cols ->
  exists h r rows, write_fmt_vec P headers data = Ok (lines (h :: r :: rows ++ [r])) /\
    splits [" "%char] h (map txt headers) /\ Forall (eq "-"%char) r /\ length rows = n /\
    forall i l, nth_error rows i = Some l -> splits [" "%char] l (map (fun xs => print_g P (nth i xs 0)) cols).
Proof.
  intros HP H0 Hl Hn Hb Hs H Hf. eexists _, _, _. split; [eapply write_fmt_vec_text; eauto; eapply Forall_impl; [|exact Hs]; now intros h (Q & _)|].
  split; [|split; [|split]].
  - assert (E : names headers = map txt headers).
    { unfold names. apply map_ext_in. intros h Hh. rewrite Forall_forall in Hs. destruct (Hs h Hh) as (_ & _ & N & _). now rewrite cstr_id. }
    rewrite E. apply spread_splits. apply Forall_forall. intros c Hc. apply in_map_iff in Hc as (h & <- & Hh). rewrite Forall_forall in Hs.
    destruct (Hs h Hh) as (_ & Q & _ & B). split; [|exact B]. intros E'. apply Q. destruct h; [reflexivity|discriminate].
  - unfold dashes. apply Forall_forall. intros x Hx. apply repeat_spec in Hx. now subst.
  - now rewrite map_length, seq_length.
  - intros i l Hi. rewrite nth_error_map in Hi. destruct (nth_error (seq 0 n) i) as [k|] eqn:Ek; [|discriminate]. cbn [option_map] in Hi. apply Some_inj in Hi. subst l.
    assert (Li : (i < n)%nat) by (assert (Q : nth_error (seq 0 n) i <> None) by congruence; apply nth_error_Some in Q; now rewrite seq_length in Q).
    rewrite (nth_error_nth' _ 0%nat) in Ek by now rewrite seq_length. apply Some_inj in Ek. rewrite seq_nth in Ek by assumption. subst k. cbn [Nat.add].
    apply spread_splits. unfold row_text. apply Forall_forall. intros c Hin. apply in_map_iff in Hin as (xs & <- & Hx). split; [now apply print_g_nonempty|].
    intros B. rewrite Forall_forall in Hf. specialize (Hf xs Hx). rewrite Forall_forall in Hf.
    assert (Lx : length xs = n). { clear - H Hx. induction H as [|? ? ? ? (_ & E) ? IH]; [easy|]. destruct Hx as [<-|Hx]; auto. }
    specialize (Hf (nth i xs 0) ltac:(apply nth_In; lia)). pose proof (print_g_number P _ Hf) as N. rewrite Forall_forall in N. specialize (N _ B).
    apply inset_In in N. discriminate.
Qed.

(** A header of 21 characters: the line of the headers is longer than the rule. *)
Theorem C85_header_refuted : exists headers data cols t, length headers = length data /\
  Forall2 (fun c xs => column c = Some xs /\ length xs = 1%nat) data cols /\
  write_fmt_vec 6 headers data = Ok t /\ ~ aligned 6 headers cols 1 t.
Proof.
  exists ["abcdefghijklmnopqrstu"; "x"]%string, [GVReal [0]; GVReal [0]], [[0]; [0]].
  eexists. split; [reflexivity|]. split; [repeat (apply Forall2_cons; [split; reflexivity|]); apply Forall2_nil|].
  split; [vm_compute; reflexivity|]. intros (h & r & rows & E & (L & _) & R & Hr & _).
  destruct rows as [|l [|? ?]]; try discriminate.
  unfold lines in E. cbn [map concat app] in E. rewrite <- !app_assoc in E. cbn [app] in *. 
  assert (W : nth_error (h ++ newline :: r ++ newline :: l ++ newline :: r ++ [newline]) 41 = Some newline).
  { change 41%nat with (length ["abcdefghijklmnopqrstu"; "x"]%string * (col_width ["abcdefghijklmnopqrstu"; "x"]%string + 1) - 1)%nat.
    rewrite nth_error_app2; rewrite L; [|reflexivity]. reflexivity. }
  rewrite <- E in W. vm_compute in W. discriminate.
Qed.
(** Short headers and a number of eight digits: with the default precision it is printed with
    twelve characters. *)
Theorem C85_number_refuted : exists headers data cols t, length headers = length data /\ headers_fit headers /\
  Forall2 (fun c xs => column c = Some xs /\ length xs = 1%nat) data cols /\
  write_fmt_vec 6 headers data = Ok t /\ ~ aligned 6 headers cols 1 t.
Proof.
  exists ["x"]%string, [GVInt [-12345678]], [[f_of_Z (-12345678)]].
  eexists. split; [reflexivity|]. split; [constructor; [cbn; lia|constructor]|].
  split; [apply Forall2_cons; [split; reflexivity|]; apply Forall2_nil|].
  split; [vm_compute; reflexivity|]. intros (h & r & rows & E & (L & _) & R & Hr & A).
  destruct rows as [|l [|? ?]]; try discriminate. destruct (A 0%nat l eq_refl) as (Ll & _). unfold row_text in Ll. rewrite map_length in Ll.
  assert (Lr : length r = 8%nat) by (rewrite R; reflexivity).
  assert (Lh : length h = 8%nat) by exact L. assert (Lb : length l = 8%nat) by exact Ll. clear L Ll A R Hr.
  apply (f_equal (@length ascii)) in E. unfold lines in E. cbn [map concat app] in E. rewrite ?app_length in E. cbn [length] in E. rewrite ?app_length in E. cbn [length] in E. lia.
Qed.
(** The rules are part of the text: reading a table of one column back gives two further rows. *)
Theorem C85_read_back_refuted : exists t,
  write_fmt_vec 6 ["x"]%string [GVInt [5]] = Ok t /\
  read_formatted_data (txt "#") (txt " ") (open t) GNone =
    (Ok tt, GMap [("data"%string, GVec [GVReal [0; f_of_Z 5; 0]]); ("headers"%string, GVStr ["x"%string])]).
Proof.
  exists (txt "       x" ++ [nl] ++ txt "--------" ++ [nl] ++ txt "       5" ++ [nl] ++ txt "--------" ++ [nl]).
  split; [vm_compute; reflexivity|]. vm_compute. reflexivity.
Qed.
(** Without data the call is undefined, whatever the headers; also with more headers than
    columns of data, as soon as there is a row. *)
Theorem C85_no_data_refuted P headers : write_fmt_vec P headers [] = Undef.
Proof. reflexivity. Qed.
Theorem C85_missing_column_refuted P h1 h2 x : write_fmt_vec P [h1; h2] [GVReal [x]] = Undef.
Proof. unfold write_fmt_vec. reflexivity. Qed.

(** ** Hypotheses are met *)
Example C85_vector_ex : exists t, write_fmt_vec 6 ["a"; "time"]%string [GVInt [1; -2]; GVReal [f_of_Q 1 2; f_of_Z 10]] = Ok t /\
  aligned 6 ["a"; "time"]%string [[f_of_Z 1; f_of_Z (-2)]; [f_of_Q 1 2; f_of_Z 10]] 2 t.
Proof.
  apply C85_vector_partial; try discriminate; try reflexivity; try (cbn; lia).
  - repeat (apply Forall2_cons; [split; reflexivity|]). apply Forall2_nil.
  - unfold headers_fit. repeat (apply Forall_cons; [cbn; lia|]). apply Forall_nil.
  - unfold cells_fit. repeat (apply Forall_cons; [repeat (apply Forall_cons; [apply Nat.leb_le; vm_compute; reflexivity|]); apply Forall_nil|]). apply Forall_nil.
Qed.
Example C85_matrix_ex : exists t cols, write_fmt_mat 6 ["a"; "b"]%string (Mat 1 2 [f_of_Z 1; f_of_Z 2]) = Ok t /\ aligned 6 ["a"; "b"]%string cols 1 t.
Proof.
  destruct (C85_matrix_partial 6 ["a"; "b"]%string (Mat 1 2 [f_of_Z 1; f_of_Z 2])) as (t & cols & E & A & _).
  - repeat split; vm_compute; congruence.
  - reflexivity.
  - reflexivity.
  - reflexivity.
  - unfold headers_fit. repeat (apply Forall_cons; [cbn; lia|]). apply Forall_nil.
  - repeat (apply Forall_cons; [apply Nat.leb_le; vm_compute; reflexivity|]). apply Forall_nil.
  - exists t, cols. split; assumption.
Qed.
Example C85_wide_ex : In "position-of-a"%string ["t"; "position-of-a"]%string /\ (6 + 7 <= String.length "position-of-a" <= 20)%nat.
Proof. split; [right; now left|]. cbn. lia. Qed.
Example C85_cells_ex : Forall (fun h => Z.of_nat (String.length h) < 2^32 /\ h <> ""%string /\ no_nul h /\ ~ In " "%char (txt h)) ["a"; "time"]%string.
Proof.
  repeat (apply Forall_cons; [split; [reflexivity|split; [discriminate|split; [vm_compute; intuition discriminate|vm_compute; intuition discriminate]]]|]). apply Forall_nil.
Qed.

Print Assumptions C85_vector_partial.
Print Assumptions C85_matrix_partial.
Print Assumptions C85_wide.
Print Assumptions C85_cells.
Print Assumptions C85_header_refuted.
Print Assumptions C85_number_refuted.
Print Assumptions C85_read_back_refuted.
Print Assumptions C85_no_data_refuted.
Print Assumptions C85_missing_column_refuted.
