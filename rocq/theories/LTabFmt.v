(** Lemmas about the aligned tables. *)
From Coq Require Import ZArith Bool Lia Ascii String List.
From Verif Require Import Base F64 StrMap Value MBasic MGet MMat MNum LNum MText SText LText LTable MDump MTabFmt STabFmt Props_compare.
Import ListNotations.
Local Open Scope Z_scope.

Lemma max_header_spec hs : forall a, 0 <= a -> Forall (fun h => Z.of_nat (String.length h) < 2^32) hs ->
  fold_left (fun ml h => if ml <? Z.of_nat (String.length h) then to_u32 (Z.of_nat (String.length h)) else ml) hs a =
  Z.max a (Z.of_nat (list_max (map String.length hs))).
Proof.
  induction hs as [|h hs IH]; intros a Ha H; cbn [fold_left map list_max fold_right]; [change (list_max []) with 0%nat; lia|].
  pose proof (Forall_inv H) as H1. apply Forall_inv_tail in H. cbn beta in H1. unfold list_max in *. cbn [fold_right].
  rewrite to_u32_id by (unfold uint32; lia).
  destruct (Z.ltb_spec a (Z.of_nat (String.length h))); rewrite IH by (assumption || lia); lia.
Qed.
Lemma fmt_width_spec hs : Forall (fun h => Z.of_nat (String.length h) < 2^32) hs -> fmt_width hs = Z.of_nat (col_width hs).
Proof.
  intros H. unfold fmt_width, max_header. rewrite max_header_spec by (assumption || lia). unfold col_width.
  set (m := list_max _). destruct (Z.ltb_spec (Z.max 0 (Z.of_nat m)) 8); [lia|]. destruct (Z.ltb_spec 20 (Z.max 0 (Z.of_nat m))); lia.
Qed.
Lemma spread_sep w cells : sep_by " " (map (pad w) cells) = spread w cells.
Proof.
  destruct cells as [|c cells]; [reflexivity|]. cbn [map sep_by]. revert c. induction cells as [|d cells IH]; intros c.
  - cbn [map flat_map]. rewrite app_nil_r. reflexivity.
  - cbn [map flat_map]. change (spread w (c :: d :: cells)) with (field w c ++ " "%char :: spread w (d :: cells)). rewrite <- IH. reflexivity.
Qed.
Lemma fmt_head_spec w hs : fmt_head (Z.of_nat w) hs = spread w (names hs).
Proof. unfold fmt_head. rewrite Nat2Z.id, <- spread_sep. unfold names. now rewrite map_map. Qed.
Lemma fmt_rule_spec n w : (0 < n)%nat -> Z.of_nat n * (Z.of_nat w + 1) < 2^32 -> fmt_rule (Z.of_nat n) (Z.of_nat w) = dashes (n * (w + 1) - 1).
Proof.
  intros Hn H. unfold fmt_rule, dashes. f_equal.
  assert (1 <= Z.of_nat n * (Z.of_nat w + 1)) by nia. rewrite to_u32_id by (unfold uint32; lia). nia.
Qed.
Lemma lines_app a b : lines (a ++ b) = lines a ++ lines b.
Proof. unfold lines. now rewrite map_app, concat_app. Qed.
Lemma lines_map {A} (f : A -> text) l : concat (map (fun i => f i ++ [nl]) l) = lines (map f l).
Proof. unfold lines. now rewrite map_map. Qed.

(** Both versions write the lines of the table. *)
Lemma write_fmt_vec_text P headers data cols n :
  headers <> [] -> length headers = length data -> Z.of_nat n < 2^32 ->
  Forall (fun h => Z.of_nat (String.length h) < 2^32) headers -> Z.of_nat (length headers) * 21 < 2^32 ->
  Forall2 (fun c xs => column c = Some xs /\ length xs = n) data cols ->
  write_fmt_vec P headers data = Ok (lines (table_lines P headers cols n)).
Proof.
  intros Hh Hl Hn Hs Hc H. unfold write_fmt_vec. destruct data as [|d0 data]; [destruct headers; [contradiction|discriminate]|].
  pose proof (F2_len _ _ _ H) as Hlc.
  assert (Z0 : zlen headers = Z.of_nat (length cols)) by (unfold zlen; congruence).
  assert (Hp : (0 < length cols)%nat) by (rewrite <- Hlc; cbn; lia).
  rewrite to_u32_id by (unfold uint32; pose proof (zlen_nonneg headers); unfold zlen; lia). rewrite Z0.
  assert (N : num_elements d0 = Z.of_nat n).
  { inversion H as [|? xs ? ? (E1 & E2)]; subst. rewrite (column_len d0 xs); [reflexivity | assumption | assumption]. }
  rewrite N. destruct (Z.eqb_spec (Z.of_nat (length cols)) 0); [lia|]. rewrite fmt_width_spec by assumption.
  rewrite (omapM_ext _ (fun row => Ok (spread (col_width headers) (row_text P cols (Z.to_nat row)) ++ [nl]))).
  - rewrite omapM_total. cbn [bind]. unfold table_lines. rewrite fmt_head_spec, fmt_rule_spec.
    2: assumption. 2: { rewrite Hl, Hlc in Hc. unfold col_width. nia. }
    cbn [lines]. unfold zseq. rewrite map_map, Nat2Z.id.
    rewrite (List.map_ext _ (fun i => spread (col_width headers) (row_text P cols i) ++ [nl])) by (intros i; now rewrite Nat2Z.id).
    rewrite lines_map. unfold lines at 2. cbn [map concat]. rewrite map_app, concat_app. cbn [map concat]. rewrite app_nil_r.
    rewrite <- !app_assoc. reflexivity.
  - intros row Hrow. unfold zseq in Hrow. apply in_map_iff in Hrow as (i & <- & Hi). apply in_seq in Hi. rewrite !Nat2Z.id.
    assert (E : omapM (fun icol => do c <- raw_at icol (d0 :: data) ; get_number_at (Z.of_nat i) c) (zseq (zlen cols)) =
      Ok (map (fun xs => nth i xs 0) cols)).
    { apply omapM_seq. intros j xs Hj. unfold raw_at. rewrite znth_nat.
      destruct (nth_error (d0 :: data) j) as [c|] eqn:Ec.
      + cbn [bind]. destruct (F2_nth _ _ _ H _ _ _ Ec Hj) as (Q1 & Q2). rewrite (column_at _ _ _ Q1), znth_nat.
        destruct (nth_error xs i) eqn:Ei; [|apply nth_error_None in Ei; lia]. now rewrite (nth_error_nth _ _ _ Ei).
      + apply nth_error_None in Ec. assert (nth_error cols j <> None) as Q by congruence. apply nth_error_Some in Q. lia. }
    change (zlen cols) with (Z.of_nat (length cols)) in E. rewrite zseq_S in E by lia. cbn [omapM] in E.
    change (raw_at 0 (d0 :: data)) with (Ok d0) in E. cbn [bind] in E.
    destruct (get_number_at (Z.of_nat i) d0) as [c0| | |]; try discriminate. cbn [bind] in E |- *.
    destruct (omapM _ _) as [cs| | |]; try discriminate. cbn [bind] in E |- *. apply Ok_inj in E. rewrite E.
    rewrite <- spread_sep. unfold row_text. rewrite !map_map. reflexivity.
Qed.
Lemma write_fmt_mat_text P headers m :
  zlen (mdata m) = mrows m * mcols m -> mrows m * mcols m < 2^32 -> 0 <= mrows m -> 0 < mcols m -> zlen headers = mcols m ->
  Forall (fun h => Z.of_nat (String.length h) < 2^32) headers -> Z.of_nat (length headers) * 21 < 2^32 ->
  write_fmt_mat P headers m = Ok (lines (table_lines P headers (mat_cols m) (Z.to_nat (mrows m)))).
Proof.
  intros Hd Hs Hr Hc Hh Hl Hb. unfold write_fmt_mat. destruct (Z.eqb_spec (mcols m) 0); [lia|].
  assert (Z0 : mcols m = Z.of_nat (length (mat_cols m))) by (rewrite mat_cols_len; lia).
  destruct headers as [|h0 headers]; [cbn in Hh; lia|]. set (hs := h0 :: headers) in *. rewrite fmt_width_spec by assumption.
  rewrite (omapM_ext _ (fun row => Ok (spread (col_width hs) (row_text P (mat_cols m) (Z.to_nat row)) ++ [nl]))).
  - rewrite omapM_total. cbn [bind]. unfold table_lines. rewrite Z0, fmt_head_spec, fmt_rule_spec.
    2: lia. 2: { rewrite <- Z0. unfold zlen in Hh. unfold col_width. nia. }
    unfold zseq. rewrite map_map.
    rewrite (List.map_ext _ (fun i => spread (col_width hs) (row_text P (mat_cols m) i) ++ [nl])) by (intros i; now rewrite Nat2Z.id).
    rewrite lines_map. unfold lines at 2. cbn [map concat]. rewrite map_app, concat_app. cbn [map concat]. rewrite app_nil_r.
    rewrite <- !app_assoc. reflexivity.
  - intros row Hrow. unfold zseq in Hrow. apply in_map_iff in Hrow as (i & <- & Hi). apply in_seq in Hi. rewrite !Nat2Z.id.
    assert (E2 : omapM (fun icol => mat_get m (Z.of_nat i) icol) (zseq (mcols m)) = Ok (map (fun xs => nth i xs 0) (mat_cols m))).
    { replace (mcols m) with (zlen (mat_cols m)) by (unfold zlen, mat_cols; rewrite map_length, seq_length; lia).
      apply omapM_seq. intros j xs Hj. rewrite mat_get_nth; try assumption; try lia.
      - now rewrite (nth_error_nth _ _ _ Hj).
      - assert (J : nth_error (mat_cols m) j <> None) by congruence. apply nth_error_Some in J. unfold mat_cols in J. now rewrite map_length, seq_length in J. }
    rewrite zseq_S in E2 by assumption. cbn [omapM] in E2.
    destruct (mat_get m (Z.of_nat i) 0) as [c0| | |]; try discriminate. cbn [bind] in E2 |- *.
    destruct (omapM (fun icol => mat_get m (Z.of_nat i) icol) (map (fun k => k + 1) (zseq (mcols m - 1)))) as [cs| | |]; try discriminate. cbn [bind] in E2 |- *.
    apply Ok_inj in E2. rewrite E2. rewrite <- spread_sep. unfold row_text. rewrite !map_map. reflexivity.
Qed.

(** ** Alignment *)
Lemma field_length w c : (length c <= w)%nat -> length (field w c) = w.
Proof. intros H. unfold field, blanks. rewrite app_length, repeat_length. lia. Qed.
Lemma spread_cons w c d r : spread w (c :: d :: r) = field w c ++ " "%char :: spread w (d :: r).
Proof. reflexivity. Qed.
Lemma spread_in_columns w cells : Forall (fun c => (length c <= w)%nat) cells -> in_columns w cells (spread w cells).
Proof.
  induction cells as [|c cells IH]; intros H.
  - split; [reflexivity|]. intros j c Hj. now destruct j.
  - pose proof (Forall_inv H) as Hc. apply Forall_inv_tail in H. cbn beta in Hc. specialize (IH H).
    pose proof (field_length w c Hc) as Lf. destruct cells as [|d cells].
    + cbn [spread]. split; [cbn [length]; lia|]. intros j x Hj. destruct j as [|[|j]]; try discriminate. cbn in Hj. apply Some_inj in Hj. subst x.
      split; [|easy]. change (0 * (w + 1))%nat with 0%nat. cbn [skipn]. rewrite firstn_all2 by lia. reflexivity.
    + rewrite spread_cons. destruct IH as (L & IH). split.
      * rewrite app_length, Lf. change (length (" "%char :: spread w (d :: cells))) with (S (length (spread w (d :: cells)))). rewrite L. cbn [length]. set (k := S (length cells)) in *. change (S k * (w + 1))%nat with ((w + 1) + k * (w + 1))%nat. assert (1 <= k * (w + 1))%nat by (subst k; nia). lia.
      * intros j x Hj. destruct j as [|j].
        -- cbn in Hj. apply Some_inj in Hj. subst x. split; [|easy]. change (0 * (w + 1))%nat with 0%nat. cbn [skipn].
           rewrite firstn_app, Lf, Nat.sub_diag. cbn [firstn]. rewrite app_nil_r. apply (firstn_all2 (field w c)). lia.
        -- cbn [nth_error] in Hj. destruct (IH j x Hj) as (I1 & I2). split.
           ++ rewrite skipn_app, Lf. rewrite (skipn_all2 (field w c)) by lia. cbn [app].
              replace (S j * (w + 1) - w)%nat with (S (j * (w + 1))) by lia. cbn [skipn]. exact I1.
           ++ intros _. rewrite nth_error_app2 by lia. rewrite Lf. destruct j as [|j].
              ** replace (1 * (w + 1) - 1 - w)%nat with 0%nat by lia. reflexivity.
              ** replace (S (S j) * (w + 1) - 1 - w)%nat with (S (S j * (w + 1) - 1)) by lia. cbn [nth_error]. apply I2. lia.
Qed.

(** Splitting a line at blanks gives the cells, aligned or not. *)
Lemma spread_splits w cells : Forall (fun c => c <> [] /\ ~ In " "%char c) cells -> splits [" "%char] (spread w cells) cells.
Proof.
  induction cells as [|c cells IH]; intros H; [apply splits_end; constructor|].
  pose proof (Forall_inv H) as (Hc & Hb). apply Forall_inv_tail in H. specialize (IH H).
  assert (G : forall n, Forall (fun x => In x [" "%char]) (blanks n)).
  { intros n. apply Forall_forall. intros x Hx. apply repeat_spec in Hx. subst. now left. }
  assert (C : Forall (fun x => ~ In x [" "%char]) c).
  { apply Forall_forall. intros x Hx [<-|[]]. contradiction. }
  destruct cells as [|d cells].
  - cbn [spread]. unfold field. rewrite <- (app_nil_r c) at 2. apply splits_token; auto. easy.
  - rewrite spread_cons. unfold field. rewrite <- app_assoc. apply splits_token; auto.
    + intros x Hx. cbn in Hx. apply Some_inj in Hx. subst. now left.
    + change (" "%char :: spread w (d :: cells)) with ([" "%char] ++ spread w (d :: cells)). apply splits_gap; [|exact IH]. constructor; [now left|constructor].
Qed.

(** ** Length of printed numbers *)
Lemma strip_front_length l : (length (strip_front l) <= length l)%nat.
Proof. induction l as [|x l IH]; [easy|]. destruct x; cbn [strip_front length] in *; lia. Qed.
Lemma frac_length l : (length (frac l) <= S (length l))%nat.
Proof.
  unfold frac. assert (L : (length (strip0 l) <= length l)%nat).
  { unfold strip0. rewrite rev_length. pose proof (strip_front_length (rev l)) as Q. now rewrite rev_length in Q. }
  destruct (strip0 l) as [|a r]; cbn [length]; [lia|]. rewrite map_length. cbn [length] in *. lia.
Qed.
Lemma digs_length k n : length (digs k n) = k.
Proof. revert n. induction k as [|k IH]; intros n; [reflexivity|]. cbn [digs]. rewrite app_length, IH. cbn [length]. lia. Qed.
Lemma neg_exp_bound f num den : - Z.of_nat f <= neg_exp f num den <= 0.
Proof. revert num. induction f as [|f IH]; intros num; cbn [neg_exp]; [lia|]. destruct (den <=? num); [lia|]. specialize (IH (num * 10)). lia. Qed.
Lemma ndig_small n k : 0 <= n < 10 ^ Z.of_nat k -> (1 <= k)%nat -> (ndig n <= k)%nat.
Proof.
  intros (H0 & H) Hk. destruct (Z.eq_dec n 0) as [->|Hn]; [exact Hk|].
  destruct (ndig_spec n ltac:(lia)) as (S1 & _).
  destruct (Nat.le_gt_cases (ndig n) k) as [L|L]; [exact L|]. exfalso.
  assert (10 ^ Z.of_nat k <= 10 ^ (Z.of_nat (ndig n) - 1)) by (apply Z.pow_le_mono_r; lia). lia.
Qed.
Lemma dexp_bound num den : 0 < den -> 0 <= num < den * 10 ^ 400 -> -400 <= dexp num den < 400.
Proof.
  intros Hd Hn. unfold dexp. destruct (den <=? num).
  - assert (Q : 0 <= num / den < 10 ^ Z.of_nat 400).
    { split; [apply Z.div_pos; lia|]. apply Z.div_lt_upper_bound; [lia|]. exact (proj2 Hn). }
    pose proof (ndig_small _ 400 Q ltac:(lia)) as B. clear - B. lia.
  - pose proof (neg_exp_bound 400 num den). lia.
Qed.
Lemma round_dec_exp P num den : 0 < den -> 0 <= num < den * 10 ^ 400 -> -400 <= snd (round_dec P num den) <= 400.
Proof.
  intros Hd Hn. pose proof (dexp_bound num den Hd Hn) as B. unfold round_dec. generalize dependent (dexp num den). intros e B.
  cbv zeta. set (m := if 0 <=? _ then _ else _). clearbody m. destruct (m =? _); cbn [snd]; lia.
Qed.
Lemma print_exp_length e : -999 <= e <= 999 -> (length (print_exp e) <= 4)%nat.
Proof.
  intros H. unfold print_exp. cbn [length]. rewrite map_length, digs_length.
  pose proof (ndig_small (Z.abs e) 3) as N. change (10 ^ Z.of_nat 3) with 1000 in N. lia.
Qed.
Lemma print_pos_length P num den : (1 <= P)%nat -> 0 < den -> 0 <= num < den * 10 ^ 400 -> (length (print_pos P num den) <= P + 6)%nat.
Proof.
  intros HP Hd Hn. unfold print_pos. pose proof (round_dec_exp P num den Hd Hn) as B. destruct (round_dec P num den) as (m, e). cbn [snd] in B. cbv zeta.
  pose proof (digs_length P m) as L. set (d := digs P m) in *. clearbody d.
  destruct ((e <? -4) || (Z.of_nat P <=? e)) eqn:C.
  - rewrite !app_length, map_length. cbn [length].
    pose proof (frac_length (skipn 1 d)) as F. rewrite skipn_length in F. rewrite firstn_length.
    pose proof (print_exp_length e ltac:(lia)). lia.
  - apply orb_false_iff in C as (C1 & C2). apply Z.ltb_ge in C1. destruct (Z.leb_spec 0 e).
    + rewrite app_length, map_length. pose proof (frac_length (skipn (Z.to_nat (e + 1)) d)) as F. rewrite skipn_length in F. rewrite firstn_length. lia.
    + cbn [length]. pose proof (frac_length (repeat 0 (Z.to_nat (- e - 1)) ++ d)) as F. rewrite app_length, repeat_length in F. lia.
Qed.
Lemma fmag_big x : f64 x -> is_finite x = true -> 0 <= fmag x < fone * 10 ^ 400.
Proof.
  intros Hx Hf. split; [apply fmag_nonneg|]. unfold is_finite in Hf.
  assert (E : 0 <= fexp x < 2048) by (unfold fexp; apply Z.mod_pos_bound; lia).
  assert (M : 0 <= fman x < 2^52) by (unfold fman; apply Z.mod_pos_bound; lia).
  assert (B : fmag x < 2 ^ 2100).
  { unfold fmag. destruct (Z.eqb_spec (fexp x) 0) as [E0|E0].
    - eapply Z.lt_le_trans; [exact (proj2 M)|]. apply Z.pow_le_mono_r; lia.
    - apply Z.lt_le_trans with (2 ^ 53 * 2 ^ (fexp x - 1)).
      + apply Z.mul_lt_mono_pos_r; [apply Z.pow_pos_nonneg; lia|]. change (2^53) with (2^52 + 2^52). apply Zplus_lt_compat_l. exact (proj2 M).
      + rewrite <- Z.pow_add_r by lia. apply Z.pow_le_mono_r; lia. }
  eapply Z.lt_trans; [exact B|]. apply Z.ltb_lt. vm_compute. reflexivity.
Qed.
Lemma print_g_length P x : (1 <= P)%nat -> f64 x -> (length (print_g P x) <= P + 7)%nat.
Proof.
  intros HP Hx. unfold print_g. rewrite app_length.
  assert (S1 : (length (if fsign x then ["-"%char] else []) <= 1)%nat) by (destruct (fsign x); cbn [length]; lia).
  destruct (is_nan x) eqn:N; [change (length (txt "nan")) with 3%nat; lia|].
  destruct (is_inf x) eqn:I; [change (length (txt "inf")) with 3%nat; lia|].
  destruct (fmag x =? 0); [cbn [length]; lia|].
  assert (F : is_finite x = true).
  { unfold is_finite. unfold is_nan in N. unfold is_inf in I. destruct (fexp x =? 2047); [|reflexivity]. cbn [andb negb] in N, I. destruct (fman x =? 0); discriminate. }
  pose proof (fmag_big x Hx F) as B.
  pose proof (print_pos_length P (fmag x) fone HP) as L. assert (0 < fone) as O by (unfold fone; apply Z.pow_pos_nonneg; lia).
  specialize (L O B). lia.
Qed.
