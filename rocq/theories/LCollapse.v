(** Proofs about collapse. *)
From Coq Require Import ZArith Bool Lia Ascii String List.
From Verif Require Import Base F64 StrMap Value MBasic MCopy SCopy LCopy LBasic MGet SGet LGet MMat SMap
  MPromote SPromote LPromote LCopyto MCollapse SCollapse.
Import ListNotations.
Local Open Scope Z_scope.

Lemma columns_concat {A} nr (vs : list (list A)) : Forall (fun c => length c = nr) vs ->
  columns nr (length vs) (concat vs) = vs.
Proof.
  induction 1 as [|c vs H F IH]; [reflexivity|]. cbn [concat length columns].
  rewrite <- H, firstn_app, Nat.sub_diag, firstn_all, firstn_O, app_nil_r.
  rewrite skipn_app, Nat.sub_diag, skipn_all, skipn_O. cbn [app]. rewrite H, IH. reflexivity.
Qed.

(** ** The scan *)
Lemma scan_max v : forall s, let s' := fold_left scan_step v s in
  tag_num (max_sub s) <= tag_num (max_sub s') /\
  (forall e, In e v -> tag_num (tag_of e) <= tag_num (max_sub s')) /\
  (max_sub s' = max_sub s \/ exists e, In e v /\ max_sub s' = tag_of e).
Proof.
  induction v as [|a v IH]; intros s; cbn [fold_left].
  - cbv zeta. split; [lia|]. split; [intros e []|]. now left.
  - destruct (IH (scan_step s a)) as (H1 & H2 & H3). cbv zeta in *.
    assert (E : max_sub (scan_step s a) =
                if tag_num (max_sub s) <? tag_num (tag_of a) then tag_of a else max_sub s) by reflexivity.
    destruct (Z.ltb_spec (tag_num (max_sub s)) (tag_num (tag_of a))); rewrite E in *.
    + split; [lia|]. split.
      * intros e [<-|He]; auto.
      * right. destruct H3 as [->|(e & He & ->)]; [exists a; split; [now left|reflexivity] |
          exists e; split; [now right|reflexivity]].
    + split; [lia|]. split.
      * intros e [<-|He]; [lia | auto].
      * destruct H3 as [->|(e & He & ->)]; [now left | right; exists e; split; [now right|reflexivity]].
Qed.

Lemma scan_str v : forall s, all_string (fold_left scan_step v s) = true ->
  all_string s = true /\ forall e, In e v -> tag_of e = TStr.
Proof.
  induction v as [|a v IH]; intros s H; cbn [fold_left] in H.
  - split; [assumption|]. intros e [].
  - destruct (IH _ H) as [H1 H2]. cbn [scan_step all_string] in H1.
    unfold tag_eqb in H1. destruct (tag_dec (tag_of a) TStr) as [T|T]; [|discriminate].
    split; [assumption|]. intros e [<-|He]; auto.
Qed.

Lemma scan_str_conv v : forall s, all_string s = true -> (forall e, In e v -> tag_of e = TStr) ->
  all_string (fold_left scan_step v s) = true.
Proof.
  induction v as [|a v IH]; intros s H1 H2; cbn [fold_left]; [assumption|].
  apply IH; [|intros; apply H2; now right]. cbn [scan_step all_string].
  unfold tag_eqb. destruct (tag_dec (tag_of a) TStr) as [T|T]; [assumption|].
  exfalso. apply T, H2. now left.
Qed.

Definition ne32 (g : gc) : Z := to_i32 (num_elements g).

Lemma scan_ne v : forall s, (forall e, In e v -> 0 <= ne32 e) ->
  can_collapse (fold_left scan_step v s) = true ->
  can_collapse s = true /\
  (v <> [] -> forall e, In e v -> ne32 e = last_nelem (fold_left scan_step v s)) /\
  (0 <= last_nelem s -> last_nelem (fold_left scan_step v s) = last_nelem s).
Proof.
  induction v as [|a v IH]; intros s Hp H; cbn [fold_left] in *.
  - split; [assumption|]. split; [congruence|]. reflexivity.
  - destruct (IH (scan_step s a)) as (H1 & H2 & H3); [intros; apply Hp; now right | assumption |].
    assert (La : last_nelem (scan_step s a) = ne32 a) by reflexivity.
    assert (Ha : 0 <= ne32 a) by (apply Hp; now left).
    rewrite La in H3. specialize (H3 Ha).
    cbn [scan_step can_collapse] in H1.
    destruct (Z.leb_spec 0 (last_nelem s)) as [L|L]; cbn [andb] in H1.
    + destruct (can_collapse s) eqn:C; [|discriminate]. apply Z.eqb_eq in H1.
      split; [reflexivity|]. split.
      * intros _ e [<-|He]; [now symmetry|]. apply H2; [|assumption]. intros ->. destruct He.
      * intros _. rewrite H3. unfold ne32. now symmetry.
    + split; [assumption|]. split; [|lia].
      intros _ e [<-|He]; [now symmetry|]. apply H2; [|assumption]. intros ->. destruct He.
Qed.

(** ** Sizes *)
Lemma weight_pos g : 1 <= weight g.
Proof.
  induction g as [g Hv Hm | v IH | m IH] using gc_nest_ind.
  - destruct g; cbn [weight]; try lia; try nested_contra Hv Hm;
      match goal with |- context[zlen ?l] => pose proof (zlen_nonneg l); lia end.
  - rewrite weight_vec. assert (0 <= sumw v); [|lia].
    induction IH; cbn [sumw fold_right]; [lia|]. fold (sumw l). lia.
  - rewrite weight_map. assert (0 <= sumwm m); [|lia].
    induction IH; cbn [sumwm fold_right]; [lia|]. fold (sumwm l). lia.
Qed.
Lemma sumw_len v : zlen v <= sumw v.
Proof.
  induction v as [|a v IH]; [cbn; unfold zlen; cbn; lia|]. rewrite zlen_cons. cbn [sumw fold_right].
  fold (sumw v). pose proof (weight_pos a). lia.
Qed.
Lemma sumwm_len m : zlen m <= sumwm m.
Proof.
  induction m as [|a v IH]; [cbn; unfold zlen; cbn; lia|]. rewrite zlen_cons. cbn [sumwm fold_right].
  fold (sumwm v). pose proof (weight_pos (snd a)). lia.
Qed.
Lemma sumw_in v e : In e v -> weight e <= sumw v.
Proof.
  induction v as [|a v IH]; intros []; cbn [sumw fold_right]; fold (sumw v).
  - subst. pose proof (sumw_len v). pose proof (zlen_nonneg v). lia.
  - specialize (IH H). pose proof (weight_pos a). lia.
Qed.
Lemma sumwm_in m e : In e m -> weight (snd e) <= sumwm m.
Proof.
  induction m as [|a v IH]; intros []; cbn [sumwm fold_right]; fold (sumwm v).
  - subst. pose proof (sumwm_len v). pose proof (zlen_nonneg v). lia.
  - specialize (IH H). pose proof (weight_pos (snd a)). lia.
Qed.

Lemma elems_weight g : zlen (elems g) <= weight g.
Proof.
  destruct g; cbn [elems weight]; rewrite ?zlen_map; try (unfold zlen; cbn; lia); try lia.
  - fold (sumw v). pose proof (sumw_len v). change (zlen v <= 1 + sumw v). lia.
  - fold (sumwm m). pose proof (sumwm_len m). pose proof (zlen_nonneg m).
    change (zlen (@nil gc) <= 1 + sumwm m). rewrite zlen_nil. lia.
Qed.

Lemma small_sized g : weight g < 2^31 -> sized g.
Proof. intros H. unfold sized. pose proof (elems_weight g). lia. Qed.

Lemma num_elems g : tag_of g <> TMap -> weight g < 2^31 -> num_elements g = zlen (elems g).
Proof.
  intros T W. pose proof (elems_weight g).
  assert (forall A (l : list A), zlen l < 2^31 -> to_u32 (zlen l) = zlen l).
  { intros A l Hl. pose proof (zlen_nonneg l). apply to_u32_id. unfold uint32. lia. }
  destruct g; cbn [elems num_elements] in *; rewrite ?zlen_map in *; try reflexivity;
    try (match goal with K : forall A l, _ |- _ => apply K end; lia).
  now destruct T.
Qed.
Lemma ne32_nonneg g : weight g < 2^31 -> 0 <= ne32 g.
Proof.
  intros W. unfold ne32. destruct (tag_dec (tag_of g) TMap) as [T|T].
  - destruct g; try discriminate. cbn [num_elements]. rewrite weight_map in W.
    pose proof (sumwm_len m). pose proof (zlen_nonneg m).
    rewrite to_u32_id by (unfold uint32; lia). rewrite to_i32_id by (unfold int32; lia). lia.
  - rewrite num_elems by assumption. pose proof (elems_weight g). pose proof (zlen_nonneg (elems g)).
    rewrite to_i32_id by (unfold int32; lia). lia.
Qed.
Lemma ne32_elems g : tag_of g <> TMap -> weight g < 2^31 -> ne32 g = zlen (elems g).
Proof.
  intros T W. unfold ne32. rewrite num_elems by assumption. pose proof (elems_weight g).
  pose proof (zlen_nonneg (elems g)). apply to_i32_id. unfold int32. lia.
Qed.

(** ** Data of converted elements *)
Lemma num_f_zero : num_of_f 0 = num_of_Z 0.
Proof. unfold num_of_f, num_of_Z. vmc. Qed.
Lemma num_f_int x n : fis x n -> num_of_f x = num_of_Z n.
Proof. unfold fis, num_of_f, num_of_Z. intros ->. reflexivity. Qed.
Lemma d_real_int x n : fis x n -> d_real x = d_int n.
Proof. intros H. unfold d_real, d_int. now rewrite (num_f_int x n H). Qed.

Lemma nearest_exact x n : fnearest x n -> representable n -> fis x n.
Proof.
  intros (v & E & H) (y & Fy & Hy). unfold fis in *. rewrite E. f_equal.
  specialize (H y _ Fy Hy). rewrite Z.sub_diag in H. cbn [Z.abs] in H. lia.
Qed.

Lemma denotes_data e n : denotes e n -> data_of e = d_int n.
Proof.
  destruct e; cbn [denotes data_of]; try easy; try (intros ->; reflexivity).
  - apply d_real_int.
  - destruct c as [re im]. intros [H1 H2]. unfold d_cplx, d_int. cbn [fst snd].
    now rewrite (num_f_int _ _ H1), (num_f_int _ _ H2).
Qed.

Lemma real_of_data rnd one e x : (rnd = false -> long_ok e) -> real_of e x ->
  sim rnd one (data_of e) (d_real x).
Proof.
  intros L H. destruct e; cbn [real_of data_of] in *; try easy.
  - rewrite (d_real_int _ _ H). apply sim_refl.
  - rewrite (d_real_int _ _ H). apply sim_refl.
  - destruct rnd.
    + now apply sim_round.
    + rewrite (d_real_int x l) by (apply nearest_exact; [assumption | now apply L]). apply sim_refl.
  - subst. apply sim_refl.
Qed.
Lemma real_conv_data rnd one e x : (rnd = false -> long_ok e) -> real_conv e x ->
  sim rnd one (data_of e) (d_real x).
Proof.
  intros L [H|(im & -> & H)]; [now apply real_of_data|].
  cbn [data_of]. unfold d_cplx, d_real. cbn [fst snd]. rewrite (num_f_int _ _ H). apply sim_refl.
Qed.
Lemma cplx_of_data rnd one e c : (rnd = false -> long_ok e) -> cplx_of e c ->
  sim rnd one (data_of e) (d_cplx c).
Proof.
  intros L H. destruct (tag_dec (tag_of e) TComplex) as [T|T].
  - destruct e; try discriminate. cbn in H. subst. apply sim_refl.
  - assert (K : real_of e (fst c) /\ snd c = 0) by (destruct e; try exact H; now destruct T).
    destruct K as [K1 K2]. destruct c as [re im]. cbn [fst snd] in *. subst im.
    replace (d_cplx (re, 0)) with (d_real re); [now apply real_of_data|].
    unfold d_cplx, d_real. cbn [fst snd]. now rewrite num_f_zero.
Qed.

(** What a conversion of one element guarantees. *)
Definition conv_ok {A} rnd one (P : gc -> Prop) (cv : gc -> out A) (D : A -> dat) (W : A -> Prop) : Prop :=
  forall e x, P e -> wf e -> cv e = Ok x -> sim rnd one (data_of e) (D x) /\ W x.

Lemma fcast_range lo hi x n : fcast lo hi x = Ok n -> lo <= n <= hi.
Proof.
  unfold fcast. destruct (fscaled x); [|discriminate].
  destruct (_ && _) eqn:E; [|discriminate]. intros H. apply Ok_inj in H. subst.
  apply andb_prop in E as [E1 E2]. lia.
Qed.

Lemma cast_denotes lo hi r n : ~ tiny r -> is_integer r = true -> fcast lo hi r = Ok n -> fis r n /\ lo <= n <= hi.
Proof.
  intros T I E. apply is_integer_int in I; [|assumption]. destruct I as [m Hm].
  destruct (fcast_ok _ _ _ _ _ Hm E) as [-> R]. now split.
Qed.

Lemma denotes_representable e n : wf e -> long_ok e -> denotes e n -> representable n.
Proof.
  intros Hw L D. destruct e; cbn [denotes wf long_ok] in *; try easy.
  - exists (f_of_Z n). subst. destruct b; apply f_of_Z_exact; lia.
  - exists (f_of_Z n). subst. unfold int32 in Hw. apply f_of_Z_exact. lia.
  - now subst.
  - now exists r.
  - destruct c as [re im]. destruct D as [D _]. exists re. split; [apply Hw|assumption].
Qed.

Lemma conv_int_denotes e n : wf e -> no_tiny e -> conv_int false e = Ok n -> denotes e n /\ int32 n.
Proof.
  intros Hw T E. destruct e; cbn in E; try discriminate.
  - apply Ok_inj in E. subst. destruct b; cbn; unfold int32; lia.
  - apply Ok_inj in E. subst. split; [reflexivity|exact Hw].
  - unfold cl_int in E. destruct (Z.eqb_spec (to_i32 l) l) as [H|H]; [|discriminate].
    apply Ok_inj in E. subst n. cbn. rewrite H. split; [reflexivity|]. rewrite <- H. apply to_i32_range.
  - destruct (is_integer r) eqn:I; [|discriminate]. cbn [gc_assert] in E.
    destruct (cast_denotes _ _ _ _ T I E) as [H R]. split; [exact H|]. unfold int32. lia.
  - destruct c as [re im]. cbn in T. destruct Hw as [Hw1 Hw2], T as [T1 T2]. cbn [snd] in Hw2.
    destruct (zero0_or im Hw2 T2) as [[Z0 Z1]|[Z0 Z1]]; rewrite Z1 in E; cbn [andb gc_assert] in E; [|discriminate].
    destruct (is_integer re) eqn:I; [|discriminate]. cbn [gc_assert] in E.
    destruct (cast_denotes _ _ _ _ T1 I E) as [H R]. split; [now split|]. unfold int32. lia.
Qed.
Lemma as_long_denotes e n : wf e -> no_tiny e -> get_as_long e = Ok n -> denotes e n /\ int64 n.
Proof.
  intros Hw T E. destruct e; cbn in E; try discriminate.
  - apply Ok_inj in E. subst. destruct b; cbn; unfold int64; lia.
  - apply Ok_inj in E. subst. split; [reflexivity|]. cbn in Hw. unfold int32 in Hw. unfold int64. lia.
  - apply Ok_inj in E. subst. split; [reflexivity|exact Hw].
  - destruct (is_integer r) eqn:I; [|discriminate]. cbn [gc_assert] in E.
    destruct (cast_denotes _ _ _ _ T I E) as [H R]. split; [exact H|]. unfold int64. lia.
  - destruct c as [re im]. cbn in T. destruct Hw as [Hw1 Hw2], T as [T1 T2]. cbn [snd] in Hw2.
    destruct (zero0_or im Hw2 T2) as [[Z0 Z1]|[Z0 Z1]]; rewrite Z1 in E; cbn [andb gc_assert] in E; [|discriminate].
    destruct (is_integer re) eqn:I; [|discriminate]. cbn [gc_assert] in E.
    destruct (cast_denotes _ _ _ _ T1 I E) as [H R]. split; [now split|]. unfold int64. lia.
Qed.
Lemma number_f64 e x : wf e -> get_number e = Ok x -> f64 x.
Proof.
  intros Hw E. destruct e; cbn [get_number] in E; try discriminate; apply Ok_inj in E; subst.
  - destruct b; apply f_of_Z_range; lia.
  - cbn in Hw. unfold int32 in Hw. apply f_of_Z_range. lia.
  - cbn in Hw. unfold int64 in Hw. apply f_of_Z_range. lia.
  - exact Hw.
Qed.

Lemma conv_int_ok rnd one : conv_ok rnd one no_tiny (conv_int false) d_int int32.
Proof.
  intros e x T Hw E. destruct (conv_int_denotes e x Hw T E) as [D R].
  rewrite (denotes_data e x D). split; [apply sim_refl|assumption].
Qed.
Lemma conv_long_ok rnd one : conv_ok rnd one no_tiny get_as_long d_int int64.
Proof.
  intros e x T Hw E. destruct (as_long_denotes e x Hw T E) as [D R].
  rewrite (denotes_data e x D). split; [apply sim_refl|assumption].
Qed.
Definition keeps (rnd : bool) (e : gc) : Prop := rnd = false -> long_ok e.
Lemma conv_real_ok rnd one : conv_ok rnd one (fun e => no_tiny e /\ keeps rnd e) (conv_real false) d_real f64.
Proof.
  intros e x (T & L) Hw E. destruct (tag_dec (tag_of e) TComplex) as [C|C].
  - destruct e as [ | | | | | |[re im]| | | | | | | | | | | | | | ]; try discriminate.
    cbn in E. unfold cc_real in E. cbn [fst snd] in E. destruct Hw as [Hw1 Hw2], T as [T1' T2]. cbn [fst snd] in *.
    destruct (zero0_or im Hw2 T2) as [[Z0 Z1]|[Z0 Z1]]; rewrite Z1 in E; cbn [gc_assert] in E; [|discriminate].
    apply Ok_inj in E. subst x. split; [|assumption].
    apply real_conv_data; [assumption|]. right. now exists im.
  - assert (E' : get_number e = Ok x) by (destruct e; try exact E; now destruct C).
    split; [|eapply number_f64; eassumption].
    apply real_of_data; [assumption|]. now apply get_number_ok.
Qed.
Lemma conv_complex_ok rnd one : conv_ok rnd one (keeps rnd) (conv_complex false) d_cplx fc.
Proof.
  intros e x L Hw E. cbn in E. split.
  - apply cplx_of_data; [assumption|]. now apply get_complex_number_ok.
  - assert (Z0 : f64 0) by (unfold f64; lia).
    destruct e; cbn [get_complex_number] in E; try discriminate; apply Ok_inj in E; subst; try exact Hw; split; try exact Z0.
    + eapply number_f64 with (GBool b); [exact I|reflexivity].
    + eapply number_f64 with (GInt i); [exact Hw|reflexivity].
    + eapply number_f64 with (GLong l); [exact Hw|reflexivity].
    + exact Hw.
Qed.

(** ** Merging scalars into a typed vector, vectors into a matrix *)
Lemma push_ok_F2 {A} rnd one P cv D W (l : list gc) (r : list A) :
  conv_ok rnd one P cv D W -> Forall P l -> Forall wf l ->
  push_all cv l [] = (Ok tt, r) ->
  length r = length l /\ sim rnd one (DList (map data_of l)) (DList (map D r)) /\ Forall W r.
Proof.
  intros C HP HW E. apply push_all_ok in E as (r' & -> & F). cbn [app].
  induction F as [|e x l r' Ex F IH].
  - split; [reflexivity|]. split; [apply sim_refl|constructor].
  - inversion HP; inversion HW; subst.
    destruct IH as (I1 & I2 & I3); try assumption.
    destruct (C e x) as (C1 & C2); try assumption.
    split; [cbn; congruence|]. split; [now apply sim_cons|now constructor].
Qed.

Lemma fill_cols_inv {A} (cv : gc -> list A -> out unit * list A) nr cols : forall j m m',
  fill_cols cv nr cols j m = Ok m' -> exists cs, Forall2 (fun c l => cv c [] = (Ok tt, l)) cols cs.
Proof.
  induction cols as [|c cols IH]; intros j m m' E; cbn [fill_cols] in E.
  - exists []. constructor.
  - destruct (cv c []) as [[[]| | |] l] eqn:Ec; try discriminate.
    apply bind_ok in E as (m1 & _ & E). destruct (IH _ _ _ E) as [cs F].
    exists (l :: cs). now constructor.
Qed.

(** A child that takes part in the merge into a matrix: a scalar or a typed vector of
    numbers or pointers. *)
Definition flat (c : gc) : Prop := tag_num (tag_of c) <= tag_num TVComplex.

Lemma seq_data c : sequence c -> data_of c = DList (map data_of (elems c)).
Proof.
  intros H. destruct c; cbn [elems data_of]; rewrite ?map_map; try reflexivity;
    exfalso; cbn in H; intuition discriminate.
Qed.
Lemma flat_cases c : flat c -> scalar c \/ sequence c.
Proof. destruct c; unfold flat, scalar, sequence; cbn; intros H; try lia; tauto. Qed.
Lemma column_data {A} rnd one P cv D W c (col : list A) :
  conv_ok rnd one P cv D W ->
  (forall p, cv (GPtr p) = Throw) -> (forall s, cv (GStr s) = Throw) ->
  flat c -> (scalar c -> one = true) -> Forall P (elems c) -> wf c ->
  push_all cv (elems c) [] = (Ok tt, col) ->
  length col = length (elems c) /\ sim rnd one (data_of c) (DList (map D col)) /\ Forall W col.
Proof.
  intros C HPt HSt Hf Ho HP Hw E.
  destruct (push_ok_F2 rnd one P cv D W (elems c) col) as (E1 & E2 & E3); try assumption.
  { now apply elems_wf. }
  split; [assumption|]. split; [|assumption].
  destruct (flat_cases c Hf) as [S|S].
  - specialize (Ho S). subst one.
    destruct c; cbn [elems] in *; try (exfalso; cbn in S; intuition discriminate);
      try (eapply sim_trans; [|exact E2]; now apply sim_one).
    + destruct col; [|discriminate]. now apply sim_null.
    + cbn in E. rewrite HPt in E. discriminate.
    + cbn in E. rewrite HSt in E. discriminate.
  - now rewrite seq_data.
Qed.

(** The matrix built by collapse from the columns [v]. *)
Lemma mat_of_data {A} rnd one P (d : A) cp cv D W v nr (m : mat A) :
  conv_ok rnd one P cv D W ->
  (forall p, cv (GPtr p) = Throw) -> (forall s, cv (GStr s) = Throw) ->
  (forall c, sized c -> flat c -> cp c [] = push_all cv (elems c) []) ->
  sumw v < 2^31 -> Forall flat v ->
  (forall c, In c v -> scalar c -> one = true) -> (forall c, In c v -> Forall P (elems c)) ->
  Forall wf v ->
  v <> [] -> (forall c, In c v -> ne32 c = nr) ->
  mat_of d cp nr v = Ok m ->
  wf_mat W m /\ sim rnd one (DList (map data_of v)) (d_mat D m) /\ zlen (mdata m) <= sumw v.
Proof.
  intros C HPt HSt Hcp Hsm Hf Ho HP Hw Hne Hnr E.
  unfold mat_of in E. pose proof (sumw_len v) as Hlen. pose proof (zlen_nonneg v) as Hlv.
  rewrite visit_all in E by lia.
  destruct (fill_cols_inv _ _ _ _ _ _ E) as [cs F].
  assert (Hnr0 : 0 <= nr < 2^31).
  { destruct v as [|c v]; [congruence|]. rewrite <- (Hnr c) by now left.
    assert (weight c < 2^31) by (pose proof (sumw_in (c :: v) c (or_introl eq_refl)); lia).
    split; [now apply ne32_nonneg|]. unfold ne32. pose proof (to_i32_range (num_elements c)) as R.
    unfold int32 in R. lia. }
  rewrite (to_u32_id nr) in E by (unfold uint32; lia).
  rewrite (to_u32_id (zlen v)) in E by (unfold uint32; lia).
  (* every column has the data of its child *)
  assert (K : forall c col, In c v -> cp c [] = (Ok tt, col) ->
            length col = length (elems c) /\ sim rnd one (data_of c) (DList (map D col)) /\ Forall W col /\
            zlen col = nr /\ zlen col + 0 <= weight c).
  { intros c col Hc Ec.
    assert (Wc : weight c < 2^31) by (pose proof (sumw_in v c Hc); lia).
    rewrite Forall_forall in Hf, Hw. rewrite Hcp in Ec; [|now apply small_sized|now apply Hf].
    destruct (column_data rnd one P cv D W c col) as (K1 & K2 & K3); auto.
    { exact (Ho c Hc). }
    assert (zlen col = zlen (elems c)) by (unfold zlen; now rewrite K1).
    repeat (split; [assumption|]). split.
    - rewrite H, <- (Hnr c Hc). symmetry. apply ne32_elems; [|assumption].
      specialize (Hf c Hc). unfold flat in Hf. destruct c; cbn in Hf; try discriminate. lia.
    - rewrite H. pose proof (elems_weight c). lia. }
  assert (G : Forall2 (fun c col => cp c [] = (Ok tt, col) /\ zlen col = nr) v cs /\
    sim rnd one (DList (map data_of v)) (DList (map (fun c => DList (map D c)) cs)) /\
    Forall W (concat cs) /\
    Forall (fun c => length c = Z.to_nat nr) cs /\ zlen (concat cs) = nr * zlen v /\
    zlen (concat cs) <= sumw v).
  { clear -F K Hnr0. induction F as [|c col v cs Ec F IH].
    - split; [constructor|]. split; [apply sim_refl|]. split; [constructor|].
      split; [constructor|]. unfold zlen. cbn. lia.
    - destruct (K c col) as (K1 & K2 & K3 & K5 & K6); [now left|assumption|].
      destruct IH as (I1 & I2 & I3 & I5 & I6 & I7); [intros; apply K; [now right|assumption]|].
      split; [constructor; auto|]. split; [now apply sim_cons|].
      split; [cbn [concat]; now apply Forall_app|].
      split; [constructor; [unfold zlen in K5; lia|assumption]|].
      cbn [concat sumw fold_right]. fold (sumw v). rewrite zlen_app, zlen_cons. nia. }
  destruct G as (G1 & G2 & G3 & G5 & G6 & G7).
  unfold mresize in E.
  assert (Hprod : 0 <= nr * zlen v < 2^31) by (rewrite <- G6; pose proof (zlen_nonneg (concat cs)); lia).
  rewrite to_u32_id in E by (unfold uint32; lia).
  change (resize d (Z.to_nat (nr * zlen v)) []) with ([] ++ resize d (Z.to_nat (nr * zlen v)) []) in E.
  rewrite (fill_cols_ok cp nr (zlen v) (proj1 Hnr0) v cs 0) in E; try assumption; try lia.
  2:{ rewrite zlen_nil. lia. }
  2:{ unfold zlen at 1. rewrite resize_length, Z2Nat.id; lia. }
  2:{ cbn [app]. unfold zlen at 1. rewrite resize_length, Z2Nat.id; lia. }
  cbn [app] in E. apply Ok_inj in E. subst m. unfold wf_mat, d_mat. cbn [mrows mcols mdata].
  split; [|split; [|assumption]].
  - split; [unfold uint32; lia|]. split; [unfold uint32; lia|]. split; [|assumption].
    rewrite G6. symmetry. apply to_u32_id. unfold uint32. lia.
  - replace (Z.to_nat (zlen v)) with (length cs).
    + now rewrite columns_concat.
    + assert (length v = length cs) by (clear -F; induction F; cbn; congruence). unfold zlen. lia.
Qed.

(** ** What collapse guarantees *)
Record post (rnd one : bool) (g g' : gc) : Prop := {
  p_wf : wf g';
  p_weight : weight g' <= weight g;
  p_scalar : scalar g -> g' = g;
  p_nonscalar : ~ scalar g -> ~ scalar g';
  p_len : vec_tag (tag_of g') -> sequence g /\ zlen (elems g') = zlen (elems g);
  p_noreal : Forall no_real (merging g) -> Forall no_real (merging g');
  p_longok : Forall long_ok (merging g) -> Forall long_ok (merging g');
  p_sim : sim rnd one (data_of g) (data_of g')
}.

Lemma post_refl rnd one g : wf g -> post rnd one g g.
Proof.
  intros Hw. constructor; auto; try lia; [|apply sim_refl].
  intros T. split; [|reflexivity]. destruct g; cbn in T; try (exfalso; intuition discriminate);
    unfold sequence; cbn; tauto.
Qed.

Lemma everywhere_flat (P : gc -> Prop) g : (forall v, g <> GVec v) -> (forall m, g <> GMap m) -> P g -> everywhere P g.
Proof. intros Hv Hm H. destruct g; try (split; [exact H|exact I]); nested_contra Hv Hm. Qed.

(** The result of merging the children of a non-empty vector. *)
Lemma typed_post rnd one v g' : wf g' -> weight g' <= weight (GVec v) -> ~ scalar g' ->
  (vec_tag (tag_of g') -> zlen (elems g') = zlen v) ->
  (forall v, g' <> GVec v) -> (forall m, g' <> GMap m) ->
  (Forall no_real v -> Forall no_real (merging g')) -> (Forall long_ok v -> Forall long_ok (merging g')) ->
  sim rnd one (data_of (GVec v)) (data_of g') -> post rnd one (GVec v) g'.
Proof.
  intros. constructor; auto.
  - intros S. exfalso. cbn in S. intuition discriminate.
  - intros T. split; [unfold sequence; cbn; tauto | auto].
Qed.

Lemma strings_of_ok v t : strings_of v = Ok t -> v = map GStr t.
Proof.
  revert t. induction v as [|e v IH]; intros t E; cbn in E.
  - apply Ok_inj in E. now subst.
  - apply bind_ok in E as (s & Es & E). apply bind_ok in E as (r & Er & E). apply Ok_inj in E. subst t.
    destruct e; try discriminate. cbn in Es. apply Ok_inj in Es. subst. cbn. f_equal. auto.
Qed.
Lemma bools_of_ok v t : bools_of v = Ok t -> v = map GBool t.
Proof.
  revert t. induction v as [|e v IH]; intros t E; cbn in E.
  - apply Ok_inj in E. now subst.
  - destruct e; try discriminate. apply bind_ok in E as (r & Er & E). apply Ok_inj in E. subst t. cbn. f_equal. auto.
Qed.

Lemma overwrite_cases r g : fst (overwrite r g) = Ok tt \/ fst (overwrite r g) = Throw ->
  overwrite r g = (Throw, g) \/ exists g', r = Ok g' /\ overwrite r g = (Ok tt, g').
Proof. destruct r; cbn; intros [H|H]; try discriminate; eauto. Qed.

Definition fine (r : out unit) : Prop := r = Ok tt \/ r = Throw.

Section CollapseVec.
  Variables rnd one : bool.
  Variable v : list gc.
  Hypothesis Hne : v <> [].
  Hypothesis Hw : Forall wf v.
  Hypothesis Hsm : weight (GVec v) < 2^31.
  Hypothesis HL : rnd = false ->
    (forall c, In c v -> Forall no_real (merging c)) \/ (forall c, In c v -> Forall long_ok (merging c)).
  Hypothesis Hcalm : forall c, In c v -> scalar c -> one = true -> no_tiny c.
  Hypothesis Hmix : one = false -> forall a b, In a v -> In b v -> scalar a -> vec_tag (tag_of b) ->
    zlen (elems a) <> zlen (elems b).
  Let s := fold_left scan_step v scan0.

  Local Lemma Wv : sumw v < 2^31.
  Proof. rewrite weight_vec in Hsm. lia. Qed.
  Local Lemma Lv : 0 <= zlen v /\ zlen v < 2^31 /\ zlen v <= sumw v.
  Proof. pose proof Wv. pose proof (sumw_len v). pose proof (zlen_nonneg v). lia. Qed.
  Local Lemma Wc c : In c v -> weight c < 2^31.
  Proof. intros H. pose proof (sumw_in v c H). pose proof Wv. lia. Qed.
  (** When a real or complex number takes part, the longs are doubles exactly. *)
  Local Lemma HLc c : In c v -> ~ Forall no_real (merging c) -> rnd = false -> forall b, In b v -> Forall long_ok (merging b).
  Proof. intros Hc Hn Hr. destruct (HL Hr) as [H|H]; [now contradiction (Hn (H c Hc))|exact H]. Qed.
  Local Lemma Sv : sized (GVec v).
  Proof. unfold sized. cbn [elems]. pose proof Lv. lia. Qed.

  (** Scalars to a typed vector. *)
  Local Lemma scalars_post {A} P cv (k : list A -> gc) D W t :
    conv_ok rnd one P cv D W -> Forall P v -> push_all cv v [] = (Ok tt, t) ->
    (forall t, Forall W t -> wf (k t)) -> (forall t, weight (k t) = 1 + zlen t) ->
    (forall t, zlen (elems (k t)) = zlen t) -> (forall t, data_of (k t) = DList (map D t)) ->
    (forall t, vec_tag (tag_of (k t))) ->
    (Forall no_real v -> Forall no_real (merging (k t))) -> (Forall long_ok v -> Forall long_ok (merging (k t))) ->
    post rnd one (GVec v) (k t).
  Proof.
    intros C HP E K1 K2 K3 K4 K5 K6 K7.
    destruct (push_ok_F2 rnd one P cv D W v t) as (E1 & E2 & E3); auto.
    assert (Hlt : zlen t = zlen v) by (unfold zlen; now rewrite E1).
    specialize (K5 t).
    apply typed_post; auto.
    - rewrite K2, weight_vec, Hlt. pose proof Lv. lia.
    - intros S. destruct (k t); cbn in S, K5; intuition discriminate.
    - intros _. now rewrite K3.
    - intros w Hk. rewrite Hk in K5. cbn in K5. intuition discriminate.
    - intros w Hk. rewrite Hk in K5. cbn in K5. intuition discriminate.
    - rewrite K4. exact E2.
  Qed.

  Local Lemma mats_post {A} P (d : A) cp cv (k : mat A -> gc) D W mx m :
    conv_ok rnd one P cv D W ->
    (forall p, cv (GPtr p) = Throw) -> (forall s, cv (GStr s) = Throw) ->
    (forall c, sized c -> flat c -> cp c [] = push_all cv (elems c) []) ->
    can_collapse s = true -> max_sub s = mx -> vec_tag mx -> tag_num mx <= tag_num TVComplex ->
    (forall c, In c v -> scalar c -> no_tiny c -> P c) ->
    (forall c, In c v -> sequence c -> Forall P (elems c)) ->
    mat_of d cp (last_nelem s) v = Ok m ->
    (forall m, wf_mat W m -> wf (k m)) -> (forall m, weight (k m) = 1 + zlen (mdata m)) ->
    (forall m, data_of (k m) = d_mat D m) ->
    (forall m, In (tag_of (k m)) [TMInt; TMLong; TMReal; TMComplex]) ->
    post rnd one (GVec v) (k m) /\ wf_mat W m.
  Proof.
    intros C HPt HSt Hcp Hcan Hmx Hvt Hle HP1 HP2 E K1 K2 K4 K5.
    destruct (scan_max v scan0) as (_ & M2 & M3). fold s in M2, M3. cbv zeta in M2, M3. rewrite Hmx in M2, M3.
    destruct (scan_ne v scan0) as (_ & N2 & _).
    { intros e He. apply ne32_nonneg. now apply Wc. }
    { exact Hcan. }
    fold s in N2. specialize (N2 Hne).
    assert (Hflat : Forall flat v).
    { apply Forall_forall. intros c Hc. unfold flat. specialize (M2 c Hc). lia. }
    assert (Hsc : forall c, In c v -> scalar c -> one = true).
    { intros c Hc Sc. destruct one eqn:O; [reflexivity|]. exfalso.
      destruct M3 as [M3|(b & Hb & M3)]; [rewrite M3 in Hvt; cbn in Hvt; intuition discriminate|].
      rewrite M3 in Hvt.
      apply (Hmix eq_refl c b Hc Hb Sc Hvt).
      rewrite <- !ne32_elems; try (now apply Wc).
      - now rewrite (N2 c Hc), (N2 b Hb).
      - intros Tb. rewrite Tb in Hvt. cbn in Hvt. intuition discriminate.
      - intros Tc. unfold scalar in Sc. rewrite Tc in Sc. cbn in Sc. intuition discriminate. }
    destruct (mat_of_data rnd one P d cp cv D W v (last_nelem s) m) as (R1 & R2 & R3); auto.
    { apply Wv. }
    { intros c Hc. rewrite Forall_forall in Hflat.
      destruct (flat_cases c (Hflat c Hc)) as [Sc|Sc]; [|now apply HP2].
      pose proof (Hcalm c Hc Sc (Hsc c Hc Sc)) as T.
      destruct c; cbn [elems]; try (exfalso; cbn in Sc; intuition discriminate);
        first [exact (Forall_nil _) | (constructor; [now apply HP1|constructor])]. }
    specialize (K5 m). split; [|assumption].
    apply typed_post; auto.
    - rewrite K2, weight_vec. lia.
    - intros Sc. destruct (k m); cbn in Sc, K5; intuition discriminate.
    - intros T. destruct (k m); cbn in T, K5; intuition discriminate.
    - intros w Hk. rewrite Hk in K5. cbn in K5. intuition discriminate.
    - intros w Hk. rewrite Hk in K5. cbn in K5. intuition discriminate.
    - intros _. destruct (k m); cbn in K5; try (exfalso; intuition discriminate); constructor.
    - intros _. destruct (k m); cbn in K5; try (exfalso; intuition discriminate); constructor.
    - rewrite K4. exact R2.
  Qed.

  Local Lemma few_t {A} (t : list A) : length t = length v -> few t /\ t <> [].
  Proof.
    intros E. pose proof Lv. split; [unfold few, zlen in *; lia|].
    intros ->. destruct v; [now apply Hne|discriminate].
  Qed.

  Local Lemma below mx c : max_sub s = mx -> In c v -> tag_num (tag_of c) <= tag_num mx.
  Proof.
    intros M Hc. destruct (scan_max v scan0) as (_ & M2 & _). fold s in M2. cbv zeta in M2.
    rewrite M in M2. now apply M2.
  Qed.

  Local Lemma same_post : post rnd one (GVec v) (GVec v).
  Proof.
    apply post_refl. now apply wf_vec.
  Qed.

  Local Lemma push_len {A} cv (t : list A) : push_all cv v [] = (Ok tt, t) -> length t = length v.
  Proof.
    intros E. apply push_all_ok in E as (r & -> & F). cbn [app]. clear -F. induction F; cbn; congruence.
  Qed.

  Local Lemma copied_ok {A} (r : out unit * list A) t : copied r = Ok t -> r = (Ok tt, t).
  Proof. destruct r as [[[]| | |] l]; cbn; intros H; try discriminate. apply Ok_inj in H. now subst. Qed.

  Lemma conv_bits {A} (cv : gc -> out A) P D W : conv_ok rnd one P cv D W ->
    forall cv', (forall e, In e v -> P e /\ cv' e = cv e) ->
    conv_ok rnd one (fun e => In e v) cv' D W.
  Proof.
    intros C cv' H e x He Hwe E. destruct (H e He) as [HPe Hcv]. rewrite Hcv in E. now apply (C e x).
  Qed.

  Local Lemma self_in : Forall (fun e => In e v) v.
  Proof. apply Forall_forall. auto. Qed.

  Ltac none := intros _; cbn [merging elems]; apply Forall_map; apply Forall_forall; intros; exact I.
  Local Lemma real_here mx : max_sub s = mx -> In mx [TReal; TComplex; TVReal; TVComplex] ->
    exists c, In c v /\ tag_of c = mx.
  Proof.
    intros M Hin. destruct (scan_max v scan0) as (_ & _ & M3). fold s in M3. cbv zeta in M3. rewrite M in M3.
    destruct M3 as [M3|(b & Hb & M3)]; [rewrite M3 in Hin; cbn in Hin; intuition discriminate|]. now exists b.
  Qed.
  (** With a real among the elements, every number that is merged keeps its value. *)
  Local Lemma reals_keep mx c : max_sub s = mx -> In mx [TReal; TComplex] -> In c v -> keeps rnd c.
  Proof.
    intros M Hin Hc Hr. destruct (real_here mx M) as (b & Hb & T); [cbn in *; tauto|].
    assert (N : ~ Forall no_real (merging b)).
    { clear M. destruct b; cbn in T; subst mx; cbn in Hin; try (exfalso; intuition discriminate); intros F; cbn in F; exact (Forall_inv F). }
    pose proof (HLc b Hb N Hr c Hc) as F. destruct c; try exact I. cbn in F. now inversion F.
  Qed.
  Local Lemma matrix_keep mx c : max_sub s = mx -> In mx [TVReal; TVComplex] ->
    (forall c, In c v -> zlen (elems c) = last_nelem s) -> In c v -> Forall (keeps rnd) (merging c).
  Proof.
    intros M Hin Hn Hc. destruct (real_here mx M) as (b & Hb & T); [cbn in *; tauto|].
    destruct (merging b) as [|b0 bs] eqn:Eb.
    - (* no elements at all *)
      pose proof (Hn b Hb) as Nb. pose proof (Hn c Hc) as Nc.
      assert (elems b = []) by (clear M; destruct b; cbn in T; subst mx; cbn in Hin; try (exfalso; intuition discriminate); exact Eb).
      rewrite H, zlen_nil in Nb. rewrite <- Nb in Nc. apply zlen_zero in Nc.
      destruct c; cbn [merging] in *; rewrite ?Nc; constructor.
    - assert (N : ~ Forall no_real (merging b)).
      { clear M. destruct b; cbn in T; subst mx; cbn in Hin; try (exfalso; intuition discriminate); rewrite Eb; cbn in Eb;
          (destruct v0; [discriminate|]); cbn in Eb; injection Eb as <- _; intros F; cbn in F; exact (Forall_inv F). }
      apply Forall_forall. intros e He Hr. pose proof (HLc b Hb N Hr c Hc) as F. rewrite Forall_forall in F. now apply F.
  Qed.

  Local Lemma same_count mx : can_collapse s = true -> max_sub s = mx -> In mx [TVReal; TVComplex] ->
    forall c, In c v -> zlen (elems c) = last_nelem s.
  Proof.
    intros Hcan M Hin c Hc. destruct (scan_ne v scan0) as (_ & N2 & _).
    { intros e He. apply ne32_nonneg. now apply Wc. }
    { exact Hcan. }
    fold s in N2. rewrite <- (N2 Hne c Hc). symmetry. apply ne32_elems; [|now apply Wc].
    pose proof (below mx c M Hc) as B. intros T. rewrite T in B. clear M. destruct Hin as [<-|[<-|[]]]; cbn in B; lia.
  Qed.
  Local Lemma scalar_keep c : scalar c -> Forall (keeps rnd) (merging c) -> keeps rnd c.
  Proof.
    intros S F. destruct c; try (intros _; exact I). cbn in F. now inversion F.
  Qed.
  Local Lemma sequence_merging c : sequence c -> merging c = elems c.
  Proof. intros S. destruct c; try reflexivity; cbn in S; exfalso; intuition discriminate. Qed.

  Theorem collapse_vec_post r g' : collapse_vec v = (r, g') -> fine r -> post rnd one (GVec v) g'.
  Proof.
    intros E Hr. unfold collapse_vec in E. fold s in E.
    destruct (can_collapse s) eqn:Hcan; cbn [negb] in E; [|injection E as <- <-; apply same_post].
    destruct (all_string s) eqn:Hstr.
    { destruct (overwrite_cases (do t <- strings_of v ; set_vstr t (GVec v)) (GVec v)) as [O|(g1 & O1 & O2)].
      { rewrite E. exact Hr. }
      { rewrite O in E. injection E as <- <-. apply same_post. }
      rewrite O2 in E. injection E as <- <-.
      apply bind_ok in O1 as (t & Et & Es). apply strings_of_ok in Et.
      assert (Hlt : length t = length v) by (rewrite Et, map_length; reflexivity).
      destruct (few_t t Hlt) as [Hf Ht]. rewrite set_vstr_exact in Es by assumption. apply Ok_inj in Es. subst g1.
      assert (Hz : zlen t = zlen v) by (unfold zlen; now rewrite Hlt).
      apply typed_post; try discriminate; try (exact I); try none.
      - rewrite weight_vec. cbn [weight]. pose proof Lv. lia.
      - intros S. cbn in S. intuition discriminate.
      - intros _. cbn [elems]. now rewrite zlen_map.
      - rewrite Et. cbn [data_of]. rewrite map_map. apply sim_refl. }
    assert (Hb : forall mx, max_sub s = mx -> forall c, In c v -> tag_num (tag_of c) <= tag_num mx)
      by (intros; now apply below).
    destruct (max_sub s) eqn:Hmx; try (injection E as <- <-; apply same_post); specialize (Hb _ eq_refl).
    - (* BOOL *)
      destruct (overwrite_cases (do t <- bools_of v ; set_vbool t (GVec v)) (GVec v)) as [O|(g1 & O1 & O2)].
      { rewrite E. exact Hr. }
      { rewrite O in E. injection E as <- <-. apply same_post. }
      rewrite O2 in E. injection E as <- <-.
      apply bind_ok in O1 as (t & Et & Es). apply bools_of_ok in Et.
      assert (Hlt : length t = length v) by (rewrite Et, map_length; reflexivity).
      destruct (few_t t Hlt) as [Hf Ht]. rewrite set_vbool_exact in Es by assumption. apply Ok_inj in Es. subst g1.
      assert (Hz : zlen t = zlen v) by (unfold zlen; now rewrite Hlt).
      apply typed_post; try discriminate; try (exact I); try none.
      + rewrite weight_vec. cbn [weight]. pose proof Lv. lia.
      + intros S. cbn in S. intuition discriminate.
      + intros _. cbn [elems]. now rewrite zlen_map.
      + rewrite Et. cbn [data_of]. rewrite map_map. apply sim_refl.
    - (* INTEGER *)
      destruct (overwrite_cases (do t <- copied (copyto_vec_int (GVec v) []) ; set_vint t (GVec v)) (GVec v)) as [O|(g1 & O1 & O2)].
      { rewrite E. exact Hr. }
      { rewrite O in E. injection E as <- <-. apply same_post. }
      rewrite O2 in E. injection E as <- <-.
      apply bind_ok in O1 as (t & Et & Es). apply copied_ok in Et.
      rewrite copyto_vec_int_as in Et; [|apply Sv|discriminate]. cbn [is_vec elems] in Et.
      destruct (few_t t (push_len _ _ Et)) as [Hf Ht].
      rewrite (proj1 (set_vec_exact t _ Hf Ht)) in Es. apply Ok_inj in Es. subst g1.
      eapply (scalars_post (fun e => In e v) (conv_int true) GVInt d_int int32).
      + eapply conv_bits; [apply conv_int_ok|]. intros e He. specialize (Hb e He).
        destruct e; cbn in Hb; try lia; split; (exact I || reflexivity).
      + apply self_in.
      + exact Et.
      + auto.
      + reflexivity.
      + intros. cbn [elems]. apply zlen_map.
      + reflexivity.
      + intros. cbn. tauto.
      + none.
      + none.
    - (* LONG *)
      destruct (overwrite_cases (do t <- copied (copyto_vec_long (GVec v) []) ; set_vlong t (GVec v)) (GVec v)) as [O|(g1 & O1 & O2)].
      { rewrite E. exact Hr. }
      { rewrite O in E. injection E as <- <-. apply same_post. }
      rewrite O2 in E. injection E as <- <-.
      apply bind_ok in O1 as (t & Et & Es). apply copied_ok in Et.
      rewrite copyto_vec_long_as in Et; [|apply Sv|discriminate]. cbn [is_vec elems] in Et.
      destruct (few_t t (push_len _ _ Et)) as [Hf Ht].
      rewrite (proj1 (proj2 (set_vec_exact t _ Hf Ht))) in Es. apply Ok_inj in Es. subst g1.
      eapply (scalars_post (fun e => In e v) get_as_long GVLong d_int int64).
      + eapply conv_bits; [apply conv_long_ok|]. intros e He. specialize (Hb e He).
        destruct e; cbn in Hb; try lia; split; (exact I || reflexivity).
      + apply self_in.
      + exact Et.
      + auto.
      + reflexivity.
      + intros. cbn [elems]. apply zlen_map.
      + reflexivity.
      + intros. cbn. tauto.
      + none.
      + intros HLo. cbn [merging elems]. apply Forall_map. apply push_all_ok in Et as (t' & Et' & F). cbn [app] in Et'. subst t'.
        assert (Hnt : Forall no_tiny v).
        { apply Forall_forall. intros e He. specialize (Hb e He). destruct e; cbn in Hb; try lia; exact I. }
        clear -F HLo Hw Hnt. induction F as [|e x v0 t0 Ex F IH]; constructor; inversion HLo; inversion Hw; inversion Hnt; subst; auto.
        cbn [long_ok]. apply (denotes_representable e); auto. now apply as_long_denotes.
    - (* REAL *)
      destruct (overwrite_cases (do t <- copied (copyto_vec_real (GVec v) []) ; set_vreal t (GVec v)) (GVec v)) as [O|(g1 & O1 & O2)].
      { rewrite E. exact Hr. }
      { rewrite O in E. injection E as <- <-. apply same_post. }
      rewrite O2 in E. injection E as <- <-.
      apply bind_ok in O1 as (t & Et & Es). apply copied_ok in Et.
      rewrite copyto_vec_real_as in Et; [|apply Sv|discriminate]. cbn [is_vec elems] in Et.
      destruct (few_t t (push_len _ _ Et)) as [Hf Ht].
      rewrite (proj1 (proj2 (proj2 (set_vec_exact t _ Hf Ht)))) in Es. apply Ok_inj in Es. subst g1.
      eapply (scalars_post (fun e => In e v) (conv_real true) GVReal d_real f64).
      + intros e x He Hwe Ee.
        assert (Ee' : get_number e = Ok x).
        { specialize (Hb e He). destruct e; cbn in Hb; try lia; exact Ee. }
        split; [apply real_of_data; [|now apply get_number_ok]|eapply number_f64; eassumption].
        apply (reals_keep _ e Hmx); [cbn; tauto|assumption].
      + apply self_in.
      + exact Et.
      + auto.
      + reflexivity.
      + intros. cbn [elems]. apply zlen_map.
      + reflexivity.
      + intros. cbn. tauto.
      + intros Hno. exfalso. destruct (real_here _ Hmx) as (b & Hb' & T); [cbn; tauto|].
        rewrite Forall_forall in Hno. specialize (Hno b Hb'). destruct b; try discriminate. exact Hno.
      + none.
    - (* COMPLEX *)
      destruct (overwrite_cases (do t <- copied (copyto_vec_complex (GVec v) []) ; set_vcomplex t (GVec v)) (GVec v)) as [O|(g1 & O1 & O2)].
      { rewrite E. exact Hr. }
      { rewrite O in E. injection E as <- <-. apply same_post. }
      rewrite O2 in E. injection E as <- <-.
      apply bind_ok in O1 as (t & Et & Es). apply copied_ok in Et.
      rewrite copyto_vec_complex_as in Et; [|apply Sv|discriminate]. cbn [is_vec elems] in Et.
      destruct (few_t t (push_len _ _ Et)) as [Hf Ht].
      rewrite set_vcomplex_exact in Es by assumption. apply Ok_inj in Es. subst g1.
      eapply (scalars_post (fun _ => True) (conv_complex true) GVComplex d_cplx fc).
      + intros e x He Hwe Ee. cbn in Ee. destruct e; try discriminate. cbn in Ee. apply Ok_inj in Ee. subst.
        split; [apply sim_refl|exact Hwe].
      + apply Forall_forall. exact (fun _ _ => I).
      + exact Et.
      + auto.
      + reflexivity.
      + intros. cbn [elems]. apply zlen_map.
      + reflexivity.
      + intros. cbn. tauto.
      + intros Hno. exfalso. destruct (real_here _ Hmx) as (b & Hb' & T); [cbn; tauto|].
        rewrite Forall_forall in Hno. specialize (Hno b Hb'). destruct b; try discriminate. exact Hno.
      + none.
    - (* VEC_INTEGER *)
      destruct (overwrite_cases (do m <- mat_of 0 copyto_vec_int (last_nelem s) v ; set_mint m (GVec v)) (GVec v)) as [O|(g1 & O1 & O2)].
      { rewrite E. exact Hr. }
      { rewrite O in E. injection E as <- <-. apply same_post. }
      rewrite O2 in E. injection E as <- <-.
      apply bind_ok in O1 as (m & Em & Es).
      destruct (mats_post no_tiny 0 copyto_vec_int (conv_int false) GMInt d_int int32 TVInt m) as [R1 R2]; auto.
      + apply conv_int_ok.
      + intros c Hsz Hfl. rewrite copyto_vec_int_as; [|assumption|].
        * destruct c; try reflexivity. cbn in Hfl. unfold flat in Hfl. cbn in Hfl. lia.
        * intros T. unfold flat in Hfl. rewrite T in Hfl. cbn in Hfl. lia.
      + cbn. tauto.
      + cbn. lia.
      + intros c Hc Sc. specialize (Hb c Hc). apply Forall_forall. intros e He.
        destruct c; cbn in Hb; try lia; cbn [elems] in He;
          try (exfalso; cbn in Sc; intuition discriminate); apply in_map_iff in He as (y & <- & _); exact I.
      + intros. cbn. tauto.
      + rewrite (proj1 (set_mat_exact _) m R2) in Es. apply Ok_inj in Es. now subst.
    - (* VEC_LONG *)
      destruct (overwrite_cases (do m <- mat_of 0 copyto_vec_long (last_nelem s) v ; set_mlong m (GVec v)) (GVec v)) as [O|(g1 & O1 & O2)].
      { rewrite E. exact Hr. }
      { rewrite O in E. injection E as <- <-. apply same_post. }
      rewrite O2 in E. injection E as <- <-.
      apply bind_ok in O1 as (m & Em & Es).
      destruct (mats_post no_tiny 0 copyto_vec_long get_as_long GMLong d_int int64 TVLong m) as [R1 R2]; auto.
      + apply conv_long_ok.
      + intros c Hsz Hfl. apply copyto_vec_long_as; [assumption|].
        intros T. unfold flat in Hfl. rewrite T in Hfl. cbn in Hfl. lia.
      + cbn. tauto.
      + cbn. lia.
      + intros c Hc Sc. specialize (Hb c Hc). apply Forall_forall. intros e He.
        destruct c; cbn in Hb; try lia; cbn [elems] in He;
          try (exfalso; cbn in Sc; intuition discriminate); apply in_map_iff in He as (y & <- & _); exact I.
      + intros. cbn. tauto.
      + rewrite (proj1 (proj2 (set_mat_exact _)) m R2) in Es. apply Ok_inj in Es. now subst.
    - (* VEC_REAL *)
      destruct (overwrite_cases (do m <- mat_of f_zero copyto_vec_real (last_nelem s) v ; set_mreal m (GVec v)) (GVec v)) as [O|(g1 & O1 & O2)].
      { rewrite E. exact Hr. }
      { rewrite O in E. injection E as <- <-. apply same_post. }
      rewrite O2 in E. injection E as <- <-.
      apply bind_ok in O1 as (m & Em & Es).
      destruct (mats_post (fun e => (tag_of e = TReal \/ no_tiny e) /\ keeps rnd e) f_zero copyto_vec_real (conv_real false) GMReal d_real f64 TVReal m) as [R1 R2]; auto.
      + intros e x [[T|T] Hk] Hwe Ee; [|now apply (conv_real_ok rnd one e x)].
        destruct e; try discriminate. cbn in Ee. apply Ok_inj in Ee. subst.
        split; [apply sim_refl|exact Hwe].
      + intros c Hsz Hfl. rewrite copyto_vec_real_as; [|assumption|].
        * destruct c; try reflexivity. cbn in Hfl. unfold flat in Hfl. cbn in Hfl. lia.
        * intros T. unfold flat in Hfl. rewrite T in Hfl. cbn in Hfl. lia.
      + cbn. tauto.
      + cbn. lia.
      + intros c Hc Sc T. split; [now right|]. apply scalar_keep; [assumption|].
        apply (matrix_keep _ c Hmx); auto; [cbn; tauto|]. eapply same_count; eauto. cbn. tauto.
      + intros c Hc Sc. assert (K : Forall (keeps rnd) (merging c)).
        { apply (matrix_keep _ c Hmx); auto; [cbn; tauto|]. eapply same_count; eauto. cbn. tauto. }
        rewrite sequence_merging in K by assumption. specialize (Hb c Hc). apply Forall_forall. intros e He.
        rewrite Forall_forall in K. split; [|now apply K]. clear K.
        destruct c; cbn in Hb; try lia; cbn [elems] in He;
          try (exfalso; cbn in Sc; intuition discriminate); apply in_map_iff in He as (y & <- & _);
          first [now left | (right; exact I)].
      + intros. cbn. tauto.
      + rewrite (proj1 (proj2 (proj2 (set_mat_exact _))) m R2) in Es. apply Ok_inj in Es. now subst.
    - (* VEC_COMPLEX *)
      destruct (overwrite_cases (do m <- mat_of c_zero copyto_vec_complex (last_nelem s) v ; set_mcomplex m (GVec v)) (GVec v)) as [O|(g1 & O1 & O2)].
      { rewrite E. exact Hr. }
      { rewrite O in E. injection E as <- <-. apply same_post. }
      rewrite O2 in E. injection E as <- <-.
      apply bind_ok in O1 as (m & Em & Es).
      destruct (mats_post (keeps rnd) c_zero copyto_vec_complex (conv_complex false) GMComplex d_cplx fc TVComplex m) as [R1 R2]; auto.
      + apply conv_complex_ok.
      + intros c Hsz Hfl. rewrite copyto_vec_complex_as; [|assumption|].
        * destruct c; try reflexivity. cbn in Hfl. unfold flat in Hfl. cbn in Hfl. lia.
        * intros T. unfold flat in Hfl. rewrite T in Hfl. cbn in Hfl. lia.
      + cbn. tauto.
      + cbn. lia.
      + intros c Hc Sc T. apply scalar_keep; [assumption|].
        apply (matrix_keep _ c Hmx); auto; [cbn; tauto|]. eapply same_count; eauto. cbn. tauto.
      + intros c Hc Sc. assert (K : Forall (keeps rnd) (merging c)).
        { apply (matrix_keep _ c Hmx); auto; [cbn; tauto|]. eapply same_count; eauto. cbn. tauto. }
        now rewrite sequence_merging in K by assumption.
      + intros. cbn. tauto.
      + rewrite (proj2 (proj2 (proj2 (set_mat_exact _))) m R2) in Es. apply Ok_inj in Es. now subst.
  Qed.
End CollapseVec.

(** ** The whole tree *)
Lemma scalar_dec g : scalar g \/ ~ scalar g.
Proof. unfold scalar. destruct (in_dec tag_dec (tag_of g) [TNone; TPtr; TBool; TInt; TLong; TReal; TComplex; TStr]); auto. Qed.

Lemma flat_collapse g : (forall v, g <> GVec v) -> (forall m, g <> GMap m) -> collapse g = (Ok tt, g).
Proof. intros Hv Hm. destruct g; try reflexivity; nested_contra Hv Hm. Qed.

Definition step_ok rnd one (g : gc) : Prop :=
  forall r g', collapse g = (r, g') -> fine r -> post rnd one g g'.

Lemma collapse_all_post rnd one v : Forall (step_ok rnd one) v ->
  Forall wf v ->
  forall r v', collapse_all v = (r, v') -> fine r -> Forall2 (post rnd one) v v'.
Proof.
  induction v as [|e v IH]; intros HS Hw r v' E Hr; cbn [collapse_all] in E.
  - injection E as <- <-. constructor.
  - inversion HS as [|? ? Se Sv]; subst. inversion Hw as [|? ? We Wv']; subst.
    destruct (collapse e) as [re e'] eqn:Ee. specialize (Se re e' Ee).
    destruct re as [[]| | |].
    + destruct (collapse_all v) as [rt t'] eqn:Et. injection E as <- <-.
      constructor; [apply Se; now left|]. eapply IH; eauto.
    + injection E as <- <-. constructor; [apply Se; now right|].
      clear -Wv'. induction v as [|a v IH]; constructor.
      * inversion Wv'; subst. now apply post_refl.
      * inversion Wv'; subst. now apply IH.
    + injection E as <- <-. destruct Hr; discriminate.
    + injection E as <- <-. destruct Hr; discriminate.
Qed.

Definition entry_post rnd one (a b : string * gc) : Prop := fst a = fst b /\ post rnd one (snd a) (snd b).

Lemma collapse_entries_post rnd one m : Forall (fun kv => step_ok rnd one (snd kv)) m ->
  Forall (fun kv => wf (snd kv)) m ->
  forall r m', collapse_entries m = (r, m') -> fine r -> Forall2 (entry_post rnd one) m m'.
Proof.
  induction m as [|[k e] v IH]; intros HS Hw r v' E Hr; cbn [collapse_entries] in E.
  - injection E as <- <-. constructor.
  - inversion HS as [|? ? Se Sv]; subst. inversion Hw as [|? ? We Wv']; subst. cbn [snd] in Se, We.
    destruct (collapse e) as [re e'] eqn:Ee. specialize (Se re e' Ee).
    destruct re as [[]| | |].
    + destruct (collapse_entries v) as [rt t'] eqn:Et. injection E as <- <-.
      constructor; [split; [reflexivity|apply Se; now left]|]. eapply IH; eauto.
    + injection E as <- <-. constructor; [split; [reflexivity|apply Se; now right]|].
      clear -Wv'. induction v as [|a v IH]; constructor.
      * inversion Wv'; subst. split; [reflexivity|]. now apply post_refl.
      * inversion Wv'; subst. now apply IH.
    + injection E as <- <-. destruct Hr; discriminate.
    + injection E as <- <-. destruct Hr; discriminate.
Qed.

Lemma F2_post rnd one v v' : Forall2 (post rnd one) v v' ->
  Forall wf v' /\ sumw v' <= sumw v /\ zlen v' = zlen v /\
  sim rnd one (DList (map data_of v)) (DList (map data_of v')) /\
  (forall c', In c' v' -> exists c, In c v /\ post rnd one c c').
Proof.
  induction 1 as [|a a' v v' P F (I1 & I2 & I3 & I5 & I6)].
  - split; [constructor|]. split; [cbn; lia|]. split; [reflexivity|].
    split; [apply sim_refl|]. intros c' [].
  - split; [constructor; [apply P|assumption]|].
    split; [cbn [sumw fold_right]; fold (sumw v) (sumw v'); pose proof (p_weight _ _ _ _ P); lia|].
    split; [rewrite !zlen_cons; lia|].
    split; [cbn [map]; apply sim_cons; [apply P|assumption]|].
    intros c' [<-|Hc]; [exists a; split; [now left|assumption]|].
    destruct (I6 c' Hc) as (c & H1 & H2). exists c. split; [now right|assumption].
Qed.

Theorem collapse_post rnd one g : wf g -> weight g < 2^31 -> (rnd = false -> unrounded g) ->
  (one = true -> calm g) -> (one = false -> unmixed g) -> step_ok rnd one g.
Proof.
  induction g as [g Hv Hm | v IH | m IH] using gc_nest_ind; intros Hw Hs HL HC HM r g' E Hr.
  - rewrite flat_collapse in E by assumption. injection E as <- <-. now apply post_refl.
  - destruct v as [|e0 v0]; [cbn in E; injection E as <- <-; now apply post_refl|].
    rewrite collapse_vec_eq in E. remember (e0 :: v0) as v eqn:Ev.
    assert (Hnv : v <> []) by (subst; discriminate). clear Ev e0 v0.
    rewrite weight_vec in Hs. apply wf_vec in Hw.
    assert (HLv : rnd = false -> Forall unrounded v)
      by (intros H; specialize (HL H); now apply everywhere_vec in HL).
    assert (HS : Forall (step_ok rnd one) v).
    { rewrite Forall_forall in IH, Hw. apply Forall_forall. intros c Hc. apply IH; auto.
      - pose proof (sumw_in v c Hc). lia.
      - intros H. specialize (HLv H). rewrite Forall_forall in HLv. auto.
      - intros H. specialize (HC H). apply everywhere_vec in HC as [_ HC]. rewrite Forall_forall in HC. now apply HC.
      - intros H. specialize (HM H). apply everywhere_vec in HM as [_ HM]. rewrite Forall_forall in HM. now apply HM. }
    destruct (collapse_all v) as [rv v'] eqn:Ec.
    assert (Hrv : fine rv).
    { destruct rv as [[]| | |]; [now left|now right| |]; injection E as <- <-; destruct Hr; discriminate. }
    pose proof (collapse_all_post rnd one v HS Hw rv v' Ec Hrv) as F.
    destruct (F2_post rnd one v v' F) as (I1 & I2 & I3 & I5 & I6).
    assert (P1 : post rnd one (GVec v) (GVec v')).
    { constructor.
      - now apply wf_vec.
      - rewrite !weight_vec. lia.
      - intros S. exfalso. cbn in S. intuition discriminate.
      - intros _ S. cbn in S. intuition discriminate.
      - intros T. exfalso. cbn in T. intuition discriminate.
      - cbn [merging elems]. clear -F. induction F as [|a a' v v' P F IH]; intros H; constructor; inversion H; subst; auto.
        destruct (scalar_dec a) as [Sa|Sa]; [now rewrite (p_scalar _ _ _ _ P Sa)|].
        pose proof (p_nonscalar _ _ _ _ P Sa) as Sa'. destruct a'; try exact I; apply Sa'; cbn; tauto.
      - cbn [merging elems]. clear -F. induction F as [|a a' v v' P F IH]; intros H; constructor; inversion H; subst; auto.
        destruct (scalar_dec a) as [Sa|Sa]; [now rewrite (p_scalar _ _ _ _ P Sa)|].
        pose proof (p_nonscalar _ _ _ _ P Sa) as Sa'. destruct a'; try exact I; exfalso; apply Sa'; cbn; tauto.
      - exact I5. }
    destruct rv as [[]| | |]; try (injection E as <- <-; exact P1).
    assert (Hnv' : v' <> []).
    { intros ->. rewrite zlen_nil in I3. symmetry in I3. apply zlen_zero in I3. congruence. }
    assert (P2 : post rnd one (GVec v') g').
    { eapply collapse_vec_post; [| | | | | |exact E|exact Hr]; auto.
      - rewrite weight_vec. lia.
      - intros H. specialize (HL H). apply everywhere_vec in HL as [HL _]. cbn [unrounded_node] in HL.
        destruct HL as [K|K]; [left|right]; intros c' Hc'; destruct (I6 c' Hc') as (c & Hc & P); apply P; auto.
      - intros c' Hc' Sc' H. destruct (I6 c' Hc') as (c & Hc & P).
        destruct (scalar_dec c) as [Sc|Sc]; [|exfalso; now apply (p_nonscalar _ _ _ _ P)].
        rewrite (p_scalar _ _ _ _ P Sc). specialize (HC H). apply everywhere_vec in HC as [_ HC].
        rewrite Forall_forall in HC. specialize (HC c Hc). now apply everywhere_here in HC.
      - intros H a' b' Ha' Hb' Sa' Tb'.
        destruct (I6 a' Ha') as (a & Ha & Pa), (I6 b' Hb') as (b & Hb & Pb).
        destruct (scalar_dec a) as [Sa|Sa]; [|exfalso; now apply (p_nonscalar _ _ _ _ Pa)].
        rewrite (p_scalar _ _ _ _ Pa Sa). destruct (p_len _ _ _ _ Pb Tb') as [Sb ->].
        specialize (HM H). apply everywhere_vec in HM as [HM _]. now apply HM. }
    constructor.
    + apply P2.
    + pose proof (p_weight _ _ _ _ P1). pose proof (p_weight _ _ _ _ P2). lia.
    + intros S. exfalso. cbn in S. intuition discriminate.
    + intros _. apply P2. intros S. cbn in S. intuition discriminate.
    + intros T. destruct (p_len _ _ _ _ P2 T) as [_ H]. split; [unfold sequence; cbn; tauto|].
      rewrite H. cbn [elems]. exact I3.
    + intros H. apply P2, P1, H.
    + intros H. apply P2, P1, H.
    + eapply sim_trans; [apply P1|apply P2].
  - rewrite collapse_map_eq in E. rewrite weight_map in Hs. apply wf_map in Hw as [Hsort Hw].
    assert (HLm : rnd = false -> Forall (fun kv => unrounded (snd kv)) m)
      by (intros H; specialize (HL H); now apply everywhere_map in HL).
    assert (HS : Forall (fun kv => step_ok rnd one (snd kv)) m).
    { rewrite Forall_forall in IH, Hw. apply Forall_forall. intros c Hc. apply IH; auto.
      - pose proof (sumwm_in m c Hc). lia.
      - intros H. specialize (HLm H). rewrite Forall_forall in HLm. auto.
      - intros H. specialize (HC H). apply everywhere_map in HC as [_ HC]. rewrite Forall_forall in HC. now apply HC.
      - intros H. specialize (HM H). apply everywhere_map in HM as [_ HM]. rewrite Forall_forall in HM. now apply HM. }
    destruct (collapse_entries m) as [rm m'] eqn:Ec. injection E as <- <-.
    pose proof (collapse_entries_post rnd one m HS Hw rm m' Ec Hr) as F.
    assert (G : Forall (fun kv => wf (snd kv)) m' /\ sumwm m' <= sumwm m /\ map fst m' = map fst m /\
       sim rnd one (data_of (GMap m)) (data_of (GMap m'))).
    { clear -F. induction F as [|[k a] [k' a'] m m' [K P] F (I1 & I2 & I3 & I5)].
      - split; [constructor|]. split; [cbn; lia|]. split; [reflexivity|]. apply sim_refl.
      - cbn [fst snd] in K, P. subst k'.
        split; [constructor; [apply P|assumption]|].
        split; [cbn [sumwm fold_right snd]; fold (sumwm m) (sumwm m'); pose proof (p_weight _ _ _ _ P); lia|].
        split; [cbn; congruence|].
        cbn [data_of map fst snd] in *. apply sim_entry; [apply P|assumption]. }
    destruct G as (I1 & I2 & I3 & I5).
    constructor.
    + apply wf_map. split; [|assumption]. unfold msorted in *. now rewrite I3.
    + rewrite !weight_map. lia.
    + intros S. exfalso. cbn in S. intuition discriminate.
    + intros _ S. cbn in S. intuition discriminate.
    + intros T. exfalso. cbn in T. intuition discriminate.
    + intros _. constructor.
    + intros _. constructor.
    + exact I5.
Qed.

(** ** Idempotence *)
Lemma collapse_vec_kinds v g' : collapse_vec v = (Ok tt, g') ->
  g' = GVec v \/ (forall w, g' <> GVec w) /\ (forall m, g' <> GMap m).
Proof.
  unfold collapse_vec. set (s := fold_left scan_step v scan0).
  assert (O : forall r, overwrite r (GVec v) = (Ok tt, g') -> r = Ok g').
  { intros r. destruct r; cbn; congruence. }
  intros E. destruct (negb (can_collapse s)); [injection E as <-; now left|].
  destruct (all_string s).
  { apply O in E. apply bind_ok in E as (t & _ & E). unfold set_vstr in E.
    apply bind_ok in E as (w & _ & E). apply Ok_inj in E. subst. right. split; discriminate. }
  destruct (max_sub s); try (injection E as <-; now left); right; apply O in E;
    apply bind_ok in E as (t & _ & E);
    unfold set_vbool, set_vint, set_vlong, set_vreal, set_vcomplex, set_mint, set_mlong, set_mreal, set_mcomplex in E.
  1-5: apply bind_ok in E as (w & _ & E); apply Ok_inj in E; subst; split; discriminate.
  all: unfold omap in E; apply bind_ok in E as (w & _ & E); apply Ok_inj in E; subst; split; discriminate.
Qed.

Theorem collapse_twice g g' : collapse g = (Ok tt, g') -> collapse g' = (Ok tt, g').
Proof.
  revert g'. induction g as [g Hv Hm | v IH | m IH] using gc_nest_ind; intros g' E.
  - rewrite flat_collapse in E by assumption. injection E as <-. now apply flat_collapse.
  - destruct v as [|e0 v0]; [injection E as <-; reflexivity|]. rewrite collapse_vec_eq in E.
    destruct (collapse_all (e0 :: v0)) as [r v'] eqn:Ec.
    destruct r as [[]| | |]; try discriminate.
    assert (K : forall v w, Forall (fun g => forall g', collapse g = (Ok tt, g') -> collapse g' = (Ok tt, g')) v ->
              collapse_all v = (Ok tt, w) -> collapse_all w = (Ok tt, w) /\ length w = length v).
    { clear. induction v as [|e v IHv]; intros w H E; cbn [collapse_all] in E.
      - injection E as <-. split; reflexivity.
      - inversion H as [|? ? He Hv]; subst. destruct (collapse e) as [[[]| | |] e'] eqn:Ee; try discriminate.
        destruct (collapse_all v) as [rt t'] eqn:Et. injection E as -> <-.
        destruct (IHv t' Hv eq_refl) as [I1 I2]. cbn [collapse_all]. rewrite (He e' eq_refl), I1.
        split; [reflexivity|]. cbn. congruence. }
    destruct (K _ _ IH Ec) as [K1 K2]. destruct v' as [|e' v']; [discriminate|].
    destruct (collapse_vec_kinds _ _ E) as [->|[N1 N2]].
    + rewrite collapse_vec_eq, K1. exact E.
    + now apply flat_collapse.
  - rewrite collapse_map_eq in E. destruct (collapse_entries m) as [r m'] eqn:Ec. injection E as -> <-.
    rewrite collapse_map_eq.
    assert (K : forall v w, Forall (fun kv : string * gc => forall g', collapse (snd kv) = (Ok tt, g') -> collapse g' = (Ok tt, g')) v ->
              collapse_entries v = (Ok tt, w) -> collapse_entries w = (Ok tt, w)).
    { clear. induction v as [|[k e] v IHv]; intros w H E; cbn [collapse_entries] in E.
      - injection E as <-. reflexivity.
      - inversion H as [|? ? He Hv]; subst. cbn [snd] in He.
        destruct (collapse e) as [[[]| | |] e'] eqn:Ee; try discriminate.
        destruct (collapse_entries v) as [rt t'] eqn:Et. injection E as -> <-.
        cbn [collapse_entries]. rewrite (He e' eq_refl), (IHv t' Hv eq_refl). reflexivity. }
    now rewrite (K _ _ IH Ec).
Qed.
