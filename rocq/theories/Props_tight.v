(** C118: the type that collapse gives to a vector of strings, of numbers or of vectors. *)
From Coq Require Import ZArith Bool Lia Ascii String List.
From Verif Require Import Base F64 StrMap Value MBasic MCopy SCopy LCopy LBasic MGet SGet LGet MMat SMap
  MPromote SPromote LPromote LCopyto MCollapse SCollapse LCollapse STight WfDec.
Import ListNotations.
Local Open Scope Z_scope.
Local Open Scope string_scope.

Lemma flat_all v : Forall (fun e => (forall w, e <> GVec w) /\ (forall m, e <> GMap m)) v -> collapse_all v = (Ok tt, v).
Proof.
  induction 1 as [|e v [A B] _ IH]; [reflexivity|]. cbn [collapse_all]. rewrite (flat_collapse e A B), IH. reflexivity.
Qed.
Lemma flat_vec v : v <> [] -> Forall (fun e => (forall w, e <> GVec w) /\ (forall m, e <> GMap m)) v ->
  collapse (GVec v) = collapse_vec v.
Proof. intros N F. destruct v as [|e v]; [congruence|]. rewrite collapse_vec_eq, (flat_all _ F). reflexivity. Qed.

Lemma scan_widest v t : v <> [] -> widest v t -> max_sub (fold_left scan_step v scan0) = t.
Proof.
  intros N [(a & Ia & Ta) F]. rewrite Forall_forall in F.
  destruct (scan_max v scan0) as (_ & M2 & M3). cbv zeta in M2, M3.
  destruct M3 as [M3|(b & Ib & M3)].
  - specialize (M2 a Ia). rewrite M3, Ta in M2. cbn in M2. rewrite M3. cbn.
    destruct t; cbn in M2; try lia; reflexivity.
  - specialize (M2 a Ia). specialize (F b Ib). rewrite M3 in *. rewrite Ta in M2.
    assert (E : tag_num (tag_of b) = tag_num t) by lia. clear -E.
    destruct (tag_of b), t; cbn in E; congruence.
Qed.
Lemma scan_not_str v e : In e v -> tag_of e <> TStr -> all_string (fold_left scan_step v scan0) = false.
Proof.
  intros I T. destruct (all_string (fold_left scan_step v scan0)) eqn:E; [|reflexivity].
  apply scan_str in E as [_ E]. now destruct (T (E e I)).
Qed.
Lemma scan_even v n : 0 <= n -> (forall e, In e v -> ne32 e = n) -> can_collapse (fold_left scan_step v scan0) = true.
Proof.
  intros P H. assert (K : forall s, can_collapse s = true -> last_nelem s = n \/ last_nelem s = -1 -> can_collapse (fold_left scan_step v s) = true).
  { induction v as [|a v IH]; intros s C L; cbn [fold_left]; [exact C|].
    pose proof (H a (or_introl eq_refl)) as Na. unfold ne32 in Na. apply IH; [intros; apply H; now right| |].
    - cbn [scan_step can_collapse]. rewrite Na, C. destruct L as [->| ->]; [|reflexivity].
      destruct (Z.leb_spec 0 n); [|lia]. cbn. apply Z.eqb_refl.
    - cbn [scan_step last_nelem]. now left. }
  apply K; [reflexivity|now right].
Qed.
Lemma scan_last v n : v <> [] -> (forall e, In e v -> ne32 e = n) -> forall s, last_nelem (fold_left scan_step v s) = n.
Proof.
  induction v as [|a v IH]; [congruence|]. intros _ H s. cbn [fold_left].
  destruct v as [|b v]; [exact (H a (or_introl eq_refl))|]. apply IH; [discriminate|]. intros e I. apply H. now right.
Qed.
Lemma F2_zlen {A B} (R : A -> B -> Prop) v w : Forall2 R v w -> zlen w = zlen v.
Proof. intros F. unfold zlen. f_equal. induction F; cbn; congruence. Qed.
Lemma some_few {A} (v : list gc) (t : list A) : v <> [] -> zlen v < 2^31 -> zlen t = zlen v -> few t /\ t <> [].
Proof.
  intros N L E. split; [unfold few; lia|]. intros ->. destruct v as [|e v]; [congruence|].
  rewrite zlen_cons, zlen_nil in E. pose proof (zlen_nonneg v). lia.
Qed.

(** ** Strings *)
Theorem C118_strings : forall t, t <> [] -> zlen t < 2^31 ->
  collapse (GVec (map GStr t)) = (Ok tt, GVStr t).
Proof.
  intros t N L. assert (N' : map GStr t <> []) by (destruct t; [congruence|discriminate]).
  rewrite flat_vec; [|exact N'|apply Forall_forall; intros e He; apply in_map_iff in He as (x & <- & _); split; discriminate].
  unfold collapse_vec. rewrite (scan_even _ 1); [|lia|intros e He; apply in_map_iff in He as (x & <- & _); reflexivity].
  cbn [negb]. rewrite scan_str_conv; [|reflexivity|intros e He; apply in_map_iff in He as (x & <- & _); reflexivity].
  assert (E : strings_of (map GStr t) = Ok t).
  { clear. induction t as [|x t IH]; [reflexivity|]. cbn. now rewrite IH. }
  rewrite E. cbn [bind]. rewrite set_vstr_exact; [reflexivity|unfold few; lia|exact N].
Qed.

(** ** Numbers *)
Lemma numeric_one e : numeric e -> ne32 e = 1 /\ (forall w, e <> GVec w) /\ (forall m, e <> GMap m) /\ tag_of e <> TStr.
Proof. destruct e; intros []; repeat split; discriminate. Qed.

Lemma numbers_scan v t : v <> [] -> Forall numeric v -> widest v t ->
  collapse (GVec v) = collapse_vec v /\ let s := fold_left scan_step v scan0 in
  can_collapse s = true /\ all_string s = false /\ max_sub s = t.
Proof.
  intros N F W. rewrite Forall_forall in F. split.
  - apply flat_vec; [exact N|]. apply Forall_forall. intros e He. destruct (numeric_one e (F e He)) as (_ & A & B & _). now split.
  - cbv zeta. split; [|split].
    + apply (scan_even _ 1); [lia|]. intros e He. now apply numeric_one, F.
    + destruct W as [(e & I & _) _]. apply (scan_not_str v e I). now apply numeric_one, F.
    + now apply scan_widest.
Qed.

Theorem C118_numbers_partial : forall v t, v <> [] -> zlen v < 2^31 -> Forall wf v -> Forall numeric v ->
  widest v t -> (t = TComplex -> Forall (fun e => tag_of e = TComplex) v) ->
  exists g', collapse (GVec v) = (Ok tt, g') /\ vector_of v t g'.
Proof.
  intros v t N L Hw F W C. destruct (numbers_scan v t N F W) as (-> & S1 & S2 & S3).
  unfold collapse_vec. rewrite S1, S2, S3. cbn [negb].
  assert (Sz : sized (GVec v)) by (unfold sized; cbn [elems]; lia).
  assert (Le : forall e, In e v -> wf e /\ numeric e /\ tag_num (tag_of e) <= tag_num t).
  { rewrite Forall_forall in F, Hw. destruct W as [_ W]. rewrite Forall_forall in W. auto. }
  destruct W as [(a & Ia & Ta) _]. pose proof (proj1 (proj2 (Le a Ia))) as Na.
  destruct t; try solve [destruct a; discriminate Ta || destruct Na].
  - assert (E : exists l, bools_of v = Ok l /\ v = map GBool l).
    { clear -Le. induction v as [|e v IH]; [now exists []|].
      destruct IH as (l & E & ->); [intros; apply Le; now right|].
      destruct (Le e (or_introl eq_refl)) as (_ & X & T). destruct e; destruct X; cbn in T; try lia.
      exists (b :: l). cbn. now rewrite E. }
    destruct E as (l & E & V). rewrite E. cbn [bind].
    destruct (some_few v l N L) as [Fw Nl]; [rewrite V; now rewrite zlen_map|].
    rewrite set_vbool_exact by assumption. eexists. split; [reflexivity|]. now constructor.
  - destruct (push_all_in (conv_int true) denotes v) as (l & E & R).
    { intros e He. destruct (Le e He) as (_ & X & T). destruct e; destruct X; cbn in T; try lia; eexists; split; reflexivity. }
    destruct (some_few v l N L (F2_zlen _ _ _ R)) as [Fw Nl].
    rewrite copyto_vec_int_as by (assumption || discriminate). cbn [is_vec elems]. rewrite E. cbn [copied bind].
    rewrite (proj1 (set_vec_exact l (GVec v) Fw Nl)). eexists. split; [reflexivity|]. now constructor.
  - destruct (push_all_in get_as_long denotes v) as (l & E & R).
    { intros e He. destruct (Le e He) as (_ & X & T). destruct e; destruct X; cbn in T; try lia; eexists; split; reflexivity. }
    destruct (some_few v l N L (F2_zlen _ _ _ R)) as [Fw Nl].
    rewrite copyto_vec_long_as by (assumption || discriminate). cbn [is_vec elems]. rewrite E. cbn [copied bind].
    rewrite (proj1 (proj2 (set_vec_exact l (GVec v) Fw Nl))). eexists. split; [reflexivity|]. now constructor.
  - destruct (push_all_in (conv_real true) real_of v) as (l & E & R).
    { intros e He. destruct (Le e He) as (We & X & T).
      assert (exists x, get_number e = Ok x) as [x Ex] by (destruct e; destruct X; cbn in T; try lia; eexists; reflexivity).
      exists x. split; [|now apply get_number_ok]. destruct e; exact Ex || destruct X. }
    destruct (some_few v l N L (F2_zlen _ _ _ R)) as [Fw Nl].
    rewrite copyto_vec_real_as by (assumption || discriminate). cbn [is_vec elems]. rewrite E. cbn [copied bind].
    rewrite (proj1 (proj2 (proj2 (set_vec_exact l (GVec v) Fw Nl)))). eexists. split; [reflexivity|]. now constructor.
  - specialize (C eq_refl). rewrite Forall_forall in C.
    destruct (push_all_in (conv_complex true) (fun e c => e = GComplex c) v) as (l & E & R).
    { intros e He. specialize (C e He). destruct e; try discriminate C. eexists; split; reflexivity. }
    destruct (some_few v l N L (F2_zlen _ _ _ R)) as [Fw Nl].
    rewrite copyto_vec_complex_as by (assumption || discriminate). cbn [is_vec elems]. rewrite E. cbn [copied bind].
    rewrite set_vcomplex_exact by assumption. eexists. split; [reflexivity|]. constructor.
    clear -R. induction R as [|? ? ? ? -> _ IH]; cbn; congruence.
Qed.

(** A complex number among other numbers makes collapse throw: the elements are read with
    get_complex, which accepts no other type. *)
Theorem C118_complex_refuted : forall v, zlen v < 2^31 -> Forall numeric v ->
  (exists e, In e v /\ tag_of e = TComplex) -> (exists e, In e v /\ tag_of e <> TComplex) ->
  collapse (GVec v) = (Throw, GVec v).
Proof.
  intros v L F (a & Ia & Ta) (b & Ib & Tb). assert (N : v <> []) by (intros ->; destruct Ia).
  assert (W : widest v TComplex).
  { split; [now exists a|]. apply Forall_forall. intros e He. rewrite Forall_forall in F. specialize (F e He). destruct e; destruct F; cbn; lia. }
  destruct (numbers_scan v TComplex N F W) as (-> & S1 & S2 & S3).
  unfold collapse_vec. rewrite S1, S2, S3. cbn [negb].
  assert (Sz : sized (GVec v)) by (unfold sized; cbn [elems]; lia).
  rewrite copyto_vec_complex_as by (assumption || discriminate). cbn [is_vec elems].
  assert (K : forall acc, exists r, push_all (conv_complex true) v acc = (Throw, r)).
  { clear -Ib Tb. induction v as [|e v IH]; [destruct Ib|]. intros acc. cbn [push_all].
    destruct Ib as [->|Ib].
    - assert (E : conv_complex true b = Throw) by (destruct b; try reflexivity; now destruct Tb). rewrite E. eauto.
    - destruct (conv_complex true e) as [c| | |] eqn:E; [apply IH; exact Ib|eauto| |]; destruct e; discriminate E. }
  destruct (K []) as [r ->]. reflexivity.
Qed.

(** ** Vectors *)
Lemma parts_elems e : numeric_vec e -> parts e = elems e.
Proof. now destruct e. Qed.
Lemma vec_shape e : numeric_vec e -> zlen (parts e) < 2^31 ->
  ne32 e = zlen (parts e) /\ (forall w, e <> GVec w) /\ (forall m, e <> GMap m) /\ tag_of e <> TStr /\ tag_of e <> TMap /\ is_vec e = false /\ sized e.
Proof.
  intros V L. split.
  - assert (K : forall A (l : list A), zlen l < 2^31 -> to_i32 (to_u32 (zlen l)) = zlen l).
    { intros A l Hl. pose proof (zlen_nonneg l). rewrite to_u32_id by (unfold uint32; lia). apply to_i32_id. unfold int32. lia. }
    unfold ne32. destruct e; destruct V; cbn [parts num_elements] in *; rewrite zlen_map in *; apply K; exact L.
  - unfold sized. rewrite <- parts_elems by exact V.
    split; [|split; [|split; [|split; [|split]]]]; try (destruct e; destruct V; discriminate || reflexivity). lia.
Qed.

Lemma matrix_made {A} (d : A) cp (R : gc -> A -> Prop) v n : v <> [] -> 0 <= n -> n * zlen v < 2^32 -> zlen v < 2^31 -> n < 2^31 ->
  (forall e, In e v -> exists c, cp e [] = (Ok tt, c) /\ Forall2 R (parts e) c) ->
  (forall e, In e v -> zlen (parts e) = n) ->
  exists cs, mat_of d cp n v = Ok (Mat n (zlen v) (concat cs)) /\ Forall2 (fun e c => Forall2 R (parts e) c) v cs /\
    uint32 n /\ uint32 (zlen v) /\ zlen (concat cs) = to_u32 (n * zlen v).
Proof.
  intros N Hn Hm Lv Ln Hc Hl.
  assert (F : exists cs, Forall2 (fun e c => cp e [] = (Ok tt, c) /\ zlen c = n) v cs /\ Forall2 (fun e c => Forall2 R (parts e) c) v cs).
  { clear -Hc Hl. induction v as [|e v IH]; [exists []; split; constructor|].
    destruct IH as (cs & F1 & F2); [intros; apply Hc; now right|intros; apply Hl; now right|].
    destruct (Hc e (or_introl eq_refl)) as (c & E & Rc). exists (c :: cs).
    split; constructor; auto. split; [exact E|]. rewrite (F2_zlen _ _ _ Rc). apply Hl. now left. }
  destruct F as (cs & F1 & F2). exists cs. pose proof (zlen_nonneg v).
  assert (U : uint32 n /\ uint32 (zlen v)) by (unfold uint32; lia). destruct U as [Un Uv].
  assert (Lc : zlen (concat cs) = n * zlen v).
  { clear -F1. induction F1 as [|e c v cs [_ E] _ IH]; [unfold zlen; cbn [length concat]; lia|]. cbn [concat]. rewrite zlen_app, zlen_cons, IH, E. lia. }
  assert (Q : 0 <= n * zlen v) by nia.
  split; [|split; [exact F2|split; [exact Un|split; [exact Uv|]]]].
  - unfold mat_of. rewrite visit_all by lia. rewrite (to_u32_id n Un), (to_u32_id (zlen v) Uv). unfold mresize.
    rewrite to_u32_id by (unfold uint32; lia).
    change (resize d (Z.to_nat (n * zlen v)) []) with ([] ++ resize d (Z.to_nat (n * zlen v)) [])%list.
    assert (Z1 : zlen (resize d (Z.to_nat (n * zlen v)) []) = n * zlen v) by (unfold zlen at 1; rewrite resize_length, Z2Nat.id; [reflexivity|exact Q]).
    rewrite (LCopyto.fill_cols_ok cp n (zlen v) Hn v cs 0); [reflexivity|lia|exact F1|rewrite zlen_nil; lia|exact Z1|].
    cbn [app]. rewrite Z1. exact Hm.
  - rewrite Lc, to_u32_id; [reflexivity|unfold uint32; lia].
Qed.

Theorem C118_matrix : forall v t n, v <> [] -> zlen v < 2^31 -> n < 2^31 -> n * zlen v < 2^32 ->
  Forall wf v -> Forall numeric_vec v -> Forall (fun e => zlen (parts e) = n) v -> widest v t ->
  exists g', collapse (GVec v) = (Ok tt, g') /\
    (t <> TVBool -> matrix_of n v t g') /\ (t = TVBool -> g' = GVec v).
Proof.
  intros v t n N L Ln Lm Hw F El W.
  assert (Le : forall e, In e v -> wf e /\ numeric_vec e /\ tag_num (tag_of e) <= tag_num t /\ zlen (parts e) = n).
  { rewrite Forall_forall in F, Hw, El. destruct W as [_ W]. rewrite Forall_forall in W. auto. }
  assert (Sh : forall e, In e v -> ne32 e = zlen (parts e) /\ (forall w, e <> GVec w) /\ (forall m, e <> GMap m) /\ tag_of e <> TStr /\ tag_of e <> TMap /\ is_vec e = false /\ sized e).
  { intros e He. destruct (Le e He) as (_ & V & _ & E). apply vec_shape; [exact V|]. now rewrite E. }
  assert (N0 : 0 <= n).
  { destruct W as [(a & Ia & _) _]. destruct (Le a Ia) as (_ & _ & _ & <-). apply zlen_nonneg. }
  assert (Ne : forall e, In e v -> ne32 e = n).
  { intros e He. destruct (Sh e He) as (-> & _). apply (Le e He). }
  rewrite flat_vec; [|exact N|apply Forall_forall; intros e He; destruct (Sh e He) as (_ & A & B & _); now split].
  unfold collapse_vec. rewrite (scan_even v n N0 Ne), (scan_widest v t N W), (scan_last v n N Ne).
  destruct W as [(a & Ia & Ta) _]. rewrite (scan_not_str v a Ia) by (now apply Sh). cbn [negb].
  pose proof (proj1 (proj2 (Le a Ia))) as Na.
  assert (OV : forall A (m : mat A) (st : mat A -> gc -> out gc) (f : mat A -> gc) ms, ms = Ok m -> st m (GVec v) = Ok (f m) ->
    overwrite (do m <- ms ; st m (GVec v)) (GVec v) = (Ok tt, f m)).
  { intros A m st f ms -> E. cbn [bind]. now rewrite E. }
  assert (WM : forall A (m : mat A) d old, uint32 (mrows m) -> uint32 (mcols m) -> zlen (mdata m) = to_u32 (mrows m * mcols m) -> mcopy d m old = Ok m).
  { intros A m d old A1 A2 A3. apply (mcopy_exact (fun _ => True)). repeat split; try apply A1; try apply A2; auto. apply Forall_forall; auto. }
  destruct t; try solve [destruct a; discriminate Ta || destruct Na].
  - eexists. split; [reflexivity|]. split; [congruence|reflexivity].
  - destruct (matrix_made 0 copyto_vec_int denotes v n) as (cs & E & R & U1 & U2 & U3); auto; [|intros e He; apply (Le e He)|].
    { intros e He. destruct (Le e He) as (_ & X & T & _). destruct (Sh e He) as (_ & _ & _ & _ & T' & IV & Sz).
      rewrite (copyto_vec_int_as e [] Sz T'), IV, <- parts_elems by exact X. apply push_all_in. intros x Hx.
      destruct e; destruct X; cbn in T; try lia; cbn [parts] in Hx; apply in_map_iff in Hx as (y & <- & _); eexists; split; reflexivity. }
    rewrite (OV _ _ _ GMInt _ E). 2:{ unfold set_mint. rewrite WM; auto. }
    eexists. split; [reflexivity|]. split; [intros _; now constructor|discriminate].
  - destruct (matrix_made 0 copyto_vec_long denotes v n) as (cs & E & R & U1 & U2 & U3); auto; [|intros e He; apply (Le e He)|].
    { intros e He. destruct (Le e He) as (_ & X & T & _). destruct (Sh e He) as (_ & _ & _ & _ & T' & IV & Sz).
      rewrite (copyto_vec_long_as e [] Sz T'), <- parts_elems by exact X. apply push_all_in. intros x Hx.
      destruct e; destruct X; cbn in T; try lia; cbn [parts] in Hx; apply in_map_iff in Hx as (y & <- & _); eexists; split; reflexivity. }
    rewrite (OV _ _ _ GMLong _ E). 2:{ unfold set_mlong. rewrite WM; auto. }
    eexists. split; [reflexivity|]. split; [intros _; now constructor|discriminate].
  - destruct (matrix_made f_zero copyto_vec_real real_of v n) as (cs & E & R & U1 & U2 & U3); auto; [|intros e He; apply (Le e He)|].
    { intros e He. destruct (Le e He) as (We & X & T & _). destruct (Sh e He) as (_ & _ & _ & _ & T' & IV & Sz).
      pose proof (elems_wf e We) as Wx. rewrite Forall_forall in Wx.
      rewrite (copyto_vec_real_as e [] Sz T'), IV, <- parts_elems by exact X. rewrite <- parts_elems in Wx by exact X. apply push_all_in. intros x Hx. specialize (Wx x Hx).
      assert (exists y, conv_real false x = Ok y /\ get_number x = Ok y) as (y & E1 & E2).
      { destruct e; destruct X; cbn in T; try lia; cbn [parts] in Hx; apply in_map_iff in Hx as (y & <- & _); eexists; split; reflexivity. }
      exists y. split; [exact E1|]. now apply get_number_ok. }
    rewrite (OV _ _ _ GMReal _ E). 2:{ unfold set_mreal. rewrite WM; auto. }
    eexists. split; [reflexivity|]. split; [intros _; now constructor|discriminate].
  - destruct (matrix_made c_zero copyto_vec_complex cplx_of v n) as (cs & E & R & U1 & U2 & U3); auto; [|intros e He; apply (Le e He)|].
    { intros e He. destruct (Le e He) as (We & X & T & _). destruct (Sh e He) as (_ & _ & _ & _ & T' & IV & Sz).
      pose proof (elems_wf e We) as Wx. rewrite Forall_forall in Wx.
      rewrite (copyto_vec_complex_as e [] Sz T'), IV, <- parts_elems by exact X. rewrite <- parts_elems in Wx by exact X. apply push_all_in. intros x Hx. specialize (Wx x Hx).
      assert (exists y, get_complex_number x = Ok y) as (y & E1).
      { destruct e; destruct X; cbn in T; try lia; cbn [parts] in Hx; apply in_map_iff in Hx as (y & <- & _); eexists; reflexivity. }
      exists y. split; [exact E1|]. now apply get_complex_number_ok. }
    rewrite (OV _ _ _ GMComplex _ E). 2:{ unfold set_mcomplex. rewrite WM; auto. }
    eexists. split; [reflexivity|]. split; [intros _; now constructor|discriminate].
Qed.

(** Vectors of different lengths stay as they are. *)
Lemma uneven_scan v : forall s, (forall e, In e v -> 0 <= ne32 e) -> can_collapse (fold_left scan_step v s) = true ->
  forall a b, In a v -> In b v -> ne32 a = ne32 b.
Proof.
  intros s P C a b Ia Ib. destruct (scan_ne v s P C) as (_ & N & _).
  assert (v <> []) as X by (intros ->; destruct Ia). now rewrite (N X a Ia), (N X b Ib).
Qed.
Theorem C118_uneven : forall v a b, Forall numeric_vec v -> Forall (fun e => zlen (parts e) < 2^31) v ->
  In a v -> In b v -> zlen (parts a) <> zlen (parts b) -> collapse (GVec v) = (Ok tt, GVec v).
Proof.
  intros v a b F L Ia Ib D. rewrite Forall_forall in F, L.
  assert (Sh : forall e, In e v -> ne32 e = zlen (parts e) /\ (forall w, e <> GVec w) /\ (forall m, e <> GMap m)).
  { intros e He. destruct (vec_shape e (F e He) (L e He)) as (A & B & C & _). auto. }
  rewrite flat_vec; [|intros ->; destruct Ia|apply Forall_forall; intros e He; now apply Sh].
  unfold collapse_vec. destruct (can_collapse _) eqn:C; [|reflexivity]. exfalso. apply D.
  destruct (Sh a Ia) as (<- & _). destruct (Sh b Ib) as (<- & _). apply (uneven_scan v scan0); auto.
  intros e He. destruct (Sh e He) as (-> & _). apply zlen_nonneg.
Qed.

(** ** Elements that are collapsed themselves *)
Theorem C118_nested : forall v w, Forall2 (fun e e' => collapse e = (Ok tt, e')) v w ->
  collapse (GVec v) = collapse (GVec w).
Proof.
  intros v w F. assert (A : collapse_all v = (Ok tt, w)).
  { induction F as [|e e' v w E _ IH]; [reflexivity|]. cbn [collapse_all]. now rewrite E, IH. }
  assert (B : collapse_all w = (Ok tt, w)).
  { clear A. induction F as [|e e' v w E _ IH]; [reflexivity|]. cbn [collapse_all]. now rewrite (collapse_twice e e' E), IH. }
  destruct F as [|e e' v w]; [reflexivity|]. now rewrite !collapse_vec_eq, A, B.
Qed.

(** A list of lists of integers, as every reader makes it, becomes the matrix with these columns. *)
Theorem C118_table : forall cs n, cs <> [] -> 0 < n -> n < 2^31 -> zlen cs < 2^31 -> n * zlen cs < 2^32 ->
  Forall (fun c => zlen c = n /\ Forall int32 c) cs ->
  collapse (GVec (map (fun c => GVec (map GInt c)) cs)) = (Ok tt, GMInt (Mat n (zlen cs) (concat cs))).
Proof.
  intros cs n N P Ln Lc Lm F.
  assert (FD : forall l r, Forall2 denotes (map GInt l) r -> r = l).
  { induction l as [|x l IH]; intros r R; inversion R as [|? ? ? ? D R']; subst; [reflexivity|]. cbn in D. subst. f_equal. now apply IH. }
  rewrite (C118_nested _ (map GVInt cs)).
  - destruct (C118_matrix (map GVInt cs) TVInt n) as (g' & E & M & _).
    + destruct cs; [congruence|discriminate].
    + now rewrite zlen_map.
    + exact Ln.
    + now rewrite zlen_map.
    + apply Forall_forall. intros e He. apply in_map_iff in He as (c & <- & Ic). rewrite Forall_forall in F. exact (proj2 (F c Ic)).
    + apply Forall_forall. intros e He. apply in_map_iff in He as (c & <- & _). exact I.
    + apply Forall_forall. intros e He. apply in_map_iff in He as (c & <- & Ic). rewrite Forall_forall in F. cbn [parts]. rewrite zlen_map. exact (proj1 (F c Ic)).
    + split.
      * destruct cs as [|c cs]; [congruence|]. exists (GVInt c). split; [now left|reflexivity].
      * apply Forall_forall. intros e He. apply in_map_iff in He as (c & <- & _). cbn. lia.
    + rewrite E. f_equal. specialize (M ltac:(discriminate)). inversion M as [cs' R Eg| | |]; subst. rewrite zlen_map. do 2 f_equal.
      clear -R FD. revert cs' R. induction cs as [|c cs IH]; intros cs' R; inversion R as [|? ? ? ? D R']; subst; [reflexivity|].
      cbn [concat]. cbn [parts] in D. rewrite (FD _ _ D). f_equal. now apply IH.
  - rewrite Forall_forall in F. clear N Lc Lm. induction cs as [|c cs IH]; [constructor|]. cbn [map]. constructor.
    + destruct (F c (or_introl eq_refl)) as [L I32].
      destruct (C118_numbers_partial (map GInt c) TInt) as (g' & E & V).
      * intros X. destruct c; [rewrite zlen_nil in L; lia|discriminate].
      * rewrite zlen_map. lia.
      * apply Forall_forall. intros e He. apply in_map_iff in He as (x & <- & Ix). rewrite Forall_forall in I32. exact (I32 x Ix).
      * apply Forall_forall. intros e He. apply in_map_iff in He as (x & <- & _). exact I.
      * split; [|apply Forall_forall; intros e He; apply in_map_iff in He as (x & <- & _); cbn; lia].
        destruct c as [|x c]; [rewrite zlen_nil in L; lia|]. exists (GInt x). split; [now left|reflexivity].
      * discriminate.
      * rewrite E. f_equal. inversion V as [|r R| | |]; subst. now rewrite (FD _ _ R).
    + apply IH. intros x Ix. apply F. now right.
Qed.

(** ** Concrete cases *)
Example C118_example : exists v, v = [GBool true; GInt 3; GLong 5000000000] /\
  (v <> [] /\ zlen v < 2^31 /\ Forall wf v /\ Forall numeric v /\ widest v TLong) /\
  collapse (GVec v) = (Ok tt, GVLong [1; 3; 5000000000]).
Proof.
  eexists. split; [reflexivity|]. split; [|reflexivity]. split; [discriminate|]. split; [reflexivity|]. split; [repeat constructor; cbn; unfold int32, int64; lia|].
  split; [repeat constructor|]. split; [eexists; split; [right; right; left; reflexivity|reflexivity]|]. repeat constructor; cbn; lia.
Qed.
Example C118_example_matrix : exists v, v = [GVBool [true; false]; GVInt [3; 4]; GVInt [5; 6]] /\
  (v <> [] /\ Forall wf v /\ Forall numeric_vec v /\ Forall (fun e => zlen (parts e) = 2) v /\ widest v TVInt) /\
  collapse (GVec v) = (Ok tt, GMInt (Mat 2 3 [1; 0; 3; 4; 5; 6])).
Proof.
  eexists. split; [reflexivity|]. split; [|reflexivity]. split; [discriminate|]. split; [repeat constructor; cbn; unfold int32; lia|].
  split; [repeat constructor|]. split; [repeat constructor|]. split; [eexists; split; [right; left; reflexivity|reflexivity]|]. repeat constructor; cbn; lia.
Qed.
Example C118_example_strings : collapse (GVec [GStr "a"; GStr "b"]) = (Ok tt, GVStr ["a"; "b"]).
Proof. reflexivity. Qed.
Example C118_example_complex : collapse (GVec [GInt 1; GComplex (f_of_Z 2, f_of_Z 3)]) = (Throw, GVec [GInt 1; GComplex (f_of_Z 2, f_of_Z 3)]).
Proof.
  apply C118_complex_refuted; [reflexivity| | |].
  - apply Forall_cons; [exact I|]. apply Forall_cons; [exact I|]. apply Forall_nil.
  - exists (GComplex (f_of_Z 2, f_of_Z 3)). split; [right; left; reflexivity|reflexivity].
  - exists (GInt 1). split; [left; reflexivity|discriminate].
Qed.
Example C118_example_uneven : collapse (GVec [GVInt [1]; GVInt [2; 3]]) = (Ok tt, GVec [GVInt [1]; GVInt [2; 3]]).
Proof. reflexivity. Qed.

Example C118_example_table :
  Forall (fun c => zlen c = 2 /\ Forall int32 c) [[1; 2]; [3; 4]; [5; 6]] /\
  collapse (GVec [GVec [GInt 1; GInt 2]; GVec [GInt 3; GInt 4]; GVec [GInt 5; GInt 6]]) = (Ok tt, GMInt (Mat 2 3 [1; 2; 3; 4; 5; 6])).
Proof. split; [repeat constructor; unfold int32; lia|reflexivity]. Qed.

Print Assumptions C118_nested.
Print Assumptions C118_table.
Print Assumptions C118_strings.
Print Assumptions C118_numbers_partial.
Print Assumptions C118_complex_refuted.
Print Assumptions C118_matrix.
Print Assumptions C118_uneven.
