(** Proofs about the exchange of values with MATLAB. *)
From Coq Require Import ZArith Bool Lia Ascii String List.
From Verif Require Import Base F64 StrMap Value MBasic MCopy SCopy LCopy MGet MMap MMat SGet SPromote SCollapse MJson SJson LMap LJson LTable LToJson LCollapse MMatlab SMatlab.
Import ListNotations.
Local Open Scope Z_scope.

(** * Positions *)
Lemma entries_nat r c : entries (Z.of_nat r) (Z.of_nat c) =
  flat_map (fun j => map (fun i => (Z.of_nat i, Z.of_nat j)) (seq 0 r)) (seq 0 c).
Proof.
  unfold entries, zseq. rewrite !Nat2Z.id. induction (seq 0 c) as [|j l IH]; [reflexivity|].
  cbn [map flat_map]. rewrite IH, map_map. reflexivity.
Qed.
Lemma entries_pos_nat r c :
  map (fun ij => fst ij + snd ij * Z.of_nat r) (entries (Z.of_nat r) (Z.of_nat c)) = map Z.of_nat (seq 0 (r * c)).
Proof.
  rewrite entries_nat. induction c as [|c IH]; [now rewrite Nat.mul_0_r|].
  rewrite seq_S, Nat.mul_succ_r, (seq_app (r * c)), !flat_map_concat_map, map_app, concat_app, map_app, <- !flat_map_concat_map, IH, map_app.
  f_equal. cbn [flat_map]. rewrite app_nil_r, map_map. cbn [fst snd]. rewrite Nat.add_0_l.
  assert (G : forall n k, map (fun i => Z.of_nat i + Z.of_nat c * Z.of_nat r) (seq k n) = map Z.of_nat (seq (r * c + k) n)).
  { induction n as [|n IHn]; intros k; [reflexivity|]. cbn [seq map]. rewrite IHn, Nat.add_succ_r. f_equal. lia. }
  rewrite G, Nat.add_0_r. reflexivity.
Qed.
Lemma entries_pos nr nc : 0 <= nr -> 0 <= nc ->
  map (fun ij => fst ij + snd ij * nr) (entries nr nc) = map Z.of_nat (seq 0 (Z.to_nat (nr * nc))).
Proof.
  intros H1 H2. pose proof (entries_pos_nat (Z.to_nat nr) (Z.to_nat nc)) as E. rewrite !Z2Nat.id in E by assumption.
  rewrite E, Z2Nat.inj_mul by assumption. reflexivity.
Qed.
Lemma entries_in nr nc i j : In (i, j) (entries nr nc) -> 0 <= i < nr /\ 0 <= j < nc.
Proof.
  unfold entries, zseq. rewrite in_flat_map. intros (j' & Hj & H). apply in_map_iff in H as (i' & E & Hi). injection E as -> ->.
  apply in_map_iff in Hj as (j0 & <- & Hj). apply in_map_iff in Hi as (i0 & <- & Hi). apply in_seq in Hi, Hj. lia.
Qed.
Lemma entries_length nr nc : 0 <= nr -> 0 <= nc -> length (entries nr nc) = Z.to_nat (nr * nc).
Proof. intros H1 H2. erewrite <- map_length, entries_pos by assumption. now rewrite map_length, seq_length. Qed.

Lemma lset_app {A} (l : list A) x y r : lset (length l) x (l ++ y :: r) = l ++ x :: r.
Proof. induction l as [|a l IH]; [reflexivity|]. cbn [length lset app]. now rewrite IH. Qed.

Lemma put_entries_ok {A} r c (ij : list (Z * Z)) : forall (done rest d : list A),
  map (fun ij => fst ij + snd ij * r) ij = map Z.of_nat (seq (length done) (length ij)) ->
  Forall (fun ij => uint32 (fst ij) /\ uint32 (snd ij)) ij ->
  length rest = length ij -> length d = length ij -> Z.of_nat (length done + length ij) <= 2^32 ->
  put_entries (Mat r c (done ++ rest)) ij d = (Ok tt, Mat r c (done ++ d)).
Proof.
  induction ij as [|(i, j) ij IH]; intros done rest d E B L1 L2 LS.
  - destruct rest, d; try discriminate. reflexivity.
  - destruct rest as [|y rest], d as [|x d]; try discriminate. cbn [length seq map] in E, L1, L2, LS. injection E as E1 E.
    inversion B as [|? ? (B1 & B2) B']; subst. cbn [fst snd] in *. cbn [put_entries]. unfold mat_set, mpos. cbn [mrows mcols mdata].
    rewrite (to_u32_id i), (to_u32_id j) by assumption. rewrite E1, to_u32_id by (unfold uint32; lia). rewrite znth_nat.
    rewrite nth_error_app2, Nat.sub_diag by lia. cbn [nth_error]. rewrite Nat2Z.id, lset_app.
    specialize (IH (done ++ [x]) rest d). rewrite app_length, <- !app_assoc in IH. cbn [length app] in IH. apply IH; try assumption; try lia.
    replace (length done + 1)%nat with (S (length done)) by lia. exact E.
Qed.
Lemma put_entries_all {A} nr nc (old d : list A) : 0 <= nr < 2^32 -> 0 <= nc < 2^32 -> nr * nc < 2^32 ->
  zlen old = nr * nc -> zlen d = nr * nc -> put_entries (Mat nr nc old) (entries nr nc) d = (Ok tt, Mat nr nc d).
Proof.
  intros H1 H2 H3 L1 L2. unfold zlen in *. pose proof (entries_length nr nc ltac:(lia) ltac:(lia)) as L.
  apply (put_entries_ok nr nc (entries nr nc) [] old d); try lia.
  - cbn [length]. rewrite L. apply entries_pos; lia.
  - apply Forall_forall. intros (i, j) H. apply entries_in in H. unfold uint32. cbn [fst snd]. lia.
  - cbn [length]. lia.
Qed.

Lemma omapM_map {A B C} (f : B -> out C) (g : A -> B) l : omapM f (map g l) = omapM (fun a => f (g a)) l.
Proof. induction l as [|a l IH]; [reflexivity|]. cbn [map omapM]. now rewrite IH. Qed.
Lemma read_entries_all {A} (f : Z -> Z -> out A) (m : mat A) : 0 <= mrows m < 2^32 -> 0 <= mcols m < 2^32 -> mrows m * mcols m < 2^32 ->
  zlen (mdata m) = mrows m * mcols m ->
  (forall i j, 0 <= i < mrows m -> 0 <= j < mcols m -> f i j = mat_get m i j) ->
  read_entries f (mrows m) (mcols m) = Ok (mdata m).
Proof.
  intros H1 H2 H3 L Hf. unfold read_entries.
  rewrite (omapM_ext _ (fun ij => vat (to_u32 (fst ij + snd ij * mrows m)) (mdata m))).
  2: { intros (i, j) H. apply entries_in in H. cbn [fst snd]. now apply Hf. }
  rewrite <- (omapM_map (fun p => vat (to_u32 p) (mdata m)) (fun ij => fst ij + snd ij * mrows m)), entries_pos by lia.
  rewrite <- L. change (map Z.of_nat (seq 0 (Z.to_nat (zlen (mdata m))))) with (zseq (zlen (mdata m))).
  rewrite (omapM_seq _ (fun a => a)); [now rewrite map_id|]. intros i a E.
  assert (Hi : (i < length (mdata m))%nat) by (apply nth_error_Some; now rewrite E).
  rewrite to_u32_id by (unfold uint32, zlen in *; lia). unfold vat. now rewrite znth_nat, E.
Qed.
Lemma read_all_vec {A} (f : Z -> out A) (v : list A) : (forall i, f i = vec_at i v) -> read_all f (zlen v) = Ok v.
Proof.
  intros H. unfold read_all. rewrite (omapM_seq _ (fun a => a)); [now rewrite map_id|]. intros i a E. rewrite H. unfold vec_at, raw_at.
  assert (Hi : (i < length v)%nat) by (apply nth_error_Some; now rewrite E).
  rewrite (proj2 (Z.ltb_lt _ _)) by (unfold zlen; lia). cbn [gc_assert]. now rewrite znth_nat, E.
Qed.

(** * Reading *)
Lemma put_all_new {A} (mk : list A -> gc) (x : A) d : zlen d < 2^32 -> put_all mk (valloc x (to_u32 (zlen d)) []) d = (Ok tt, mk d).
Proof. intros H. unfold put_all. rewrite copy_alloc by exact H. now destruct d. Qed.
Lemma put_all_same {A} (mk : list A -> gc) (v d : list A) : length v = length d -> put_all mk v d = (Ok tt, mk d).
Proof. intros L. unfold put_all, copy_into. rewrite L, Nat.leb_refl, skipn_all2, app_nil_r by lia. reflexivity. Qed.

Lemma numel2 nr nc : mx_numel [nr; nc] = nr * nc.
Proof. unfold mx_numel. cbn [fold_right]. lia. Qed.
Lemma dims2 {A} nr nc (d : list A) : dims_ok [nr; nc] d -> small_dims [nr; nc] -> 0 <= nr < 2^32 /\ 0 <= nc < 2^32 /\ nr * nc < 2^32 /\ zlen d = nr * nc.
Proof.
  intros (H1 & H2) (H3 & H4). rewrite numel2 in *. apply Forall_cons_iff in H1 as (H1 & H1'), H3 as (H3 & H3').
  apply Forall_cons_iff in H1' as (H1' & _), H3' as (H3' & _). lia.
Qed.
Lemma dims_len {A} dims (d : list A) : dims_ok dims d -> small_dims dims -> zlen d < 2^32.
Proof. intros (_ & H) (_ & H'). lia. Qed.
Lemma dims_map {A B} (f : A -> B) dims d : dims_ok dims d -> dims_ok dims (map f d).
Proof. intros (H1 & H2). split; [assumption|]. unfold zlen in *. now rewrite map_length. Qed.

Lemma by_shape_ok {A} one (vec : list A -> gc) mtx dims (d : list A) vec' mtx' : dims_ok dims d -> small_dims dims ->
  (zlen d < 2^32 -> vec' d = (Ok tt, vec d)) ->
  (forall nr nc, 0 <= nr < 2^32 -> 0 <= nc < 2^32 -> nr * nc < 2^32 -> zlen d = nr * nc -> mtx' nr nc d = (Ok tt, mtx (Mat nr nc d))) ->
  by_shape one vec' mtx' dims d = (Ok tt, shaped one vec mtx dims d).
Proof.
  intros H1 H2 Hv Hm. pose proof (dims_len dims d H1 H2) as L. specialize (Hv L).
  assert (G : match dims with [_] => vec' d | [nr; nc] => if nr =? 1 then vec' d else mtx' nr nc d | _ => (Ok tt, GNone) end =
    (Ok tt, match dims with [_] => vec d | [nr; nc] => if nr =? 1 then vec d else mtx (Mat nr nc d) | _ => GNone end)).
  { destruct dims as [|nr [|nc [|x dims]]]; try reflexivity; [exact Hv|]. destruct (nr =? 1); [exact Hv|].
    destruct (dims2 nr nc d H1 H2) as (? & ? & ? & ?). now apply Hm. }
  unfold by_shape, shaped. destruct d as [|x [|y d]]; [exact G|reflexivity|exact G].
Qed.
Lemma alloc_len {A} (x : A) nr nc : 0 <= nr < 2^32 -> 0 <= nc < 2^32 -> nr * nc < 2^32 -> zlen (resize x (Z.to_nat (to_u32 (nr * nc))) []) = nr * nc.
Proof. intros H1 H2 H3. unfold zlen. rewrite resize_length, to_u32_id by (unfold uint32; nia). lia. Qed.

Lemma vec_int_ok dims d : dims_ok dims d -> small_dims dims -> mx_to_vec_int dims d = (Ok tt, shaped GInt GVInt GMInt dims (map to_i32 d)).
Proof.
  intros H1 H2. apply (dims_map to_i32) in H1. unfold mx_to_vec_int. apply by_shape_ok; try assumption.
  - apply put_all_new.
  - intros nr nc A1 A2 A3 A4. rewrite !to_u32_id by assumption. unfold alloc_mint, mresize. cbn [old_mint].
    rewrite put_entries_all; try assumption; [reflexivity|]. now apply alloc_len.
Qed.
Lemma vec_long_ok dims d : dims_ok dims d -> small_dims dims -> mx_to_vec_long dims d = (Ok tt, shaped GLong GVLong GMLong dims (map to_i64 d)).
Proof.
  intros H1 H2. apply (dims_map to_i64) in H1. unfold mx_to_vec_long. apply by_shape_ok; try assumption.
  - apply put_all_new.
  - intros nr nc A1 A2 A3 A4. rewrite !to_u32_id by assumption. unfold alloc_mlong, mresize. cbn [old_mlong].
    rewrite put_entries_all; try assumption; [reflexivity|]. now apply alloc_len.
Qed.
Lemma vec_real_ok dims d : dims_ok dims d -> small_dims dims -> mx_to_vec_real dims d = (Ok tt, shaped GReal GVReal GMReal dims d).
Proof.
  intros H1 H2. unfold mx_to_vec_real. apply by_shape_ok; try assumption.
  - apply put_all_new.
  - intros nr nc A1 A2 A3 A4. rewrite !to_u32_id by assumption. unfold alloc_mreal, mresize. cbn [old_mreal mdata].
    rewrite put_all_same; [reflexivity|]. pose proof (alloc_len f_zero nr nc A1 A2 A3) as L. unfold zlen in *. lia.
Qed.
Lemma vec_complex_ok dims d : dims_ok dims d -> small_dims dims -> mx_to_vec_complex dims d = (Ok tt, shaped GComplex GVComplex GMComplex dims d).
Proof.
  intros H1 H2. unfold mx_to_vec_complex. apply by_shape_ok; try assumption.
  - apply put_all_new.
  - intros nr nc A1 A2 A3 A4. rewrite !to_u32_id by assumption. unfold alloc_mcomplex, mresize. cbn [old_mcomplex mdata].
    rewrite put_all_same; [reflexivity|]. pose proof (alloc_len c_zero nr nc A1 A2 A3) as L. unfold zlen in *. lia.
Qed.
Lemma vec_bool_ok d : zlen d < 2^32 -> mx_to_vec_bool d = (Ok tt, match d with [b] => GBool b | _ => GVec (map GBool d) end).
Proof.
  intros H. unfold mx_to_vec_bool. destruct d as [|x [|y d]]; try reflexivity.
  replace (zlen (x :: y :: d)) with (zlen (map GBool (x :: y :: d))) by (unfold zlen; now rewrite map_length).
  apply put_all_new. unfold zlen in *. now rewrite map_length.
Qed.

Lemma wf_shaped {A} (P : A -> Prop) one vec mtx dims d : dims_ok dims d -> small_dims dims -> Forall P d ->
  (forall x, P x -> wf (one x)) -> (forall v, Forall P v -> wf (vec v)) -> (forall m, wf_mat P m -> wf (mtx m)) ->
  wf (shaped one vec mtx dims d).
Proof.
  intros H1 H2 Hd W1 W2 W3.
  assert (G : wf match dims with [_] => vec d | [nr; nc] => if nr =? 1 then vec d else mtx (Mat nr nc d) | _ => GNone end).
  { destruct dims as [|nr [|nc [|x dims]]]; try exact I; [now apply W2|]. destruct (nr =? 1); [now apply W2|]. apply W3.
    destruct (dims2 nr nc d H1 H2) as (A1 & A2 & A3 & A4). repeat split; cbn [mrows mcols mdata]; try lia; try assumption.
    rewrite to_u32_id by (unfold uint32; nia). assumption. }
  unfold shaped. destruct d as [|x [|y d]]; [exact G| |exact G]. apply W1. now inversion Hd.
Qed.
Lemma data_shaped {A B} (f : A -> dat) (g : B -> dat) (h : B -> A) one vec mtx dims (d : list B) : planar dims -> dims_ok dims d ->
  (forall x, data_of (one x) = f x) -> (forall v, data_of (vec v) = DList (map f v)) -> (forall m, data_of (mtx m) = d_mat f m) ->
  Forall (fun x => f (h x) = g x) d ->
  data_of (shaped one vec mtx dims (map h d)) = arr_data g dims d.
Proof.
  intros Hp H1 D1 D2 D3 Hh.
  assert (M : forall d', Forall (fun x => f (h x) = g x) d' -> map f (map h d') = map g d').
  { intros d' H. rewrite map_map. apply List.map_ext_in. intros a Ha. rewrite Forall_forall in H. now apply H. }
  assert (C : forall r c d', Forall (fun x => f (h x) = g x) d' -> map (fun c => DList (map f c)) (columns r c (map h d')) = map (fun c => DList (map g c)) (columns r c d')).
  { intros r c. induction c as [|c IH]; intros d' H; [reflexivity|]. cbn [columns map].
    rewrite firstn_map, skipn_map, M, IH; [reflexivity| |].
    - apply Forall_forall. intros x Hx. rewrite Forall_forall in H. apply H. rewrite <- (firstn_skipn r d'). apply in_or_app. now right.
    - apply Forall_forall. intros x Hx. rewrite Forall_forall in H. apply H. rewrite <- (firstn_skipn r d'). apply in_or_app. now left. }
  unfold shaped, arr_data.
  assert (G : data_of match dims with [_] => vec (map h d) | [nr; nc] => if nr =? 1 then vec (map h d) else mtx (Mat nr nc (map h d)) | _ => GNone end =
    match dims with [_] => DList (map g d) | [nr; nc] => if nr =? 1 then DList (map g d) else DList (map (fun c => DList (map g c)) (columns (Z.to_nat nr) (Z.to_nat nc) d)) | _ => DNull end).
  { destruct dims as [|nr [|nc [|x dims]]]; try destruct Hp; [rewrite D2; f_equal; now apply M|].
    destruct (nr =? 1); [rewrite D2; f_equal; now apply M|]. rewrite D3. unfold d_mat. cbn [mrows mcols mdata]. f_equal. now apply C. }
  destruct d as [|x [|y d]]; [exact G| |exact G]. cbn [map]. rewrite D1. now inversion Hh.
Qed.

(** Sequences of cells and fields. *)
Definition reads (a : mx) (r : gc) : Prop := forall g, mx_to_GC a g = (Ok tt, r).
Lemma mx_cells_ok l rs : Forall2 reads l rs -> mx_cells l (zlen l) = (Ok tt, rs).
Proof.
  induction 1 as [|a r l rs H _ IH]; [reflexivity|]. cbn [mx_cells].
  rewrite (proj2 (Z.leb_gt _ _)) by (rewrite zlen_cons; pose proof (zlen_nonneg l); lia).
  rewrite (H GNone). replace (zlen (a :: l) - 1) with (zlen l) by (rewrite zlen_cons; lia). now rewrite IH.
Qed.
Lemma mx_fields_ok nr nc f rs : Forall2 (fun kl ke => fst ke = fst kl /\ no_nul (fst kl) /\ mx_field nr nc (snd kl) = (Ok tt, snd ke)) f rs -> forall acc,
  mx_fields nr nc f acc = (Ok tt, fold_left (fun acc kv => mset (fst kv) (snd kv) acc) rs acc).
Proof.
  induction 1 as [|(k, l) (k', e) f rs (E & N & H) _ IH]; intros acc; [reflexivity|]. cbn [fst snd] in *. subst k'.
  change (mx_fields nr nc ((k, l) :: f) acc) with
    (let '(r, e0) := mx_field nr nc l in match r with Ok _ => mx_fields nr nc f (mset (cstr k) e0 acc) | _ => (r, mset (cstr k) e0 acc) end).
  rewrite H, cstr_id by assumption. now rewrite IH.
Qed.

(** Sparse arrays. *)
Definition sparse_gc (ir jc : list Z) (vals : gc) : gc := GMap [("ir"%string, GVInt ir); ("jc"%string, GVInt jc); ("values"%string, vals)].
Lemma sparse_to_GC_ok nc ir jc vals e : 0 <= nc -> nc + 1 < 2^32 -> zlen ir < 2^32 -> zlen jc = nc + 1 ->
  map to_i32 ir = ir -> map to_i32 jc = jc -> vals GNone = (Ok tt, e) ->
  sparse_to_GC nc ir jc vals GNone = (Ok tt, sparse_gc ir jc e).
Proof.
  intros H0 H1 H2 H3 Ei Ej Hv. unfold sparse_to_GC. rewrite (proj2 (Z.ltb_lt _ _) H1), (proj2 (Z.ltb_lt _ _) H2). cbn [andb].
  assert (P : forall v, put_all GVInt (alloc_vint (zlen v) GNone) v = (Ok tt, GVInt v)).
  { intros v. apply put_all_same. unfold alloc_vint, valloc. cbn [old_vint]. destruct (Z.ltb_spec 0 (zlen v)) as [S|S].
    - rewrite resize_length. unfold zlen. lia.
    - destruct v; [reflexivity|]. rewrite zlen_cons in S. pose proof (zlen_nonneg v). lia. }
  pose proof (P ir) as Pi. pose proof (P jc) as Pj. rewrite H3 in Pj. rewrite Ei, Ej. unfold set_vint_sz.
  set (aj := alloc_vint (nc + 1) GNone) in *. set (ai := alloc_vint (zlen ir) GNone) in *.
  unfold with_key. cbn -[put_all alloc_vint zlen Z.add]. fold aj. fold ai. rewrite Pj. cbn -[put_all]. rewrite Pi. cbn -[put_all]. rewrite Hv. reflexivity.
Qed.

(** * The whole array *)
Lemma mx_all_here P a : mx_all P a -> P a.
Proof. destruct a; intros [H _]; exact H. Qed.
Lemma mx_all_cell P dims l : mx_all P (MxCell dims l) <-> P (MxCell dims l) /\ Forall (mx_all P) l.
Proof.
  cbn [mx_all]. apply and_iff_compat_l. induction l as [|a l IH]; split; intros H; auto.
  - destruct H. constructor; [assumption|]. now apply IH.
  - inversion H; subst. split; [assumption|]. now apply IH.
Qed.
Lemma mx_all_struct P dims f : mx_all P (MxStruct dims f) <-> P (MxStruct dims f) /\ Forall (fun kl => Forall (mx_all P) (snd kl)) f.
Proof.
  cbn [mx_all]. apply and_iff_compat_l. induction f as [|(k, l) f IH]; [split; auto|].
  split.
  - intros (H1 & H2). constructor; [|now apply IH]. cbn [snd]. clear - H1. induction l as [|a l IHl]; [constructor|].
    destruct H1. constructor; auto.
  - intros H. inversion H as [|? ? H1 H2]; subst. split; [|now apply IH]. cbn [snd] in H1. clear - H1. induction H1; auto.
Qed.

Lemma to_i32_class c z : c <> I64 -> c <> U64 -> class_range c z -> fits_int c z -> int32 z.
Proof. destruct c; unfold class_range, fits_int, int32; try easy; lia. Qed.
Lemma class_abs c z : class_range c z -> Z.abs z <= 2^64.
Proof. destruct c; unfold class_range; lia. Qed.

Lemma zlen_map' {A B} (f : A -> B) l : zlen (map f l) = zlen l.
Proof. unfold zlen. now rewrite map_length. Qed.
Lemma map_id_in {A} (f : A -> A) l : Forall (fun x => f x = x) l -> map f l = l.
Proof. induction 1 as [|x l H _ IH]; [reflexivity|]. cbn [map]. now rewrite H, IH. Qed.

Definition read_right (a : mx) : Prop := exists r, reads a r /\ wf r /\ data_of r = mx_data a.

Lemma read_int c dims d : mx_ok (MxInt c dims d) -> mx_node (MxInt c dims d) -> read_right (MxInt c dims d).
Proof.
  intros (H1 & H2) (H3 & H4 & H5).
  assert (G32 : c <> I64 -> c <> U64 -> read_right (MxInt c dims d)).
  { intros N1 N2.
    assert (R : Forall int32 d).
    { apply Forall_forall. intros z Hz. rewrite Forall_forall in H2, H5. apply (to_i32_class c); auto. }
    assert (E : map to_i32 d = d) by (apply map_id_in; eapply Forall_impl; [|exact R]; intros z Hz; now apply to_i32_id).
    exists (shaped GInt GVInt GMInt dims d). split; [|split].
    - intros g. replace (mx_to_GC (MxInt c dims d) g) with (mx_to_vec_int dims d) by (destruct c; easy).
      rewrite vec_int_ok, E by assumption. reflexivity.
    - apply (wf_shaped int32); auto.
    - rewrite <- (map_id d) at 1. cbn [mx_data]. apply (data_shaped d_int); try assumption; try reflexivity.
      apply Forall_forall. reflexivity. }
  assert (G64 : c = I64 \/ c = U64 -> read_right (MxInt c dims d)).
  { intros N.
    assert (R : Forall int64 d).
    { apply Forall_forall. intros z Hz. rewrite Forall_forall in H2, H5. specialize (H2 z Hz). specialize (H5 z Hz).
      unfold class_range, fits_int, int64 in *. destruct N as [-> | ->]; lia. }
    assert (E : map to_i64 d = d) by (apply map_id_in; eapply Forall_impl; [|exact R]; intros z Hz; now apply to_i64_id).
    exists (shaped GLong GVLong GMLong dims d). split; [|split].
    - intros g. replace (mx_to_GC (MxInt c dims d) g) with (mx_to_vec_long dims d) by (destruct N as [-> | ->]; reflexivity).
      rewrite vec_long_ok, E by assumption. reflexivity.
    - apply (wf_shaped int64); auto.
    - rewrite <- (map_id d) at 1. cbn [mx_data]. apply (data_shaped d_int); try assumption; try reflexivity.
      apply Forall_forall. reflexivity. }
  destruct c; first [apply G32; discriminate | apply G64; auto].
Qed.
Lemma read_intc c dims d : mx_ok (MxIntC c dims d) -> mx_node (MxIntC c dims d) -> read_right (MxIntC c dims d).
Proof.
  intros (H1 & H2) (H3 & H4 & H5). set (h := fun c : Z * Z => (f_of_Z (fst c), f_of_Z (snd c))).
  exists (shaped GComplex GVComplex GMComplex dims (map h d)). split; [|split].
  - intros g. change (mx_to_GC (MxIntC c dims d) g) with (mx_to_vec_complex dims (map h d)). apply vec_complex_ok; [|assumption].
    now apply dims_map.
  - apply (wf_shaped fc); auto; [now apply dims_map|]. apply Forall_map. eapply Forall_impl; [|exact H2]. intros (a, b) (Ha & Hb).
    cbn [fst snd] in *. apply class_abs in Ha, Hb. unfold h, fc. cbn [fst snd]. split; now apply f_of_Z_range.
  - cbn [mx_data]. apply (data_shaped d_cplx); try assumption; try reflexivity.
    apply Forall_forall. intros (a, b) Hz. rewrite Forall_forall in H2, H5. destruct (H2 _ Hz) as (Ha & Hb). destruct (H5 _ Hz) as (Ra & Rb).
    cbn [fst snd] in *. apply class_abs in Ha, Hb. unfold d_cplx, d_gauss, h. cbn [fst snd].
    pose proof (nearest_exact _ _ (f_of_Z_nearest a Ha) Ra) as Fa. pose proof (nearest_exact _ _ (f_of_Z_nearest b Hb) Rb) as Fb.
    f_equal; now apply num_f_int.
Qed.
Lemma read_bools dims d : mx_ok (MxLogical dims d) -> mx_node (MxLogical dims d) -> read_right (MxLogical dims d).
Proof.
  intros H1 (H3 & H4). exists (match d with [b] => GBool b | _ => GVec (map GBool d) end). split; [|split].
  - intros g. change (mx_to_GC (MxLogical dims d) g) with (mx_to_vec_bool d). apply vec_bool_ok. now apply (dims_len dims).
  - assert (G : wf (GVec (map GBool d))) by (apply wf_vec, Forall_map, Forall_forall; intros b _; exact I).
    destruct d as [|x [|y d]]; [exact G|exact I|exact G].
  - cbn [mx_data]. unfold arr_data.
    assert (G : data_of (GVec (map GBool d)) = match dims with
      | [_] => DList (map (fun b : bool => d_int (if b then 1 else 0)) d)
      | [nr; nc] => if nr =? 1 then DList (map (fun b : bool => d_int (if b then 1 else 0)) d)
                    else DList (map (fun c => DList (map (fun b : bool => d_int (if b then 1 else 0)) c)) (columns (Z.to_nat nr) (Z.to_nat nc) d))
      | _ => DNull end).
    { assert (E : data_of (GVec (map GBool d)) = DList (map (fun b : bool => d_int (if b then 1 else 0)) d))
        by (cbn [data_of]; rewrite map_map; reflexivity).
      destruct dims as [|nr [|nc [|x dims]]]; try now destruct H4. cbn in H4. subst nr. exact E. }
    destruct d as [|x [|y d]]; [exact G|reflexivity|exact G].
Qed.
Lemma read_reals s dims d : mx_ok (MxReal s dims d) -> mx_node (MxReal s dims d) -> read_right (MxReal s dims d).
Proof.
  intros (H1 & H2) (H3 & H4). exists (shaped GReal GVReal GMReal dims d). split; [|split].
  - intros g. change (mx_to_GC (MxReal s dims d) g) with (mx_to_vec_real dims d). now apply vec_real_ok.
  - apply (wf_shaped f64); auto.
  - rewrite <- (map_id d) at 1. cbn [mx_data]. apply (data_shaped d_real); try assumption; try reflexivity. apply Forall_forall. reflexivity.
Qed.
Lemma read_cplxs s dims d : mx_ok (MxCplx s dims d) -> mx_node (MxCplx s dims d) -> read_right (MxCplx s dims d).
Proof.
  intros (H1 & H2) (H3 & H4). exists (shaped GComplex GVComplex GMComplex dims d). split; [|split].
  - intros g. change (mx_to_GC (MxCplx s dims d) g) with (mx_to_vec_complex dims d). now apply vec_complex_ok.
  - apply (wf_shaped fc); auto.
  - rewrite <- (map_id d) at 1. cbn [mx_data]. apply (data_shaped d_cplx); try assumption; try reflexivity. apply Forall_forall. reflexivity.
Qed.
Lemma sparse_read {A} nr nc ir jc (d : list A) vals e : sparse_ok nr nc ir jc d -> nc + 1 < 2^32 -> Forall (fun i => i < 2^31) ir -> zlen ir < 2^31 ->
  vals GNone = (Ok tt, e) -> sparse_to_GC nc ir jc vals GNone = (Ok tt, sparse_gc ir jc e) /\ (wf e -> wf (sparse_gc ir jc e)).
Proof.
  intros (H1 & H2 & H3 & H4 & H5 & H6 & H7) S1 S2 S3 Hv. 
  assert (I1 : Forall int32 ir).
  { apply Forall_forall. intros z Hz. rewrite Forall_forall in S2, H6. specialize (S2 z Hz). specialize (H6 z Hz). unfold int32. cbv beta in *. lia. }
  assert (I2 : Forall int32 jc).
  { apply Forall_forall. intros z Hz. rewrite Forall_forall in H7. specialize (H7 z Hz). unfold int32. cbv beta in *. lia. }
  split.
  - apply sparse_to_GC_ok; try assumption; try lia; apply map_id_in; (eapply Forall_impl; [|eassumption]); intros z Hz; now apply to_i32_id.
  - intros W. apply wf_map. split; [|repeat (apply Forall_cons; [assumption|]); apply Forall_nil].
    assert (T : mset "ir"%string (GVInt ir) (mset "jc"%string (GVInt jc) (mset "values"%string e [])) =
      [("ir"%string, GVInt ir); ("jc"%string, GVInt jc); ("values"%string, e)]) by reflexivity.
    rewrite <- T. apply mset_sorted, mset_sorted, mset_sorted. constructor.
Qed.
Lemma put_all_sz {A} (mk : list A -> gc) (x : A) d : put_all mk (valloc x (zlen d) []) d = (Ok tt, mk d).
Proof.
  apply put_all_same. unfold valloc. destruct (Z.ltb_spec 0 (zlen d)) as [L|L].
  - rewrite resize_length. unfold zlen. lia.
  - destruct d; [reflexivity|]. rewrite zlen_cons in L. pose proof (zlen_nonneg d). lia.
Qed.

Lemma read_ok a : mx_all mx_ok a -> mx_all mx_node a -> read_right a.
Proof.
  induction a as [a N1 N2|dims l IH|dims f IH] using mx_nest_ind; intros Ho Hn.
  - pose proof (mx_all_here _ _ Ho) as O. pose proof (mx_all_here _ _ Hn) as N. clear Ho Hn.
    destruct a as [ |dims d|c dims d|c dims d|s dims d|s dims d|s|s|dims l|dims f|nr nc ir jc d|nr nc ir jc d|nr nc ir jc d| ].
    + exists GNone. now split; [|split].
    + now apply read_bools.
    + now apply read_int.
    + now apply read_intc.
    + now apply read_reals.
    + now apply read_cplxs.
    + exists (GStr s). split; [|split]; try easy. intros g. cbn. now rewrite cstr_id.
    + exists (GStr s). split; [|split]; try easy. intros g. cbn. now rewrite cstr_id.
    + now destruct (N1 dims l).
    + now destruct (N2 dims f).
    + destruct O as (O & Od). destruct N as (S1 & S2 & S3).
      destruct (sparse_read nr nc ir jc d (sparse_real d) (GVReal d) O S1 S2 S3 (put_all_sz _ _ _)) as (E & W).
      exists (sparse_gc ir jc (GVReal d)). split; [|split]; [exact (fun _ => E)|now apply W|reflexivity].
    + destruct O as (O & Od). destruct N as (S1 & S2 & S3).
      destruct (sparse_read nr nc ir jc d (sparse_complex d) (GVComplex d) O S1 S2 S3 (put_all_sz _ _ _)) as (E & W).
      exists (sparse_gc ir jc (GVComplex d)). split; [|split]; [exact (fun _ => E)|now apply W|reflexivity].
    + destruct N.
    + destruct N.
  - apply mx_all_cell in Ho as (O & Ho), Hn as (N & Hn). destruct N as (Sm & N).
    pose proof (dims_len dims l O Sm) as L.
    assert (R : exists rs, Forall2 reads l rs /\ Forall wf rs /\ map data_of rs = map mx_data l).
    { clear - IH Ho Hn. induction l as [|a l IHl]; [exists []; repeat split; constructor|].
      apply Forall_cons_iff in IH as (Ia & IH), Ho as (Oa & Ho), Hn as (Na & Hn).
      destruct (Ia Oa Na) as (r & R & W & D). destruct (IHl IH Ho Hn) as (rs & Rs & Ws & Ds).
      exists (r :: rs). repeat split; try (constructor; assumption). cbn [map]. now rewrite D, Ds. }
    destruct R as (rs & Rs & Ws & Ds). exists (GVec rs). split; [|split].
    + intros g. rewrite mx_cell, to_u32_id by (unfold uint32; pose proof (zlen_nonneg l); lia). now rewrite (mx_cells_ok l rs).
    + now apply wf_vec.
    + cbn [data_of mx_data]. rewrite Ds. unfold cell_data. destruct dims as [|nr [|nc [|x dims]]]; try destruct N; try reflexivity.
      * now rewrite (proj2 (Z.leb_le _ _)).
      * rewrite (proj2 (Z.leb_le nc 1)) by assumption. now rewrite orb_true_r.
  - apply mx_all_struct in Ho as (O & Ho), Hn as (N & Hn). destruct O as (O1 & O2 & O3). destruct N as (Sm & N).
    destruct dims as [|nr [|nc [|x dims]]]; try destruct N.
    assert (B : 0 <= nr < 2^32 /\ 0 <= nc < 2^32 /\ nr * nc < 2^32).
    { destruct Sm as (A1 & A2). rewrite numel2 in A2. apply Forall_cons_iff in O1 as (B1 & O1), A1 as (B2 & A1).
      apply Forall_cons_iff in O1 as (B3 & _), A1 as (B4 & _). lia. }
    destruct B as (B1 & B2 & B3).
    set (fd := fun kl : string * list mx => match [nr; nc] with [1; 1] => match snd kl with [a] => mx_data a | _ => DNull end | _ => DList (map mx_data (snd kl)) end).
    assert (R : exists rs, Forall2 (fun kl ke => fst ke = fst kl /\ no_nul (fst kl) /\ mx_field nr nc (snd kl) = (Ok tt, snd ke)) f rs /\
      Forall (fun ke => wf (snd ke)) rs /\ vmap data_of rs = map (fun kl => (fst kl, fd kl)) f).
    { clear - IH Ho Hn O3 B1 B2 B3 fd. induction f as [|(k, l) f IHf]; [exists []; repeat split; constructor|].
      apply Forall_cons_iff in IH as (Ia & IH), Ho as (Oa & Ho), Hn as (Na & Hn), O3 as ((K & L) & O3). cbn [fst snd] in *. rewrite numel2 in L.
      destruct (IHf IH O3 Ho Hn) as (rs & Rs & Ws & Ds).
      assert (Rl : exists rl, Forall2 reads l rl /\ Forall wf rl /\ map data_of rl = map mx_data l).
      { clear - Ia Oa Na. induction l as [|a l IHl]; [exists []; repeat split; constructor|].
        apply Forall_cons_iff in Ia as (I1 & Ia), Oa as (O1 & Oa), Na as (N1 & Na).
        destruct (I1 O1 N1) as (r & R & W & D). destruct (IHl Ia Oa Na) as (rl & Rl & Wl & Dl).
        exists (r :: rl). repeat split; try (constructor; assumption). cbn [map]. now rewrite D, Dl. }
      destruct Rl as (rl & Rl & Wl & Dl).
      assert (E : exists e, mx_field nr nc l = (Ok tt, e) /\ wf e /\ data_of e = fd (k, l)).
      { unfold mx_field, fd. cbn [snd]. destruct (Z.eqb_spec nc 1) as [-> | C1]; [destruct (Z.eqb_spec nr 1) as [-> | C2]|].
        - destruct l as [|a [|b l]]; [discriminate L| |rewrite !zlen_cons in L; pose proof (zlen_nonneg l); lia].
          inversion Rl as [|? r ? ? Ra]; subst. inversion Wl; subst. exists r. cbn [andb]. rewrite Ra. cbn [map] in Dl. injection Dl as Dl.
          now split; [|split].
        - exists (GVec rl). rewrite Z.mul_1_r in *. cbn [andb]. rewrite to_u32_id by assumption. rewrite <- L, (mx_cells_ok l rl) by assumption.
          split; [reflexivity|]. split; [now apply wf_vec|]. cbn [data_of]. rewrite Dl. 
          rewrite L. destruct nr as [|[p|p|]|p]; try reflexivity; congruence.
        - exists (GVec rl). cbn [andb]. rewrite to_u32_id by (unfold uint32; nia). rewrite <- L, (mx_cells_ok l rl) by assumption.
          split; [reflexivity|]. split; [now apply wf_vec|]. cbn [data_of]. rewrite Dl. destruct nr as [|[p|p|]|p]; try reflexivity.
          destruct nc as [|[p|p|]|p]; try reflexivity; congruence. }
      destruct E as (e & E & We & De). exists ((k, e) :: rs). split; [|split].
      - constructor; [|assumption]. now split; [|split].
      - constructor; assumption.
      - change (vmap data_of ((k, e) :: rs)) with ((k, data_of e) :: vmap data_of rs). cbn [map fst]. now rewrite De, Ds. }
    destruct R as (rs & Rs & Ws & Ds). exists (GMap (by_key rs)). split; [|split].
    + intros g. rewrite mx_struct. replace (mx_m [nr; nc]) with nr by reflexivity. replace (mx_n [nr; nc]) with nc by (unfold mx_n; cbn [fold_right]; lia).
      rewrite !to_u32_id by assumption. now rewrite (mx_fields_ok nr nc f rs Rs).
    + apply wf_map. split; [apply by_key_sorted|]. now apply by_key_forall.
    + cbn [mx_data]. change (data_of (GMap (by_key rs))) with (DMap (vmap data_of (by_key rs))). rewrite vmap_by_key, Ds. reflexivity.
Qed.

(** * Writing *)
Lemma zlen_u32 {A} (v : list A) : zlen v < 2^32 -> to_u32 (zlen v) = zlen v.
Proof. intros H. apply to_u32_id. unfold uint32. pose proof (zlen_nonneg v). lia. Qed.
Lemma int64_slot_id z : int64 z -> int64_slot z = z.
Proof.
  intros H. unfold int64_slot, to_u64, to_i64. unfold int64 in H.
  rewrite Z.add_mod_idemp_l by lia. fold (to_i64 z). now apply to_i64_id.
Qed.
Lemma slots v : Forall int64 v -> map int64_slot v = v.
Proof. intros H. apply map_id_in. eapply Forall_impl; [|exact H]. intros z Hz. now apply int64_slot_id. Qed.

Lemma row_dims {A} (v : list A) : dims_ok [1; zlen v] v.
Proof. split; [|rewrite numel2; lia]. repeat (apply Forall_cons; [pose proof (zlen_nonneg v); lia|]). apply Forall_nil. Qed.
Lemma row_small {A} (v : list A) : zlen v < 2^32 -> small_dims [1; zlen v].
Proof. intros H. split; [|rewrite numel2; lia]. repeat (apply Forall_cons; [lia|]). apply Forall_nil. Qed.
Lemma one_dims {A} (x : A) : dims_ok [1; 1] [x].
Proof. exact (row_dims [x]). Qed.
Lemma one_small : small_dims [1; 1].
Proof. exact (row_small [tt] ltac:(reflexivity)). Qed.
Lemma mat_dims {A} (P : A -> Prop) (m : mat A) : wf_mat P m -> mrows m * mcols m < 2^32 ->
  dims_ok [mrows m; mcols m] (mdata m) /\ small_dims [mrows m; mcols m] /\ Forall P (mdata m) /\
  0 <= mrows m < 2^32 /\ 0 <= mcols m < 2^32 /\ zlen (mdata m) = mrows m * mcols m.
Proof.
  intros (H1 & H2 & H3 & H4) S. unfold uint32 in *. rewrite to_u32_id in H3 by (unfold uint32; nia).
  split; [split; [|now rewrite numel2]|split; [split; [|now rewrite numel2]|auto]];
    (repeat (apply Forall_cons; [lia|]); apply Forall_nil).
Qed.

(** [m] is a proper array that is read as [r]. *)
Definition goes (g : gc) (m : mx) (r : gc) : Prop := GC_to_mx g = Ok m /\ mx_all mx_ok m /\ mx_all mx_node m /\ reads m r.
Lemma goes_flat g m r : (forall s l, m <> MxCell s l) -> (forall s f, m <> MxStruct s f) ->
  GC_to_mx g = Ok m -> mx_ok m -> mx_node m -> reads m r -> goes g m r.
Proof.
  intros N1 N2 E O N R. split; [exact E|]. split; [|split; [|exact R]];
    destruct m; try (split; [assumption|exact I]); try (now edestruct N1); now edestruct N2.
Qed.

Lemma shaped_row {A} one vec mtx n (v : list A) : shaped one vec mtx [1; n] v = match v with [x] => one x | _ => vec v end.
Proof. destruct v as [|x [|y v]]; reflexivity. Qed.
Lemma row_data {A} (v : list A) : is_row [1; zlen v].
Proof. reflexivity. Qed.
Lemma fits_i64 v : Forall int64 v -> Forall (class_range I64) v /\ Forall (fits_int I64) v.
Proof. intros H. split; eapply Forall_impl; try exact H; intros z Hz; [exact Hz|exact I]. Qed.
Lemma reads_long c dims v : c = I64 -> dims_ok dims v -> small_dims dims -> Forall int64 v -> reads (MxInt c dims v) (shaped GLong GVLong GMLong dims v).
Proof.
  intros -> H1 H2 H3 g. change (mx_to_GC (MxInt I64 dims v) g) with (mx_to_vec_long dims v). rewrite vec_long_ok by assumption.
  replace (map to_i64 v) with v; [reflexivity|]. symmetry. apply map_id_in. eapply Forall_impl; [|exact H3]. intros z Hz. now apply to_i64_id.
Qed.
Lemma reads_int c dims v : c = I32 -> dims_ok dims v -> small_dims dims -> Forall int32 v -> reads (MxInt c dims v) (shaped GInt GVInt GMInt dims v).
Proof.
  intros -> H1 H2 H3 g. change (mx_to_GC (MxInt I32 dims v) g) with (mx_to_vec_int dims v). rewrite vec_int_ok by assumption.
  replace (map to_i32 v) with v; [reflexivity|]. symmetry. apply map_id_in. eapply Forall_impl; [|exact H3]. intros z Hz. now apply to_i32_id.
Qed.
Lemma int32_int64 z : int32 z -> int64 z.
Proof. unfold int32, int64. lia. Qed.

Lemma goes_row_long g v : Forall int64 v -> zlen v < 2^32 -> GC_to_mx g = Ok (MxInt I64 [1; zlen v] v) ->
  goes g (MxInt I64 [1; zlen v] v) (match v with [i] => GLong i | _ => GVLong v end).
Proof.
  intros H S E. destruct (fits_i64 v H). apply goes_flat; try discriminate; [exact E| | |].
  - split; [apply row_dims|assumption].
  - split; [now apply row_small|now split].
  - rewrite <- (shaped_row GLong GVLong GMLong (zlen v)). apply reads_long; [reflexivity|apply row_dims|now apply row_small|assumption].
Qed.

Lemma write_flat g : (forall v, g <> GVec v) -> (forall m, g <> GMap m) -> wf g -> to_mx_node g -> exists m, goes g m (mx_back g).
Proof.
  intros Nv Nm W N. destruct g as [ |p|b|i|l|x|c|s|v|v|v|v|v|v|v|m|m|m|m|v|m].
  all: try (now destruct (Nv v)); try (now destruct (Nm m)).
  all: try (exists (MxReal false [0; 0] []); apply goes_flat; try discriminate; [reflexivity| | |intros h; reflexivity];
            [split; [split; [repeat (apply Forall_cons; [lia|])|reflexivity]|]; apply Forall_nil
            |split; [split; [repeat (apply Forall_cons; [lia|]); apply Forall_nil|reflexivity]|exact I]]).
  - exists (MxLogical [1; 1] [b]). apply goes_flat; try discriminate; [reflexivity|apply one_dims|split; [apply one_small|reflexivity]|intros h; reflexivity].
  - exists (MxInt I64 [1; 1] [i]). cbn [wf] in W. apply int32_int64 in W.
    exact (goes_row_long (GInt i) [i] (Forall_cons _ W (Forall_nil _)) ltac:(reflexivity)
      (f_equal (fun z => Ok (MxInt I64 [1; 1] [z])) (int64_slot_id i W))).
  - exists (MxInt I64 [1; 1] [l]). cbn [wf] in W.
    exact (goes_row_long (GLong l) [l] (Forall_cons _ W (Forall_nil _)) ltac:(reflexivity)
      (f_equal (fun z => Ok (MxInt I64 [1; 1] [z])) (int64_slot_id l W))).
  - exists (MxReal false [1; 1] [x]). apply goes_flat; try discriminate; [reflexivity| | |intros h; reflexivity].
    + split; [apply one_dims|]. apply Forall_cons; [exact W|apply Forall_nil].
    + split; [apply one_small|exact I].
  - exists (MxCplx false [1; 1] [c]). apply goes_flat; try discriminate; [reflexivity| | |intros h; reflexivity].
    + split; [apply one_dims|]. apply Forall_cons; [exact W|apply Forall_nil].
    + split; [apply one_small|exact I].
  - exists (MxChar s). cbn [to_mx_node] in N. apply goes_flat; try discriminate; [|exact I|exact N|].
    + cbn [GC_to_mx]. now rewrite cstr_id.
    + intros h. cbn. now rewrite cstr_id.
  - cbn [to_mx_node] in N. exists (MxLogical [1; zlen v] v). apply goes_flat; try discriminate.
    + cbn [GC_to_mx num_elements]. rewrite zlen_u32 by assumption. rewrite read_all_vec by reflexivity. reflexivity.
    + apply row_dims.
    + split; [now apply row_small|reflexivity].
    + intros h. change (mx_to_GC (MxLogical [1; zlen v] v) h) with (mx_to_vec_bool v). now apply vec_bool_ok.
  - cbn [to_mx_node wf] in N, W. assert (W' : Forall int64 v) by (eapply Forall_impl; [|exact W]; intros z; apply int32_int64).
    exists (MxInt I64 [1; zlen v] v). apply (goes_row_long (GVInt v)); try assumption.
    cbn [GC_to_mx num_elements]. rewrite zlen_u32 by assumption. rewrite read_all_vec by reflexivity. cbn [bind]. now rewrite slots.
  - cbn [to_mx_node wf] in N, W.
    exists (MxInt I64 [1; zlen v] v). apply (goes_row_long (GVLong v)); try assumption.
    cbn [GC_to_mx num_elements]. rewrite zlen_u32 by assumption. rewrite read_all_vec by reflexivity. cbn [bind]. now rewrite slots.
  - cbn [to_mx_node wf] in N, W. exists (MxReal false [1; zlen v] v). apply goes_flat; try discriminate.
    + cbn [GC_to_mx num_elements]. rewrite zlen_u32 by assumption. rewrite read_all_vec by reflexivity. reflexivity.
    + split; [apply row_dims|assumption].
    + split; [now apply row_small|exact I].
    + intros h. change (mx_to_GC (MxReal false [1; zlen v] v) h) with (mx_to_vec_real [1; zlen v] v).
      rewrite vec_real_ok, shaped_row; [reflexivity|apply row_dims|now apply row_small].
  - cbn [to_mx_node wf] in N, W. exists (MxCplx false [1; zlen v] v). apply goes_flat; try discriminate.
    + cbn [GC_to_mx num_elements]. rewrite zlen_u32 by assumption.
      assert (R : read_all (fun i => get_complex_number_at i (GVComplex v)) (zlen v) = Ok v).
      { unfold read_all. rewrite (omapM_seq _ (fun a => a)); [now rewrite map_id|]. intros i a E. cbn [get_complex_number_at]. unfold raw_at. now rewrite znth_nat, E. }
      now rewrite R.
    + split; [apply row_dims|assumption].
    + split; [now apply row_small|exact I].
    + intros h. change (mx_to_GC (MxCplx false [1; zlen v] v) h) with (mx_to_vec_complex [1; zlen v] v).
      rewrite vec_complex_ok, shaped_row; [reflexivity|apply row_dims|now apply row_small].
  - cbn [to_mx_node] in N. destruct N as (S & N). exists (MxCell [1; zlen v] (map MxChar v)). split; [|split; [|split]].
    + cbn [GC_to_mx num_elements]. rewrite zlen_u32 by assumption. rewrite read_all_vec by reflexivity. cbn [bind]. do 2 f_equal.
      apply List.map_ext_in. intros s Hs. rewrite Forall_forall in N. now rewrite cstr_id by now apply N.
    + apply mx_all_cell. split.
      * rewrite <- (zlen_map' MxChar). apply row_dims.
      * apply Forall_map, Forall_forall. intros s _. split; exact I.
    + apply mx_all_cell. split; [split; [now apply row_small|left; lia]|]. apply Forall_map. eapply Forall_impl; [|exact N]. intros s Hs. now split.
    + intros h. rewrite mx_cell, zlen_map', zlen_u32 by assumption.
      rewrite <- (zlen_map' MxChar). rewrite (mx_cells_ok (map MxChar v) (map GStr v)); [reflexivity|].
      clear - N. induction N as [|s v Hs _ IH]; [apply Forall2_nil|]. cbn [map]. apply Forall2_cons; [|exact IH].
      intros h. cbn. now rewrite cstr_id.
  - cbn [to_mx_node wf] in N, W. destruct (mat_dims _ m W N) as (D1 & D2 & D3 & D4 & D5 & D6). exists (MxInt I32 [mrows m; mcols m] (mdata m)). apply goes_flat; try discriminate.
    + cbn [GC_to_mx num_rows num_cols]. rewrite read_entries_all; try assumption; [reflexivity|].
      intros i j Hi Hj. cbn [get_int_at2]. unfold mat_at_checked. rewrite (proj2 (Z.ltb_lt _ _) (proj2 Hi)), (proj2 (Z.ltb_lt _ _) (proj2 Hj)). reflexivity.
    + split; [assumption|]. exact D3.
    + split; [assumption|]. split; [exact I|]. apply Forall_forall. intros z _. exact I.
    + now apply reads_int.
  - cbn [to_mx_node wf] in N, W. destruct (mat_dims _ m W N) as (D1 & D2 & D3 & D4 & D5 & D6). exists (MxInt I64 [mrows m; mcols m] (mdata m)). apply goes_flat; try discriminate.
    + cbn [GC_to_mx num_rows num_cols]. rewrite read_entries_all; try assumption; [reflexivity|].
      intros i j Hi Hj. cbn [get_long_at2]. unfold mat_at_checked. rewrite (proj2 (Z.ltb_lt _ _) (proj2 Hi)), (proj2 (Z.ltb_lt _ _) (proj2 Hj)). reflexivity.
    + split; [assumption|]. exact D3.
    + split; [assumption|]. split; [exact I|]. apply Forall_forall. intros z _. exact I.
    + now apply reads_long.
  - cbn [to_mx_node wf] in N, W. destruct (mat_dims _ m W N) as (D1 & D2 & D3 & D4 & D5 & D6). exists (MxReal false [mrows m; mcols m] (mdata m)). apply goes_flat; try discriminate.
    + cbn [GC_to_mx num_rows num_cols]. rewrite read_entries_all; try assumption; [reflexivity|].
      intros i j Hi Hj. cbn [get_real_at2]. rewrite (proj2 (Z.ltb_lt i _)) by nia. reflexivity.
    + now split.
    + now split.
    + intros h. change (mx_to_GC (MxReal false [mrows m; mcols m] (mdata m)) h) with (mx_to_vec_real [mrows m; mcols m] (mdata m)).
      now rewrite vec_real_ok.
  - cbn [to_mx_node wf] in N, W. destruct (mat_dims _ m W N) as (D1 & D2 & D3 & D4 & D5 & D6). exists (MxCplx false [mrows m; mcols m] (mdata m)). apply goes_flat; try discriminate.
    + cbn [GC_to_mx num_rows num_cols]. rewrite read_entries_all; try assumption; reflexivity.
    + now split.
    + now split.
    + intros h. change (mx_to_GC (MxCplx false [mrows m; mcols m] (mdata m)) h) with (mx_to_vec_complex [mrows m; mcols m] (mdata m)).
      now rewrite vec_complex_ok.
Qed.

Lemma GCs_ok v ms : Forall2 (fun g m => GC_to_mx g = Ok m) v ms -> GCs_to_mx v (zlen v) = Ok ms.
Proof.
  induction 1 as [|g m v ms E _ IH]; [reflexivity|]. cbn [GCs_to_mx].
  rewrite (proj2 (Z.leb_gt _ _)) by (rewrite zlen_cons; pose proof (zlen_nonneg v); lia). rewrite E. cbn [bind].
  replace (zlen (g :: v) - 1) with (zlen v) by (rewrite zlen_cons; lia). now rewrite IH.
Qed.

Lemma write_ok g : wf g -> everywhere to_mx_node g -> exists m, goes g m (mx_back g).
Proof.
  induction g as [g Nv Nm|v IH|m IH] using gc_nest_ind; intros W N.
  - apply write_flat; try assumption. destruct g; exact (proj1 N).
  - apply wf_vec in W. apply everywhere_vec in N as (S & N). cbn [to_mx_node] in S.
    assert (R : exists ms, Forall2 (fun g m => GC_to_mx g = Ok m) v ms /\ Forall (mx_all mx_ok) ms /\ Forall (mx_all mx_node) ms /\
      Forall2 reads ms (map mx_back v)).
    { clear S. induction v as [|g v IHv]; [exists []; repeat split; constructor|].
      apply Forall_cons_iff in IH as (Ig & IH), W as (Wg & W), N as (Ng & N). destruct (Ig Wg Ng) as (m & E & O & Nd & R).
      destruct (IHv IH W N) as (ms & Es & Os & Ns & Rs). exists (m :: ms). repeat split; constructor; assumption. }
    destruct R as (ms & Es & Os & Ns & Rs).
    assert (L : zlen ms = zlen v) by (unfold zlen; clear - Es; induction Es as [|? ? ? ? _ _ IHe]; cbn [length]; lia).
    exists (MxCell [1; zlen v] ms). split; [|split; [|split]].
    + rewrite vec_to_mx. cbn [num_elements]. rewrite zlen_u32 by assumption. now rewrite (GCs_ok v ms).
    + apply mx_all_cell. split; [|assumption]. rewrite <- L. apply row_dims.
    + apply mx_all_cell. split; [|assumption]. split; [now apply row_small|left; lia].
    + intros h. rewrite mx_cell, zlen_u32 by (rewrite L; assumption). now rewrite (mx_cells_ok ms (map mx_back v)).
  - apply wf_map in W as (So & W). apply everywhere_map in N as (S & N). cbn [to_mx_node] in S. destruct S as (Ne & S & K).
    assert (R : exists fs, fields_to_mx m = Ok fs /\ map fst fs = map fst m /\ Forall (fun kl => no_nul (fst kl) /\ zlen (snd kl) = 1) fs /\
      Forall (fun kl => Forall (mx_all mx_ok) (snd kl)) fs /\ Forall (fun kl => Forall (mx_all mx_node) (snd kl)) fs /\
      Forall2 (fun kl ke => fst ke = fst kl /\ no_nul (fst kl) /\ mx_field 1 1 (snd kl) = (Ok tt, snd ke)) fs (vmap mx_back m)).
    { clear So Ne S. induction m as [|(k, g) m IHm]; [exists []; repeat split; constructor|].
      apply Forall_cons_iff in IH as (Ig & IH), W as (Wg & W), N as (Ng & N), K as (Kg & K). cbn [fst snd] in *. destruct (Ig Wg Ng) as (x & E & O & Nd & R).
      destruct (IHm IH W K N) as (fs & Es & Fs & Ls & Os & Ns & Rs). exists ((k, [x]) :: fs). split; [|split; [|split; [|split; [|split]]]].
      - cbn [fields_to_mx]. rewrite E. cbn [bind]. rewrite Es. cbn [bind]. now rewrite cstr_id.
      - cbn [map fst]. now rewrite Fs.
      - apply Forall_cons; [now split|assumption].
      - apply Forall_cons; [|assumption]. apply Forall_cons; [assumption|apply Forall_nil].
      - apply Forall_cons; [|assumption]. apply Forall_cons; [assumption|apply Forall_nil].
      - apply Forall2_cons; [|exact Rs]. split; [reflexivity|]. split; [assumption|]. exact (R GNone). }
    destruct R as (fs & Es & Fs & Ls & Os & Ns & Rs). exists (MxStruct [1; 1] fs). split; [|split; [|split]].
    + rewrite map_to_mx by assumption. now rewrite Es.
    + apply mx_all_struct. split; [|assumption]. split; [repeat (apply Forall_cons; [lia|]); apply Forall_nil|]. split; [|exact Ls].
      rewrite Fs. now apply msorted_nodup.
    + apply mx_all_struct. split; [|assumption]. split; [apply one_small|exact I].
    + intros h. rewrite mx_struct. change (to_u32 (mx_m [1; 1])) with 1. change (to_u32 (mx_n [1; 1])) with 1.
      rewrite (mx_fields_ok 1 1 fs (vmap mx_back m) Rs). change (fold_left _ (vmap mx_back m) []) with (by_key (vmap mx_back m)).
      rewrite <- vmap_by_key, by_key_id by assumption. reflexivity.
Qed.

(** The data read back. *)
Lemma shaped_mat_data {A} (f : A -> dat) one vec mtx (m : mat A) : mrows m <> 1 -> zlen (mdata m) = mrows m * mcols m -> 0 <= mrows m ->
  0 <= mcols m -> data_of (mtx m) = d_mat f m -> data_of (shaped one vec mtx [mrows m; mcols m] (mdata m)) = d_mat f m.
Proof.
  intros N L H1 H2 D. unfold shaped. rewrite (proj2 (Z.eqb_neq _ _) N). destruct m as [r c d]. cbn [mrows mcols mdata] in *.
  destruct d as [|x [|y d]]; try exact D. change (zlen [x]) with 1 in L. symmetry in L. apply Z.eq_mul_1 in L. lia.
Qed.
Lemma back_data g : wf g -> everywhere to_mx_node g -> everywhere mx_distinct g -> data_of (mx_back g) = data_of g.
Proof.
  induction g as [g Nv Nm|v IH|m IH] using gc_nest_ind; intros W N D.
  - assert (N' : to_mx_node g) by (destruct g; exact (proj1 N)). assert (D' : mx_distinct g) by (destruct g; exact (proj1 D)).
    assert (L : forall A (v : list A) (x : A), zlen v <> 1 -> v <> [x]) by (intros A v x Hv ->; now apply Hv).
    destruct g as [ |p|b|i|l|x|c|s|v|v|v|v|v|v|v|m|m|m|m|v|m]; try contradiction; try reflexivity; cbn [mx_distinct to_mx_node wf] in *.
    all: try (now destruct (Nv v)); try (now destruct (Nm m)).
    + assert (G : data_of (GVec (map GBool v)) = data_of (GVBool v)) by (cbn [data_of]; now rewrite map_map).
      cbn [mx_back]. destruct v as [|x [|y v]]; try exact G. now destruct (L _ [x] x).
    + cbn [mx_back]. destruct v as [|x [|y v]]; try reflexivity. now destruct (L _ [x] x).
    + cbn [mx_back]. destruct v as [|x [|y v]]; try reflexivity. now destruct (L _ [x] x).
    + cbn [mx_back]. destruct v as [|x [|y v]]; try reflexivity. now destruct (L _ [x] x).
    + cbn [mx_back]. destruct v as [|x [|y v]]; try reflexivity. now destruct (L _ [x] x).
    + cbn [mx_back data_of]. now rewrite map_map.
    + destruct (mat_dims _ m W N') as (_ & _ & _ & D4 & D5 & D6). apply (shaped_mat_data d_int); try assumption; try lia; reflexivity.
    + destruct (mat_dims _ m W N') as (_ & _ & _ & D4 & D5 & D6). apply (shaped_mat_data d_int); try assumption; try lia; reflexivity.
    + destruct (mat_dims _ m W N') as (_ & _ & _ & D4 & D5 & D6). apply (shaped_mat_data d_real); try assumption; try lia; reflexivity.
    + destruct (mat_dims _ m W N') as (_ & _ & _ & D4 & D5 & D6). apply (shaped_mat_data d_cplx); try assumption; try lia; reflexivity.
  - apply wf_vec in W. apply everywhere_vec in N as (_ & N), D as (_ & D). cbn [mx_back data_of]. f_equal. rewrite map_map.
    apply List.map_ext_in. intros a Ha. rewrite Forall_forall in *. apply IH; auto.
  - apply wf_map in W as (_ & W). apply everywhere_map in N as (_ & N), D as (_ & D). cbn [mx_back data_of]. f_equal. rewrite map_map.
    apply List.map_ext_in. intros (k, a) Ha. cbn [fst snd]. f_equal. rewrite Forall_forall in *. exact (IH (k, a) Ha (W _ Ha) (N _ Ha) (D _ Ha)).
Qed.

Lemma dint_inj a b : d_int a = d_int b -> a = b.
Proof.
  intros E. assert (H : match d_int a with DNum (NFin x) _ => x | _ => 0 end = match d_int b with DNum (NFin x) _ => x | _ => 0 end) by now rewrite E.
  unfold d_int, num_of_Z in H. apply Z.mul_reg_r in H; [exact H|]. pose proof fone_pos. lia.
Qed.

(** What comes back can be written again without further change of the data. *)
Lemma shaped_all (Q : gc -> Prop) {A} one vec mtx (m : mat A) : zlen (mdata m) = mrows m * mcols m -> 0 <= mrows m -> 0 <= mcols m ->
  (forall x, Q (one x)) -> (mrows m = 1 -> zlen (mdata m) <> 1 -> Q (vec (mdata m))) -> (mrows m <> 1 -> Q (mtx m)) ->
  Q (shaped one vec mtx [mrows m; mcols m] (mdata m)).
Proof.
  intros L H1 H2 Q1 Q2 Q3. destruct m as [r c d]. cbn [mrows mcols mdata] in *. unfold shaped.
  assert (G : zlen d <> 1 -> Q (if r =? 1 then vec d else mtx (Mat r c d))) by (intros N; destruct (Z.eqb_spec r 1); auto).
  destruct d as [|x [|y d]]; [apply G; discriminate|apply Q1|apply G; rewrite !zlen_cons; pose proof (zlen_nonneg d); lia].
Qed.
Definition again (g : gc) : Prop := everywhere to_mx_node g /\ everywhere mx_distinct g.
Lemma again_flat g : (forall v, g <> GVec v) -> (forall m, g <> GMap m) -> to_mx_node g -> mx_distinct g -> again g.
Proof. intros Nv Nm N D. split; apply everywhere_flat; assumption. Qed.
Lemma again_back g : wf g -> everywhere to_mx_node g -> again (mx_back g).
Proof.
  induction g as [g Nv Nm|v IH|m IH] using gc_nest_ind; intros W N.
  - assert (N' : to_mx_node g) by (destruct g; exact (proj1 N)).
    destruct g as [ |p|b|i|l|x|c|s|v|v|v|v|v|v|v|m|m|m|m|v|m]; cbn [to_mx_node wf] in *.
    all: try (now destruct (Nv v)); try (now destruct (Nm m)).
    all: try (apply again_flat; [discriminate|discriminate| |]; first [exact I | reflexivity | discriminate | assumption]).
    + assert (G : zlen v <> 1 -> again (GVec (map GBool v))).
      { intros _. split; apply everywhere_vec; (split; [try exact I; cbn [to_mx_node]; now rewrite zlen_map'|]); apply Forall_map, Forall_forall; intros b _; split; exact I. }
      cbn [mx_back]. destruct v as [|x [|y v]]; [apply G; discriminate|split; split; exact I|apply G; rewrite !zlen_cons; pose proof (zlen_nonneg v); lia].
    + assert (G : zlen v <> 1 -> again (GVLong v)) by (intros L; apply again_flat; first [discriminate | assumption]).
      cbn [mx_back]. destruct v as [|x [|y v]]; [apply G; discriminate|split; split; exact I|apply G; rewrite !zlen_cons; pose proof (zlen_nonneg v); lia].
    + assert (G : zlen v <> 1 -> again (GVLong v)) by (intros L; apply again_flat; first [discriminate | assumption]).
      cbn [mx_back]. destruct v as [|x [|y v]]; [apply G; discriminate|split; split; exact I|apply G; rewrite !zlen_cons; pose proof (zlen_nonneg v); lia].
    + assert (G : zlen v <> 1 -> again (GVReal v)) by (intros L; apply again_flat; first [discriminate | assumption]).
      cbn [mx_back]. destruct v as [|x [|y v]]; [apply G; discriminate|split; split; exact I|apply G; rewrite !zlen_cons; pose proof (zlen_nonneg v); lia].
    + assert (G : zlen v <> 1 -> again (GVComplex v)) by (intros L; apply again_flat; first [discriminate | assumption]).
      cbn [mx_back]. destruct v as [|x [|y v]]; [apply G; discriminate|split; split; exact I|apply G; rewrite !zlen_cons; pose proof (zlen_nonneg v); lia].
    + destruct N' as (L & K). cbn [mx_back]. split; apply everywhere_vec; (split; [try exact I; cbn [to_mx_node]; now rewrite zlen_map'|]); apply Forall_map.
      * eapply Forall_impl; [|exact K]. intros s Hs. now split.
      * apply Forall_forall. intros s _. split; exact I.
    + destruct (mat_dims _ m W N') as (_ & _ & _ & D4 & D5 & D6). cbn [mx_back]. apply (shaped_all again); try assumption; try lia.
      * intros x. split; split; exact I.
      * intros E L. apply again_flat; try discriminate; [|exact L]. cbn [to_mx_node]. lia.
      * intros E. now apply again_flat.
    + destruct (mat_dims _ m W N') as (_ & _ & _ & D4 & D5 & D6). cbn [mx_back]. apply (shaped_all again); try assumption; try lia.
      * intros x. split; split; exact I.
      * intros E L. apply again_flat; try discriminate; [|exact L]. cbn [to_mx_node]. lia.
      * intros E. now apply again_flat.
    + destruct (mat_dims _ m W N') as (_ & _ & _ & D4 & D5 & D6). cbn [mx_back]. apply (shaped_all again); try assumption; try lia.
      * intros x. split; split; exact I.
      * intros E L. apply again_flat; try discriminate; [|exact L]. cbn [to_mx_node]. lia.
      * intros E. now apply again_flat.
    + destruct (mat_dims _ m W N') as (_ & _ & _ & D4 & D5 & D6). cbn [mx_back]. apply (shaped_all again); try assumption; try lia.
      * intros x. split; split; exact I.
      * intros E L. apply again_flat; try discriminate; [|exact L]. cbn [to_mx_node]. lia.
      * intros E. now apply again_flat.
  - apply wf_vec in W. apply everywhere_vec in N as (L & N). cbn [mx_back]. cbn [to_mx_node] in L. rewrite Forall_forall in *.
    split; apply everywhere_vec; (split; [try exact I; cbn [to_mx_node]; now rewrite zlen_map'|]); apply Forall_map, Forall_forall; intros a Ha;
      now apply (IH a Ha (W a Ha) (N a Ha)).
  - apply wf_map in W as (_ & W). apply everywhere_map in N as ((L1 & L2 & L3) & N). cbn [mx_back]. rewrite Forall_forall in W, N, IH.
    split; apply everywhere_map; (split; [try exact I|apply Forall_map, Forall_forall; intros a Ha; now apply (IH a Ha (W a Ha) (N a Ha))]).
    cbn [to_mx_node]. split; [intros E; apply L1; destruct m; [reflexivity|discriminate E]|]. rewrite zlen_map'. split; [exact L2|]. apply Forall_map. exact L3.
Qed.
