(** Lemmas about the wire format and de_serialize. *)
From Coq Require Import ZArith Bool Lia Ascii String Sorted List.
From Verif Require Import Base F64 StrMap Value MBasic SCollapse MSerialize SSerialize LSerialize.
Import ListNotations.
Local Open Scope Z_scope.

(** * The encoding is prefix-free *)

Fixpoint le_val (l : list Z) : Z := match l with [] => 0 | b :: l' => b + 256 * le_val l' end.
Lemma le_S n z : le (S n) z = z mod 256 :: le n (z / 256).
Proof.
  rewrite <- !bytes_le_le. cbn [bytes_le]. f_equal.
  - change 255 with (Z.ones 8). now rewrite Z.land_ones by lia.
  - rewrite Z.shiftr_div_pow2 by lia. reflexivity.
Qed.
Lemma le_val_le n z : le_val (le n z) = z mod 256 ^ Z.of_nat n.
Proof.
  revert z. induction n as [|n IH]; intros z; [cbn; now rewrite Z.mod_1_r|].
  rewrite le_S. cbn [le_val]. rewrite IH, Nat2Z.inj_succ, Z.pow_succ_r by lia.
  rewrite Z.rem_mul_r by (try apply Z.pow_pos_nonneg; lia). reflexivity.
Qed.

Lemma app_len_inj {A} (a b r s : list A) : length a = length b -> a ++ r = b ++ s -> a = b /\ r = s.
Proof.
  revert b. induction a as [|x a IH]; intros [|y b] L E; try discriminate; [now split|].
  cbn in *. injection E as -> E. injection L as L. destruct (IH b L E). now subst.
Qed.
Lemma le_inj n a b r s : le n a ++ r = le n b ++ s -> a mod 256 ^ Z.of_nat n = b mod 256 ^ Z.of_nat n /\ r = s.
Proof.
  intros E. apply app_len_inj in E as [E ->]; [|now rewrite !le_length]. split; [|reflexivity].
  now rewrite <- !le_val_le, E.
Qed.

(** [f] encodes the values satisfying [P] so that no encoding is a prefix of another. *)
Definition pfree {A} (P : A -> Prop) (f : A -> list Z) : Prop :=
  forall a b r s, P a -> P b -> f a ++ r = f b ++ s -> a = b /\ r = s.

Lemma pfree_u n : pfree (fun z => 0 <= z < 256 ^ Z.of_nat n) (le n).
Proof. intros a b r s Ha Hb E. apply le_inj in E as [E ->]. rewrite !Z.mod_small in E by assumption. now split. Qed.
Lemma pfree_i n : (0 < n)%nat -> pfree (fun z => - (256 ^ Z.of_nat n / 2) <= z < 256 ^ Z.of_nat n / 2) (le n).
Proof.
  intros Hn a b r s Ha Hb E. apply le_inj in E as [E ->]. split; [|reflexivity].
  assert (He : 256 ^ Z.of_nat n = 2 * (256 ^ Z.of_nat n / 2)).
  { destruct n; [lia|]. rewrite Nat2Z.inj_succ, Z.pow_succ_r by lia.
    replace (256 * 256 ^ Z.of_nat n) with (2 * (128 * 256 ^ Z.of_nat n)) by lia.
    rewrite (Z.mul_comm 2 (128 * 256 ^ Z.of_nat n)) at 2. now rewrite Z.div_mul by lia. }
  set (h := 256 ^ Z.of_nat n / 2) in *. assert (h > 0) by lia.
  assert (K : (a - b) mod (2 * h) = 0) by (rewrite <- He, Zminus_mod, E, Z.sub_diag; apply Z.mod_0_l; lia).
  apply Z.mod_divide in K; [|lia]. destruct K as [q K]. assert (q = 0) by nia. nia.
Qed.
Lemma pfree_i32 : pfree int32 (le 4).
Proof. intros a b r s Ha Hb. apply (pfree_i 4); try lia; exact Ha || exact Hb. Qed.
Lemma pfree_i64 : pfree int64 (le 8).
Proof. intros a b r s Ha Hb. apply (pfree_i 8); try lia; exact Ha || exact Hb. Qed.
Lemma pfree_u64 : pfree uint64 (le 8).
Proof. intros a b r s Ha Hb. apply (pfree_u 8); exact Ha || exact Hb. Qed.
Lemma pfree_u32 : pfree uint32 (le 4).
Proof. intros a b r s Ha Hb. apply (pfree_u 4); exact Ha || exact Hb. Qed.
Lemma pfree_bool : pfree (fun _ => True) enc_bool.
Proof. intros a b r s _ _ E. cbn in E. injection E as E ->. split; [destruct a, b; congruence|reflexivity]. Qed.
Lemma pfree_cplx : pfree fc enc_cplx.
Proof.
  intros [a1 a2] [b1 b2] r s [Ha1 Ha2] [Hb1 Hb2] E. unfold enc_cplx in E. cbn [fst snd] in *. rewrite <- !app_assoc in E.
  apply pfree_u64 in E as [-> E]; try assumption. apply pfree_u64 in E as [-> ->]; try assumption. now split.
Qed.
Lemma byte_of_inj a b : Z.of_N (N_of_ascii a) = Z.of_N (N_of_ascii b) -> a = b.
Proof. intros E. apply N2Z.inj in E. rewrite <- (ascii_N_embedding a), <- (ascii_N_embedding b). now rewrite E. Qed.
Lemma str_bytes_inj a b : str_bytes a = str_bytes b -> a = b.
Proof.
  unfold str_bytes. revert b. induction a as [|c a IH]; intros [|d b] E; try discriminate; [reflexivity|].
  cbn in E. injection E as E1 E2. apply byte_of_inj in E1. subst. f_equal. now apply IH.
Qed.
Lemma pfree_str : pfree (fun s => str_len s + 1 < 2^31) enc_str.
Proof.
  intros a b r s Ha Hb E. unfold enc_str in E. rewrite <- !app_assoc in E.
  apply (pfree_i32 (str_len a + 1) (str_len b + 1)) in E as [El E];
    [|pose proof (str_len_nonneg a); unfold int32; lia|pose proof (str_len_nonneg b); unfold int32; lia].
  apply app_len_inj in E as [E E']; [|pose proof (str_bytes_zlen a); pose proof (str_bytes_zlen b); unfold zlen in *; lia].
  cbn in E'. injection E' as ->. split; [now apply str_bytes_inj|reflexivity].
Qed.
Lemma pfree_concat {A} (P : A -> Prop) f : pfree P f -> forall l l' r s, Forall P l -> Forall P l' -> length l = length l' ->
  concat (map f l) ++ r = concat (map f l') ++ s -> l = l' /\ r = s.
Proof.
  intros H. induction l as [|a l IH]; intros [|b l'] r s Hl Hl' L E; try discriminate; [now split|].
  inversion Hl; inversion Hl'; subst. cbn [map concat] in E. rewrite <- !app_assoc in E.
  apply H in E as [-> E]; try assumption. injection L as L. apply IH in E as [-> ->]; auto.
Qed.
Lemma pfree_seq {A} (P : A -> Prop) f : pfree P f -> pfree (fun l => Forall P l /\ zlen l < 2^31) (enc_seq f).
Proof.
  intros H l l' r s [Hl L] [Hl' L'] E. unfold enc_seq in E. rewrite <- !app_assoc in E.
  apply pfree_i32 in E as [El E]; [|pose proof (zlen_nonneg l); unfold int32; lia|pose proof (zlen_nonneg l'); unfold int32; lia].
  eapply pfree_concat; eauto. unfold zlen in El. lia.
Qed.
Lemma pfree_mat {A} (P : A -> Prop) f : pfree P f -> pfree (wf_mat P) (enc_mat f).
Proof.
  intros H m m' r s (R & C & D & F) (R' & C' & D' & F') E. unfold enc_mat in E. rewrite <- !app_assoc in E.
  apply pfree_u32 in E as [Er E]; try assumption. apply pfree_u32 in E as [Ec E]; try assumption.
  eapply pfree_concat in E as [Ed ->]; eauto; [|rewrite Er, Ec in D; unfold zlen in *; lia].
  split; [|reflexivity]. destruct m, m'; cbn in *; congruence.
Qed.

(** Number of elements of a short encoding. *)
Lemma seq_count {A} (f : A -> list Z) l : (forall a, 1 <= zlen (f a)) -> zlen l <= zlen (enc_seq f l).
Proof.
  intros H. unfold enc_seq. rewrite zlen_app, le_zlen. induction l as [|a l IH]; [unfold zlen; cbn; lia|].
  cbn [map concat]. rewrite zlen_cons, zlen_app. specialize (H a). lia.
Qed.
Lemma concat_in {A} (f : A -> list Z) l a : In a l -> zlen (f a) <= zlen (concat (map f l)).
Proof. intros H. rewrite concat_zlen. apply (total_in (fun a => zlen (f a))); [intros; apply zlen_nonneg|assumption]. Qed.
Lemma le_pos n z : 1 <= zlen (le (S n) z).
Proof. rewrite le_zlen. lia. Qed.
Lemma enc_str_pos s : 1 <= zlen (enc_str s).
Proof. rewrite enc_str_zlen. pose proof (str_len_nonneg s). lia. Qed.
Lemma enc_bool_pos b : 1 <= zlen (enc_bool b).
Proof. rewrite enc_bool_zlen. lia. Qed.
Lemma enc_cplx_pos b : 1 <= zlen (enc_cplx b).
Proof. rewrite enc_cplx_zlen. lia. Qed.

Lemma enc_tag g h r s : enc g ++ r = enc h ++ s -> tag_of g = tag_of h.
Proof.
  intros E. assert (K : exists x y, enc g = le 4 (tag_num (tag_of g)) ++ x /\ enc h = le 4 (tag_num (tag_of h)) ++ y)
    by (destruct g, h; cbn [enc]; eexists; eexists; split; reflexivity).
  destruct K as (x & y & Kx & Ky). rewrite Kx, Ky, <- !app_assoc in E.
  apply pfree_i32 in E as [E _].
  - destruct (tag_of g), (tag_of h); cbn in E; congruence.
  - destruct (tag_of g); unfold int32; cbn; lia.
  - destruct (tag_of h); unfold int32; cbn; lia.
Qed.
Ltac same_tag h E :=
  let T := fresh "T" in pose proof (enc_tag _ _ _ _ E) as T; destruct h; try discriminate T; clear T;
  cbn [enc tag_of] in E; rewrite <- !app_assoc in E; apply app_inv_head in E.

Theorem enc_pfree g : forall h r s, wf g -> wf h -> zlen (enc g) < 2^31 -> zlen (enc h) < 2^31 ->
  enc g ++ r = enc h ++ s -> g = h /\ r = s.
Proof.
  induction g as [g Hv Hm | v IH | m IH] using gc_nest_ind; intros h r s Wg Wh Sg Sh E.
  - pose proof (enc_short g Sg) as Kg. pose proof (enc_short h Sh) as Kh. apply everywhere_here in Kg. apply everywhere_here in Kh.
    destruct g; try nested_contra Hv Hm; same_tag h E; cbn [enc] in Sg, Sh; rewrite zlen_app, le_zlen in Sg, Sh;
      cbn [wf strings_here] in Wg, Wh, Kg, Kh.
    + now split.
    + apply pfree_u64 in E as [-> ->]; auto.
    + apply pfree_bool in E as [-> ->]; auto.
    + apply pfree_i32 in E as [-> ->]; auto.
    + apply pfree_i64 in E as [-> ->]; auto.
    + apply pfree_u64 in E as [-> ->]; auto.
    + apply pfree_cplx in E as [-> ->]; auto.
    + apply pfree_str in E as [-> ->]; auto.
    + pose proof (seq_count (le 8) v ltac:(intros; apply le_pos)). pose proof (seq_count (le 8) v0 ltac:(intros; apply le_pos)).
      apply (pfree_seq _ _ pfree_u64) in E as [-> ->]; auto; split; auto; lia.
    + pose proof (seq_count enc_bool v enc_bool_pos). pose proof (seq_count enc_bool v0 enc_bool_pos).
      apply (pfree_seq _ _ pfree_bool) in E as [-> ->]; auto; (split; [apply Forall_forall; auto|lia]).
    + pose proof (seq_count (le 4) v ltac:(intros; apply le_pos)). pose proof (seq_count (le 4) v0 ltac:(intros; apply le_pos)).
      apply (pfree_seq _ _ pfree_i32) in E as [-> ->]; auto; split; auto; lia.
    + pose proof (seq_count (le 8) v ltac:(intros; apply le_pos)). pose proof (seq_count (le 8) v0 ltac:(intros; apply le_pos)).
      apply (pfree_seq _ _ pfree_i64) in E as [-> ->]; auto; split; auto; lia.
    + pose proof (seq_count (le 8) v ltac:(intros; apply le_pos)). pose proof (seq_count (le 8) v0 ltac:(intros; apply le_pos)).
      apply (pfree_seq _ _ pfree_u64) in E as [-> ->]; auto; split; auto; lia.
    + pose proof (seq_count enc_cplx v enc_cplx_pos). pose proof (seq_count enc_cplx v0 enc_cplx_pos).
      apply (pfree_seq _ _ pfree_cplx) in E as [-> ->]; auto; split; auto; lia.
    + pose proof (seq_count enc_str v enc_str_pos). pose proof (seq_count enc_str v0 enc_str_pos).
      apply (pfree_seq _ _ pfree_str) in E as [-> ->]; auto; split; auto; lia.
    + apply (pfree_mat _ _ pfree_i32) in E as [-> ->]; auto.
    + apply (pfree_mat _ _ pfree_i64) in E as [-> ->]; auto.
    + apply (pfree_mat _ _ pfree_u64) in E as [-> ->]; auto.
    + apply (pfree_mat _ _ pfree_cplx) in E as [-> ->]; auto.
  - same_tag h E. rename v0 into w. cbn [enc] in Sg, Sh. rewrite zlen_app, le_zlen in Sg, Sh.
    assert (EP : forall a, 1 <= zlen (enc a)) by (intros a; pose proof (enc_pos a); lia).
    pose proof (seq_count enc v EP). pose proof (seq_count enc w EP).
    pose proof (zlen_nonneg v). pose proof (zlen_nonneg w).
    unfold enc_seq in *. rewrite zlen_app, le_zlen in *. rewrite <- !app_assoc in E.
    apply pfree_i32 in E as [El E]; [|unfold int32; lia|unfold int32; lia].
    apply wf_vec in Wg. apply wf_vec in Wh.
    enough (K : v = w /\ r = s) by (destruct K; now subst).
    assert (Kv : forall a, In a v -> zlen (enc a) < 2^31) by (intros a Ha; pose proof (concat_in enc v a Ha); lia).
    assert (Kw : forall a, In a w -> zlen (enc a) < 2^31) by (intros a Ha; pose proof (concat_in enc w a Ha); lia).
    clear -IH Wg Wh Kv Kw El E. revert w Wh Kw El E. induction v as [|a v IHv]; intros [|b w] Wh Kw El E; try (unfold zlen in El; cbn in El; lia); [now split|].
    inversion IH; inversion Wg; inversion Wh; subst. cbn [map concat] in E. rewrite <- !app_assoc in E.
    apply H1 in E as [-> E]; auto; [|apply Kv; now left|apply Kw; now left].
    destruct (IHv ltac:(auto) ltac:(auto) ltac:(intros; apply Kv; now right) w ltac:(auto) ltac:(intros; apply Kw; now right)) as [-> ->]; auto.
    rewrite !zlen_cons in El. lia.
  - same_tag h E. rename m0 into w. cbn [enc] in Sg, Sh. rewrite zlen_app, le_zlen in Sg, Sh.
    set (f := fun kv : string * gc => enc_str (fst kv) ++ enc (snd kv)) in *.
    assert (EP : forall a, 1 <= zlen (f a)).
    { intros a. unfold f. rewrite zlen_app. pose proof (enc_pos (snd a)). pose proof (zlen_nonneg (enc_str (fst a))). lia. }
    pose proof (seq_count f m EP). pose proof (seq_count f w EP).
    pose proof (zlen_nonneg m). pose proof (zlen_nonneg w).
    unfold enc_seq in *. rewrite zlen_app, le_zlen in *. rewrite <- !app_assoc in E.
    apply pfree_i32 in E as [El E]; [|unfold int32; lia|unfold int32; lia].
    apply wf_map in Wg as [_ Wg]. apply wf_map in Wh as [_ Wh].
    enough (K : m = w /\ r = s) by (destruct K; now subst).
    assert (Kv : forall a, In a m -> zlen (f a) < 2^31) by (intros a Ha; pose proof (concat_in f m a Ha); lia).
    assert (Kw : forall a, In a w -> zlen (f a) < 2^31) by (intros a Ha; pose proof (concat_in f w a Ha); lia).
    clear -IH Wg Wh Kv Kw El E. revert w Wh Kw El E. induction m as [|[k a] v IHv]; intros [|[k' b] w] Wh Kw El E; try (unfold zlen in El; cbn in El; lia); [now split|].
    inversion IH; inversion Wg; inversion Wh; subst. cbn [map concat snd] in *.
    pose proof (Kv (k, a) (or_introl eq_refl)) as K1. pose proof (Kw (k', b) (or_introl eq_refl)) as K2.
    unfold f at 1 in E. unfold f at 2 in E. unfold f in K1, K2. cbn [fst snd] in *. rewrite <- !app_assoc in E.
    rewrite zlen_app, enc_str_zlen in K1, K2. pose proof (enc_pos a). pose proof (enc_pos b).
    pose proof (str_len_nonneg k). pose proof (str_len_nonneg k').
    apply pfree_str in E as [-> E]; [|lia|lia].
    apply H1 in E as [-> E]; auto; [|lia|lia].
    destruct (IHv ltac:(auto) ltac:(auto) ltac:(intros; apply Kv; now right) w ltac:(auto) ltac:(intros; apply Kw; now right)) as [-> ->]; auto.
    rewrite !zlen_cons in El. lia.
Qed.

(** * Reading *)

(** The bytes [bs] are in the buffer from position [pos]. *)
Definition at_ (buf : list Z) (pos : Z) (bs : list Z) : Prop :=
  exists pre post, buf = pre ++ bs ++ post /\ pos = zlen pre.
Lemma at_app buf pos a b : at_ buf pos (a ++ b) -> at_ buf pos a /\ at_ buf (pos + zlen a) b.
Proof.
  intros (pre & post & -> & ->). split.
  - exists pre, (b ++ post). now rewrite <- app_assoc.
  - exists (pre ++ a), post. rewrite <- !app_assoc, zlen_app. now split.
Qed.
Lemma at_pos buf pos bs : at_ buf pos bs -> 0 <= pos /\ pos + zlen bs <= zlen buf.
Proof.
  intros (pre & post & -> & ->). rewrite !zlen_app. pose proof (zlen_nonneg pre). pose proof (zlen_nonneg post). lia.
Qed.
Lemma rd8_at buf pos b bs : at_ buf pos (b :: bs) -> rd8 buf pos = Ok b.
Proof.
  intros (pre & post & -> & ->). unfold rd8, znth. destruct (Z.ltb_spec (zlen pre) 0); [pose proof (zlen_nonneg pre); lia|].
  unfold zlen. rewrite Nat2Z.id, nth_error_app2, Nat.sub_diag by lia. reflexivity.
Qed.
Lemma at_tl buf pos b bs : at_ buf pos (b :: bs) -> at_ buf (pos + 1) bs.
Proof. intros H. apply (at_app buf pos [b] bs) in H. apply H. Qed.
Lemma lor_add a b k : 0 <= k -> 0 <= a < 2^k -> Z.lor a (Z.shiftl b k) = a + b * 2^k.
Proof.
  intros Hk Ha. rewrite <- (Z.shiftl_mul_pow2 b k) by assumption.
  assert (L : Z.land a (Z.shiftl b k) = 0).
  { apply Z.bits_inj'. intros i Hi. rewrite Z.land_spec, Z.bits_0, Z.shiftl_spec by assumption.
    destruct (Z.ltb_spec i k).
    - rewrite (Z.testbit_neg_r b) by lia. apply andb_false_r.
    - rewrite <- (Z.mod_small a (2^k)) by assumption. rewrite Z.mod_pow2_bits_high by lia. reflexivity. }
  rewrite Z.add_nocarry_lxor by assumption. now rewrite Z.lxor_lor.
Qed.
Lemma le_byte z i : 0 <= (z / i) mod 256 < 256.
Proof. apply Z.mod_pos_bound. lia. Qed.
Lemma rd_u32_at buf pos z : at_ buf pos (le 4 z) -> rd_u32 buf pos = Ok (to_u32 z).
Proof.
  intros H. unfold to_u32. pose proof (le_val_le 4 z) as V. rewrite !le_S in H, V. change (le 0 _) with (@nil Z) in H, V.
  cbn [le_val] in V. change (2^32) with (256 ^ Z.of_nat 4). rewrite <- V. clear V.
  pose proof (at_tl _ _ _ _ H) as H1. pose proof (at_tl _ _ _ _ H1) as H2. pose proof (at_tl _ _ _ _ H2) as H3.
  replace (pos + 1 + 1) with (pos + 2) in * by lia. replace (pos + 2 + 1) with (pos + 3) in * by lia.
  unfold rd_u32. rewrite (rd8_at _ _ _ _ H), (rd8_at _ _ _ _ H1), (rd8_at _ _ _ _ H2), (rd8_at _ _ _ _ H3). cbn [bind]. f_equal.
  pose proof (Z.mod_pos_bound z 256 ltac:(lia)). pose proof (le_byte z 256).
  pose proof (le_byte (z / 256) 256). pose proof (le_byte (z / 256 / 256) 256).
  set (b0 := z mod 256) in *. set (b1 := (z / 256) mod 256) in *. set (b2 := (z / 256 / 256) mod 256) in *.
  set (b3 := (z / 256 / 256 / 256) mod 256) in *. clearbody b0 b1 b2 b3.
  rewrite (lor_add b0 b1 8), (lor_add _ b2 16), (lor_add _ b3 24) by lia. lia.
Qed.
Lemma rd_u64_at buf pos z : at_ buf pos (le 8 z) -> rd_u64 buf pos = Ok (to_u64 z).
Proof.
  intros H. unfold to_u64. pose proof (le_val_le 8 z) as V. rewrite !le_S in H, V. change (le 0 _) with (@nil Z) in H, V.
  cbn [le_val] in V. change (2^64) with (256 ^ Z.of_nat 8). rewrite <- V. clear V.
  pose proof (at_tl _ _ _ _ H) as H1. pose proof (at_tl _ _ _ _ H1) as H2. pose proof (at_tl _ _ _ _ H2) as H3.
  pose proof (at_tl _ _ _ _ H3) as H4. pose proof (at_tl _ _ _ _ H4) as H5. pose proof (at_tl _ _ _ _ H5) as H6.
  pose proof (at_tl _ _ _ _ H6) as H7.
  replace (pos + 1 + 1) with (pos + 2) in * by lia. replace (pos + 2 + 1) with (pos + 3) in * by lia.
  replace (pos + 3 + 1) with (pos + 4) in * by lia. replace (pos + 4 + 1) with (pos + 5) in * by lia.
  replace (pos + 5 + 1) with (pos + 6) in * by lia. replace (pos + 6 + 1) with (pos + 7) in * by lia.
  unfold rd_u64. rewrite (rd8_at _ _ _ _ H), (rd8_at _ _ _ _ H1), (rd8_at _ _ _ _ H2), (rd8_at _ _ _ _ H3),
    (rd8_at _ _ _ _ H4), (rd8_at _ _ _ _ H5), (rd8_at _ _ _ _ H6), (rd8_at _ _ _ _ H7). cbn [bind]. f_equal.
  pose proof (Z.mod_pos_bound z 256 ltac:(lia)) as B0. pose proof (le_byte z 256) as B1.
  pose proof (le_byte (z / 256) 256) as B2. pose proof (le_byte (z / 256 / 256) 256) as B3.
  pose proof (le_byte (z / 256 / 256 / 256) 256) as B4. pose proof (le_byte (z / 256 / 256 / 256 / 256) 256) as B5.
  pose proof (le_byte (z / 256 / 256 / 256 / 256 / 256) 256) as B6. pose proof (le_byte (z / 256 / 256 / 256 / 256 / 256 / 256) 256) as B7.
  set (b0 := z mod 256) in *. set (b1 := (z / 256) mod 256) in *. set (b2 := (z / 256 / 256) mod 256) in *.
  set (b3 := (z / 256 / 256 / 256) mod 256) in *. set (b4 := (z / 256 / 256 / 256 / 256) mod 256) in *.
  set (b5 := (z / 256 / 256 / 256 / 256 / 256) mod 256) in *. set (b6 := (z / 256 / 256 / 256 / 256 / 256 / 256) mod 256) in *.
  set (b7 := (z / 256 / 256 / 256 / 256 / 256 / 256 / 256) mod 256) in *.
  clearbody b0 b1 b2 b3 b4 b5 b6 b7.
  rewrite (lor_add b0 b1 8), (lor_add _ b2 16), (lor_add _ b3 24), (lor_add _ b4 32), (lor_add _ b5 40),
    (lor_add _ b6 48), (lor_add _ b7 56) by lia. lia.
Qed.
Lemma i32_of_u32 z : int32 z -> to_i32 (to_u32 z) = z.
Proof.
  intros H. unfold to_i32, to_u32. rewrite Zplus_mod_idemp_l. fold (to_i32 z). now apply to_i32_id.
Qed.
Lemma i64_of_u64 z : int64 z -> to_i64 (to_u64 z) = z.
Proof.
  intros H. unfold to_i64, to_u64. rewrite Zplus_mod_idemp_l. fold (to_i64 z). now apply to_i64_id.
Qed.

(** [st] reads an element encoded by [f] and satisfying [P]. *)
Definition reads {A} (buf : list Z) (base : Z) (P : A -> Prop) (f : A -> list Z) (st : Z -> out (A * Z)) : Prop :=
  forall a nb, P a -> 0 <= nb -> nb + zlen (f a) < 2^31 -> at_ buf (base + nb) (f a) -> st nb = Ok (a, nb + zlen (f a)).

Lemma reads_step {A} buf base (P : A -> Prop) f rd w : (forall a, zlen (f a) = w) ->
  (forall pos a, P a -> at_ buf pos (f a) -> rd buf pos = Ok a) -> reads buf base P f (step rd w buf base).
Proof.
  intros Hw Hrd a nb Ha Hn Hs H. unfold step. rewrite (Hrd _ a Ha H). cbn [bind]. rewrite Hw in *.
  pose proof (zlen_nonneg (f a)) as K. rewrite Hw in K.
  rewrite chk32_ok by (unfold int32; lia). reflexivity.
Qed.
Lemma reads_i32 buf base : reads buf base int32 (le 4) (step rd_i32 4 buf base).
Proof. apply reads_step; [intros; apply le_zlen|]. intros pos a Ha H. unfold rd_i32. rewrite (rd_u32_at _ _ _ H). cbn. now rewrite i32_of_u32. Qed.
Lemma reads_i64 buf base : reads buf base int64 (le 8) (step rd_i64 8 buf base).
Proof. apply reads_step; [intros; apply le_zlen|]. intros pos a Ha H. unfold rd_i64. rewrite (rd_u64_at _ _ _ H). cbn [omap bind]. unfold omap. cbn [bind]. now rewrite i64_of_u64. Qed.
Lemma reads_f64 buf base : reads buf base f64 (le 8) (step rd_f64 8 buf base).
Proof. apply reads_step; [intros; apply le_zlen|]. intros pos a Ha H. unfold rd_f64. rewrite (rd_u64_at _ _ _ H). now rewrite to_u64_id. Qed.
Lemma reads_bool buf base : reads buf base (fun _ => True) enc_bool (step rd_bool 1 buf base).
Proof.
  apply reads_step; [intros; apply enc_bool_zlen|]. intros pos a Ha H. unfold rd_bool. rewrite (rd8_at _ _ _ _ H). now destruct a.
Qed.
Lemma reads_cplx buf base : reads buf base fc enc_cplx (step rd_cplx 16 buf base).
Proof.
  apply reads_step; [intros; apply enc_cplx_zlen|]. intros pos [x y] [Hx Hy] H. cbn [fst snd] in *. unfold enc_cplx in H. cbn [fst snd] in H.
  apply at_app in H as [H1 H2]. rewrite le_zlen in H2. change (Z.of_nat 8) with 8 in H2. unfold rd_cplx, rd_f64.
  rewrite (rd_u64_at _ _ _ H1). cbn [bind]. rewrite (rd_u64_at _ _ _ H2). cbn [bind]. now rewrite !to_u64_id.
Qed.
Lemma scan_cstr_ok s rest : no_nul s -> scan_cstr (str_bytes s ++ 0 :: rest) = Ok s.
Proof.
  induction s as [|c s IH]; intros H; [reflexivity|].
  cbn [str_bytes list_ascii_of_string map app scan_cstr]. unfold no_nul in H. cbn in H.
  assert (N : Z.of_N (N_of_ascii c) <> 0).
  { intros E. apply H. left. apply byte_of_inj. rewrite E. reflexivity. }
  destruct (Z.eqb_spec (Z.of_N (N_of_ascii c)) 0) as [E|_]; [now exfalso|].
  fold (str_bytes s). rewrite IH by (unfold no_nul; tauto). cbn [bind].
  unfold ascii_of. now rewrite N2Z.id, ascii_N_embedding.
Qed.
Lemma reads_str buf base : reads buf base (fun s => no_nul s /\ str_len s + 1 < 2^31) enc_str (step_str buf base).
Proof.
  intros s nb [Hn Hl] H0 Hs H. unfold enc_str in H. apply at_app in H as [H1 H2]. rewrite le_zlen in H2.
  rewrite enc_str_zlen in *. pose proof (str_len_nonneg s). unfold step_str.
  rewrite (reads_i32 buf base (str_len s + 1) nb); [|unfold int32; lia|lia|rewrite le_zlen; lia|exact H1].
  rewrite le_zlen. cbn [bind]. unfold rd_cstr. pose proof (at_pos _ _ _ H2) as [P1 P2].
  destruct H2 as (pre & post & E & E2).
  replace (base + nb + Z.of_nat 4) with (base + (nb + Z.of_nat 4)) in * by lia.
  rewrite zlen_app, str_bytes_zlen in P2. change (zlen [0]) with 1 in P2.
  replace ((0 <=? base + (nb + Z.of_nat 4)) && (base + (nb + Z.of_nat 4) <=? zlen buf)) with true
    by (symmetry; apply andb_true_iff; split; apply Z.leb_le; lia).
  rewrite E2, E. unfold zlen at 1. rewrite Nat2Z.id, skipn_app, skipn_all, Nat.sub_diag. cbn [app skipn].
  rewrite <- app_assoc. cbn [app]. rewrite scan_cstr_ok by assumption. cbn [bind].
  rewrite chk32_ok by (unfold int32; lia). cbn [bind]. do 2 f_equal. lia.
Qed.
Lemma steps_ok {A} buf base (P : A -> Prop) f st : reads buf base P f st -> forall l nb, Forall P l -> 0 <= nb ->
  nb + zlen (concat (map f l)) < 2^31 -> at_ buf (base + nb) (concat (map f l)) ->
  steps st (length l) nb = Ok (l, nb + zlen (concat (map f l))).
Proof.
  intros Hr. induction l as [|a l IH]; intros nb Hl Hn Hs H; cbn [map concat length steps] in *.
  - rewrite zlen_nil. do 2 f_equal. lia.
  - inversion Hl; subst. apply at_app in H as [Ha H']. rewrite zlen_app in *.
    pose proof (zlen_nonneg (f a)). pose proof (zlen_nonneg (concat (map f l))).
    rewrite (Hr a nb) by (assumption || lia). cbn [bind]. rewrite IH; try assumption; try lia.
    + cbn [bind]. do 2 f_equal. lia.
    + now rewrite Z.add_assoc.
Qed.
Lemma count_ok n : 0 <= n < 2^31 -> Z.to_nat (to_u32 n) = Z.to_nat n.
Proof. intros H. now rewrite to_u32_id by (unfold uint32; lia). Qed.
Lemma reads_vec {A} buf base (P : A -> Prop) f st : (forall a, 1 <= zlen (f a)) -> reads buf base P f st ->
  reads buf base (Forall P) (enc_seq f) (step_vec st buf base).
Proof.
  intros Hp Hr l nb Hl Hn Hs H. pose proof (seq_count f l Hp). unfold enc_seq in *. apply at_app in H as [H1 H2]. rewrite zlen_app, le_zlen in *.
  pose proof (zlen_nonneg l). pose proof (zlen_nonneg (concat (map f l))). unfold step_vec.
  rewrite (reads_i32 buf base (zlen l) nb); [|unfold int32; lia|lia|rewrite le_zlen; lia|exact H1].
  rewrite le_zlen. cbn [bind]. rewrite count_ok by lia. unfold zlen at 1. rewrite Nat2Z.id.
  rewrite (steps_ok buf base P f st Hr); auto; try lia.
  - do 2 f_equal. lia.
  - now rewrite Z.add_assoc.
Qed.
Lemma u32_of_i32 z : uint32 z -> to_u32 (to_i32 (to_u32 z)) = z.
Proof.
  intros H. rewrite (to_u32_id z H). unfold to_u32, to_i32, uint32 in *.
  rewrite Zminus_mod_idemp_l. replace (z + 2^31 - 2^31) with z by lia. apply Z.mod_small. lia.
Qed.
Lemma step_u32 buf base z nb : 0 <= nb -> nb + 4 < 2^31 -> at_ buf (base + nb) (le 4 z) ->
  step rd_i32 4 buf base nb = Ok (to_i32 (to_u32 z), nb + 4).
Proof.
  intros H0 H1 H. unfold step, rd_i32. rewrite (rd_u32_at _ _ _ H). unfold omap. cbn [bind]. now rewrite chk32_ok by (unfold int32; lia).
Qed.
Lemma reads_mat {A} buf base (P : A -> Prop) f st : reads buf base P f st ->
  reads buf base (wf_mat P) (enc_mat f) (step_mat st buf base).
Proof.
  intros Hr m nb (R & C & D & F) Hn Hs H. unfold enc_mat in *. apply at_app in H as [H1 H2]. apply at_app in H2 as [H2 H3].
  rewrite !zlen_app, !le_zlen in *. unfold step_mat. change (Z.of_nat 4) with 4 in *.
  pose proof (zlen_nonneg (concat (map f (mdata m)))).
  rewrite (step_u32 _ _ (mrows m)) by (assumption || lia). cbn [bind].
  rewrite (step_u32 _ _ (mcols m)) by (rewrite ?Z.add_assoc; assumption || lia). cbn [bind].
  rewrite !u32_of_i32 by assumption. rewrite <- D. unfold zlen at 1. rewrite Nat2Z.id.
  rewrite (steps_ok buf base P f st Hr); auto; try lia.
  - cbn [bind]. destruct m as [nr nc l]; cbn [mrows mcols mdata]. do 2 f_equal. lia.
  - now rewrite !Z.add_assoc.
Qed.

(** What can be read back. *)
Definition portable_here (g : gc) : Prop :=
  tag_of g <> TPtr /\ tag_of g <> TVPtr /\ tag_of g <> TMComplex /\ strings_here no_nul g.
Definition portable : gc -> Prop := everywhere portable_here.

Lemma depth_vec e v : In e v -> (depth e < depth (GVec v))%nat.
Proof.
  cbn [depth]. induction v as [|a v IH]; intros H; [now exfalso|]. destruct H as [<-|H]; [|specialize (IH H)]; lia.
Qed.
Lemma depth_map kv m : In kv m -> (depth (snd kv) < depth (GMap m))%nat.
Proof.
  cbn [depth]. induction m as [|a v IH]; intros H; [now exfalso|]. destruct H as [<-|H]; [|specialize (IH H)]; lia.
Qed.

Lemma done_ok {A} (mk : A -> gc) buf base P f st a nb dim : reads buf base P f st -> P a -> 0 <= nb ->
  nb + zlen (f a) < 2^31 -> nb + zlen (f a) <= dim -> at_ buf (base + nb) (f a) ->
  check_end dim (done mk (st nb)) = (Ok (nb + zlen (f a)), mk a).
Proof.
  intros Hr Ha Hn Hs Hd H. rewrite (Hr a nb Ha Hn Hs H). cbn [done check_end].
  destruct (Z.leb_spec (nb + zlen (f a)) dim); [reflexivity|lia].
Qed.

Lemma seq_bounds {A} (P : string -> Prop) (l : list A) (f : A -> string) n :
  (forall a, In a l -> str_len (f a) + 1 < n) -> Forall P (map f l) -> Forall (fun s => P s /\ str_len s + 1 < n) (map f l).
Proof. intros H H'. rewrite Forall_map in *. rewrite Forall_forall in *. intros a Ha. split; auto. Qed.

Theorem de_ser_ok g : wf g -> portable g -> forall fuel buf base dim, (depth g < fuel)%nat ->
  zlen (enc g) <= dim -> dim < 2^31 -> at_ buf base (enc g) ->
  de_ser fuel buf dim base = (Ok (zlen (enc g)), g).
Proof.
  induction g as [g Hv Hm | v IH | m IH] using gc_nest_ind; intros Wg Pg fuel buf base dim Hf Hd Hd' H;
    (destruct fuel as [|fuel]; [lia|]); cbn [de_ser].
  - pose proof (enc_short g ltac:(lia)) as Kg. apply everywhere_here in Kg. apply everywhere_here in Pg as (P1 & P2 & P3 & P4).
    assert (HT : rd_i32 buf base = Ok (tag_num (tag_of g)) /\ exists body, enc g = le 4 (tag_num (tag_of g)) ++ body /\ at_ buf (base + 4) body).
    { assert (K : exists x, enc g = le 4 (tag_num (tag_of g)) ++ x) by (destruct g; cbn [enc]; eexists; reflexivity).
      destruct K as (x & K). rewrite K in H. apply at_app in H as [H1 H2]. rewrite le_zlen in H2. split; [|now exists x].
      unfold rd_i32. rewrite (rd_u32_at _ _ _ H1). unfold omap. cbn [bind]. rewrite i32_of_u32; [reflexivity|].
      destruct (tag_of g); unfold int32; cbn; lia. }
    destruct HT as [HT (body & HB & HA)]. rewrite HT. clear H HT.
    rewrite HB in Hd |- *. rewrite zlen_app, le_zlen in *. change (Z.of_nat 4) with 4 in *.
    destruct g; try nested_contra Hv Hm; cbn [tag_of tag_num de_body]; cbn [enc tag_of tag_num] in HB; apply app_inv_head in HB; subst body;
      cbn [wf strings_here tag_of] in *.
    + cbn. destruct (Z.leb_spec 4 dim); [reflexivity|]. rewrite zlen_nil in Hd. lia.
    + now exfalso.
    + eapply done_ok; [apply reads_bool|..]; auto; lia.
    + eapply done_ok; [apply reads_i32|..]; auto; lia.
    + eapply done_ok; [apply reads_i64|..]; auto; lia.
    + eapply done_ok; [apply reads_f64|..]; auto; lia.
    + eapply done_ok; [apply reads_cplx|..]; auto; lia.
    + eapply done_ok; [apply reads_str|..]; auto; lia || (split; assumption).
    + now exfalso.
    + pose proof (seq_count enc_bool v enc_bool_pos) as Kc. pose proof (zlen_nonneg v).
      unfold enc_seq in *. apply at_app in HA as [H1 H2]. rewrite zlen_app, le_zlen in *. change (Z.of_nat 4) with 4 in *.
      rewrite (reads_i32 buf base (zlen v) 4); [|unfold int32; lia|lia|rewrite le_zlen; lia|exact H1]. rewrite le_zlen.
      change (4 + Z.of_nat 4) with 8.
      destruct (Z.ltb_spec (zlen v) 0); [lia|]. replace (Z.to_nat (zlen v)) with (length v) by (unfold zlen; lia).
      rewrite (steps_ok buf base _ _ _ (reads_bool buf base)); [|apply Forall_forall; auto|lia|lia|].
      * cbn [done check_end]. destruct (Z.leb_spec (8 + zlen (concat (map enc_bool v))) dim); [|lia].
        do 2 f_equal. lia.
      * replace (base + 8) with (base + 4 + 4) by lia. assumption.
    + eapply done_ok; [apply reads_vec; [intros; apply le_pos|apply reads_i32]|..]; auto; lia.
    + eapply done_ok; [apply reads_vec; [intros; apply le_pos|apply reads_i64]|..]; auto; lia.
    + eapply done_ok; [apply reads_vec; [intros; apply le_pos|apply reads_f64]|..]; auto; lia.
    + eapply done_ok; [apply reads_vec; [apply enc_cplx_pos|apply reads_cplx]|..]; auto; lia.
    + eapply done_ok; [apply reads_vec; [apply enc_str_pos|apply reads_str]|..]; auto; try lia.
      rewrite Forall_forall in *. auto.
    + eapply done_ok; [apply reads_mat, reads_i32|..]; auto; lia.
    + eapply done_ok; [apply reads_mat, reads_i64|..]; auto; lia.
    + eapply done_ok; [apply reads_mat, reads_f64|..]; auto; lia.
    + now exfalso.
  - assert (EP : forall a, 1 <= zlen (enc a)) by (intros a; pose proof (enc_pos a); lia).
    pose proof (seq_count enc v EP) as Kc. pose proof (zlen_nonneg v).
    cbn [enc] in *. unfold enc_seq in *. apply at_app in H as [H1 H]. apply at_app in H as [H2 H].
    rewrite !zlen_app, !le_zlen in *. change (Z.of_nat 4) with 4 in *.
    unfold rd_i32. rewrite (rd_u32_at _ _ _ H1). unfold omap. cbn [bind tag_of tag_num]. rewrite i32_of_u32 by (unfold int32; lia).
    cbn [de_body]. pose proof (zlen_nonneg (concat (map enc v))).
    rewrite (reads_i32 buf base (zlen v) 4); [|unfold int32; lia|lia|rewrite le_zlen; lia|exact H2]. rewrite le_zlen.
    change (4 + Z.of_nat 4) with 8. rewrite count_ok by lia. replace (Z.to_nat (zlen v)) with (length v) by (unfold zlen; lia).
    apply wf_vec in Wg. apply everywhere_vec in Pg as [_ Pg].
    assert (Df : forall e, In e v -> (depth e < fuel)%nat) by (intros e He; pose proof (depth_vec e v He); lia).
    enough (K : de_vec (de_ser fuel buf) dim base (length v) 8 = (Ok (8 + zlen (concat (map enc v))), v)).
    { rewrite K. cbn [check_end]. destruct (Z.leb_spec (8 + zlen (concat (map enc v))) dim); [|lia]. do 2 f_equal. lia. }
    replace (base + 4 + 4) with (base + 8) in H by lia.
    assert (Hd8 : 8 + zlen (concat (map enc v)) <= dim) by lia. clear Hd H1 H2 Kc Hf.
    assert (H8 : 0 <= 8) by lia. revert Hd8 H H8. generalize 8 as nb. intros nb.
    revert nb. induction v as [|e v IHv]; intros nb Hd8 H H8; cbn [length de_vec map concat] in *.
    { rewrite zlen_nil, Z.add_0_r. reflexivity. }
    inversion IH; inversion Wg; inversion Pg; subst. apply at_app in H as [Ha H]. rewrite zlen_app in *.
    pose proof (zlen_nonneg (enc e)). pose proof (zlen_nonneg (concat (map enc v))).
    rewrite chk32_ok by (unfold int32; lia).
    match goal with IHe : wf e -> portable e -> _ |- _ =>
      rewrite (IHe ltac:(assumption) ltac:(assumption) fuel buf (base + nb) (dim - nb)) by (first [assumption | lia | (apply Df; now left)]) end.
    rewrite chk32_ok by (unfold int32; lia).
    rewrite IHv; auto; try lia.
    + do 2 f_equal. lia.
    + apply zlen_nonneg.
    + intros; apply Df; now right.
    + now rewrite Z.add_assoc.
  - set (f := fun kv : string * gc => enc_str (fst kv) ++ enc (snd kv)).
    assert (EP : forall a, 1 <= zlen (f a)).
    { intros a. unfold f. rewrite zlen_app. pose proof (enc_pos (snd a)). pose proof (zlen_nonneg (enc_str (fst a))). lia. }
    pose proof (enc_short _ ltac:(eapply Z.le_lt_trans; eassumption)) as Kg. apply everywhere_here in Kg. cbn [strings_here] in Kg.
    pose proof (seq_count f m EP) as Kc. pose proof (zlen_nonneg m).
    cbn [enc] in *. fold f in Hd, H |- *. unfold enc_seq in *. apply at_app in H as [H1 H]. apply at_app in H as [H2 H].
    rewrite !zlen_app, !le_zlen in *. change (Z.of_nat 4) with 4 in *.
    unfold rd_i32. rewrite (rd_u32_at _ _ _ H1). unfold omap. cbn [bind tag_of tag_num]. rewrite i32_of_u32 by (unfold int32; lia).
    cbn [de_body]. pose proof (zlen_nonneg (concat (map f m))).
    rewrite (reads_i32 buf base (zlen m) 4); [|unfold int32; lia|lia|rewrite le_zlen; lia|exact H2]. rewrite le_zlen.
    change (4 + Z.of_nat 4) with 8. replace (Z.to_nat (zlen m)) with (length m) by (unfold zlen; lia).
    apply wf_map in Wg as [Ws Wg]. apply everywhere_map in Pg as [(_ & _ & _ & Pk) Pg]. cbn [strings_here] in Pk.
    assert (Df : forall e, In e m -> (depth (snd e) < fuel)%nat) by (intros e He; pose proof (depth_map e m He); lia).
    enough (K : de_map (de_ser fuel buf) buf dim base (length m) 8 [] = (Ok (8 + zlen (concat (map f m))), m)).
    { rewrite K. cbn [check_end]. destruct (Z.leb_spec (8 + zlen (concat (map f m))) dim); [|lia]. do 2 f_equal. lia. }
    replace (base + 4 + 4) with (base + 8) in H by lia.
    assert (Hd8 : 8 + zlen (concat (map f m)) <= dim) by lia.
    assert (H8 : 0 <= 8) by lia. change m with ([] ++ m) at 3. change m with ([] ++ m) in Ws.
    clear Hd H1 H2 Kc Hf H0 H3. revert Hd8 H H8 Ws. generalize 8 as nb, (@nil (string * gc)) as acc.
    induction m as [|[k e] v IHv]; intros nb acc Hd8 H H8 Ws; cbn [length de_map map concat] in *.
    { rewrite zlen_nil, Z.add_0_r, app_nil_r. reflexivity. }
    inversion IH; inversion Wg; inversion Pg; inversion Pk; inversion Kg; subst. cbn [fst snd] in *.
    apply at_app in H as [Ha H]. unfold f in Ha at 1. cbn [fst snd] in Ha. apply at_app in Ha as [Hk Ha].
    rewrite zlen_app in *. unfold f at 1 in Hd8. unfold f at 1. cbn [fst snd] in *.
    assert (Ef : zlen (f (k, e)) = zlen (enc_str k) + zlen (enc e)) by (unfold f; now rewrite zlen_app).
    rewrite zlen_app in Hd8 |- *.
    pose proof (zlen_nonneg (enc_str k)). pose proof (enc_pos e). pose proof (zlen_nonneg (concat (map f v))).
    rewrite (reads_str buf base k nb); [|split; assumption|lia|lia|assumption].
    rewrite chk32_ok by (unfold int32; lia).
    match goal with IHe : wf e -> portable e -> _ |- _ =>
      rewrite (IHe ltac:(assumption) ltac:(assumption) fuel buf (base + (nb + zlen (enc_str k))) (dim - (nb + zlen (enc_str k))));
        [|apply (Df (k, e)); now left|lia|lia|now rewrite Z.add_assoc] end.
    rewrite chk32_ok by (unfold int32; lia).
    assert (Hl : mset k e acc = acc ++ [(k, e)]).
    { apply mset_last. unfold msorted in Ws. rewrite map_app in Ws. cbn [map fst] in Ws.
      clear -Ws. induction (map fst acc) as [|x l IHl]; [constructor|]. cbn [app] in Ws. inversion Ws as [|? ? Ws' Wf]; subst.
      constructor; [|now apply IHl]. rewrite Forall_forall in Wf. apply Wf. apply in_or_app. right. now left. }
    rewrite Hl. rewrite IHv; auto; try lia.
    + rewrite <- app_assoc. cbn [app]. do 2 f_equal. lia.
    + intros; apply Df; now right.
    + rewrite Ef in H. replace (base + (nb + zlen (enc_str k) + zlen (enc e))) with (base + nb + (zlen (enc_str k) + zlen (enc e))) by lia. assumption.
    + now rewrite <- app_assoc.
Qed.
