(** Lemmas about serialization. *)
From Coq Require Import ZArith Bool Lia Ascii String List.
From Verif Require Import Base F64 StrMap Value MBasic SCollapse MSerialize SSerialize.
Import ListNotations.
Local Open Scope Z_scope.

Lemma bytes_le_le n z : bytes_le n z = le n z.
Proof.
  unfold le. revert z. induction n as [|n IH]; intros z; [reflexivity|].
  cbn [bytes_le seq map]. rewrite IH, <- seq_shift, map_map. f_equal.
  - change 255 with (Z.ones 8). rewrite Z.land_ones by lia. rewrite Z.div_1_r. reflexivity.
  - apply List.map_ext. intros i. rewrite Z.shiftr_div_pow2 by lia. change (2^8) with 256.
    rewrite Nat2Z.inj_succ, Z.pow_succ_r by lia. rewrite Z.div_div by lia. reflexivity.
Qed.
Lemma le_length n z : length (le n z) = n.
Proof. unfold le. now rewrite map_length, seq_length. Qed.
Lemma le_zlen n z : zlen (le n z) = Z.of_nat n.
Proof. unfold zlen. now rewrite le_length. Qed.
Lemma le_mod n z k : Z.of_nat n <= k -> le n (z mod 256^k) = le n z.
Proof.
  intros Hk. unfold le. apply List.map_ext_in. intros i Hi. apply in_seq in Hi.
  replace k with (Z.of_nat i + (1 + (k - Z.of_nat i - 1))) by lia.
  rewrite (Z.pow_add_r 256 (Z.of_nat i)) by lia.
  rewrite Z.rem_mul_r by (try apply Z.pow_nonzero; try apply Z.pow_pos_nonneg; lia).
  rewrite Z.mul_comm, Z.div_add by (apply Z.pow_nonzero; lia).
  rewrite (Z.div_small (z mod 256 ^ Z.of_nat i)) by (apply Z.mod_pos_bound, Z.pow_pos_nonneg; lia).
  rewrite Z.add_0_l. rewrite Z.pow_add_r by lia. rewrite Z.pow_1_r.
  rewrite Z.rem_mul_r by (try apply Z.pow_pos_nonneg; lia).
  rewrite (Z.mul_comm 256), Z.mod_add by lia. now rewrite Z.mod_mod by lia.
Qed.
Lemma bytes_le_u32 z : bytes_le 4 (to_u32 z) = le 4 z.
Proof. rewrite bytes_le_le. apply (le_mod 4 z 4). lia. Qed.
Lemma bytes_le_u64 z : bytes_le 8 (to_u64 z) = le 8 z.
Proof. rewrite bytes_le_le. apply (le_mod 8 z 8). lia. Qed.

Lemma bytes_of_str s : bytes_of s = str_bytes s.
Proof. reflexivity. Qed.
Lemma ascii_length s : length (list_ascii_of_string s) = String.length s.
Proof. induction s; cbn; congruence. Qed.
Lemma str_bytes_zlen s : zlen (str_bytes s) = str_len s.
Proof. unfold str_bytes, str_len. rewrite zlen_map. unfold zlen. now rewrite ascii_length. Qed.
Lemma str_len_nonneg s : 0 <= str_len s.
Proof. unfold str_len. lia. Qed.
Lemma enc_str_zlen s : zlen (enc_str s) = str_len s + 5.
Proof. unfold enc_str. rewrite !zlen_app, le_zlen, str_bytes_zlen. change (zlen [0]) with 1. lia. Qed.

Lemma chk32_ok z : int32 z -> chk32 z = Ok z.
Proof. intros [H1 H2]. unfold chk32. destruct (Z.leb_spec (-2^31) z), (Z.ltb_spec z (2^31)); cbn; lia || reflexivity. Qed.

(** * Writing *)

Definition ready (st : wst) : Prop := 0 <= wpos st /\ 0 <= wavail st < 2^31 /\ zlen (wbuf st) = wpos st + wavail st.
Definition wrote (bs : list Z) (st : wst) : wst :=
  W (firstn (Z.to_nat (wpos st)) (wbuf st) ++ bs ++ skipn (Z.to_nat (wpos st + zlen bs)) (wbuf st))
    (wpos st + zlen bs) (wavail st - zlen bs).

(** The operation writes exactly [bs] if that fits and throws otherwise; it is undefined only
    if [E] fails. *)
Definition writes (E : Prop) (w : wop) (bs : list Z) : Prop := forall st, ready st ->
  match w st with
  | (Ok _, st') => zlen bs <= wavail st /\ st' = wrote bs st
  | (Throw, st') => wavail st < zlen bs /\ zlen (wbuf st') = zlen (wbuf st)
  | (Undef, st') => ~ E
  | (Diverge, _) => False
  end.

Lemma wrote_len bs st : ready st -> zlen bs <= wavail st -> zlen (wbuf (wrote bs st)) = zlen (wbuf st).
Proof.
  intros (H1 & H2 & H3) H. unfold wrote. cbn [wbuf]. unfold zlen in *. rewrite !app_length, firstn_length, skipn_length. lia.
Qed.
Lemma wrote_ready bs st : ready st -> zlen bs <= wavail st -> ready (wrote bs st).
Proof.
  intros H Hle. pose proof (wrote_len bs st H Hle). destruct H as (H1 & H2 & H3). pose proof (zlen_nonneg bs).
  unfold ready. unfold wrote in *. cbn [wbuf wpos wavail] in *. lia.
Qed.
Lemma skipn_skipn' {A} a b (l : list A) : skipn a (skipn b l) = skipn (b + a) l.
Proof. revert l. induction b as [|b IH]; intros l; [reflexivity|]. destruct l; [now rewrite !skipn_nil|]. cbn. apply IH. Qed.
Lemma splice {A} (P a b tl : list A) n1 n2 : n1 = (length P + length a)%nat -> n2 = (n1 + length b)%nat ->
  firstn n1 (P ++ a ++ tl) ++ b ++ skipn n2 (P ++ a ++ tl) = P ++ (a ++ b) ++ skipn (length b) tl.
Proof.
  intros -> ->. rewrite (app_assoc P a tl). rewrite <- app_length.
  rewrite firstn_app, firstn_all, Nat.sub_diag. cbn [firstn]. rewrite app_nil_r.
  rewrite skipn_app, skipn_all2 by lia. cbn [app].
  replace (length (P ++ a) + length b - length (P ++ a))%nat with (length b) by lia.
  now rewrite <- !app_assoc.
Qed.
Lemma wrote_app a b st : ready st -> zlen a + zlen b <= wavail st -> wrote b (wrote a st) = wrote (a ++ b) st.
Proof.
  intros (H1 & H2 & H3) H. pose proof (zlen_nonneg a). pose proof (zlen_nonneg b).
  unfold wrote. cbn [wbuf wpos wavail]. rewrite zlen_app. f_equal; [|lia|lia].
  assert (L : length (firstn (Z.to_nat (wpos st)) (wbuf st)) = Z.to_nat (wpos st))
    by (rewrite firstn_length; unfold zlen in *; lia).
  rewrite splice by (rewrite ?L; unfold zlen in *; lia). rewrite skipn_skipn'. do 3 f_equal.
  unfold zlen in *. lia.
Qed.

Lemma writes_skip E : writes E wskip [].
Proof.
  intros st H. cbn. split; [destruct H; lia|]. unfold wrote. cbn [app]. rewrite zlen_nil, !Z.add_0_r, Z.sub_0_r, firstn_skipn.
  now destruct st.
Qed.
Lemma writes_seq E1 E2 a b ba bb : writes E1 a ba -> writes E2 b bb -> writes (E1 /\ E2) (a ;; b) (ba ++ bb).
Proof.
  intros Ha Hb st Hst. specialize (Ha st Hst). unfold wseq. pose proof (zlen_nonneg ba). pose proof (zlen_nonneg bb).
  destruct (a st) as [[[]| | |] st1].
  - destruct Ha as [Hl ->]. pose proof (wrote_ready ba st Hst Hl) as Hst1. specialize (Hb _ Hst1).
    rewrite zlen_app. destruct (b (wrote ba st)) as [[[]| | |] st2]; cbn [wavail wrote] in Hb.
    + destruct Hb as [Hl' ->]. split; [lia|]. apply wrote_app; [assumption|lia].
    + destruct Hb as [Hl' Hz]. split; [lia|]. rewrite Hz. now apply wrote_len.
    + tauto.
    + tauto.
  - rewrite zlen_app. destruct Ha. split; [lia|assumption].
  - tauto.
  - tauto.
Qed.
Lemma writes_weaken (E E' : Prop) w bs : writes E w bs -> (E' -> E) -> writes E' w bs.
Proof. intros H He st Hst. specialize (H st Hst). destruct (w st) as [[[]| | |] st']; auto. Qed.

Lemma store_ok bs st : ready st -> zlen bs <= wavail st -> store bs st = (Ok tt, wrote bs st).
Proof.
  intros (H1 & H2 & H3) H. unfold store. pose proof (zlen_nonneg bs).
  replace ((0 <=? wpos st) && (wpos st + zlen bs <=? zlen (wbuf st))) with true
    by (symmetry; apply andb_true_iff; split; apply Z.leb_le; lia).
  rewrite chk32_ok by (unfold int32; lia). reflexivity.
Qed.
Lemma writes_put E bs : writes E (put bs) bs.
Proof.
  intros st H. unfold put. rewrite to_u32_id by (unfold uint32; destruct H as (_ & H & _); lia).
  destruct (Z.leb_spec (zlen bs) (wavail st)) as [Hl|Hl]; [|cbn; lia].
  rewrite store_ok by assumption. split; [assumption|reflexivity].
Qed.
Lemma writes_i8 E b : writes E (put_i8 b) (enc_bool b).
Proof. apply writes_put. Qed.
Lemma writes_i32 E z : writes E (put_i32 z) (le 4 z).
Proof. unfold put_i32. rewrite bytes_le_u32. apply writes_put. Qed.
Lemma writes_i64 E z : writes E (put_i64 z) (le 8 z).
Proof. unfold put_i64. rewrite bytes_le_u64. apply writes_put. Qed.
Lemma writes_f64 E z : writes E (put_f64 z) (le 8 z).
Proof. unfold put_f64. rewrite bytes_le_le. apply writes_put. Qed.
Lemma writes_cplx E c : writes E (put_cplx c) (enc_cplx c).
Proof.
  eapply writes_weaken with (E := E /\ E); [|tauto]. apply writes_seq; apply writes_f64.
Qed.
Lemma writes_map {A} (E : A -> Prop) f enc_a (l : list A) : (forall a, In a l -> writes (E a) (f a) (enc_a a)) ->
  writes (Forall E l) (wmap f l) (concat (map enc_a l)).
Proof.
  induction l as [|a l IH]; intros H; [apply writes_skip|].
  eapply writes_weaken with (E := E a /\ Forall E l).
  - cbn [wmap map concat]. apply writes_seq; [apply H; now left|apply IH; intros; apply H; now right].
  - intros K. inversion K; auto.
Qed.
Lemma writes_seq_of {A} (E : A -> Prop) f enc_a (l : list A) : (forall a, In a l -> writes (E a) (f a) (enc_a a)) ->
  writes (Forall E l) (put_i32 (zlen l) ;; wmap f l) (enc_seq enc_a l).
Proof.
  intros H. eapply writes_weaken with (E := True /\ Forall E l); [|tauto].
  apply writes_seq; [apply writes_i32|now apply writes_map].
Qed.
Lemma writes_mat {A} f enc_a (m : mat A) E : (forall a, writes True (f a) (enc_a a)) ->
  writes E (put_mat f m) (enc_mat enc_a m).
Proof.
  intros H. eapply writes_weaken with (E := True /\ True /\ Forall (fun _ => True) (mdata m)).
  - apply writes_seq; [apply writes_i32|]. apply writes_seq; [apply writes_i32|].
    apply writes_map. auto.
  - intros _. split; [exact I|]. split; [exact I|]. apply Forall_forall. auto.
Qed.
Definition str_fine (hard : bool) (s : string) : Prop := hard = true -> s <> EmptyString.
Lemma writes_str hard s : str_len s + 1 < 2^31 -> writes (str_fine hard s) (put_str hard s) (enc_str s).
Proof.
  intros Hs. pose proof (str_len_nonneg s). unfold put_str. change (slen s) with (str_len s).
  rewrite to_i32_id by (unfold int32; lia).
  eapply writes_weaken with (E := True /\ str_fine hard s); [|tauto].
  apply writes_seq; [apply writes_i32|]. intros st Hst.
  assert (L : zlen (str_bytes s ++ [0]) = str_len s + 1) by (rewrite zlen_app, str_bytes_zlen; change (zlen [0]) with 1; lia).
  destruct (Z.leb_spec (str_len s + 1) (wavail st)) as [Hl|Hl]; [|cbn; split; [lia|reflexivity]].
  destruct (Z.ltb_spec (str_len s + 1) 0); [lia|].
  rewrite bytes_of_str, firstn_all2 by (unfold zlen in L; lia).
  destruct (hard && (str_len s =? 0)) eqn:Eh.
  - apply andb_true_iff in Eh as [-> Eh]. apply Z.eqb_eq in Eh. intros F. apply F; [reflexivity|].
    destruct s; [reflexivity|]. unfold str_len in Eh. cbn in Eh. lia.
  - rewrite store_ok by (rewrite ?L; assumption). split; [now rewrite L|reflexivity].
Qed.

(** A child container. *)
Definition ser_ok (hard : bool) (E : Prop) (g : gc) : Prop := forall dim buf pos,
  0 <= pos -> 0 <= dim < 2^31 -> zlen buf = pos + dim ->
  match serialize hard g dim buf pos with
  | (Ok n, buf') => n = zlen (enc g) /\ n <= dim /\ buf' = wbuf (wrote (enc g) (W buf pos dim))
  | (Throw, buf') => dim < zlen (enc g) /\ zlen buf' = zlen buf
  | (Undef, _) => ~ E
  | (Diverge, _) => False
  end.
Lemma writes_child hard E g : ser_ok hard E g -> writes E (child (serialize hard g)) (enc g).
Proof.
  intros H st (H1 & H2 & H3). unfold child. specialize (H (wavail st) (wbuf st) (wpos st) H1 H2 H3).
  pose proof (zlen_nonneg (enc g)).
  destruct (serialize hard g (wavail st) (wbuf st) (wpos st)) as [[n| | |] buf'].
  - destruct H as (-> & Hn & ->). rewrite chk32_ok by (unfold int32; lia). split; [assumption|].
    destruct st; reflexivity.
  - cbn [wbuf]. assumption.
  - assumption.
  - assumption.
Qed.

(** Containers whose serialization is defined. *)
Definition fine_here (hard : bool) (g : gc) : Prop :=
  tag_of g <> TMComplex /\ strings_here (str_fine hard) g.
Definition ser_fine (hard : bool) : gc -> Prop := everywhere (fine_here hard).

Lemma finish_ok hard E g w body : (forall dim buf pos, serialize hard g dim buf pos = finish dim ((w ;; body) (W buf pos dim))) ->
  writes E (w ;; body) (enc g) -> ser_ok hard E g.
Proof.
  intros He Hw dim buf pos H1 H2 H3. rewrite He.
  specialize (Hw (W buf pos dim) (conj H1 (conj H2 H3))). pose proof (zlen_nonneg (enc g)).
  destruct ((w ;; body) (W buf pos dim)) as [[[]| | |] st']; cbn [finish wbuf wpos wavail] in *.
  - destruct Hw as [Hl ->]. cbn [wrote wavail]. rewrite chk32_ok by (unfold int32; lia).
    split; [lia|]. split; [lia|reflexivity].
  - assumption.
  - assumption.
  - assumption.
Qed.

Lemma fixed_fine {A} (l : list A) (E : Prop) : E -> Forall (fun _ => True) l.
Proof. intros _. apply Forall_forall. auto. Qed.

Ltac wr :=
  match goal with
  | |- writes _ wskip _ => apply writes_skip
  | |- writes _ (put_i8 _) _ => apply writes_i8
  | |- writes _ (put_i32 _) _ => apply writes_i32
  | |- writes _ (put_i64 _) _ => apply writes_i64
  | |- writes _ (put_f64 _) _ => apply writes_f64
  | |- writes _ (put_cplx _) _ => apply writes_cplx
  | |- writes _ (put_mat _ _) _ => apply writes_mat; intros; wr
  | |- writes _ (put_i32 (zlen ?l) ;; wmap put_i8 ?l) _ => eapply writes_weaken; [apply (writes_seq_of (fun _ => True)); intros; wr|apply fixed_fine]
  | |- writes _ (put_i32 (zlen ?l) ;; wmap put_i32 ?l) _ => eapply writes_weaken; [apply (writes_seq_of (fun _ => True)); intros; wr|apply fixed_fine]
  | |- writes _ (put_i32 (zlen ?l) ;; wmap put_i64 ?l) _ => eapply writes_weaken; [apply (writes_seq_of (fun _ => True)); intros; wr|apply fixed_fine]
  | |- writes _ (put_i32 (zlen ?l) ;; wmap put_f64 ?l) _ => eapply writes_weaken; [apply (writes_seq_of (fun _ => True)); intros; wr|apply fixed_fine]
  | |- writes _ (put_i32 (zlen ?l) ;; wmap put_cplx ?l) _ => eapply writes_weaken; [apply (writes_seq_of (fun _ => True)); intros; wr|apply fixed_fine]
  end.

Theorem serialize_ok hard g : short g -> ser_ok hard (ser_fine hard g) g.
Proof.
  induction g as [g Hv Hm | v IH | m IH] using gc_nest_ind; intros Hs.
  - apply everywhere_here in Hs.
    destruct g; try nested_contra Hv Hm; (eapply finish_ok; [reflexivity|]);
      match goal with |- writes (ser_fine hard ?g) _ _ =>
        apply (writes_weaken (True /\ fine_here hard g));
          [cbn [enc]; apply writes_seq; [apply writes_i32|]
          |intros K; split; [exact I|now apply everywhere_here in K]] end;
      try wr.
    + eapply writes_weaken; [now apply writes_str|]. intros [_ K]. exact K.
    + eapply writes_weaken; [apply (writes_seq_of (str_fine hard))|intros [_ K]; exact K].
      intros a Ha. apply writes_str. cbn in Hs. rewrite Forall_forall in Hs. now apply Hs.
    + intros st Hst. unfold wseq. pose proof (writes_mat put_cplx enc_cplx m True (writes_cplx True) st Hst) as K.
      destruct (put_mat put_cplx m st) as [[[]| | |] st'].
      * intros [F _]. now apply F.
      * assumption.
      * now exfalso.
      * assumption.
  - apply everywhere_vec in Hs as [_ Hs].
    eapply finish_ok; [reflexivity|]. cbn [enc].
    eapply writes_weaken with (E := True /\ True /\ Forall (ser_fine hard) v);
      [|intros K; apply everywhere_vec in K; tauto].
    apply writes_seq; [apply writes_i32|]. unfold enc_seq. apply writes_seq; [apply writes_i32|].
    induction v as [|e v IHv]; [apply writes_skip|].
    inversion IH; inversion Hs; subst. cbn [map concat].
    eapply writes_weaken with (E := ser_fine hard e /\ Forall (ser_fine hard) v); [|intros K; inversion K; auto].
    apply writes_seq; [apply writes_child; auto|]. now apply IHv.
  - apply everywhere_map in Hs as [Hk Hs]. cbn in Hk.
    eapply finish_ok; [reflexivity|]. cbn [enc].
    eapply writes_weaken with (E := True /\ True /\ Forall (fun kv => str_fine hard (fst kv) /\ ser_fine hard (snd kv)) m).
    2:{ intros K. apply everywhere_map in K as [[_ K1] K2]. cbn in K1. split; [exact I|]. split; [exact I|].
        rewrite Forall_map in K1. rewrite Forall_forall in K1, K2. apply Forall_forall. intros x Hx. split; [now apply K1|now apply K2]. }
    apply writes_seq; [apply writes_i32|]. unfold enc_seq. apply writes_seq; [apply writes_i32|].
    induction m as [|[k e] m IHm]; [apply writes_skip|].
    inversion IH; inversion Hs; inversion Hk; subst. cbn [map concat fst snd] in *. rewrite <- app_assoc.
    eapply writes_weaken with (E := str_fine hard k /\ ser_fine hard e /\ Forall (fun kv => str_fine hard (fst kv) /\ ser_fine hard (snd kv)) m);
      [|intros K; inversion K; cbn in *; tauto].
    apply writes_seq; [now apply writes_str|]. apply writes_seq; [apply writes_child; auto|]. now apply IHm.
Qed.

(** * mem_size *)
Definition total (l : list Z) : Z := fold_right Z.add 0 l.
Lemma sum32_ok l res : Forall (fun z => 0 <= z) l -> 0 <= res -> res + total l < 2^31 ->
  sum32 (map Ok l) res = Ok (res + total l).
Proof.
  revert res. induction l as [|z l IH]; intros res Hp Hr Hl; cbn [map sum32 total fold_right] in *; [f_equal; lia|].
  fold (total l) in *. inversion Hp; subst. assert (0 <= total l) by (clear -H2; induction H2; cbn; [lia|]; fold (total l); lia).
  cbn [bind]. rewrite chk32_ok by (unfold int32; lia). cbn [bind]. rewrite IH by (try assumption; lia). f_equal. lia.
Qed.
Lemma concat_zlen {A B} (f : A -> list B) l : zlen (concat (map f l)) = total (map (fun a => zlen (f a)) l).
Proof. induction l as [|a l IH]; [reflexivity|]. cbn [map concat total fold_right]. rewrite zlen_app, IH. reflexivity. Qed.
Lemma total_const {A} (f : A -> Z) c l : (forall a, In a l -> f a = c) -> total (map f l) = c * zlen l.
Proof.
  induction l as [|a l IH]; intros H; [unfold zlen; cbn; lia|]. cbn [map total fold_right]. fold (total (map f l)).
  rewrite IH by (intros; apply H; now right). rewrite (H a (or_introl eq_refl)), zlen_cons. lia.
Qed.
Lemma enc_seq_const {A} (f : A -> list Z) c l : (forall a, zlen (f a) = c) -> zlen (enc_seq f l) = 4 + c * zlen l.
Proof. intros H. unfold enc_seq. rewrite zlen_app, le_zlen, concat_zlen, (total_const _ c) by auto. reflexivity. Qed.
Lemma enc_mat_const {A} (f : A -> list Z) c m : (forall a, zlen (f a) = c) -> zlen (enc_mat f m) = 8 + c * zlen (mdata m).
Proof. intros H. unfold enc_mat. rewrite !zlen_app, !le_zlen, concat_zlen, (total_const _ c) by auto. lia. Qed.
Lemma enc_cplx_zlen c : zlen (enc_cplx c) = 16.
Proof. unfold enc_cplx. now rewrite zlen_app, !le_zlen. Qed.
Lemma enc_bool_zlen b : zlen (enc_bool b) = 1.
Proof. reflexivity. Qed.
Lemma enc_pos g : 4 <= zlen (enc g).
Proof.
  destruct g; cbn [enc]; rewrite zlen_app, le_zlen;
    match goal with |- context [_ + zlen ?x] => pose proof (zlen_nonneg x) end; lia.
Qed.
Lemma total_in {A} (f : A -> Z) l a : (forall b, In b l -> 0 <= f b) -> In a l -> f a <= total (map f l).
Proof.
  induction l as [|b l IH]; intros Hp H; [now exfalso|]. cbn [map total fold_right]. fold (total (map f l)).
  assert (K : forall l', (forall b, In b l' -> 0 <= f b) -> 0 <= total (map f l')).
  { clear. induction l' as [|c l' IHl]; intros Hp; cbn [map total fold_right]; [lia|]. fold (total (map f l')).
    pose proof (Hp c (or_introl eq_refl)). assert (0 <= total (map f l')) by (apply IHl; intros; apply Hp; now right). lia. }
  destruct H as [<-|H].
  - assert (0 <= total (map f l)) by (apply K; intros; apply Hp; now right). lia.
  - assert (0 <= f b) by (apply Hp; now left). assert (f a <= total (map f l)) by (apply IH; [intros; apply Hp; now right|assumption]). lia.
Qed.

Theorem mem_size_ok g : zlen (enc g) < 2^31 -> mem_size g = Ok (zlen (enc g)).
Proof.
  induction g as [g Hv Hm | v IH | m IH] using gc_nest_ind; intros Hs.
  - destruct g; try nested_contra Hv Hm; cbn [mem_size enc] in *; rewrite zlen_app, le_zlen in *;
      rewrite ?le_zlen, ?enc_cplx_zlen, ?enc_bool_zlen, ?zlen_nil in *; try reflexivity.
    + rewrite enc_str_zlen in *. pose proof (str_len_nonneg s). change (slen s) with (str_len s).
      rewrite to_i32_id by (unfold int32; lia). f_equal. lia.
    + rewrite (enc_seq_const _ 8) in * by (intros; apply le_zlen). pose proof (zlen_nonneg v). rewrite to_i32_id by (unfold int32; lia). f_equal. lia.
    + rewrite (enc_seq_const _ 1) in * by (intros; apply enc_bool_zlen). pose proof (zlen_nonneg v). rewrite to_i32_id by (unfold int32; lia). f_equal. lia.
    + rewrite (enc_seq_const _ 4) in * by (intros; apply le_zlen). pose proof (zlen_nonneg v). rewrite to_i32_id by (unfold int32; lia). f_equal. lia.
    + rewrite (enc_seq_const _ 8) in * by (intros; apply le_zlen). pose proof (zlen_nonneg v). rewrite to_i32_id by (unfold int32; lia). f_equal. lia.
    + rewrite (enc_seq_const _ 8) in * by (intros; apply le_zlen). pose proof (zlen_nonneg v). rewrite to_i32_id by (unfold int32; lia). f_equal. lia.
    + rewrite (enc_seq_const _ 16) in * by (intros; apply enc_cplx_zlen). pose proof (zlen_nonneg v). rewrite to_i32_id by (unfold int32; lia). f_equal. lia.
    + unfold enc_seq in *. rewrite zlen_app, le_zlen, concat_zlen in *.
      pose proof (total_in (fun a => zlen (enc_str a)) v).
      replace (map (fun s => Ok (to_i32 (4 + slen s + 1))) v) with (map Ok (map (fun a => zlen (enc_str a)) v)).
      * rewrite sum32_ok; [f_equal; lia|apply Forall_forall; intros x Hx; apply in_map_iff in Hx as (y & <- & _); apply zlen_nonneg|lia|lia].
      * rewrite map_map. apply List.map_ext_in. intros a Ha.
        assert (zlen (enc_str a) <= total (map (fun a => zlen (enc_str a)) v)) by (apply H; [intros; apply zlen_nonneg|assumption]).
        rewrite enc_str_zlen in *. pose proof (str_len_nonneg a). change (slen a) with (str_len a).
        rewrite to_i32_id by (unfold int32; lia). f_equal. lia.
    + rewrite (enc_mat_const _ 4) in * by (intros; apply le_zlen). pose proof (zlen_nonneg (mdata m)). rewrite to_i32_id by (unfold int32; lia). f_equal. lia.
    + rewrite (enc_mat_const _ 8) in * by (intros; apply le_zlen). pose proof (zlen_nonneg (mdata m)). rewrite to_i32_id by (unfold int32; lia). f_equal. lia.
    + rewrite (enc_mat_const _ 8) in * by (intros; apply le_zlen). pose proof (zlen_nonneg (mdata m)). rewrite to_i32_id by (unfold int32; lia). f_equal. lia.
    + rewrite (enc_mat_const _ 16) in * by (intros; apply enc_cplx_zlen). pose proof (zlen_nonneg (mdata m)). rewrite to_i32_id by (unfold int32; lia). f_equal. lia.
  - cbn [mem_size enc] in *. unfold enc_seq in *. rewrite !zlen_app, !le_zlen, concat_zlen in *.
    assert (E : (fix go (l : list gc) : list (out Z) := match l with [] => [] | e :: t => mem_size e :: go t end) v =
                map Ok (map (fun a => zlen (enc a)) v)).
    { pose proof (total_in (fun a => zlen (enc a)) v) as T.
      assert (K : forall a, In a v -> zlen (enc a) < 2^31).
      { intros a Ha. assert (zlen (enc a) <= total (map (fun a => zlen (enc a)) v)) by (apply T; [intros; apply zlen_nonneg|assumption]). lia. }
      clear -IH K. induction v as [|e v IHv]; [reflexivity|]. inversion IH; subst. cbn [map]. f_equal.
      - apply H1. apply K. now left.
      - apply IHv; [assumption|]. intros; apply K; now right. }
    rewrite E, sum32_ok; [f_equal; lia|apply Forall_forall; intros x Hx; apply in_map_iff in Hx as (y & <- & _); apply zlen_nonneg|lia|lia].
  - cbn [mem_size enc] in *. unfold enc_seq in *. rewrite !zlen_app, !le_zlen, concat_zlen in *.
    set (f := fun a : string * gc => zlen (enc_str (fst a) ++ enc (snd a))) in *.
    assert (E : (fix go (l : list (string * gc)) : list (out Z) :=
                        match l with
                        | [] => []
                        | (k, e) :: t => (do n <- mem_size e ; Ok (to_i32 (4 + slen k + 1 + n))) :: go t
                        end) m =
                map Ok (map f m)).
    { pose proof (total_in f m) as T.
      assert (K : forall a, In a m -> f a < 2^31).
      { intros a Ha. assert (f a <= total (map f m)) by (apply T; [intros; apply zlen_nonneg|assumption]). lia. }
      clear -IH K. induction m as [|[k e] v IHv]; [reflexivity|]. inversion IH; subst. cbn [map]. f_equal.
      - pose proof (K (k, e) (or_introl eq_refl)) as Ke. unfold f in *. cbn [fst snd] in *.
        rewrite zlen_app, enc_str_zlen in *. pose proof (str_len_nonneg k). pose proof (enc_pos e).
        rewrite H1 by lia. cbn [bind]. change (slen k) with (str_len k).
        rewrite to_i32_id by (unfold int32; lia). f_equal. lia.
      - apply IHv; [assumption|]. intros; apply K; now right. }
    rewrite E, sum32_ok; [f_equal; lia|apply Forall_forall; intros x Hx; apply in_map_iff in Hx as (y & <- & _); apply zlen_nonneg|lia|lia].
Qed.

(** Values with a small encoding have short strings only. *)
Lemma enc_short g : zlen (enc g) < 2^31 -> short g.
Proof.
  induction g as [g Hv Hm | v IH | m IH] using gc_nest_ind; intros Hs.
  - destruct g; try nested_contra Hv Hm; (split; [|exact I]); cbn [strings_here]; try exact I;
      cbn [enc] in Hs; rewrite zlen_app, le_zlen in Hs.
    + rewrite enc_str_zlen in Hs. lia.
    + apply Forall_forall. intros s Hi. unfold enc_seq in Hs. rewrite zlen_app, le_zlen, concat_zlen in Hs.
      assert (zlen (enc_str s) <= total (map (fun a => zlen (enc_str a)) v)) by (apply (total_in (fun a => zlen (enc_str a))); [intros; apply zlen_nonneg|assumption]).
      rewrite enc_str_zlen in *. lia.
  - apply everywhere_vec. split; [exact I|]. cbn [enc] in Hs. unfold enc_seq in Hs. rewrite !zlen_app, !le_zlen, concat_zlen in Hs.
    rewrite Forall_forall in IH. apply Forall_forall. intros e He. apply IH; [assumption|].
    assert (zlen (enc e) <= total (map (fun a => zlen (enc a)) v)) by (apply (total_in (fun a => zlen (enc a))); [intros; apply zlen_nonneg|assumption]). lia.
  - cbn [enc] in Hs. unfold enc_seq in Hs. rewrite !zlen_app, !le_zlen, concat_zlen in Hs.
    assert (K : forall kv, In kv m -> zlen (enc_str (fst kv) ++ enc (snd kv)) < 2^31).
    { intros kv Hk. assert (zlen (enc_str (fst kv) ++ enc (snd kv)) <= total (map (fun a => zlen (enc_str (fst a) ++ enc (snd a))) m))
        by (apply (total_in (fun a => zlen (enc_str (fst a) ++ enc (snd a)))); [intros; apply zlen_nonneg|assumption]). lia. }
    apply everywhere_map. split.
    + cbn. apply Forall_map, Forall_forall. intros kv Hk. specialize (K kv Hk). rewrite zlen_app, enc_str_zlen in K.
      pose proof (enc_pos (snd kv)). lia.
    + rewrite Forall_forall in IH. apply Forall_forall. intros kv Hk. apply IH; [assumption|]. specialize (K kv Hk).
      rewrite zlen_app, enc_str_zlen in K. pose proof (str_len_nonneg (fst kv)). lia.
Qed.
