(** Documents read by rapidjson. *)
From Coq Require Import ZArith Bool Lia Ascii String List.
From Verif Require Import Base F64 Value MNum LNum LNum2 LJson2Doc LJson2Lex MJson SJsonText SRapid MRapid LRapidNum LRapidStr LRapid LRapidInt LRapidReal LRapidRel LRapidAcc LRapidFin LRapidUtf.
Import ListNotations.
Local Open Scope Z_scope.

Lemma digits_map_digit l : Forall is_digit l -> digits (map digit l) l.
Proof.
  induction 1 as [|d l Hd Hl IH]; [constructor|]. constructor; [|exact IH]. unfold is_digit in Hd. split; [lia|reflexivity].
Qed.
(** The texts of numbers. *)
Lemma number_literal t neg l lf e real : number t neg l lf e real -> exists lf' ex, literal t neg l lf' ex /\
  fd lf' = lf /\ ev ex = e /\ parts_ok l lf' ex /\ (real = true <-> (lf' <> None \/ ex <> None)).
Proof.
  intros (u & tf & te & -> & Hu & Hi & Hf & He & Hr). apply digits_map in Hu as [-> Hl].
  assert (F : exists lf', frac_text tf lf' /\ fd lf' = lf /\ Forall is_digit lf /\ (tf <> [] <-> lf' <> None)).
  { destruct Hf as [[-> ->]|(v & -> & Hv & Ne)].
    - exists None. split; [reflexivity|]. split; [reflexivity|]. split; [constructor|]. tauto.
    - apply digits_map in Hv as [-> Hlf]. exists (Some lf). split; [now split|]. split; [reflexivity|]. split; [assumption|]. split; intros _; discriminate. }
  assert (E : exists ex, exp_text te ex /\ ev ex = e /\ match ex with Some (_, le) => Forall is_digit le /\ le <> [] | None => True end /\ (te <> [] <-> ex <> None)).
  { destruct He as [[-> ->]|(c & v & le & ne & sg & -> & Hc & Hv & Ne & Hs & ->)].
    - exists None. split; [reflexivity|]. split; [reflexivity|]. split; [exact I|]. tauto.
    - apply digits_map in Hv as [-> Hle]. exists (Some (ne, le)). split; [exists c, sg; auto|]. split; [reflexivity|]. split; [now split|]. split; intros _; discriminate. }
  destruct F as (lf' & F1 & F2 & F3 & F4). destruct E as (ex & E1 & E2 & E3 & E4). exists lf', ex.
  split; [exists tf, te; auto|]. split; [assumption|]. split; [assumption|]. split; [rewrite <- F2 in F3; repeat (split; [assumption|]); exact E3|].
  rewrite Hr. rewrite <- F4, <- E4. destruct tf, te; cbn [app]; intuition congruence.
Qed.
Lemma literal_number t neg l lf ex : literal t neg l lf ex -> exists real, number t neg l (fd lf) (ev ex) real /\ parts_ok l lf ex /\
  (real = true <-> (lf <> None \/ ex <> None)).
Proof.
  intros (tf & te & -> & Hl & Hi & Hf & He).
  assert (F : frac_part tf (fd lf) /\ Forall is_digit (fd lf) /\ (tf <> [] <-> lf <> None)).
  { destruct lf as [lf|]; cbn [frac_text fd] in *.
    - destruct Hf as (-> & Hlf & Ne). split; [|split; [assumption|split; intros _; discriminate]]. right. eexists. split; [reflexivity|]. split; [now apply digits_map_digit|assumption].
    - subst tf. split; [now left|]. split; [constructor|tauto]. }
  assert (E : exp_part te (ev ex) /\ match ex with Some (_, le) => Forall is_digit le /\ le <> [] | None => True end /\ (te <> [] <-> ex <> None)).
  { destruct ex as [[ne le]|]; cbn [exp_text ev] in *.
    - destruct He as (c & sg & -> & Hc & Hs & Hle & Ne). split; [|split; [now split|split; intros _; discriminate]]. right.
      exists c, (map digit le), le, ne, sg. repeat (split; [first [assumption | reflexivity | now apply digits_map_digit]|]). reflexivity.
    - subst te. split; [now left|]. split; [exact I|tauto]. }
  destruct F as (F1 & F2 & F3). destruct E as (E1 & E2 & E3).
  exists (match tf ++ te with [] => false | _ => true end).
  assert (R : match tf ++ te with [] => false | _ => true end = true <-> tf ++ te <> []) by (destruct (tf ++ te); split; congruence).
  split; [exists (map digit l), tf, te; repeat (split; [first [reflexivity | assumption | now apply digits_map_digit]|]); exact R|].
  split; [repeat (split; [assumption|]); exact E2|]. rewrite R, <- F3, <- E3. destruct tf, te; cbn [app]; intuition congruence.
Qed.
Lemma number_digits t neg l lf e real : number t neg l lf e real -> Forall is_digit l /\ Forall is_digit lf.
Proof. intros H. destruct (number_literal _ _ _ _ _ _ H) as (lf' & ex & _ & <- & _ & (Hl & _ & Hf & _) & _). auto. Qed.
Lemma number_jnumber t neg l lf e real : number t neg l lf e real ->
  jnumber t (if real then JDbl ((if neg then 2^63 else 0) + scale (dval (l ++ lf)) (e - zlen lf)) else JInt (if neg then - dval l else dval l)).
Proof.
  intros (u & tf & te & -> & Hu & Hi & Hf & He & Hr). destruct real.
  - apply jn_real; try assumption. now apply Hr.
  - assert (N : tf ++ te = []) by (destruct (tf ++ te) eqn:N; [reflexivity|]; exfalso; assert (false = true) by (apply Hr; discriminate); discriminate).
    rewrite N, app_nil_r. now apply jn_int.
Qed.
Lemma jnumber_number t j : jnumber t j -> exists neg l lf e real, number t neg l lf e real /\
  j = if real then JDbl ((if neg then 2^63 else 0) + scale (dval (l ++ lf)) (e - zlen lf)) else JInt (if neg then - dval l else dval l).
Proof.
  intros [neg u l Hu Hi|neg u l tf lf te e Hu Hi Hf He Hne].
  - exists neg, l, [], 0, false. split; [|reflexivity]. exists u, [], [].
    split; [cbn [app]; now rewrite app_nil_r|]. split; [assumption|]. split; [assumption|]. split; [now left|]. split; [now left|]. cbn. split; [discriminate|congruence].
  - exists neg, l, lf, e, true. split; [|reflexivity]. exists u, tf, te. repeat (split; [first [reflexivity|assumption]|]). tauto.
Qed.
Lemma maxi_limit neg : maxi neg = limit neg.
Proof. reflexivity. Qed.

(** Exact numbers. *)
Lemma plain_rj t j : plain t j -> rj_num t j.
Proof.
  intros (neg & l & lf & e & real & Hn & H). destruct (number_literal _ _ _ _ _ _ Hn) as (lf' & ex & L & <- & <- & P & R).
  exists neg, l, lf', ex. split; [exact L|]. destruct H as [(-> & Hd & ->)|(-> & Hm & Hp & ->)].
  - assert (lf' = None /\ ex = None) as [-> ->].
    { destruct lf', ex; try (split; reflexivity); exfalso; assert (false = true) by (apply R; first [left; discriminate | right; discriminate]); discriminate. }
    destruct P as (Hl & Hi & _). now apply num_res_int.
  - apply num_res_exact; try assumption. now apply R.
Qed.
Lemma plain_jnumber t j : plain t j -> jnumber t j.
Proof.
  intros (neg & l & lf & e & real & Hn & H). apply number_jnumber in Hn. destruct H as [(-> & _ & ->)|(-> & _ & _ & ->)]; exact Hn.
Qed.
(** Numbers up to rounding. *)
Lemma fsign_of (neg : bool) x : 0 <= x < inf -> fsign ((if neg then 2^63 else 0) + x) = neg /\ is_finite ((if neg then 2^63 else 0) + x) = true /\
  fmag ((if neg then 2^63 else 0) + x) = fmag x /\ f64 ((if neg then 2^63 else 0) + x).
Proof.
  intros H. unfold inf in H. set (e := x / 2^52). set (m := x mod 2^52).
  assert (Ex : x = e * 2^52 + m) by (unfold e, m; rewrite Z.mul_comm; apply Z.div_mod; lia).
  assert (Hm : 0 <= m < 2^52) by (apply Z.mod_pos_bound; lia). assert (He : 0 <= e < 2047) by lia.
  assert (E1 : (if neg then 2^63 else 0) + x = fpack neg e m) by (unfold fpack; lia).
  assert (E2 : x = fpack false e m) by (unfold fpack; lia).
  destruct (fpack_fields neg e m ltac:(lia) Hm) as (S1 & S2 & S3). destruct (fpack_fields false e m ltac:(lia) Hm) as (_ & T2 & T3).
  rewrite E1. split; [exact S1|]. split; [unfold is_finite; rewrite S2; apply negb_true_iff; apply Z.eqb_neq; lia|]. split.
  - rewrite E2 at 1. unfold fmag. now rewrite S2, S3, T2, T3.
  - apply fpack_range; lia.
Qed.
Lemma signed_sign (neg : bool) x : 0 <= x <= 2047 * 2^52 -> fsign ((if neg then 2^63 else 0) + x) = neg.
Proof.
  intros H. set (e := x / 2^52). set (m := x mod 2^52).
  assert (Ex : x = e * 2^52 + m) by (unfold e, m; rewrite Z.mul_comm; apply Z.div_mod; lia).
  assert (Hm : 0 <= m < 2^52) by (apply Z.mod_pos_bound; lia). assert (He : 0 <= e < 2048) by lia.
  assert (E1 : (if neg then 2^63 else 0) + x = fpack neg e m) by (unfold fpack; lia).
  rewrite E1. now destruct (fpack_fields neg e m ltac:(lia) Hm).
Qed.
Lemma number_near t neg l lf e real : number t neg l lf e real -> zlen l <= 308 -> zlen lf <= 2 * 10^9 ->
  vnum (dval (l ++ lf)) (e - zlen lf) <= 10^308 * vden (e - zlen lf) -> (dval (l ++ lf) = 0 -> e <= 308 + zlen lf) ->
  real = true \/ limit neg < dval l -> exists x, rj_num t (JDbl x) /\ near_number neg l lf e x.
Proof.
  intros Hn Hz Hzf Hv H0 Hr.
  destruct (number_literal _ _ _ _ _ _ Hn) as (lf' & ex & L & <- & <- & P & R).
  destruct (num_res_about neg l lf' ex P) as (x & E & Hx & Hx0 & A); [rewrite maxi_limit; tauto|assumption..|].
  eexists. split; [exists neg, l, lf', ex; split; [exact L|exact E]|].
  destruct (fsign_of neg x Hx) as (S1 & S2 & S3 & S4). unfold near_number. rewrite S3. split; [exact S4|]. split; [exact S2|]. split; [exact S1|].
  split; [intros Hm0; now rewrite Hx0|]. intros Hm Hlo. destruct (A Hm Hlo) as [_ B].
  pose proof (fmag_nonneg x). pose proof (vden_pos (ev ex - zlen (fd lf'))). pose proof (vnum_pos _ (ev ex - zlen (fd lf')) Hm). pose proof fone_pos.
  change (2 ^ 52) with ulps. apply (rel_error (slack l)); [unfold slack; lia|pos|pos|exact B].
Qed.
Lemma number_int t neg l lf e : number t neg l lf e false -> dval l <= limit neg -> rj_num t (JInt (if neg then - dval l else dval l)).
Proof. intros Hn H. apply plain_rj. exists neg, l, lf, e, false. split; [exact Hn|]. left. auto. Qed.
Lemma moderate_rj t : moderate t -> exists j, rj_num t j /\ close t j.
Proof.
  intros (neg & l & lf & e & real & Hn & Hz & Hzf & Hv & H0).
  assert (D : (real = false /\ dval l <= limit neg) \/ (real = true \/ limit neg < dval l)).
  { destruct real; [auto|]. destruct (Z.le_gt_cases (dval l) (limit neg)); auto. }
  destruct D as [[-> D]|D].
  - eexists. split; [now apply (number_int _ _ _ _ _ Hn)|]. exists neg, l, lf, e, false. split; [exact Hn|]. left. auto.
  - destruct (number_near _ _ _ _ _ _ Hn Hz Hzf Hv H0 D) as (x & X & Nx). exists (JDbl x). split; [exact X|].
    exists neg, l, lf, e, real. split; [exact Hn|]. right. split; [exact D|]. exists x. auto.
Qed.
Lemma rnd_nonneg num den : 0 <= num -> 0 < den -> 0 <= rnd num den.
Proof. intros Hn Hd. unfold rnd. destruct (num =? 0); [lia|]. now apply f_of_Q_range. Qed.
Lemma fmag_pow10_pos n : 0 <= n <= 308 -> 0 < fmag (pow10 n).
Proof.
  intros H. destruct (pow10_about n H) as [_ [_ R]]. rewrite Z.mul_1_r in R. pose proof fone_pos. pose proof ulps_pos.
  assert (0 < 10 ^ n) by (apply Z.pow_pos_nonneg; lia). assert (0 < ulps ^ 1) by (apply Z.pow_pos_nonneg; lia).
  assert (0 < 10 ^ n * fone * ulps ^ 1) by (apply Z.mul_pos_pos; [apply Z.mul_pos_pos|]; assumption).
  assert (0 < (ulps + 1) ^ 1) by (apply Z.pow_pos_nonneg; lia). pose proof (fmag_nonneg (pow10 n)). 
  destruct (Z.eq_dec (fmag (pow10 n)) 0) as [E|E]; [rewrite E in R; lia|lia].
Qed.
Lemma fast_path_nonneg d e : 0 <= fast_path d e.
Proof. unfold fast_path. destruct (Z.ltb_spec e (-308)) as [_|Lo]; [reflexivity|].
  assert (I : 0 <= inf) by (unfold inf; lia). pose proof fone_pos. pose proof (fmag_nonneg d).
  destruct (Z.leb_spec 0 e) as [P|P].
  - unfold dmul. destruct (inf <=? d); [exact I|]. apply rnd_nonneg; [|apply Z.mul_pos_pos; assumption]. apply Z.mul_nonneg_nonneg; [assumption|apply fmag_nonneg].
  - unfold ddiv. destruct (inf <=? d); [exact I|]. apply rnd_nonneg; [assumption|]. apply fmag_pow10_pos. lia.
Qed.
Lemma strtod_nonneg d p : 0 <= strtod_normal d p.
Proof. unfold strtod_normal. destruct (p <? -308); apply fast_path_nonneg. Qed.
(** Numbers accepted are of the right kind. *)
Lemma rj_like t j : rj_num t j -> exists j0, jnumber t j0 /\ like j j0.
Proof.
  intros (neg & l & lf & ex & L & E). destruct (literal_number _ _ _ _ _ L) as (real & Hn & P & R).
  pose proof (number_jnumber _ _ _ _ _ _ Hn) as J. eexists. split; [exact J|]. destruct P as (Hl & Hi & Hf & _).
  pose proof (dval_range l Hl) as Rl.
  assert (ML : maxi neg = if neg then 2^63 else 2^64 - 1) by reflexivity.
  destruct (num_res_kind _ _ _ _ _ Hl Hi E) as [(-> & -> & Hm & ->)|(y & p & -> & Hx & Hk)].
  - assert (real = false) as -> by (destruct real; [exfalso; destruct (proj1 R eq_refl); congruence|reflexivity]). apply like_int. destruct neg; lia.
  - assert (Hx0 := strtod_nonneg y p). set (x := strtod_normal y p) in *. clearbody x. destruct real.
    +      rewrite signed_fneg by lia. destruct (fsign_of neg x ltac:(lia)) as (S1 & S2 & _ & _). apply like_real; [exact S2|].
      rewrite S1. symmetry. apply signed_sign. apply scale_range. apply dval_nonneg. apply Forall_app. now split.
    + rewrite signed_fneg by lia. destruct (fsign_of neg x ltac:(lia)) as (S1 & S2 & _ & _).
      assert (Hd : maxi neg < dval l).
      { destruct Hk as [Hk|[Hk|Hk]]; [| |exact Hk]; exfalso; assert (false = true) by (apply R; tauto); discriminate. }
      apply like_big; [exact S2|destruct neg; lia|]. rewrite S1. destruct neg; symmetry; [apply Z.ltb_lt|apply Z.ltb_ge]; lia.
Qed.

(** JSON texts are UTF-8. *)
Lemma utf8_text_app a b : utf8_text a -> utf8_text b -> utf8_text (a ++ b).
Proof. induction 1 as [|n t Hn Hs U IH]; intros Hb; [exact Hb|]. rewrite <- app_assoc. constructor; auto. Qed.
Lemma utf8_ascii t : Forall asc t -> utf8_text t.
Proof.
  induction 1 as [|c t Hc Ht IH]; [constructor|]. assert (R : utf8 (Z.of_N (byte c)) = [c]).
  { unfold asc in Hc. rewrite utf8_low by lia. rewrite N2Z.id. unfold ch, byte. now rewrite ascii_N_embedding. }
  change (c :: t) with ([c] ++ t). rewrite <- R. unfold asc in Hc. constructor; [lia..|assumption].
Qed.
Lemma utf8_cons c t : asc c -> utf8_text t -> utf8_text (c :: t).
Proof. intros Hc Ht. apply (utf8_text_app [c] t); [|assumption]. apply utf8_ascii. now constructor. Qed.
Lemma jchars_utf8 t s : jchars true t s -> utf8_text t.
Proof.
  induction 1; repeat first [assumption | apply utf8_cons; [first [now apply asc_ch | reflexivity | unfold asc; lia]|] | apply utf8_text_app; [apply utf8_ascii; eapply hex4_asc; eassumption|]].
  - constructor.
  - constructor; [lia|assumption..].
  - apply utf8_cons; [eapply escape_asc; eassumption|assumption].
Qed.
Lemma digits_asc u l : digits u l -> Forall asc u.
Proof. induction 1; constructor; [eapply dig_asc; eassumption|assumption]. Qed.
Lemma jnumber_utf8 t j : jnumber t j -> utf8_text t.
Proof.
  intros H. apply jnumber_number in H as (neg & l & lf & e & real & (u & tf & te & -> & Hu & _ & Hf & He & _) & _).
  apply utf8_ascii. rewrite !Forall_app. split; [destruct neg; repeat constructor|]. split; [now apply (digits_asc _ l)|]. split.
  - destruct Hf as [[-> _]|(v & -> & Hv & _)]; [constructor|]. constructor; [reflexivity|now apply (digits_asc _ lf)].
  - destruct He as [[-> _]|(c & v & le & ne & sg & -> & Hc & Hv & _ & Hs & _)]; [constructor|].
    constructor; [destruct Hc as [->| ->]; reflexivity|]. apply Forall_app. split; [|now apply (digits_asc _ le)].
    destruct Hs as [->|[_ ->]]; [destruct ne|]; repeat constructor.
Qed.
Lemma ws_utf8 w : ws w -> utf8_text w.
Proof. intros H. apply utf8_ascii. now apply ws_asc. Qed.
Ltac u8 := repeat first [assumption | apply utf8_cons; [reflexivity|] | apply utf8_text_app | now apply ws_utf8 | apply ut_nil].
Lemma json_utf8_rec :
  (forall t j, jval true t j -> utf8_text t) /\ (forall t l, jelems true t l -> utf8_text t) /\ (forall t m, jmembers true t m -> utf8_text t).
Proof.
  assert (S : forall t s, jstring true t s -> utf8_text t).
  { intros t s [u s' Hu]. apply utf8_cons; [now apply asc_ch|]. apply utf8_text_app; [now apply (jchars_utf8 u s')|]. apply utf8_cons; [now apply asc_ch|constructor]. }
  apply jjson_ind; intros; u8.
  all: first [eapply jnumber_utf8; eassumption | eapply S; eassumption | now apply utf8_ascii].
Qed.
Lemma json_utf8 t j : json_text true t j -> utf8_text t.
Proof. intros (w & u & w' & -> & W & V & W'). u8. now apply json_utf8_rec in V. Qed.

(** JSON texts have no NUL bytes. *)
Definition solid (c : ascii) : Prop := byte c <> 0%N.
Lemma solid_ch n : (0 < n < 256)%N -> solid (ch n).
Proof. intros H. unfold solid. rewrite byte_ch by lia. lia. Qed.
Lemma dig_solid c d : dig c d -> solid c.
Proof. intros [H ->]. apply solid_ch. lia. Qed.
Lemma digits_solid u l : digits u l -> Forall solid u.
Proof. induction 1; constructor; [eapply dig_solid; eassumption|assumption]. Qed.
Lemma hex4_solid h n : hex4 h n -> Forall solid h.
Proof.
  intros (a & b & c & d & x & y & z & w & -> & Ha & Hb & Hc & Hd & _).
  assert (K : forall c d, hex c d -> solid c).
  { intros k e [H|(H & [-> | ->])]; [eapply dig_solid; eassumption| |]; apply solid_ch; lia. }
  repeat (constructor; [eapply K; eassumption|]). constructor.
Qed.
Lemma escape_solid c d : simple_escape true c d -> solid c.
Proof.
  intros [H|(_ & -> & _)]; [|discriminate]. cbn [In] in H.
  repeat (destruct H as [H|H]; [injection H as <- _; vm_compute; discriminate|]). destruct H.
Qed.
Lemma utf8_solid n : 128 <= n < 1114112 -> Forall solid (utf8 n).
Proof.
  intros H. destruct (utf8_cases n ltac:(lia)) as [(c & R & A)|[_ R]].
  - exfalso. unfold utf8 in R. destruct (Z.ltb_spec n 128); [lia|]. destruct (n <? 2048); [|destruct (n <? 65536)]; discriminate R.
  - eapply Forall_impl; [|exact R]. intros c Hc. unfold high, solid in *. lia.
Qed.
Lemma jchars_solid t s : jchars true t s -> Forall solid t.
Proof.
  induction 1; repeat first [assumption | apply Forall_nil | apply Forall_cons; [first [apply solid_ch; lia | discriminate | unfold solid; lia | eapply escape_solid; eassumption]|] |
    apply Forall_app; split; [first [eapply hex4_solid; eassumption | apply utf8_solid; lia]|]].
Qed.
Lemma ws_solid w : ws w -> Forall solid w.
Proof. apply Forall_impl. intros c H. unfold solid, blank in *. cbn in H. lia. Qed.
Lemma jnumber_solid t j : jnumber t j -> Forall solid t.
Proof.
  intros H. apply jnumber_number in H as (neg & l & lf & e & real & (u & tf & te & -> & Hu & _ & Hf & He & _) & _).
  rewrite !Forall_app. split; [destruct neg; repeat constructor; discriminate|]. split; [now apply (digits_solid _ l)|]. split.
  - destruct Hf as [[-> _]|(v & -> & Hv & _)]; [constructor|]. constructor; [discriminate|now apply (digits_solid _ lf)].
  - destruct He as [[-> _]|(c & v & le & ne & sg & -> & Hc & Hv & _ & Hs & _)]; [constructor|].
    constructor; [destruct Hc as [->| ->]; discriminate|]. apply Forall_app. split; [|now apply (digits_solid _ le)].
    destruct Hs as [->|[_ ->]]; [destruct ne|]; repeat constructor; discriminate.
Qed.
Lemma json_solid_rec :
  (forall t j, jval true t j -> Forall solid t) /\ (forall t l, jelems true t l -> Forall solid t) /\ (forall t m, jmembers true t m -> Forall solid t).
Proof.
  assert (S : forall t s, jstring true t s -> Forall solid t).
  { intros t s [u s' Hu]. apply Forall_cons; [apply solid_ch; lia|]. apply Forall_app. split; [now apply (jchars_solid u s')|]. apply Forall_cons; [apply solid_ch; lia|constructor]. }
  apply jjson_ind; intros;
    repeat first [assumption | apply Forall_nil | apply Forall_app; split | now apply ws_solid | eapply jnumber_solid; eassumption | eapply S; eassumption | apply Forall_cons; [discriminate|]].
Qed.
Lemma json_solid t j : json_text true t j -> Forall solid t.
Proof. intros (w & u & w' & -> & W & V & W'). rewrite !Forall_app. split; [now apply ws_solid|]. split; [now apply json_solid_rec in V|now apply ws_solid]. Qed.
