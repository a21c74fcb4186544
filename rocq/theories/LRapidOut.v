(** The text written by to_json as it is read by rapidjson. *)
From Coq Require Import ZArith Bool Lia Ascii String List.
From Verif Require Import Base F64 StrMap Value SGet MNum LNum LNum2 LJson2Doc MText MJson SJson SJsonText SRapid SToJson MToJson LJson2Lex LToJson LToJsonNum MRapid LRapid LRapidUtf LRapidDoc.
Import ListNotations.
Local Open Scope Z_scope.

(** The decimal exponent [d] of a real that is nearly m * 10^(d+1-p). *)
Lemma dec_exp p m d B v f : 1 <= p -> 10 ^ (p - 1) <= m < 10 ^ p -> 0 <= B -> 0 <= d + 1 - p + B -> 0 < f -> 0 < v ->
  2 * Z.abs (m * 10 ^ (d + 1 - p + B) * f - v * 10 ^ B) * 10 ^ (p - 1) <= v * 10 ^ B ->
  (v <= 10 ^ 22 * f -> d <= 22) /\ (f <= v * 10 ^ 7 -> -8 <= d).
Proof.
  intros Hp Hm HB Hd Hf Hv H. set (a := d + 1 - p + B) in *.
  pose proof (pow10_pos (p - 1) ltac:(lia)) as P1. pose proof (pow10_pos a Hd) as Pa. pose proof (pow10_pos B HB) as PB.
  assert (E : 2 * Z.abs (m * 10 ^ a * f - v * 10 ^ B) <= v * 10 ^ B).
  { pose proof (Z.abs_nonneg (m * 10 ^ a * f - v * 10 ^ B)) as Az. etransitivity; [|exact H]. clear - P1 Az. nia. }
  assert (U : 2 * (m * 10 ^ a * f) <= 3 * (v * 10 ^ B)) by lia. assert (L : v * 10 ^ B <= 2 * (m * 10 ^ a * f)) by lia. clear H E.
  split; intros K.
  - destruct (Z.le_gt_cases d 22) as [?|G]; [assumption|exfalso].
    assert (T : 10 ^ (23 + B) <= 10 ^ (p - 1) * 10 ^ a) by (rewrite <- Z.pow_add_r by lia; apply Z.pow_le_mono_r; unfold a; lia).
    rewrite Z.pow_add_r in T by lia. change (10 ^ 23) with (10 * 10 ^ 22) in T. pose proof (pow10_pos 22 ltac:(lia)) as P22.
    assert (10 * 10 ^ 22 * 10 ^ B <= m * 10 ^ a) by nia.
    generalize dependent (10 ^ 22). intros c K T P22 H. assert (v * 10 ^ B <= c * f * 10 ^ B) by nia.
    assert (10 * c * 10 ^ B * f <= m * 10 ^ a * f) by nia. assert (0 < c * f * 10 ^ B) by nia. lia.
  - destruct (Z.le_gt_cases (-8) d) as [?|G]; [assumption|exfalso].
    assert (T : 10 ^ (a + p) * 10 ^ 8 <= 10 ^ B) by (rewrite <- Z.pow_add_r by lia; apply Z.pow_le_mono_r; unfold a; lia).
    rewrite Z.pow_add_r in T by lia. change (10 ^ 8) with (10 * 10 ^ 7) in T. pose proof (pow10_pos 7 ltac:(lia)) as P7.
    assert (M : m * 10 ^ a * (10 * 10 ^ 7) <= 10 ^ B).
    { etransitivity; [|exact T]. apply Z.mul_le_mono_nonneg_r; [lia|]. rewrite (Z.mul_comm (10 ^ a)). apply Z.mul_le_mono_nonneg_r; lia. }
    generalize dependent (10 ^ 7). intros c K T P7 M. 
    assert (v * 10 ^ B * c <= 2 * (m * 10 ^ a * f) * c) by nia. assert (f * 10 ^ B <= v * c * 10 ^ B) by nia.
    assert (m * 10 ^ a * (10 * c) * f <= 10 ^ B * f) by nia. assert (0 < 10 ^ B * f) by nia. nia.
Qed.
Lemma real_plain P x : (1 <= P <= 15)%nat -> f64 x -> is_finite x = true -> medium x -> exists j, plain (print_g P x) j /\ real_doc P x j.
Proof.
  intros HP Hx Hf Hr. destruct (number_parts P x ltac:(lia) Hx Hf) as (j & _ & R & l & lf & e & real & N & Db & Ej & D).
  exists j. split; [|exact R]. exists (fsign x), l, lf, e, real. split; [exact N|].
  assert (T : 10 ^ Z.of_nat P <= 10 ^ 15) by (apply Z.pow_le_mono_r; lia). change (10 ^ 15) with 1000000000000000 in T.
  destruct real.
  - right. split; [reflexivity|]. split; [lia|]. split; [|exact Ej].
    destruct D as [[_ D]|(m & d & B & Hp & Hm & HB & Hd & H)]; [discriminate|].
    assert (V : 0 < fmag x).
    { pose proof (fmag_nonneg x). destruct (Z.eq_dec (fmag x) 0) as [E|E]; [exfalso|lia]. rewrite E in H.
      pose proof (pow10_pos (Z.of_nat P - 1) ltac:(lia)) as P1. pose proof (pow10_pos (d + 1 - Z.of_nat P + B) Hd) as Pa. pose proof fone_pos as F.
      rewrite !Z.mul_0_l, Z.sub_0_r in H. assert (0 < m * 10 ^ (d + 1 - Z.of_nat P + B) * fone) by (apply Z.mul_pos_pos; [apply Z.mul_pos_pos|]; lia). nia. }
    destruct Hr as [Hr|[R1 R2]]; [lia|]. destruct (dec_exp (Z.of_nat P) m d B (fmag x) fone ltac:(lia) Hm HB Hd fone_pos V H) as [D1 D2]. specialize (D1 R2). specialize (D2 R1). lia.
  - left. split; [reflexivity|]. split; [|exact Ej].
    destruct N as (u & tf & te & _ & Hu & _ & Hf' & _ & Hne).
    assert (tf = []) as -> by (destruct tf; [reflexivity|]; assert (false = true) by (apply Hne; discriminate); discriminate).
    assert (lf = []) as -> by (destruct Hf' as [[_ E]|(v & E & _)]; [exact E|discriminate]). rewrite app_nil_r in Db.
    unfold limit. destruct (fsign x); lia.
Qed.
Lemma int_plain n : int64 n -> plain (print_int n) (JInt n).
Proof.
  intros Hn. unfold int64 in Hn. destruct (jnumber_number _ _ (int_json n)) as (neg & l & lf & e & real & N & E).
  exists neg, l, lf, e, real. split; [exact N|]. destruct real; [discriminate|]. left. injection E as ->.
  split; [reflexivity|]. split; [|reflexivity]. destruct (number_digits _ _ _ _ _ _ N) as [Dl _]. apply dval_nonneg in Dl. unfold limit. destruct neg; lia.
Qed.
Lemma jstring_more t s : jstring false t s -> jstring true t s.
Proof.
  intros [u r H]. constructor. induction H; try discriminate; [constructor|now apply jc_plain|now apply jc_utf8|].
  apply jc_escape; [|assumption]. destruct H as [H|[H _]]; [now left|discriminate].
Qed.
