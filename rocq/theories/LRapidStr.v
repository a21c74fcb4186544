(** Strings in the rapidjson reader. *)
From Coq Require Import ZArith Bool Lia Ascii String List.
From Verif Require Import Base F64 Value MNum LNum MJson SJsonText SRapid MRapid LRapidNum.
Import ListNotations.
Local Open Scope Z_scope.

Lemma ch_byte c : ch (byte c) = c.
Proof. apply ascii_N_embedding. Qed.
Lemma byte_ch n : (n < 256)%N -> byte (ch n) = n.
Proof. intros H. unfold byte, ch. apply N_ascii_embedding. exact H. Qed.
Lemma byte_lt c : (byte c < 256)%N.
Proof. apply N_ascii_bounded. Qed.

(** * Hexadecimal digits *)
Lemma hex_val_hex c d : hex_val c = Some d -> hex c d.
Proof.
  unfold hex_val, hex, dig. fold (byte c). pose proof (ch_byte c) as B. set (n := Z.of_N (byte c)) in *.
  assert (E : c = ch (Z.to_N n)) by (unfold n; now rewrite N2Z.id).
  destruct (Z.leb_spec 48 n); destruct (Z.leb_spec n 57); cbn [andb];
  try (intros K; apply Some_inj in K; subst d; left; split; [lia|]; replace (48 + (n - 48)) with n by lia; exact E).
  all: destruct (Z.leb_spec 65 n); destruct (Z.leb_spec n 70); cbn [andb];
    try (intros K; apply Some_inj in K; subst d; right; split; [lia|]; left; replace (55 + (n - 65 + 10)) with n by lia; exact E).
  all: destruct (Z.leb_spec 97 n); destruct (Z.leb_spec n 102); cbn [andb]; try discriminate; try lia.
  all: intros K; apply Some_inj in K; subst d; right; split; [lia|]; right; replace (87 + (n - 97 + 10)) with n by lia; exact E.
Qed.
Lemma hex_hex_val c d : hex c d -> hex_val c = Some d.
Proof.
  assert (C : forall x, 0 <= x < 256 -> Z.of_N (N_of_ascii (ch (Z.to_N x))) = x).
  { intros x Hx. fold (byte (ch (Z.to_N x))). rewrite byte_ch by lia. lia. }
  intros [[H ->]|[H [-> | ->]]]; unfold hex_val; rewrite C by lia.
  - destruct (Z.leb_spec 48 (48 + d)); [|lia]. destruct (Z.leb_spec (48 + d) 57); [|lia]. cbn [andb]. f_equal. lia.
  - destruct (Z.leb_spec (55 + d) 57); [lia|]. rewrite andb_false_r.
    destruct (Z.leb_spec 65 (55 + d)); [|lia]. destruct (Z.leb_spec (55 + d) 70); [|lia]. cbn [andb]. f_equal. lia.
  - destruct (Z.leb_spec (87 + d) 57); [lia|]. rewrite andb_false_r. destruct (Z.leb_spec (87 + d) 70); [lia|]. rewrite andb_false_r.
    destruct (Z.leb_spec 97 (87 + d)); [|lia]. destruct (Z.leb_spec (87 + d) 102); [|lia]. cbn [andb]. f_equal. lia.
Qed.
Lemma hex_range c d : hex c d -> 0 <= d < 16.
Proof. intros [[H _]|[H _]]; lia. Qed.
Lemma parse_hex_eq h n r : hex4 h n -> parse_hex 4 0 (h ++ r) = Some (n, r).
Proof.
  intros (a & b & c & d & x & y & z & w & -> & Ha & Hb & Hc & Hd & ->). cbn [app parse_hex].
  now rewrite (hex_hex_val _ _ Ha), (hex_hex_val _ _ Hb), (hex_hex_val _ _ Hc), (hex_hex_val _ _ Hd).
Qed.
Lemma parse_hex_inv t n r : parse_hex 4 0 t = Some (n, r) -> exists h, t = h ++ r /\ hex4 h n.
Proof.
  cbn [parse_hex]. destruct t as [|a [|b [|c [|d t]]]]; try discriminate;
    try (destruct (hex_val a); discriminate); try (destruct (hex_val a); [|discriminate]; destruct (hex_val b); discriminate);
    try (destruct (hex_val a); [|discriminate]; destruct (hex_val b); [|discriminate]; destruct (hex_val c); discriminate).
  destruct (hex_val a) as [x|] eqn:Ea; [|discriminate]. destruct (hex_val b) as [y|] eqn:Eb; [|discriminate].
  destruct (hex_val c) as [z|] eqn:Ec; [|discriminate]. destruct (hex_val d) as [w|] eqn:Ed; [|discriminate].
  intros E. injection E as <- <-. exists [a; b; c; d]. split; [reflexivity|].
  exists a, b, c, d, x, y, z, w. auto 10 using hex_val_hex.
Qed.
Lemma hex4_range h n : hex4 h n -> 0 <= n < 65536.
Proof.
  intros (a & b & c & d & x & y & z & w & -> & Ha & Hb & Hc & Hd & ->).
  apply hex_range in Ha, Hb, Hc, Hd. lia.
Qed.

(** * UTF-8 *)
Lemma lor_small (a : Z) (l : list Z) : forallb (fun x => Z.lor a x =? a + x) l = true -> forall x, In x l -> Z.lor a x = a + x.
Proof. intros H x Hx. rewrite forallb_forall in H. apply Z.eqb_eq. now apply H. Qed.
Lemma in_range k x : 0 <= x < Z.of_nat k -> In x (map Z.of_nat (seq 0 k)).
Proof. intros H. rewrite <- (Z2Nat.id x) by lia. apply in_map. apply in_seq. lia. Qed.
Lemma lor_128 x : 0 <= x < 64 -> Z.lor 128 x = 128 + x.
Proof. intros H. apply (lor_small 128 (map Z.of_nat (seq 0 64))); [vm_compute; reflexivity|]. now apply in_range. Qed.
Lemma lor_192 x : 0 <= x < 32 -> Z.lor 192 x = 192 + x.
Proof. intros H. apply (lor_small 192 (map Z.of_nat (seq 0 32))); [vm_compute; reflexivity|]. now apply in_range. Qed.
Lemma lor_224 x : 0 <= x < 16 -> Z.lor 224 x = 224 + x.
Proof. intros H. apply (lor_small 224 (map Z.of_nat (seq 0 16))); [vm_compute; reflexivity|]. now apply in_range. Qed.
Lemma lor_240 x : 0 <= x < 8 -> Z.lor 240 x = 240 + x.
Proof. intros H. apply (lor_small 240 (map Z.of_nat (seq 0 8))); [vm_compute; reflexivity|]. now apply in_range. Qed.
Lemma land_63 x : Z.land x 63 = x mod 64.
Proof. change 63 with (Z.ones 6). now rewrite Z.land_ones by lia. Qed.
Lemma land_255 x : 0 <= x < 256 -> Z.land x 255 = x.
Proof. intros H. change 255 with (Z.ones 8). rewrite Z.land_ones by lia. now apply Z.mod_small. Qed.
Lemma shiftr_6 x : Z.shiftr x 6 = x / 64. Proof. now rewrite Z.shiftr_div_pow2 by lia. Qed.
Lemma shiftr_12 x : Z.shiftr x 12 = x / 4096. Proof. now rewrite Z.shiftr_div_pow2 by lia. Qed.
Lemma shiftr_18 x : Z.shiftr x 18 = x / 262144. Proof. now rewrite Z.shiftr_div_pow2 by lia. Qed.

Lemma encode_utf8 n : 0 <= n < 1114112 -> encode n = utf8 n.
Proof.
  intros H. unfold encode, utf8. rewrite shiftr_6, shiftr_12, shiftr_18, !land_63.
  assert (M : forall x, 0 <= x mod 64 < 64) by (intros; apply Z.mod_pos_bound; lia).
  destruct (Z.leb_spec n 127).
  - rewrite (proj2 (Z.ltb_lt n 128)) by lia. rewrite land_255 by lia. reflexivity.
  - rewrite (proj2 (Z.ltb_ge n 128)) by lia. destruct (Z.leb_spec n 2047).
    + rewrite (proj2 (Z.ltb_lt n 2048)) by lia. assert (0 <= n / 64 < 32) by (split; [apply Z.div_pos; lia|apply Z.div_lt_upper_bound; lia]).
      rewrite land_255, lor_192, lor_128 by (auto; lia). reflexivity.
    + rewrite (proj2 (Z.ltb_ge n 2048)) by lia. destruct (Z.leb_spec n 65535).
      * rewrite (proj2 (Z.ltb_lt n 65536)) by lia. assert (0 <= n / 4096 < 16) by (split; [apply Z.div_pos; lia|apply Z.div_lt_upper_bound; lia]).
        rewrite land_255, lor_224, !lor_128 by (auto; lia). reflexivity.
      * rewrite (proj2 (Z.ltb_ge n 65536)) by lia. assert (0 <= n / 262144 < 8) by (split; [apply Z.div_pos; lia|apply Z.div_lt_upper_bound; lia]).
        rewrite land_255, lor_240, !lor_128 by (auto; lia). reflexivity.
Qed.
Lemma pair_land a b : 0 <= b < 1024 -> Z.land (Z.shiftl a 10) b = 0.
Proof.
  intros H. apply Z.bits_inj'. intros k Hk. rewrite Z.land_spec, Z.bits_0. destruct (Z.lt_ge_cases k 10).
  - now rewrite Z.shiftl_spec_low.
  - assert (E : Z.testbit b k = false); [|now rewrite E, andb_false_r].
    destruct (Z.eq_dec b 0) as [->|N]; [apply Z.bits_0|]. apply Z.bits_above_log2; [lia|].
    assert (Z.log2 b < 10) by (apply Z.log2_lt_pow2; lia). lia.
Qed.
Lemma pair_code a b : 0 <= b < 1024 -> Z.lor (Z.shiftl a 10) b = a * 1024 + b.
Proof.
  intros H. pose proof (pair_land a b H) as L. rewrite <- Z.lxor_lor by exact L. rewrite <- Z.add_nocarry_lxor by exact L.
  now rewrite Z.shiftl_mul_pow2 by lia.
Qed.

(** * Escapes *)
Lemma escape_of_spec c d : escape_of c = Some d <-> simple_escape true c d.
Proof.
  unfold escape_of, simple_escape. split.
  - repeat (match goal with |- (if Ascii.eqb ?a ?b then _ else _) = _ -> _ => destruct (Ascii.eqb_spec a b) as [->|] end;
      [intros E; apply Some_inj in E; subst d; (right; tauto) || (left; cbn; tauto)|]). discriminate.
  - intros [H|(_ & -> & ->)]; [|reflexivity]. repeat (destruct H as [H|H]; [injection H as <- <-; reflexivity|]). destruct H.
Qed.
Lemma escape_u : escape_of "u" = None.
Proof. reflexivity. Qed.

Lemma parse_code_one h n r : hex4 h n -> ~ (55296 <= n < 57344) -> parse_code (h ++ r) = Some (n, r).
Proof.
  intros H N. unfold parse_code. rewrite (parse_hex_eq h n r H).
  destruct (Z.leb_spec 55296 n); destruct (Z.leb_spec n 57343); cbn [andb]; try reflexivity. lia.
Qed.
Lemma parse_code_pair h1 n1 h2 n2 r : hex4 h1 n1 -> 55296 <= n1 < 56320 -> hex4 h2 n2 -> 56320 <= n2 < 57344 ->
  parse_code (h1 ++ ch 92 :: "u"%char :: h2 ++ r) = Some (65536 + (n1 - 55296) * 1024 + (n2 - 56320), r).
Proof.
  intros H1 R1 H2 R2. unfold parse_code. rewrite (parse_hex_eq h1 n1 _ H1).
  rewrite (proj2 (Z.leb_le 55296 n1)), (proj2 (Z.leb_le n1 57343)), (proj2 (Z.leb_le n1 56319)) by lia. cbn [andb].
  rewrite !consume_eq, (parse_hex_eq h2 n2 _ H2).
  rewrite (proj2 (Z.ltb_ge n2 56320)), (proj2 (Z.ltb_ge 57343 n2)) by lia. cbn [orb].
  rewrite pair_code by lia. do 2 f_equal. lia.
Qed.
Lemma parse_code_inv t n r : parse_code t = Some (n, r) ->
  (exists h, t = h ++ r /\ hex4 h n /\ ~ (55296 <= n < 57344)) \/
  (exists h1 n1 h2 n2, t = h1 ++ ch 92 :: "u"%char :: h2 ++ r /\ hex4 h1 n1 /\ 55296 <= n1 < 56320 /\ hex4 h2 n2 /\ 56320 <= n2 < 57344 /\
     n = 65536 + (n1 - 55296) * 1024 + (n2 - 56320)).
Proof.
  unfold parse_code. destruct (parse_hex 4 0 t) as [[n1 t1]|] eqn:E1; [|discriminate].
  apply parse_hex_inv in E1. destruct E1 as (h1 & -> & H1).
  destruct (Z.leb_spec 55296 n1) as [A|A]; destruct (Z.leb_spec n1 57343) as [A'|A']; cbn [andb];
    try (intros E; injection E as <- <-; left; exists h1; split; [reflexivity|]; split; [assumption|lia]).
  destruct (Z.leb_spec n1 56319) as [A2|A2]; [|discriminate].
  destruct (consume _ t1) as [t2|] eqn:C1; [|discriminate]. apply consume_inv in C1. subst t1.
  destruct (consume _ t2) as [t3|] eqn:C2; [|discriminate]. apply consume_inv in C2. subst t2.
  destruct (parse_hex 4 0 t3) as [[n2 t4]|] eqn:E2; [|discriminate]. apply parse_hex_inv in E2. destruct E2 as (h2 & -> & H2).
  destruct (Z.ltb_spec n2 56320); [discriminate|]. destruct (Z.ltb_spec 57343 n2); [discriminate|]. cbn [orb].
  rewrite pair_code by lia. intros E. injection E as <- <-. right. exists h1, n1, h2, n2. repeat split; try assumption; try lia.
Qed.

(** * The loop *)
Lemma string_loop_eq t s : bchars t s -> forall n r, (List.length t < n)%nat -> string_loop n (t ++ ch 34 :: r) = Some (s, r).
Proof.
  induction 1 as [|c t s Hc N1 N2 Ht IH|c d t s He Ht IH|h x t s Hh Hx Ht IH|h1 n1 h2 n2 t s H1 R1 H2 R2 Ht IH];
    intros n r Hn; (destruct n as [|n]; [cbn in Hn; lia|]).
  - reflexivity.
  - cbn [app string_loop].
    assert (E2 : Ascii.eqb c (ascii_of_N 92) = false) by (now apply Ascii.eqb_neq).
    assert (E1 : Ascii.eqb c (ascii_of_N 34) = false) by (now apply Ascii.eqb_neq).
    rewrite E1, E2. unfold byte in Hc. rewrite (proj2 (N.ltb_ge _ _)) by exact Hc. rewrite IH by (cbn in Hn; lia). reflexivity.
  - cbn [app string_loop]. change (Ascii.eqb (ch 92) (ascii_of_N 92)) with true.
    rewrite (proj2 (escape_of_spec c d) He). rewrite IH by (cbn in Hn; lia). reflexivity.
  - cbn [app string_loop]. change (Ascii.eqb (ch 92) (ascii_of_N 92)) with true. rewrite escape_u.
    change (Ascii.eqb "u" "u") with true. rewrite <- app_assoc. rewrite (parse_code_one h x _ Hh Hx).
    pose proof (hex4_range h x Hh). rewrite encode_utf8 by lia.
    rewrite IH by (cbn in Hn; rewrite app_length in Hn; lia). reflexivity.
  - cbn [app string_loop]. change (Ascii.eqb (ch 92) (ascii_of_N 92)) with true. rewrite escape_u.
    change (Ascii.eqb "u" "u") with true. rewrite <- app_assoc. cbn [app]. rewrite <- app_assoc.
    rewrite (parse_code_pair h1 n1 h2 n2 _ H1 R1 H2 R2).
    rewrite encode_utf8 by lia.
    rewrite IH by (cbn in Hn; rewrite app_length in Hn; cbn in Hn; rewrite app_length in Hn; lia). reflexivity.
Qed.
Lemma string_loop_inv n : forall t s r, string_loop n t = Some (s, r) -> exists u, t = u ++ ch 34 :: r /\ bchars u s.
Proof.
  induction n as [|n IH]; intros t s r H; [discriminate|]. destruct t as [|c t]; [discriminate|]. cbn [string_loop] in H.
  destruct (Ascii.eqb_spec c (ascii_of_N 92)) as [->|N2].
  - destruct t as [|e t]; [discriminate|]. destruct (escape_of e) as [d|] eqn:Ee.
    + destruct (string_loop n t) as [[s1 r1]|] eqn:Es; [|discriminate]. injection H as <- <-.
      destruct (IH _ _ _ Es) as (u & -> & B). exists (ch 92 :: e :: u). split; [reflexivity|].
      constructor; [now apply escape_of_spec|assumption].
    + destruct (Ascii.eqb_spec e "u") as [->|]; [|discriminate].
      destruct (parse_code t) as [[x t1]|] eqn:Ec; [|discriminate].
      destruct (string_loop n t1) as [[s1 r1]|] eqn:Es; [|discriminate]. injection H as <- <-.
      destruct (IH _ _ _ Es) as (u & -> & B).
      apply parse_code_inv in Ec. destruct Ec as [(h & -> & Hh & Hx)|(h1 & n1 & h2 & n2 & -> & H1 & R1 & H2 & R2 & ->)].
      * exists (ch 92 :: "u"%char :: h ++ u). split; [cbn [app]; now rewrite <- app_assoc|].
        pose proof (hex4_range h x Hh). rewrite encode_utf8 by lia. now constructor.
      * exists (ch 92 :: "u"%char :: h1 ++ ch 92 :: "u"%char :: h2 ++ u). split.
        { cbn [app]. rewrite <- app_assoc. cbn [app]. now rewrite <- app_assoc. }
        rewrite encode_utf8 by lia. now constructor.
  - destruct (Ascii.eqb_spec c (ascii_of_N 34)) as [->|N1].
    + injection H as <- <-. exists []. split; [reflexivity|constructor].
    + destruct (N.ltb_spec (N_of_ascii c) 32) as [L|L]; [discriminate|].
      destruct (string_loop n t) as [[s1 r1]|] eqn:Es; [|discriminate]. injection H as <- <-.
      destruct (IH _ _ _ Es) as (u & -> & B). exists (c :: u). split; [reflexivity|]. now constructor.
Qed.
Lemma parse_string_eq t s r : bstring t s -> parse_string (t ++ r) = Some (s, r).
Proof.
  intros [u x B]. unfold parse_string. cbn [app]. rewrite consume_eq. rewrite <- app_assoc. cbn [app].
  rewrite (string_loop_eq u x B); [reflexivity|]. rewrite app_length. cbn. lia.
Qed.
Lemma parse_string_inv t s r : parse_string t = Some (s, r) -> exists u, t = u ++ r /\ bstring u s.
Proof.
  unfold parse_string. destruct (consume _ t) as [t1|] eqn:C; [|discriminate]. apply consume_inv in C. subst t.
  destruct (string_loop _ t1) as [[x r1]|] eqn:E; [|discriminate]. intros K. injection K as <- <-.
  apply string_loop_inv in E. destruct E as (u & -> & B). exists (ch 34 :: u ++ [ch 34]). split; [cbn [app]; now rewrite <- app_assoc|].
  now constructor.
Qed.
