(** Tokens of JSON texts: the lexer of from_json2 on the texts of SJsonText.v. *)
From Coq Require Import ZArith Bool Lia Ascii String List.
From Verif Require Import Base F64 StrMap Value MBasic MNum LNum MText MJson MJson2 SJsonText.
Import ListNotations.
Local Open Scope Z_scope.

Lemma digits_map t l : digits t l -> t = map digit l /\ Forall is_digit l.
Proof.
  induction 1 as [|c d t l [H ->] _ [-> IH]]; [split; [reflexivity|constructor]|].
  split; [reflexivity|]. constructor; [unfold is_digit; lia|assumption].
Qed.
Lemma isdig_digit d : is_digit d -> isdig (digit d) = true.
Proof. intros H. unfold isdig. now rewrite digit_val_digit. Qed.

(** * White space *)
Lemma blank_cases (P : ascii -> Prop) : P (ch 32) -> P (ch 9) -> P (ch 10) -> P (ch 13) -> forall c, blank c -> P c.
Proof.
  intros H1 H2 H3 H4 c H. assert (E : c = ch (byte c)) by (symmetry; apply ascii_N_embedding).
  destruct H as [H|[H|[H|[H|[]]]]]; rewrite E, <- H; assumption.
Qed.
Lemma blank_space c : blank c -> is_space c = true.
Proof. revert c. apply blank_cases; reflexivity. Qed.
Lemma skip_ws w t : ws w -> (match t with c :: _ => is_space c = false | [] => True end) -> skip_space (w ++ t) = t.
Proof.
  intros Hw Ht. induction Hw as [|c w Hc Hw IH]; cbn [app skip_space].
  - destruct t as [|c t]; [reflexivity|]. cbn. now rewrite Ht.
  - now rewrite blank_space.
Qed.

(** * Punctuation and keywords *)
Lemma lex_punct w c k r : ws w -> In (c, k) [("{"%char, S_LCURLY); ("}"%char, S_RCURLY); ("["%char, S_LBRACE); ("]"%char, S_RBRACE);
    (","%char, S_COMMA); (":"%char, S_COLON)] ->
  lex (w ++ c :: r) = ((k, [c]), r).
Proof.
  intros Hw H. unfold lex. repeat (destruct H as [H|H]; [injection H as <- <-; rewrite skip_ws by (assumption || reflexivity); reflexivity|]).
  destruct H.
Qed.
Lemma skip_prefix_app p t : skip_prefix p (p ++ t) = Some t.
Proof. induction p as [|c p IH]; [reflexivity|]. cbn. now rewrite Ascii.eqb_refl. Qed.
Lemma lex_keyword w s k r : ws w -> In (s, k) [("true"%string, S_TRUE); ("false"%string, S_FALSE); ("null"%string, S_NULL)] ->
  lex (w ++ txt s ++ r) = ((k, txt s), r).
Proof.
  intros Hw H. unfold lex. repeat (destruct H as [H|H]; [injection H as <- <-; rewrite skip_ws by (assumption || reflexivity); reflexivity|]).
  destruct H.
Qed.
Lemma lex_end w : ws w -> lex w = ((S_EOF, []), []).
Proof. intros H. unfold lex. rewrite <- (app_nil_r w). now rewrite skip_ws. Qed.

(** * Strings *)
Lemma code_byte c : code c = Z.of_N (byte c).
Proof. reflexivity. Qed.
Lemma byte_ch n : (n < 256)%N -> byte (ch n) = n.
Proof. apply N_ascii_embedding. Qed.
Lemma eqb_quote c : Ascii.eqb c quote = (code c =? 34).
Proof.
  destruct (Z.eqb_spec (code c) 34) as [E|E].
  - apply Ascii.eqb_eq. unfold code in E. rewrite <- (ascii_N_embedding c). replace (N_of_ascii c) with 34%N by lia. reflexivity.
  - apply Ascii.eqb_neq. intros ->. now apply E.
Qed.
Lemma code_ch z : 0 <= z < 256 -> code (ch (Z.to_N z)) = z.
Proof. intros H. unfold code, ch. rewrite N_ascii_embedding by lia. lia. Qed.

(** The bytes of a code point from 128 on. *)
Lemma utf8_lex n t : 128 <= n < 1114112 ->
  lex_string (utf8 n ++ t) = match lex_string t with Some (s, r) => Some (utf8 n ++ s, r) | None => None end.
Proof.
  intros Hn. unfold utf8. rewrite (proj2 (Z.ltb_ge n 128)) by lia.
  assert (M : forall z, 0 <= z mod 64 < 64) by (intros; apply Z.mod_pos_bound; lia).
  destruct (Z.ltb_spec n 2048) as [H2|H2].
  { assert (A : 2 <= n / 64 < 32) by (split; [apply Z.div_le_lower_bound|apply Z.div_lt_upper_bound]; lia).
    pose proof (M n). cbn [map app lex_string].
    rewrite eqb_quote. unfold unicode_1, ok_unicode, unicode_min_3. rewrite !code_ch by lia.
    rewrite (proj2 (Z.eqb_neq (192 + n / 64) 34)) by lia. rewrite (proj2 (Z.ltb_ge (192 + n / 64) 128)) by lia.
    rewrite (proj2 (Z.leb_le 128 _)), (proj2 (Z.ltb_lt _ 192)) by lia. cbn [andb negb].
    rewrite (proj2 (Z.leb_gt 224 _)) by lia. reflexivity. }
  destruct (Z.ltb_spec n 65536) as [H3|H3].
  { assert (A : 0 <= n / 4096 < 16) by (split; [apply Z.div_le_lower_bound|apply Z.div_lt_upper_bound]; lia).
    pose proof (M n). pose proof (M (n / 64)). cbn [map app lex_string].
    rewrite eqb_quote. unfold unicode_1, ok_unicode, unicode_min_3, unicode_min_4. rewrite !code_ch by lia.
    rewrite (proj2 (Z.eqb_neq (224 + n / 4096) 34)) by lia. rewrite (proj2 (Z.ltb_ge (224 + n / 4096) 128)) by lia.
    rewrite (proj2 (Z.leb_le 128 (128 + (n / 64) mod 64))), (proj2 (Z.ltb_lt (128 + (n / 64) mod 64) 192)) by lia. cbn [andb negb].
    rewrite (proj2 (Z.leb_le 224 _)) by lia.
    rewrite (proj2 (Z.leb_le 128 (128 + n mod 64))), (proj2 (Z.ltb_lt (128 + n mod 64) 192)) by lia. cbn [andb negb].
    rewrite (proj2 (Z.leb_gt 240 _)) by lia. reflexivity. }
  assert (A : 0 <= n / 262144 < 5) by (split; [apply Z.div_le_lower_bound|apply Z.div_lt_upper_bound]; lia).
  pose proof (M n). pose proof (M (n / 64)). pose proof (M (n / 4096)). cbn [map app lex_string].
  rewrite eqb_quote. unfold unicode_1, ok_unicode, unicode_min_3, unicode_min_4. rewrite !code_ch by lia.
  rewrite (proj2 (Z.eqb_neq (240 + n / 262144) 34)) by lia. rewrite (proj2 (Z.ltb_ge (240 + n / 262144) 128)) by lia.
  rewrite (proj2 (Z.leb_le 128 (128 + (n / 4096) mod 64))), (proj2 (Z.ltb_lt (128 + (n / 4096) mod 64) 192)) by lia. cbn [andb negb].
  rewrite (proj2 (Z.leb_le 224 _)) by lia.
  rewrite (proj2 (Z.leb_le 128 (128 + (n / 64) mod 64))), (proj2 (Z.ltb_lt (128 + (n / 64) mod 64) 192)) by lia. cbn [andb negb].
  rewrite (proj2 (Z.leb_le 240 _)) by lia.
  rewrite (proj2 (Z.leb_le 128 (128 + n mod 64))), (proj2 (Z.ltb_lt (128 + n mod 64) 192)) by lia. reflexivity.
Qed.
Lemma jchars_lex t s : jchars false t s -> forall r, lex_string (t ++ ch 34 :: r) = Some (s, r).
Proof.
  induction 1 as [|c t s Hc Hq Hb _ IH|n t s Hn _ _ IH|c d t s He _ IH| |]; intros r; try discriminate.
  - reflexivity.
  - cbn [app lex_string]. replace (Ascii.eqb c quote) with false by (symmetry; now apply Ascii.eqb_neq).
    replace (unicode_1 c) with true by (symmetry; apply Z.ltb_lt; rewrite code_byte; lia).
    replace (Ascii.eqb c bslash) with false by (symmetry; now apply Ascii.eqb_neq). now rewrite IH.
  - rewrite <- app_assoc. now rewrite utf8_lex, IH.
  - destruct He as [He|[He _]]; [|discriminate].
    repeat (destruct He as [He|He]; [injection He as <- <-; cbn [app]; cbn; rewrite IH; reflexivity|]). destruct He.
Qed.
Lemma jstring_lex w t s r : ws w -> jstring false t s -> lex (w ++ t ++ r) = ((S_STRING, txt s), r).
Proof.
  intros Hw [u s' H]. unfold lex. rewrite skip_ws by (assumption || reflexivity).
  cbn [app]. rewrite <- app_assoc. cbn [app]. cbn [unicode_1 code]. 
  replace (negb (unicode_1 (ch 34))) with false by reflexivity. replace (Ascii.eqb (ch 34) quote) with true by reflexivity.
  rewrite (jchars_lex _ _ H). unfold txt, untxt. now rewrite list_ascii_of_string_of_list_ascii.
Qed.

(** * Numbers *)
(** What can follow a number. *)
Definition stops (t : text) : Prop :=
  match t with c :: _ => isdig c = false /\ c <> "."%char /\ is_e c = false /\ is_sign c = false | [] => False end.
Definition kinds : Z -> Z := fun st => if st =? 1 then S_INTEGER else S_FLOAT.
Lemma lex_number_stop st r : stops r -> In st [1; 2; 4] -> lex_number st r = Some ((kinds st, []), r).
Proof.
  intros H Hs. destruct r as [|c r]; [destruct H|]. destruct H as (H1 & H2 & H3 & H4).
  cbn [lex_number]. rewrite H1, (proj2 (Ascii.eqb_neq _ _) H2), H3, H4.
  destruct Hs as [<-|[<-|[<-|[]]]]; reflexivity.
Qed.
Lemma lex_number_digits l : Forall is_digit l -> forall st r, In st [1; 2; 4] ->
  lex_number st (map digit l ++ r) = match lex_number st r with Some ((k, x), r') => Some ((k, map digit l ++ x), r') | None => None end.
Proof.
  induction 1 as [|d l Hd _ IH]; intros st r Hs; cbn [map app].
  - now destruct (lex_number st r) as [[[? ?] ?]|].
  - cbn [lex_number]. rewrite isdig_digit by assumption.
    replace (if st =? 0 then 1 else if st =? 3 then 4 else st) with st by (destruct Hs as [<-|[<-|[<-|[]]]]; reflexivity).
    rewrite IH by assumption. now destruct (lex_number st r) as [[[? ?] ?]|].
Qed.
Lemma lex_number_first st l r : Forall is_digit l -> l <> [] -> In st [0; 1; 3] ->
  lex_number st (map digit l ++ r) =
  match lex_number (if st =? 3 then 4 else 1) r with Some ((k, x), r') => Some ((k, map digit l ++ x), r') | None => None end.
Proof.
  intros H Hn Hs. destruct H as [|d l Hd H]; [easy|]. cbn [map app lex_number]. rewrite isdig_digit by assumption.
  rewrite lex_number_digits by (try assumption; destruct Hs as [<-|[<-|[<-|[]]]]; cbn; auto).
  destruct Hs as [<-|[<-|[<-|[]]]]; cbn [Z.eqb Pos.eqb]; now destruct (lex_number _ r) as [[[? ?] ?]|].
Qed.
Lemma lex_number_frac t lf r : frac_part t lf -> exists st, In st [1; 2] /\ (t = [] -> st = 1) /\ (t <> [] -> st = 2) /\
  lex_number 1 (t ++ r) = match lex_number st r with Some ((k, x), r') => Some ((k, t ++ x), r') | None => None end.
Proof.
  intros [[-> _]|(u & -> & Hd & Hn)].
  - exists 1. split; [cbn; auto|]. split; [reflexivity|]. split; [easy|]. cbn [app]. now destruct (lex_number 1 r) as [[[? ?] ?]|].
  - exists 2. split; [cbn; auto|]. split; [easy|]. split; [reflexivity|]. apply digits_map in Hd as [-> Hl].
    cbn [app]. change (lex_number 1 ("."%char :: map digit lf ++ r)) with
      (match lex_number 2 (map digit lf ++ r) with Some ((k, l), r') => Some ((k, "."%char :: l), r') | None => None end).
    rewrite lex_number_digits by (cbn; auto). now destruct (lex_number 2 r) as [[[? ?] ?]|].
Qed.
Lemma lex_number_exp st t e r : exp_part t e -> In st [1; 2] -> stops r ->
  lex_number st (t ++ r) = Some ((if t then kinds st else S_FLOAT, t), r).
Proof.
  intros [[-> _]|(c & u & l & neg & sg & -> & Hc & Hd & Hn & Hsg & _)] Hs Hr.
  - apply lex_number_stop; [assumption|]. destruct Hs as [<-|[<-|[]]]; cbn; auto.
  - apply digits_map in Hd as [-> Hl].
    assert (G : lex_number 3 (map digit l ++ r) = Some ((S_FLOAT, map digit l), r)).
    { rewrite lex_number_first by (try assumption; cbn; auto). rewrite lex_number_stop by (try assumption; cbn; auto).
      cbn [Z.eqb Pos.eqb]. now rewrite app_nil_r. }
    assert (G4 : lex_number 4 (map digit l ++ r) = Some ((S_FLOAT, map digit l), r)).
    { rewrite lex_number_digits by (try assumption; cbn; auto). rewrite lex_number_stop by (try assumption; cbn; auto). now rewrite app_nil_r. }
    assert (A : lex_number 3 ((sg ++ map digit l) ++ r) = Some ((S_FLOAT, sg ++ map digit l), r)).
    { destruct Hsg as [->|[_ ->]]; [destruct neg|]; cbn [minus app]; [| exact G |].
      - change (lex_number 3 ("-"%char :: map digit l ++ r)) with
          (match lex_number 4 (map digit l ++ r) with Some ((k, l), r') => Some ((k, "-"%char :: l), r') | None => None end). now rewrite G4.
      - change (lex_number 3 ("+"%char :: map digit l ++ r)) with
          (match lex_number 4 (map digit l ++ r) with Some ((k, l), r') => Some ((k, "+"%char :: l), r') | None => None end). now rewrite G4. }
    cbn [app]. assert (E : lex_number st (c :: (sg ++ map digit l) ++ r) =
      match lex_number 3 ((sg ++ map digit l) ++ r) with Some ((k, l), r') => Some ((k, c :: l), r') | None => None end).
    { destruct Hs as [<-|[<-|[]]], Hc as [-> | ->]; reflexivity. }
    rewrite E, A. reflexivity.
Qed.

(** The number tokens. *)
Definition num_kind (j : json) : Z := match j with JInt _ => S_INTEGER | _ => S_FLOAT end.
Lemma int_part_nonempty l : int_part l -> l <> [].
Proof. intros [->|(d & r & -> & _)]; discriminate. Qed.
Lemma lex_num_gen neg l tf lf te e r : Forall is_digit l -> l <> [] -> frac_part tf lf -> exp_part te e -> stops r -> forall w, ws w ->
  lex (w ++ (minus neg ++ map digit l ++ tf ++ te) ++ r) =
    ((match tf ++ te with [] => S_INTEGER | _ => S_FLOAT end, minus neg ++ map digit l ++ tf ++ te), r).
Proof.
  intros Hl Hn Hf He Hr w Hw.
  destruct (lex_number_frac tf lf (te ++ r) Hf) as (st & Hst & H1 & H2 & Ef).
  rewrite (lex_number_exp st te e r He) in Ef by assumption.
  assert (Ek : (if te then kinds st else S_FLOAT) = match tf ++ te with [] => S_INTEGER | _ => S_FLOAT end).
  { destruct tf; [rewrite H1 by reflexivity|rewrite H2 by discriminate]; destruct te; reflexivity. }
  rewrite Ek in Ef. clear Ek H1 H2 Hst.
  unfold lex. destruct neg; cbn [minus app].
  - rewrite skip_ws by (assumption || reflexivity). rewrite <- !app_assoc.
    replace (negb (unicode_1 "-")) with false by reflexivity. replace (Ascii.eqb "-" quote) with false by reflexivity.
    replace (is_sign "-" || isdig "-")%bool with true by reflexivity. replace (is_sign "-") with true by reflexivity.
    rewrite lex_number_first by (try assumption; cbn; auto). cbn [Z.eqb]. now rewrite Ef.
  - destruct Hl as [|d l Hd Hl]; [easy|]. cbn [map app].
    assert (F : is_space (digit d) = false /\ unicode_1 (digit d) = true /\ Ascii.eqb (digit d) quote = false /\ is_sign (digit d) = false).
    { clear -Hd. revert d Hd. apply digit_cases; repeat split; reflexivity. }
    destruct F as (F1 & F2 & F3 & F4). rewrite skip_ws by assumption. rewrite F2, F3, F4, isdig_digit by assumption. cbn [negb orb].
    rewrite <- !app_assoc. rewrite lex_number_digits by (try assumption; cbn; auto). now rewrite Ef.
Qed.
Lemma jnumber_lex w t j r : ws w -> jnumber t j -> stops r -> lex (w ++ t ++ r) = ((num_kind j, t), r).
Proof.
  intros Hw [neg u l Hd Hi|neg u l tf lf te e Hd Hi Hf He Hne] Hr; apply digits_map in Hd as [-> Hl]; apply int_part_nonempty in Hi.
  - pose proof (lex_num_gen neg l [] [] [] 0 r Hl Hi (or_introl (conj eq_refl eq_refl)) (or_introl (conj eq_refl eq_refl)) Hr w Hw) as H.
    cbn [app] in H. rewrite !app_nil_r in H. exact H.
  - rewrite (lex_num_gen neg l tf lf te e r) by assumption. now destruct (tf ++ te).
Qed.

(** Their values. *)
Lemma read_sign_minus neg d t : is_digit d -> read_sign (minus neg ++ digit d :: t) = (neg, digit d :: t).
Proof. intros H. destruct neg; [reflexivity|]. cbn [minus app]. revert d H. apply digit_cases; reflexivity. Qed.
Definition clamp (z : Z) : Z := Z.max (- 2^63) (Z.min z (2^63 - 1)).
Lemma jnumber_int t z : jnumber t (JInt z) -> strtoll_all t = Some (clamp z).
Proof.
  intros H. inversion H as [neg u l Hd Hi|]; subst. apply digits_map in Hd as [-> Hl]. apply int_part_nonempty in Hi.
  unfold strtoll_all. destruct l as [|d l]; [easy|]. cbn [map]. rewrite read_sign_minus by (now inversion Hl).
  pose proof (read_digits_app (d :: l) [] Hl I) as E. cbn [map] in E. rewrite app_nil_r in E. cbn [app] in E. rewrite E. reflexivity.
Qed.
Lemma exp_no_digit t e : exp_part t e -> no_digit t /\ (forall u, t <> "."%char :: u).
Proof. intros [[-> _]|(c & u & l & neg & sg & -> & [-> | ->] & _)]; split; cbn; try exact I; discriminate || reflexivity. Qed.
Lemma read_exp_part t e : exp_part t e -> read_exp t = (e, []).
Proof.
  intros [[-> ->]|(c & u & l & neg & sg & -> & Hc & Hd & Hn & Hsg & ->)]; [reflexivity|].
  apply digits_map in Hd as [-> Hl]. unfold read_exp. replace (Ascii.eqb c "e" || Ascii.eqb c "E")%bool with true by (destruct Hc; subst; reflexivity).
  destruct l as [|d l]; [easy|].
  assert (E : read_sign (sg ++ map digit (d :: l)) = (neg, map digit (d :: l))).
  { destruct Hsg as [->|[-> ->]]; [apply read_sign_minus; now inversion Hl|]. reflexivity. }
  rewrite E. pose proof (read_digits_app (d :: l) [] Hl I) as E'. rewrite app_nil_r in E'. rewrite E'. reflexivity.
Qed.
Lemma jnumber_real t x : jnumber t (JDbl x) -> strtod_all t = Some x.
Proof.
  intros H. inversion H as [|neg u l tf lf te e Hd Hi Hf He Hne]; subst. apply digits_map in Hd as [-> Hl]. apply int_part_nonempty in Hi.
  unfold strtod_all. destruct l as [|d l]; [easy|]. cbn [map app]. rewrite read_sign_minus by (now inversion Hl).
  destruct (exp_no_digit _ _ He) as [Hx1 Hx2].
  assert (Hnd : no_digit (tf ++ te)) by (destruct Hf as [[-> _]|(v & -> & _)]; [exact Hx1|reflexivity]).
  pose proof (read_digits_app (d :: l) (tf ++ te) Hl Hnd) as E. cbn [map app] in E. rewrite E.
  assert (Ef : read_frac (tf ++ te) = (lf, te)).
  { destruct Hf as [[-> ->]|(v & -> & Hv & _)].
    - cbn [app]. destruct te as [|c te]; [reflexivity|]. unfold read_frac.
      destruct c as [[] [] [] [] [] [] [] []]; try reflexivity. now destruct (Hx2 te).
    - apply digits_map in Hv as [-> Hv]. cbn [app]. cbn [read_frac]. now rewrite read_digits_app. }
  rewrite Ef. cbn [app]. rewrite (read_exp_part _ _ He). reflexivity.
Qed.
