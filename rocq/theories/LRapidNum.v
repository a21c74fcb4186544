(** Numbers in the rapidjson reader: the loops over the characters as loops over digits. *)
From Coq Require Import ZArith Bool Lia Ascii String List.
From Verif Require Import Base F64 Value MNum LNum MJson SJsonText MRapid.
Import ListNotations.
Local Open Scope Z_scope.
Local Opaque next_digit strtod_normal f_of_Z fneg.

Lemma digit_val_inv c d : digit_val c = Some d -> c = digit d /\ is_digit d.
Proof.
  unfold digit_val, digit, is_digit. destruct (Z.leb_spec 48 (Z.of_N (N_of_ascii c))); [|discriminate].
  destruct (Z.leb_spec (Z.of_N (N_of_ascii c)) 57); [|discriminate]. cbn [andb]. intros E. apply Some_inj in E. subst d.
  split; [|lia]. replace (48 + (Z.of_N (N_of_ascii c) - 48)) with (Z.of_N (N_of_ascii c)) by lia.
  rewrite N2Z.id. symmetry. apply ascii_N_embedding.
Qed.
Lemma split_digits t : exists l r, t = map digit l ++ r /\ Forall is_digit l /\ digit_next r = false.
Proof.
  induction t as [|c t (l & r & -> & Hl & Hr)]; [exists [], []; repeat split; constructor|].
  destruct (digit_val c) as [d|] eqn:E.
  - apply digit_val_inv in E. destruct E as [-> Hd]. exists (d :: l), r. split; [reflexivity|]. split; [|assumption].
    now constructor.
  - exists [], (c :: map digit l ++ r). split; [reflexivity|]. split; [constructor|]. cbn. now rewrite E.
Qed.

(** The loops over lists of digits. *)
Fixpoint int_run (lim last i sd : Z) (l : list Z) : Z * Z * bool * list Z :=
  match l with
  | d :: l' =>
      if (lim <=? i) && (negb (i =? lim) || (last <? d)) then (i, sd, true, l)
      else int_run lim last (i * 10 + d) (sd + 1) l'
  | [] => (i, sd, false, [])
  end.
Fixpoint fint_run (i ef sd : Z) (l : list Z) : Z * Z * Z * list Z :=
  match l with
  | d :: l' =>
      if 0x1FFFFFFFFFFFFF <? i then (i, ef, sd, l)
      else fint_run (i * 10 + d) (ef - 1) (if i * 10 + d =? 0 then sd else sd + 1) l'
  | [] => (i, ef, sd, [])
  end.
Fixpoint fdbl_run (l : list Z) (x ef sd : Z) : Z * Z :=
  match l with
  | d :: l' =>
      if sd <? 17 then fdbl_run l' (next_digit x d) (ef - 1) (if 0 <? next_digit x d then sd + 1 else sd)
      else fdbl_run l' x ef sd
  | [] => (x, ef)
  end.
Fixpoint eneg_run (lim e : Z) (l : list Z) : Z :=
  match l with d :: l' => if lim <? e * 10 + d then e * 10 + d else eneg_run lim (e * 10 + d) l' | [] => e end.
Fixpoint epos_run (lim e : Z) (l : list Z) : option Z :=
  match l with d :: l' => if lim <? e * 10 + d then None else epos_run lim (e * 10 + d) l' | [] => Some e end.

Lemma stop r c r' : digit_next r = false -> r = c :: r' -> digit_val c = None.
Proof. intros H ->. cbn in H. now destruct (digit_val c). Qed.
Section Loops.
  Variable r : text.
  Hypothesis Hr : digit_next r = false.
  Ltac base := destruct r as [|c r']; [reflexivity|]; cbn; now rewrite (stop (c :: r') c r' Hr eq_refl).
  Lemma int_loop_run lim last l : Forall is_digit l -> forall i sd,
    int_loop lim last i sd (map digit l ++ r) = let '(i', sd', o, l') := int_run lim last i sd l in (i', sd', o, map digit l' ++ r).
  Proof.
    induction 1 as [|d l Hd Hl IH]; intros i sd.
    - cbn [map app int_run]. base.
    - cbn [map app int_run int_loop]. rewrite digit_val_digit by assumption.
      destruct ((lim <=? i) && _); [reflexivity|]. apply IH.
  Qed.
  Lemma big_loop_run l : Forall is_digit l -> forall x, big_loop (map digit l ++ r) x = (fold_left next_digit l x, r).
  Proof.
    induction 1 as [|d l Hd Hl IH]; intros x.
    - cbn [map app fold_left]. base.
    - cbn [map app big_loop fold_left]. rewrite digit_val_digit by assumption. apply IH.
  Qed.
  Lemma frac_int_run l : Forall is_digit l -> forall i ef sd,
    frac_int i ef sd (map digit l ++ r) = let '(i', ef', sd', l') := fint_run i ef sd l in (i', ef', sd', map digit l' ++ r).
  Proof.
    induction 1 as [|d l Hd Hl IH]; intros i ef sd.
    - cbn [map app fint_run]. base.
    - cbn [map app fint_run frac_int]. rewrite digit_val_digit by assumption.
      destruct (_ <? i); [reflexivity|]. cbv zeta. apply IH.
  Qed.
  Lemma frac_dbl_run l : Forall is_digit l -> forall x ef sd,
    frac_dbl (map digit l ++ r) x ef sd = let '(x', ef') := fdbl_run l x ef sd in (x', ef', r).
  Proof.
    induction 1 as [|d l Hd Hl IH]; intros x ef sd.
    - cbn [map app fdbl_run]. base.
    - cbn [map app fdbl_run frac_dbl]. rewrite digit_val_digit by assumption.
      destruct (sd <? 17); [cbv zeta|]; apply IH.
  Qed.
  Lemma skip_digits_run l : Forall is_digit l -> skip_digits (map digit l ++ r) = r.
  Proof.
    induction 1 as [|d l Hd Hl IH].
    - cbn [map app]. base.
    - cbn [map app skip_digits]. now rewrite digit_val_digit.
  Qed.
  Lemma exp_neg_run lim l : Forall is_digit l -> forall e, exp_neg lim e (map digit l ++ r) = (eneg_run lim e l, r).
  Proof.
    induction 1 as [|d l Hd Hl IH]; intros e.
    - cbn [map app eneg_run]. base.
    - cbn [map app eneg_run exp_neg]. rewrite digit_val_digit by assumption. cbv zeta.
      destruct (lim <? _); [now rewrite skip_digits_run|]. apply IH.
  Qed.
  Lemma exp_pos_run lim l : Forall is_digit l -> forall e,
    exp_pos lim e (map digit l ++ r) = match epos_run lim e l with Some e' => Some (e', r) | None => None end.
  Proof.
    induction 1 as [|d l Hd Hl IH]; intros e.
    - cbn [map app epos_run]. base.
    - cbn [map app epos_run exp_pos]. rewrite digit_val_digit by assumption. cbv zeta.
      destruct (lim <? _); [reflexivity|]. apply IH.
  Qed.
End Loops.

(** The digits left over are digits; none are left if the number fits. *)
Lemma int_run_rest lim last l : Forall is_digit l -> forall i sd i' sd' o l', int_run lim last i sd l = (i', sd', o, l') ->
  Forall is_digit l' /\ (o = false -> l' = []).
Proof.
  induction 1 as [|d l Hd Hl IH]; cbn [int_run]; intros i sd i' sd' o l' E.
  - injection E as <- <- <- <-. auto.
  - destruct ((lim <=? i) && _).
    + injection E as <- <- <- <-. split; [now constructor|discriminate].
    + eauto.
Qed.
Lemma fint_run_rest l : Forall is_digit l -> forall i ef sd i' ef' sd' l', fint_run i ef sd l = (i', ef', sd', l') -> Forall is_digit l'.
Proof.
  induction 1 as [|d l Hd Hl IH]; cbn [fint_run]; intros i ef sd i' ef' sd' l' E.
  - injection E as <- <- <- <-. auto.
  - destruct (_ <? i).
    + injection E as <- <- <- <-. now constructor.
    + eauto.
Qed.

(** The parts of a number as functions of its digits. *)
Definition lim32 (neg : bool) : Z := if neg then 214748364 else 429496729.
Definition lim64 (neg : bool) : Z := if neg then 0x0CCCCCCCCCCCCCCC else 0x1999999999999999.
Definition lastd (neg : bool) : Z := if neg then 8 else 5.
Definition int_res (neg : bool) (l : list Z) : Z * Z * bool * Z :=
  match l with
  | [] => (0, 0, false, 0)
  | d0 :: l0 =>
      if d0 =? 0 then (0, 0, false, 0) else
      let '(i1, sd1, more, l1) := int_run (lim32 neg) (lastd neg) d0 0 l0 in
      let '(i2, sd2, big, l2) := if more then int_run (lim64 neg) (lastd neg) i1 sd1 l1 else (i1, sd1, false, l1) in
      (i2, sd2, big, if big then fold_left next_digit l2 (f_of_Z i2) else 0)
  end.
Definition frac_res (i sd : Z) (big : bool) (x : Z) (lf : option (list Z)) : bool * Z * Z :=
  match lf with
  | None => (big, x, 0)
  | Some l =>
      let '(x2, ef2) :=
        if big then fdbl_run l x 0 sd
        else let '(i', ef, sd', l') := fint_run i 0 sd l in fdbl_run l' (f_of_Z i') ef sd' in
      (true, x2, ef2)
  end.
Definition exp_res (i : Z) (dbl : bool) (x ef : Z) (ex : option (bool * list Z)) : option (bool * Z * Z) :=
  match ex with
  | None => Some (dbl, x, 0)
  | Some (_, []) => None
  | Some (true, d :: l) => Some (true, if dbl then x else f_of_Z i, - eneg_run ((ef + 2147483639) ÷ 10) d l)
  | Some (false, d :: l) => may e <- epos_run (308 - ef) d l ; Some (true, if dbl then x else f_of_Z i, e)
  end.
Definition num_res (neg : bool) (l : list Z) (lf : option (list Z)) (ex : option (bool * list Z)) : option json :=
  let '(i, sd, big, x) := int_res neg l in
  let '(dbl, x1, ef) := frac_res i sd big x lf in
  may ' (dbl', x2, e) <- exp_res i dbl x1 ef ex ;
  if dbl' then
    let x3 := strtod_normal x2 (e + ef) in
    if inf <=? x3 then None else Some (JDbl (if neg then fneg x3 else x3))
  else Some (JInt (if neg then - i else i)).

(** The texts of the parts. *)
Definition frac_text (t : text) (lf : option (list Z)) : Prop :=
  match lf with None => t = [] | Some l => t = "."%char :: map digit l /\ Forall is_digit l /\ l <> [] end.
Definition exp_text (t : text) (ex : option (bool * list Z)) : Prop :=
  match ex with
  | None => t = []
  | Some (neg, l) => exists c sg, t = c :: sg ++ map digit l /\ (c = "e"%char \/ c = "E"%char) /\
      (sg = minus neg \/ (neg = false /\ sg = ["+"%char])) /\ Forall is_digit l /\ l <> []
  end.
(** What may follow a number so that it is read to its end. *)
Definition num_end (r : text) : Prop :=
  match r with [] => True | c :: _ => digit_val c = None /\ c <> "."%char /\ c <> "e"%char /\ c <> "E"%char end.
Lemma num_end_digit r : num_end r -> digit_next r = false.
Proof. destruct r as [|c r]; [reflexivity|]. cbn. intros [-> _]. reflexivity. Qed.

Lemma consume_neq c x r : x <> c -> consume c (x :: r) = None.
Proof. intros H. cbn. now rewrite (proj2 (Ascii.eqb_neq _ _) H). Qed.
Lemma consume_eq c r : consume c (c :: r) = Some r.
Proof. cbn. now rewrite Ascii.eqb_refl. Qed.
Lemma num_end_exp r : num_end r -> consume "e" r = None /\ consume "E" r = None.
Proof. destruct r as [|c r]; [split; reflexivity|]. intros (_ & _ & H1 & H2). now rewrite !consume_neq. Qed.
Lemma consume_inv c t r : consume c t = Some r -> t = c :: r.
Proof.
  destruct t as [|x t]; [discriminate|]. cbn. destruct (Ascii.eqb_spec x c) as [->|]; [|discriminate].
  intros E. apply Some_inj in E. now subst.
Qed.
Lemma digit_neq c d : is_digit d -> digit_val c = None -> digit d <> c.
Proof. intros Hd Hc <-. rewrite digit_val_digit in Hc by assumption. discriminate. Qed.

Lemma parse_int_eq neg l r : Forall is_digit l -> int_part l -> (l = [0] \/ digit_next r = false) ->
  parse_int (minus neg ++ map digit l ++ r) = let '(i, sd, big, x) := int_res neg l in Some (neg, i, sd, big, x, r).
Proof.
  intros Hl Hi Hr.
  assert (Ne : exists d l0, l = d :: l0 /\ is_digit d /\ Forall is_digit l0).
  { destruct Hl as [|d l0]; [destruct Hi as [?|(d & k & ? & _)]; discriminate|eauto]. }
  destruct Ne as (d & l0 & -> & Hd & Hl0). cbn [map app].
  assert (S : take_minus (minus neg ++ digit d :: map digit l0 ++ r) = (neg, digit d :: map digit l0 ++ r)).
  { unfold take_minus. destruct neg; cbn [minus app]; [reflexivity|]. rewrite consume_neq; [reflexivity|].
    apply digit_neq; [assumption|reflexivity]. }
  unfold parse_int. rewrite S. clear S. rewrite digit_val_digit by assumption. cbn [int_res].
  change (if neg then 214748364 else 429496729) with (lim32 neg).
  change (if neg then 922337203685477580 else 1844674407370955161) with (lim64 neg).
  change (if neg then 8 else 5) with (lastd neg).
  destruct (Z.eqb_spec d 0) as [->|Nd].
  - destruct Hi as [Hi|(d' & r' & Hi & N)]; [|congruence]. injection Hi as ->. reflexivity.
  - destruct Hr as [Hr|Hr]; [congruence|]. rewrite int_loop_run by assumption.
    destruct (int_run (lim32 neg) (lastd neg) d 0 l0) as [[[i1 sd1] more] l1] eqn:E1.
    destruct (int_run_rest _ _ _ Hl0 _ _ _ _ _ _ E1) as [Hl1 N1].
    destruct more.
    + rewrite int_loop_run by assumption.
      destruct (int_run (lim64 neg) (lastd neg) i1 sd1 l1) as [[[i2 sd2] big] l2] eqn:E2.
      destruct (int_run_rest _ _ _ Hl1 _ _ _ _ _ _ E2) as [Hl2 N2].
      destruct big; [now rewrite big_loop_run|]. rewrite N2 by reflexivity. reflexivity.
    + rewrite N1 by reflexivity. reflexivity.
Qed.

Lemma parse_int_inv t res : parse_int t = Some res -> exists neg l r, t = minus neg ++ map digit l ++ r /\
  Forall is_digit l /\ int_part l /\ (l = [0] \/ digit_next r = false).
Proof.
  intros H.
  assert (S : exists neg t0, t = minus neg ++ t0 /\ take_minus t = (neg, t0)).
  { unfold take_minus. destruct (consume "-" t) as [r|] eqn:E; [apply consume_inv in E; subst t; exists true, r|exists false, t]; auto. }
  destruct S as (neg & t0 & -> & S). unfold parse_int in H. rewrite S in H. clear S.
  destruct (split_digits t0) as (l & r & -> & Hl & Hr). destruct Hl as [|d l Hd Hl].
  - cbn [map app] in H. destruct r as [|c r]; [discriminate|]. cbn in Hr. now destruct (digit_val c).
  - destruct (Z.eq_dec d 0) as [->|Nd].
    + exists neg, [0], (map digit l ++ r). split; [reflexivity|]. split; [|split; [now left|now left]].
      now constructor.
    + exists neg, (d :: l), r. split; [reflexivity|]. split; [now constructor|]. split; [|now right]. right. eauto.
Qed.

Lemma parse_frac_eq i sd big x t lf r : frac_text t lf -> (lf <> None -> digit_next r = false) -> (lf = None -> consume "." r = None) ->
  parse_frac i sd big x (t ++ r) = let '(dbl, x1, ef) := frac_res i sd big x lf in Some (dbl, x1, ef, r).
Proof.
  intros Ht Hr Hn. destruct lf as [l|]; cbn [frac_text] in Ht.
  - destruct Ht as (-> & Hl & Ne). unfold parse_frac. cbn [app]. rewrite consume_eq. specialize (Hr ltac:(discriminate)).
    assert (D : digit_next (map digit l ++ r) = true).
    { destruct Hl; [congruence|]. cbn. now rewrite digit_val_digit. }
    rewrite D. cbn [frac_res]. destruct big.
    + rewrite frac_dbl_run by assumption. destruct (fdbl_run l x 0 sd). reflexivity.
    + rewrite frac_int_run by assumption. destruct (fint_run i 0 sd l) as [[[i' ef] sd'] l'] eqn:E.
      pose proof (fint_run_rest _ Hl _ _ _ _ _ _ _ E). rewrite frac_dbl_run by assumption.
      destruct (fdbl_run l' (f_of_Z i') ef sd'). reflexivity.
  - subst t. cbn [app]. unfold parse_frac. now rewrite Hn.
Qed.
Lemma parse_frac_inv i sd big x t res : parse_frac i sd big x t = Some res -> exists tf lf r, t = tf ++ r /\ frac_text tf lf /\
  (lf <> None -> digit_next r = false) /\ (lf = None -> consume "." r = None).
Proof.
  unfold parse_frac. destruct (consume "." t) as [r|] eqn:E.
  - apply consume_inv in E. subst t. intros H. destruct (split_digits r) as (l & r' & -> & Hl & Hr').
    destruct Hl as [|d l Hd Hl].
    + cbn [map app] in H. rewrite Hr' in H. discriminate.
    + exists ("."%char :: map digit (d :: l)), (Some (d :: l)), r'. split; [reflexivity|]. split; [|split; [auto|discriminate]].
      split; [reflexivity|]. split; [now constructor|discriminate].
  - intros _. exists [], None, t. split; [reflexivity|]. split; [reflexivity|]. split; [congruence|auto].
Qed.

Lemma parse_exp_eq i dbl x ef t ex r : exp_text t ex -> (ex <> None -> digit_next r = false) ->
  (ex = None -> consume "e" r = None /\ consume "E" r = None) ->
  parse_exp i dbl x ef (t ++ r) = may ' (dbl', x2, e) <- exp_res i dbl x ef ex ; Some (dbl', x2, e, r).
Proof.
  intros Ht Hr Hn. destruct ex as [[neg l]|]; cbn [exp_text] in Ht.
  - destruct Ht as (c & sg & -> & Hc & Hs & Hl & Ne). unfold parse_exp. cbn [app].
    assert (C : match consume "e" (c :: (sg ++ map digit l) ++ r) with Some r0 => Some r0 | None => consume "E" (c :: (sg ++ map digit l) ++ r) end =
                Some (sg ++ map digit l ++ r)).
    { rewrite <- app_assoc. destruct Hc as [-> | ->]; reflexivity. }
    rewrite C. clear C. cbv zeta. destruct Hl as [|d l Hd Hl]; [congruence|]. clear Ne.
    assert (Sg : take_sign (sg ++ map digit (d :: l) ++ r) = (neg, digit d :: map digit l ++ r)).
    { unfold take_sign, take_minus. destruct Hs as [->|[-> ->]]; [|reflexivity]. destruct neg; cbn [minus app map]; [reflexivity|].
      rewrite !consume_neq by (apply digit_neq; [assumption|reflexivity]). reflexivity. }
    rewrite Sg. clear Sg. rewrite digit_val_digit by assumption. cbn [exp_res]. specialize (Hr ltac:(discriminate)).
    destruct neg.
    + now rewrite exp_neg_run.
    + rewrite exp_pos_run by assumption. destruct (epos_run (308 - ef) d l); reflexivity.
  - subst t. cbn [app]. unfold parse_exp.
    assert (C : match consume "e" r with Some r0 => Some r0 | None => consume "E" r end = None).
    { destruct (Hn eq_refl) as [-> ->]. reflexivity. }
    now rewrite C.
Qed.
Lemma parse_exp_inv i dbl x ef t dbl' x' e' r' : parse_exp i dbl x ef t = Some (dbl', x', e', r') -> exists te ex r, t = te ++ r /\ exp_text te ex /\
  (ex <> None -> digit_next r = false) /\ (ex = None -> consume "e" r = None /\ consume "E" r = None).
Proof.
  unfold parse_exp.
  destruct (match consume "e" t with Some r0 => Some r0 | None => consume "E" t end) as [r|] eqn:E.
  - assert (C : exists c, t = c :: r /\ (c = "e"%char \/ c = "E"%char)).
    { destruct (consume "e" t) as [r1|] eqn:E1.
      - apply consume_inv in E1. apply Some_inj in E. subst. eauto.
      - apply consume_inv in E. eauto. }
    destruct C as (c & -> & Hc). clear E. cbv zeta. intros H.
    assert (Sg : exists neg sg t0, r = sg ++ t0 /\ (sg = minus neg \/ (neg = false /\ sg = ["+"%char])) /\
                 take_sign r = (neg, t0)).
    { unfold take_sign, take_minus. destruct (consume "+" r) as [r1|] eqn:E1.
      - apply consume_inv in E1. subst r. exists false, ["+"%char], r1. auto.
      - destruct (consume "-" r) as [r1|] eqn:E2.
        + apply consume_inv in E2. subst r. exists true, ["-"%char], r1. auto.
        + exists false, [], r. auto. }
    destruct Sg as (neg & sg & t0 & -> & Hsg & Sg). rewrite Sg in H. clear Sg.
    destruct (split_digits t0) as (l & r1 & -> & Hl & Hr1). destruct Hl as [|d l Hd Hl].
    + cbn [map app] in H. destruct r1 as [|c1 r1]; [discriminate|]. cbn in Hr1. destruct (digit_val c1); discriminate.
    + exists (c :: sg ++ map digit (d :: l)), (Some (neg, d :: l)), r1. split; [cbn [app]; now rewrite <- app_assoc|].
      split; [|split; [auto|discriminate]]. exists c, sg. split; [reflexivity|]. split; [assumption|]. split; [assumption|].
      split; [now constructor|discriminate].
  - intros _. exists [], None, t. split; [reflexivity|]. split; [reflexivity|]. split; [congruence|]. intros _.
    destruct (consume "e" t); [discriminate|]. auto.
Qed.

(** The literals and what they are read as. *)
Definition literal (t : text) (neg : bool) (l : list Z) (lf : option (list Z)) (ex : option (bool * list Z)) : Prop :=
  exists tf te, t = minus neg ++ map digit l ++ tf ++ te /\ Forall is_digit l /\ int_part l /\ frac_text tf lf /\ exp_text te ex.

Lemma frac_exp_next tf lf te ex r : frac_text tf lf -> exp_text te ex -> num_end r -> digit_next (tf ++ te ++ r) = false /\
  digit_next (te ++ r) = false /\ consume "." (te ++ r) = None.
Proof.
  intros Hf He Hr.
  assert (E : digit_next (te ++ r) = false /\ consume "." (te ++ r) = None).
  { destruct ex as [[neg l]|]; cbn [exp_text] in He.
    - destruct He as (c & sg & -> & Hc & _). destruct Hc as [-> | ->]; split; reflexivity.
    - subst te. cbn [app]. destruct r as [|c r]; [split; reflexivity|]. destruct Hr as (H1 & H2 & _). cbn [digit_next].
      rewrite H1. split; [reflexivity|]. now apply consume_neq. }
  split; [|exact E]. destruct lf as [l|]; cbn [frac_text] in Hf; [destruct Hf as (-> & _); reflexivity|subst tf; apply E].
Qed.

Lemma parse_number_eq t neg l lf ex r : literal t neg l lf ex -> num_end r ->
  parse_number (t ++ r) = may j <- num_res neg l lf ex ; Some (j, r).
Proof.
  intros (tf & te & -> & Hl & Hi & Hf & He) Hr. destruct (frac_exp_next tf lf te ex r Hf He Hr) as (N1 & N2 & N3).
  unfold parse_number, num_res. rewrite <- !app_assoc. rewrite parse_int_eq by auto.
  destruct (int_res neg l) as [[[i sd] big] x]. cbv beta iota.
  rewrite (parse_frac_eq i sd big x tf lf (te ++ r)) by auto.
  destruct (frac_res i sd big x lf) as [[dbl x1] ef]. cbv beta iota.
  rewrite (parse_exp_eq i dbl x1 ef te ex r) by (auto using num_end_digit, num_end_exp). destruct (exp_res i dbl x1 ef ex) as [[[dbl' x2] e]|]; cbv beta iota; [|reflexivity].
  destruct dbl'; [cbv zeta; destruct (inf <=? strtod_normal x2 (e + ef))|]; reflexivity.
Qed.

Lemma parse_number_inv t j r : parse_number t = Some (j, r) -> exists u neg l lf ex, t = u ++ r /\ literal u neg l lf ex /\ num_res neg l lf ex = Some j.
Proof.
  intros H. unfold parse_number in H.
  destruct (parse_int t) as [res|] eqn:Ei; [|discriminate].
  destruct (parse_int_inv t res Ei) as (neg & l & r1 & -> & Hl & Hi & Hr1).
  rewrite parse_int_eq in Ei by assumption.
  destruct (int_res neg l) as [[[i sd] big] x] eqn:Eir. apply Some_inj in Ei. subst res. cbv beta iota in H.
  destruct (parse_frac i sd big x r1) as [res|] eqn:Ef; [|discriminate].
  destruct (parse_frac_inv _ _ _ _ _ _ Ef) as (tf & lf & r2 & -> & Hf & Hr2 & Hn2).
  rewrite (parse_frac_eq i sd big x tf lf r2) in Ef by assumption.
  destruct (frac_res i sd big x lf) as [[dbl x1] ef] eqn:Efr. apply Some_inj in Ef. subst res. cbv beta iota in H.
  destruct (parse_exp i dbl x1 ef r2) as [[[[dbl' x2] e] r3]|] eqn:Ee; [|discriminate].
  destruct (parse_exp_inv _ _ _ _ _ _ _ _ _ Ee) as (te & ex & r4 & -> & He & Hr4 & Hn4).
  rewrite (parse_exp_eq i dbl x1 ef te ex r4) in Ee by assumption.
  destruct (exp_res i dbl x1 ef ex) as [[[dbl0 x0] e0]|] eqn:Eer; [|discriminate]. injection Ee as <- <- <- <-.
  assert (K : forall j', Some (j', r4) = Some (j, r) -> r4 = r /\ j' = j) by (intros j' K; injection K; auto).
  exists (minus neg ++ map digit l ++ tf ++ te), neg, l, lf, ex.
  assert (R : r4 = r).
  { destruct dbl0; [cbv zeta in H; destruct (inf <=? _) in H; [discriminate|]|]; apply K in H; tauto. }
  subst r4. split; [rewrite <- !app_assoc; reflexivity|]. split.
  - exists tf, te. auto.
  - unfold num_res. rewrite Eir, Efr, Eer. destruct dbl0; [cbv zeta in *; destruct (inf <=? _) in *; [discriminate|]|]; apply K in H; destruct H as [_ <-]; reflexivity.
Qed.
