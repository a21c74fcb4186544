(** Integers in the rapidjson reader. *)
From Coq Require Import ZArith Bool Lia Ascii String List.
From Verif Require Import Base F64 Value MNum LNum LJson2Doc MJson SJsonText SRapid MRapid LRapidNum.
Import ListNotations.
Local Open Scope Z_scope.
Local Opaque next_digit strtod_normal f_of_Z fneg.

Lemma dval_cons d l : dval (d :: l) = d * 10 ^ zlen l + dval l.
Proof. change (d :: l) with ([d] ++ l). rewrite dval_app. reflexivity. Qed.
Lemma dval_range l : Forall is_digit l -> 0 <= dval l < 10 ^ zlen l.
Proof.
  induction 1 as [|d l Hd Hl IH]; [unfold dval, zlen; cbn; lia|]. rewrite dval_cons, zlen_cons, Z.pow_add_r by (try apply zlen_nonneg; lia).
  unfold is_digit in Hd. nia.
Qed.

(** What the loops over the digits of an integer leave. *)
Lemma int_run_spec lim last l : 0 <= last < 10 -> Forall is_digit l -> forall i sd i' sd' o l', int_run lim last i sd l = (i', sd', o, l') ->
  exists l1, l = l1 ++ l' /\ i' = i * 10 ^ zlen l1 + dval l1 /\ sd' = sd + zlen l1 /\
    (o = true -> exists d r, l' = d :: r /\ lim * 10 + last < i' * 10 + d) /\
    (i <= lim * 10 + last -> i' <= lim * 10 + last).
Proof.
  intros Hlast. induction 1 as [|d l Hd Hl IH]; cbn [int_run]; intros i sd i' sd' o l' E.
  - injection E as <- <- <- <-. exists []. split; [reflexivity|]. rewrite zlen_nil. change (dval []) with 0.
    split; [lia|]. split; [lia|]. split; [discriminate|auto].
  - unfold is_digit in Hd. destruct ((lim <=? i) && (negb (i =? lim) || (last <? d))) eqn:C.
    + injection E as <- <- <- <-. exists []. split; [reflexivity|]. rewrite zlen_nil. change (dval []) with 0. split; [lia|]. split; [lia|].
      split; [|auto]. intros _. exists d, l. split; [reflexivity|].
      apply andb_prop in C. destruct C as [C1 C2]. apply Z.leb_le in C1. apply orb_prop in C2. destruct C2 as [C2|C2].
      * apply negb_true_iff in C2. apply Z.eqb_neq in C2. lia.
      * apply Z.ltb_lt in C2. lia.
    + destruct (IH _ _ _ _ _ _ E) as (l1 & -> & -> & -> & Ho & Hb). exists (d :: l1). split; [reflexivity|].
      rewrite dval_cons, zlen_cons, Z.pow_add_r by (try apply zlen_nonneg; lia). split; [lia|]. split; [lia|]. split; [exact Ho|].
      intros _. apply Hb. apply andb_false_iff in C. destruct C as [C|C].
      * apply Z.leb_gt in C. lia.
      * apply orb_false_iff in C. destruct C as [C1 C2]. apply negb_false_iff in C1. apply Z.eqb_eq in C1. apply Z.ltb_ge in C2. lia.
Qed.

(** The largest magnitude read as an integer. *)
Definition maxi (neg : bool) : Z := if neg then 2^63 else 2^64 - 1.
Lemma maxi_lim neg : lim64 neg * 10 + lastd neg = maxi neg.
Proof. destruct neg; reflexivity. Qed.
Lemma lim32_64 neg : lim32 neg * 10 + lastd neg <= maxi neg.
Proof. destruct neg; vm_compute; discriminate. Qed.
Lemma lim32_pos neg : 9 <= lim32 neg * 10 + lastd neg.
Proof. destruct neg; vm_compute; discriminate. Qed.
Lemma lastd_digit neg : 0 <= lastd neg < 10.
Proof. destruct neg; cbn; lia. Qed.

Lemma int_res_spec neg l i sd big x : Forall is_digit l -> int_part l -> int_res neg l = (i, sd, big, x) ->
  (big = false /\ i = dval l /\ sd = zlen l - 1 /\ x = 0 /\ dval l <= maxi neg) \/
  (big = true /\ exists l1 l2, l = l1 ++ l2 /\ i = dval l1 /\ sd = zlen l1 - 1 /\ x = fold_left next_digit l2 (f_of_Z i) /\
     maxi neg < dval l /\ i <= maxi neg < i * 10 + 9 + 1).
Proof.
  intros Hl Hi E. destruct Hl as [|d0 l Hd Hl]; [destruct Hi as [?|(? & ? & ? & _)]; discriminate|].
  cbn [int_res] in E. destruct (Z.eqb_spec d0 0) as [->|N].
  - destruct Hi as [Hi|(d & r & Hi & Nd)]; [|congruence]. injection Hi as ->. injection E as <- <- <- <-. left.
    repeat split. destruct neg; vm_compute; discriminate.
  - clear Hi. destruct (int_run (lim32 neg) (lastd neg) d0 0 l) as [[[i1 sd1] more] l1] eqn:E1.
    destruct (int_run_rest _ _ _ Hl _ _ _ _ _ _ E1) as [Hl1 N1].
    destruct (int_run_spec _ _ _ (lastd_digit neg) Hl _ _ _ _ _ _ E1) as (p1 & -> & Ei1 & Es1 & Ho1 & Hb1).
    pose proof (lim32_pos neg) as L9. pose proof (lim32_64 neg) as LL. unfold is_digit in Hd. specialize (Hb1 ltac:(lia)).
    destruct more.
    + destruct (int_run (lim64 neg) (lastd neg) i1 sd1 l1) as [[[i2 sd2] b2] l2] eqn:E2.
      destruct (int_run_rest _ _ _ Hl1 _ _ _ _ _ _ E2) as [Hl2 N2].
      destruct (int_run_spec _ _ _ (lastd_digit neg) Hl1 _ _ _ _ _ _ E2) as (p2 & -> & Ei2 & Es2 & Ho2 & Hb2). rewrite maxi_lim in *.
      injection E as <- <- <- <-.
      assert (V : i2 = dval (d0 :: p1 ++ p2)).
      { rewrite dval_cons, dval_app, zlen_app, Z.pow_add_r by apply zlen_nonneg. nia. }
      assert (Z : sd2 = zlen (d0 :: p1 ++ p2) - 1) by (rewrite zlen_cons, zlen_app; lia).
      specialize (Hb2 ltac:(lia)).
      destruct b2.
      * right. split; [reflexivity|]. exists (d0 :: p1 ++ p2), l2. destruct (Ho2 eq_refl) as (d & r & -> & Hov).
        split; [cbn [app]; now rewrite app_assoc|]. split; [exact V|]. split; [exact Z|]. split; [reflexivity|].
        inversion Hl2 as [|? ? Hdd Hr]; subst. unfold is_digit in Hdd. split; [|lia].
        replace (d0 :: p1 ++ p2 ++ d :: r) with ((d0 :: p1 ++ p2) ++ d :: r) by (cbn [app]; now rewrite app_assoc).
        rewrite dval_app, <- V, dval_cons, zlen_cons, Z.pow_add_r by (try apply zlen_nonneg; lia).
        pose proof (dval_range r Hr). pose proof (zlen_nonneg r). pose proof (Z.pow_pos_nonneg 10 (zlen r) ltac:(lia) ltac:(lia)). nia.
      * left. rewrite N2 in * by reflexivity. rewrite app_nil_r in *. repeat split; [exact V|exact Z|lia].
    + rewrite N1 in * by reflexivity. rewrite app_nil_r in *. injection E as <- <- <- <-. left.
      assert (V : i1 = dval (d0 :: p1)) by (rewrite dval_cons; lia).
      assert (Z : sd1 = zlen (d0 :: p1) - 1) by (rewrite zlen_cons; lia).
      repeat split; [exact V|exact Z|lia].
Qed.

(** Integer literals. *)
Lemma num_res_int neg l : Forall is_digit l -> int_part l -> dval l <= maxi neg ->
  num_res neg l None None = Some (JInt (if neg then - dval l else dval l)).
Proof.
  intros Hl Hi M. unfold num_res. destruct (int_res neg l) as [[[i sd] big] x] eqn:E.
  destruct (int_res_spec _ _ _ _ _ _ Hl Hi E) as [(-> & -> & _)|(_ & l1 & l2 & _ & _ & _ & _ & Hm & _)]; [|lia].
  reflexivity.
Qed.
Lemma num_res_kind neg l lf ex j : Forall is_digit l -> int_part l -> num_res neg l lf ex = Some j ->
  (lf = None /\ ex = None /\ dval l <= maxi neg /\ j = JInt (if neg then - dval l else dval l)) \/
  (exists y p, let x := strtod_normal y p in j = JDbl (if neg then fneg x else x) /\ x < inf /\ (lf <> None \/ ex <> None \/ maxi neg < dval l)).
Proof.
  intros Hl Hi H. unfold num_res in H. destruct (int_res neg l) as [[[i sd] big] x] eqn:E.
  destruct (int_res_spec _ _ _ _ _ _ Hl Hi E) as [(-> & -> & _ & _ & Hm)|(-> & l1 & l2 & _ & _ & _ & _ & Hm & _)].
  - destruct lf as [lf|].
    + cbn [frac_res] in H. destruct (fint_run (dval l) 0 sd lf) as [[[i' ef] sd'] l']. destruct (fdbl_run l' (f_of_Z i') ef sd') as [x2 ef2].
      destruct (exp_res (dval l) true x2 ef2 ex) as [[[dbl x3] e]|] eqn:Ee; [|discriminate].
      assert (dbl = true) as ->.
      { destruct ex as [[[] [|d le]]|]; cbn [exp_res] in Ee; try discriminate; [|destruct (epos_run _ _ _); [|discriminate]|]; congruence. }
      cbv zeta in H. destruct (Z.leb_spec inf (strtod_normal x3 (e + ef2))); [discriminate|]. apply Some_inj in H. subst j. right.
      eexists _, _. cbv zeta. split; [reflexivity|]. split; [assumption|]. left. discriminate.
    + cbn [frac_res] in H. destruct (exp_res (dval l) false x 0 ex) as [[[dbl x3] e]|] eqn:Ee; [|discriminate].
      destruct ex as [[ne le]|].
      * assert (dbl = true) as ->.
        { destruct ne, le as [|d le]; cbn [exp_res] in Ee; try discriminate; [|destruct (epos_run _ _ _); [|discriminate]]; congruence. }
        cbv zeta in H. destruct (Z.leb_spec inf (strtod_normal x3 (e + 0))); [discriminate|]. apply Some_inj in H. subst j. right.
        eexists _, _. cbv zeta. split; [reflexivity|]. split; [assumption|]. right. left. discriminate.
      * cbn [exp_res] in Ee. injection Ee as <- <- <-. apply Some_inj in H. left. subst j. repeat split. exact Hm.
  - right. assert (D : exists x1 ef, frac_res i sd true x lf = (true, x1, ef)).
    { destruct lf as [lf|]; cbn [frac_res]; [destruct (fdbl_run lf x 0 sd); eauto|eauto]. }
    destruct D as (x1 & ef & D). rewrite D in H.
    destruct (exp_res i true x1 ef ex) as [[[dbl x3] e]|] eqn:Ee; [|discriminate].
    assert (dbl = true) as ->.
    { destruct ex as [[[] [|d le]]|]; cbn [exp_res] in Ee; try discriminate; [|destruct (epos_run _ _ _); [|discriminate]|]; congruence. }
    cbv zeta in H. destruct (Z.leb_spec inf (strtod_normal x3 (e + ef))); [discriminate|]. apply Some_inj in H. subst j.
    eexists _, _. cbv zeta. split; [reflexivity|]. split; [assumption|]. auto.
Qed.
