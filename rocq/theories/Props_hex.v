(** Property C95: addresses in texts, and integers after them. *)
From Coq Require Import ZArith Bool Lia Ascii String List.
From Verif Require Import Base F64 StrMap Value WfDec MBasic MGet MMat MNum LNum MText MToJson LToJson MToYaml LToYaml MToml MToToml MDump LDump MRaw.
Import ListNotations.
Local Open Scope Z_scope.

(** * C95: an address is written as a hexadecimal number that is the address, in JSON, YAML,
      TOML, dump and info; so is every integer written to the stream after it. *)

(** Reading a hexadecimal number, as strtoull(s,NULL,0) would: 0, or 0x and digits. *)
Definition digit_value (c : ascii) : option Z :=
  let n := Z.of_nat (nat_of_ascii c) in
  if (48 <=? n) && (n <=? 57) then Some (n - 48)
  else if (97 <=? n) && (n <=? 102) then Some (n - 87) else None.
Fixpoint digits_value (acc : Z) (t : text) : option Z :=
  match t with
  | [] => Some acc
  | c :: t' => match digit_value c with Some d => digits_value (acc * 16 + d) t' | None => None end
  end.
Definition hex_value (t : text) : option Z :=
  match t with
  | "0"%char :: [] => Some 0
  | "0"%char :: "x"%char :: c :: t' => digits_value 0 (c :: t')
  | _ => None
  end.

Lemma digit_ok d : 0 <= d < 16 -> digit_value (hex_digit d) = Some d.
Proof.
  intros H. assert (d = 0 \/ d = 1 \/ d = 2 \/ d = 3 \/ d = 4 \/ d = 5 \/ d = 6 \/ d = 7 \/ d = 8 \/ d = 9 \/ d = 10 \/ d = 11 \/ d = 12 \/ d = 13 \/ d = 14 \/ d = 15) as C by lia.
  repeat (destruct C as [->|C]; [vm_compute; reflexivity|]). subst. vm_compute. reflexivity.
Qed.
Lemma digits_app t : forall acc u, digits_value acc (t ++ u) = match digits_value acc t with Some a => digits_value a u | None => None end.
Proof. induction t as [|c t IH]; intros acc u; cbn [app digits_value]; [reflexivity|]. destruct (digit_value c); [apply IH|reflexivity]. Qed.
Lemma digits_ok fuel : forall n, 0 <= n < 16 ^ Z.of_nat fuel -> digits_value 0 (hex_digits fuel n) = Some n.
Proof.
  induction fuel as [|f IH]; intros n H; [cbn in H; cbn; f_equal; lia|]. cbn [hex_digits].
  assert (D : digit_value (hex_digit (n mod 16)) = Some (n mod 16)) by (apply digit_ok, Z.mod_pos_bound; lia).
  rewrite digits_app. destruct (Z.ltb_spec n 16).
  - cbn [digits_value]. rewrite D. f_equal. rewrite Z.mod_small; lia.
  - rewrite IH.
    + cbn [digits_value]. rewrite D. f_equal. pose proof (Z.div_mod n 16). lia.
    + split; [apply Z.div_pos; lia|]. apply Z.div_lt_upper_bound; [lia|]. rewrite Nat2Z.inj_succ, Z.pow_succ_r in H by lia. lia.
Qed.
Lemma digits_some fuel n : hex_digits (S fuel) n <> [].
Proof. cbn [hex_digits]. intros E. now apply app_eq_nil in E. Qed.
Lemma hex_ok n : 0 <= n < 2 ^ 64 -> hex_value (print_hex n) = Some n.
Proof.
  intros H. unfold print_hex. destruct (Z.eqb_spec n 0) as [->|N]; [reflexivity|].
  pose proof (digits_ok 16 n H) as D. destruct (hex_digits 16 n) as [|c t] eqn:E; [now apply digits_some in E|]. exact D.
Qed.

(** The texts of a pointer. *)
Theorem C95_pointer : forall P SP p prefix indent hx, 0 <= p < 2 ^ 64 -> exists t, hex_value t = Some p /\
  to_json P SP (GPtr p) prefix hx = Ok (t, true) /\
  to_yaml P SP (GPtr p) prefix hx = Ok (t ++ [nl], true) /\
  dump P SP (GPtr p) prefix indent hx = Ok (prefix ++ t ++ [nl], true) /\
  GC_to_TOML (GPtr p) = Ok (Some (TStrN (untxt t))) /\
  info P SP (GPtr p) = txt "Generic pointer: " ++ t ++ [nl].
Proof. intros P SP p prefix indent hx H. exists (print_hex p). split; [now apply hex_ok|]. repeat (split; [reflexivity|]). reflexivity. Qed.
(** So different addresses have different texts. *)
Theorem C95_distinct : forall P SP p q prefix hx hx' t h h', 0 <= p < 2 ^ 64 -> 0 <= q < 2 ^ 64 ->
  to_json P SP (GPtr p) prefix hx = Ok (t, h) -> to_json P SP (GPtr q) prefix hx' = Ok (t, h') -> p = q.
Proof.
  intros P SP p q prefix hx hx' t h h' Hp Hq Ep Eq. cbn [to_json] in Ep, Eq. apply Ok_inj in Ep, Eq. injection Ep as <- _. injection Eq as E _.
  apply Some_inj. rewrite <- (hex_ok p Hp), <- (hex_ok q Hq). now rewrite E.
Qed.

(** A pointer is written somewhere in the container. *)
Fixpoint has_pointer (g : gc) : bool :=
  match g with
  | GPtr _ => true
  | GVPtr v => match v with [] => false | _ => true end
  | GVec v => existsb has_pointer v
  | GMap m => existsb (fun kv => has_pointer (snd kv)) m
  | _ => false
  end.

(** After a pointer, and only then, the stream is in hexadecimal mode. *)
Theorem C95_json_mode : forall P SP g prefix hx t h, to_json P SP g prefix hx = Ok (t, h) -> h = hx || has_pointer g.
Proof.
  intros P SP. induction g as [g Hv Hm | v IH | m IH] using gc_nest_ind; intros prefix hx t h E.
  - destruct g; try nested_contra Hv Hm; cbn [to_json has_pointer] in *;
      try (apply Ok_inj in E; injection E as _ <-; now rewrite ?orb_false_r, ?orb_true_r);
      try (apply bind_ok in E as (x & _ & E); apply Ok_inj in E; injection E as _ <-; now rewrite orb_false_r).
    apply Ok_inj in E. injection E as _ <-. destruct v; now rewrite ?orb_false_r, ?orb_true_r.
  - cbn [has_pointer]. destruct v as [|a0 v0]; [cbn in E; apply Ok_inj in E; injection E as _ <-; symmetry; apply orb_false_r|].
    rewrite to_json_vec in E by discriminate. apply bind_ok in E as ([b h'] & E & Eq). apply Ok_inj in Eq. injection Eq as _ <-.
    revert E IH. generalize (a0 :: v0), ("[" :: [nl])%char. clear. intros v pre. revert pre hx b h'.
    induction v as [|a v IHv]; intros pre hx b h' E IH; cbn [put_elems existsb] in *; [apply Ok_inj in E; injection E as _ <-; symmetry; apply orb_false_r|].
    apply bind_ok in E as ([t1 h1] & E1 & E). apply bind_ok in E as ([r h2] & E2 & E). apply Ok_inj in E. injection E as _ <-.
    inversion IH as [|? ? Ia Iv]; subst. rewrite (IHv _ _ _ _ E2 Iv), (Ia _ _ _ _ E1). now rewrite orb_assoc.
  - cbn [has_pointer]. destruct m as [|a0 m0]; [cbn in E; apply Ok_inj in E; injection E as _ <-; symmetry; apply orb_false_r|].
    rewrite to_json_map in E by discriminate. apply bind_ok in E as ([b h'] & E & Eq). apply Ok_inj in Eq. injection Eq as _ <-.
    revert E IH. generalize (a0 :: m0), ("{" :: [nl])%char. clear. intros m pre. revert pre hx b h'.
    induction m as [|(k, a) m IHv]; intros pre hx b h' E IH; cbn [put_members existsb snd] in *; [apply Ok_inj in E; injection E as _ <-; symmetry; apply orb_false_r|].
    apply bind_ok in E as ([t1 h1] & E1 & E). apply bind_ok in E as ([r h2] & E2 & E). apply Ok_inj in E. injection E as _ <-.
    inversion IH as [|? ? Ia Iv]; subst. rewrite (IHv _ _ _ _ E2 Iv), (Ia _ _ _ _ E1). now rewrite orb_assoc.
Qed.
Theorem C95_yaml_mode : forall P SP g prefix hx t h, to_yaml P SP g prefix hx = Ok (t, h) -> h = hx || has_pointer g.
Proof.
  intros P SP. induction g as [g Hv Hm | v IH | m IH] using gc_nest_ind; intros prefix hx t h E.
  - destruct g; try nested_contra Hv Hm; cbn [to_yaml has_pointer] in *;
      try (apply Ok_inj in E; injection E as _ <-; now rewrite ?orb_false_r, ?orb_true_r);
      try (apply bind_ok in E as (x & _ & E); apply Ok_inj in E; injection E as _ <-; now rewrite orb_false_r).
    apply Ok_inj in E. injection E as _ <-. destruct v; now rewrite ?orb_false_r, ?orb_true_r.
  - cbn [has_pointer]. destruct v as [|a0 v0]; [cbn in E; apply Ok_inj in E; injection E as _ <-; symmetry; apply orb_false_r|].
    rewrite to_yaml_vec in E by discriminate. apply bind_ok in E as ([b h'] & E & Eq). apply Ok_inj in Eq. injection Eq as _ <-.
    revert E IH. generalize (a0 :: v0). clear. intros v. revert hx b h'.
    induction v as [|a v IHv]; intros hx b h' E IH; cbn [yput_elems existsb] in *; [apply Ok_inj in E; injection E as _ <-; symmetry; apply orb_false_r|].
    apply bind_ok in E as ([t1 h1] & E1 & E). apply bind_ok in E as ([r h2] & E2 & E). apply Ok_inj in E. injection E as _ <-.
    inversion IH as [|? ? Ia Iv]; subst. rewrite (IHv _ _ _ E2 Iv), (Ia _ _ _ _ E1). now rewrite orb_assoc.
  - cbn [has_pointer]. destruct m as [|a0 m0]; [cbn in E; apply Ok_inj in E; injection E as _ <-; symmetry; apply orb_false_r|].
    rewrite to_yaml_map in E by discriminate. apply bind_ok in E as ([b h'] & E & Eq). apply Ok_inj in Eq. injection Eq as _ <-.
    revert E IH. generalize (a0 :: m0). clear. intros m. revert hx b h'.
    induction m as [|(k, a) m IHv]; intros hx b h' E IH; cbn [yput_members existsb snd] in *; [apply Ok_inj in E; injection E as _ <-; symmetry; apply orb_false_r|].
    apply bind_ok in E as ([t1 h1] & E1 & E). apply bind_ok in E as ([r h2] & E2 & E). apply Ok_inj in E. injection E as _ <-.
    inversion IH as [|? ? Ia Iv]; subst. rewrite (IHv _ _ _ E2 Iv), (Ia _ _ _ _ E1). now rewrite orb_assoc.
Qed.
Lemma ptr_lines_mode v : forall prefix i hx, snd (ptr_lines prefix i hx v) = match v with [] => hx | _ => true end.
Proof.
  assert (T : forall v prefix i, snd (ptr_lines prefix i true v) = true).
  { induction v0 as [|p v0 IH]; intros prefix i; [reflexivity|]. cbn [ptr_lines]. specialize (IH prefix (i + 1)). destruct (ptr_lines prefix (i + 1) true v0). exact IH. }
  destruct v as [|p v]; intros prefix i hx; [reflexivity|]. cbn [ptr_lines]. specialize (T v prefix (i + 1)). destruct (ptr_lines prefix (i + 1) true v). exact T.
Qed.
Theorem C95_dump_mode : forall P SP g prefix indent hx t h, dump P SP g prefix indent hx = Ok (t, h) -> h = hx || has_pointer g.
Proof.
  intros P SP. induction g as [g Hv Hm | v IH | m IH] using gc_nest_ind; intros prefix indent hx t h E.
  - destruct g; try nested_contra Hv Hm; cbn [dump has_pointer] in *;
      try (apply Ok_inj in E; injection E as _ <-; now rewrite ?orb_false_r, ?orb_true_r);
      try (apply bind_ok in E as (x & _ & E); apply Ok_inj in E; injection E as _ <-; now rewrite orb_false_r).
    apply Ok_inj in E. pose proof (ptr_lines_mode v prefix 0 hx) as M. rewrite E in M. cbn [snd] in M. subst h. destruct v; now rewrite ?orb_false_r, ?orb_true_r.
  - cbn [has_pointer]. rewrite dump_vec in E. revert E IH. generalize 0. revert hx t h.
    induction v as [|a v IHv]; intros hx t h i E IH; cbn [dump_elems existsb] in *; [apply Ok_inj in E; injection E as _ <-; symmetry; apply orb_false_r|].
    apply bind_ok in E as ([t1 h1] & E1 & E). apply bind_ok in E as ([r h2] & E2 & E). apply Ok_inj in E. injection E as _ <-.
    inversion IH as [|? ? Ia Iv]; subst. rewrite (IHv _ _ _ _ E2 Iv). rewrite orb_assoc. f_equal.
    destruct (short a); apply bind_ok in E1 as ([t' h'] & E1 & Eq); apply Ok_inj in Eq; injection Eq as _ <-; eapply Ia; exact E1.
  - cbn [has_pointer]. rewrite dump_map in E. revert E IH. revert hx t h.
    induction m as [|(k, a) m IHv]; intros hx t h E IH; cbn [dump_members existsb snd] in *; [apply Ok_inj in E; injection E as _ <-; symmetry; apply orb_false_r|].
    apply bind_ok in E as ([t1 h1] & E1 & E). apply bind_ok in E as ([r h2] & E2 & E). apply Ok_inj in E. injection E as _ <-.
    inversion IH as [|? ? Ia Iv]; subst. rewrite (IHv _ _ _ E2 Iv). rewrite orb_assoc. f_equal.
    destruct (simple_data a); apply bind_ok in E1 as ([t' h'] & E1 & Eq); apply Ok_inj in Eq; injection Eq as _ <-; eapply Ia; exact E1.
Qed.

(** In hexadecimal mode integers are written as their bits, otherwise in decimal. *)
Theorem C95_integers : forall P SP prefix indent i l, exists ti tl,
  hex_value ti = Some (i mod 2 ^ 32) /\ hex_value tl = Some (l mod 2 ^ 64) /\
  (forall hx : bool, let wi := if hx then ti else print_int i in let wl := if hx then tl else print_int l in
    to_json P SP (GInt i) prefix hx = Ok (wi, hx) /\ to_json P SP (GLong l) prefix hx = Ok (wl, hx) /\
    to_yaml P SP (GInt i) prefix hx = Ok (wi ++ [nl], hx) /\ to_yaml P SP (GLong l) prefix hx = Ok (wl ++ [nl], hx) /\
    dump P SP (GInt i) prefix indent hx = Ok (prefix ++ wi ++ [nl], hx) /\ dump P SP (GLong l) prefix indent hx = Ok (prefix ++ wl ++ [nl], hx)).
Proof.
  intros P SP prefix indent i l. exists (print_hex (to_u32 i)), (print_hex (to_u64 l)). split; [|split].
  - apply hex_ok. unfold to_u32. pose proof (Z.mod_pos_bound i (2 ^ 32) ltac:(lia)). lia.
  - apply hex_ok. unfold to_u64. apply Z.mod_pos_bound. lia.
  - intros [|]; cbv zeta; repeat (split; [reflexivity|]); reflexivity.
Qed.
(** So an element of a vector is written in hexadecimal mode if and only if a pointer comes
    before it. *)
Theorem C95_json_vector : forall P SP l1 a l2 prefix hx t h, to_json P SP (GVec (l1 ++ a :: l2)) prefix hx = Ok (t, h) ->
  exists u w ta ha, t = u ++ ta ++ w /\ to_json P SP a (prefix ++ txt "  ") (hx || existsb has_pointer l1) = Ok (ta, ha).
Proof.
  intros P SP l1 a l2 prefix hx t h E. rewrite to_json_vec in E by (destruct l1; discriminate). apply bind_ok in E as ([b h'] & E & Eq).
  apply Ok_inj in Eq. injection Eq as Et _.
  assert (G : exists u w ta ha, b = u ++ ta ++ w /\ to_json P SP a (prefix ++ txt "  ") (hx || existsb has_pointer l1) = Ok (ta, ha)).
  { clear Et. revert E. generalize ("[" :: [nl])%char. revert hx b h'. induction l1 as [|x l1 IH]; intros hx b h' pre E; cbn [app put_elems existsb] in *;
      apply bind_ok in E as ([t1 h1] & E1 & E); apply bind_ok in E as ([r h2] & E2 & E); apply Ok_inj in E; injection E as <- _.
    - exists (pre ++ prefix ++ txt "  "), r, t1, h1. rewrite orb_false_r. split; [now rewrite <- !app_assoc|assumption].
    - destruct (IH _ _ _ _ E2) as (u & w & ta & ha & -> & Ea). exists (pre ++ (prefix ++ txt "  ") ++ t1 ++ u), w, ta, ha.
      split; [now rewrite <- !app_assoc|]. rewrite (C95_json_mode _ _ _ _ _ _ _ E1) in Ea. now rewrite orb_assoc. }
  destruct G as (u & w & ta & ha & -> & Ea). exists (nl :: prefix ++ u), (w ++ nl :: prefix ++ txt "]"), ta, ha.
  split; [|assumption]. rewrite <- Et. cbn [app]. now rewrite <- !app_assoc.
Qed.
Example C95_example : hex_value (txt "0x1a2b") = Some 6699 /\ hex_value (txt "0xg") = None /\
  json_of 6 12 [] (GVec [GInt 26; GPtr 26; GInt (-1)]) = Ok (nl :: txt "[" ++ nl :: txt "  26," ++ nl :: txt "  0x1a," ++ nl :: txt "  0xffffffff" ++ nl :: txt "]").
Proof. vmc. Qed.

Print Assumptions C95_pointer.
Print Assumptions C95_distinct.
Print Assumptions C95_json_mode.
Print Assumptions C95_yaml_mode.
Print Assumptions C95_dump_mode.
Print Assumptions C95_integers.
Print Assumptions C95_json_vector.
