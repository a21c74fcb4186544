(** Properties C32-C36: serialization. *)
From Coq Require Import ZArith Bool Lia Ascii String Sorted List.
From Verif Require Import Base F64 StrMap Value WfDec MBasic SCollapse MSerialize SSerialize LSerialize LSerialize2.
Import ListNotations.
Local Open Scope Z_scope.

(** In all statements [hard] selects how &front() of an empty string behaves: false, a pointer
    to the terminator (every ordinary library); true, undefined (the standard; a library with
    assertions aborts). *)

Lemma everywhere_and (P Q R : gc -> Prop) g : (forall g, P g -> Q g -> R g) -> everywhere P g -> everywhere Q g -> everywhere R g.
Proof.
  intros H. induction g as [g Hv Hm | v IH | m IH] using gc_nest_ind; intros HP HQ.
  - apply everywhere_here in HP. apply everywhere_here in HQ. destruct g; try nested_contra Hv Hm; (split; [auto|exact I]).
  - apply everywhere_vec in HP as [HP HPs]. apply everywhere_vec in HQ as [HQ HQs]. apply everywhere_vec. split; [auto|].
    rewrite Forall_forall in IH, HPs, HQs. apply Forall_forall. auto.
  - apply everywhere_map in HP as [HP HPs]. apply everywhere_map in HQ as [HQ HQs]. apply everywhere_map. split; [auto|].
    rewrite Forall_forall in IH, HPs, HQs. apply Forall_forall. auto.
Qed.
Lemma strings_here_imp (P Q : string -> Prop) g : (forall s, P s -> Q s) -> strings_here P g -> strings_here Q g.
Proof. intros H. destruct g; cbn; auto; apply Forall_impl; auto. Qed.
Lemma everywhere_true (P : gc -> Prop) g : (forall g, P g) -> everywhere P g.
Proof.
  intros H. induction g as [g Hv Hm | v IH | m IH] using gc_nest_ind.
  - destruct g; try nested_contra Hv Hm; (split; [auto|exact I]).
  - apply everywhere_vec. split; auto.
  - apply everywhere_map. split; auto.
Qed.
Lemma fine_of hard g : no_mat_complex g -> (hard = true -> no_empty_string g) -> ser_fine hard g.
Proof.
  intros H1 H2. destruct hard.
  - eapply everywhere_and; [|exact H1|exact (H2 eq_refl)]. intros x Hx Hs. split; [exact Hx|].
    eapply strings_here_imp; [|exact Hs]. intros s K _. exact K.
  - eapply everywhere_and with (Q := fun _ => True); [|exact H1|now apply everywhere_true]. intros x Hx _. split; [exact Hx|].
    destruct x; cbn; auto; try (intros K; discriminate K); apply Forall_forall; intros ? _ K; discriminate K.
Qed.

(** * C32: mem_size is exactly the number of bytes serialize writes.

    Full statement: the theorem without the hypothesis [no_mat_complex].  False in the code,
    see [C32_refuted]. *)
Theorem C32_mem_size_partial : forall hard g, zlen (enc g) < 2^31 -> no_mat_complex g ->
  (hard = true -> no_empty_string g) ->
  exists n, mem_size g = Ok n /\
    forall buf, n <= zlen buf < 2^31 ->
      exists bytes, zlen bytes = n /\
        serialize hard g (zlen buf) buf 0 = (Ok n, bytes ++ skipn (Z.to_nat n) buf).
Proof.
  intros hard g Hs Hc He. exists (zlen (enc g)). split; [now apply mem_size_ok|]. intros buf Hb.
  exists (enc g). split; [reflexivity|].
  pose proof (serialize_ok hard g (enc_short g Hs) (zlen buf) buf 0 ltac:(lia) ltac:(pose proof (zlen_nonneg buf); lia) eq_refl) as K.
  destruct (serialize hard g (zlen buf) buf 0) as [[n| | |] buf'].
  - destruct K as (-> & _ & ->). reflexivity.
  - lia.
  - exfalso. now apply K, fine_of.
  - now exfalso.
Qed.

(** mem_size alone is right for complex matrices too. *)
Theorem C32_mem_size_value : forall g, zlen (enc g) < 2^31 -> mem_size g = Ok (zlen (enc g)).
Proof. apply mem_size_ok. Qed.

(** A complex matrix cannot be serialized however large the buffer: the missing break lets
    the code read the matrix as a vector of strings. *)
Theorem C32_refuted : forall hard m, wf (GMComplex m) -> zlen (enc (GMComplex m)) < 2^31 ->
  exists n, mem_size (GMComplex m) = Ok n /\
    forall buf, n <= zlen buf < 2^31 -> fst (serialize hard (GMComplex m) (zlen buf) buf 0) = Undef.
Proof.
  intros hard m Hw Hs. exists (zlen (enc (GMComplex m))). split; [now apply mem_size_ok|]. intros buf Hb.
  pose proof (serialize_ok hard (GMComplex m) (enc_short _ Hs) (zlen buf) buf 0 ltac:(lia) ltac:(pose proof (zlen_nonneg buf); lia) eq_refl) as K.
  assert (D : forall n b, serialize hard (GMComplex m) (zlen buf) buf 0 <> (Ok n, b)).
  { intros n b E. cbn [serialize] in E. unfold wseq in E.
    destruct (put_i32 _ _) as [[[]| | |] st1]; cbn [finish] in E; try discriminate.
    destruct (put_mat put_cplx m st1) as [[[]| | |] st2]; cbn [finish] in E; discriminate. }
  destruct (serialize hard (GMComplex m) (zlen buf) buf 0) as [[n| | |] b].
  - now destruct (D n b).
  - lia.
  - reflexivity.
  - contradiction.
Qed.

(** By the letter of the standard an empty string is a problem as well. *)
Theorem C32_empty_string_refuted : exists n, mem_size (GStr "") = Ok n /\
  fst (serialize true (GStr "") n (repeat 0 (Z.to_nat n)) 0) = Undef.
Proof. exists 9. vmc. Qed.

Definition sample : gc :=
  GMap [("a"%string, GVec [GVInt [1; -2]; GStr "xy"%string; GBool true]);
        ("b"%string, GMReal (Mat 1 2 [f_of_Z 1; f_of_Z 2]));
        ("c"%string, GVStr ["p"%string; "qq"%string])].
Lemma sample_wf : wf sample.
Proof. wfd. Qed.
Lemma sample_ok : no_mat_complex sample /\ no_pointer sample /\ nul_free sample /\ no_empty_string sample /\ zlen (enc sample) = 115.
Proof.
  unfold no_mat_complex, no_pointer, nul_free, no_empty_string, all_strings, sample.
  cbn [everywhere snd tag_of strings_here map fst].
  repeat match goal with
  | |- _ /\ _ => split
  | |- True => exact I
  | |- Forall _ (_ :: _) => apply Forall_cons
  | |- Forall _ [] => apply Forall_nil
  | |- _ <> _ => discriminate
  end; try reflexivity; try (unfold no_nul; cbn; intuition discriminate).
Qed.
Example C32_example : mem_size sample = Ok 115 /\ fst (serialize true sample 115 (repeat 7 115) 0) = Ok 115 /\
  fst (serialize true sample 114 (repeat 7 114) 0) = Throw.
Proof. vmc. Qed.

(** * C33: serialize never writes outside the buffer.

    Full statement: the theorem for every container and every declared length.  False in the
    code for complex matrices ([C32_refuted]), for strings of 2^31-1 characters and for a
    negative declared length ([C33_refuted]). *)
Theorem C33_bounded_partial : forall hard g buf, short g -> no_mat_complex g -> (hard = true -> no_empty_string g) ->
  zlen buf < 2^31 ->
  match serialize hard g (zlen buf) buf 0 with
  | (Ok n, buf') => n <= zlen buf /\ zlen buf' = zlen buf
  | (Throw, buf') => zlen buf < zlen (enc g) /\ zlen buf' = zlen buf
  | _ => False
  end.
Proof.
  intros hard g buf Hs Hc He Hb.
  pose proof (serialize_ok hard g Hs (zlen buf) buf 0 ltac:(lia) ltac:(pose proof (zlen_nonneg buf); lia) eq_refl) as K.
  destruct (serialize hard g (zlen buf) buf 0) as [[n| | |] buf']; auto.
  - destruct K as (-> & Hn & ->). split; [assumption|].
    apply (wrote_len (enc g) (W buf 0 (zlen buf))); [|exact Hn].
    unfold ready. cbn. pose proof (zlen_nonneg buf). lia.
  - now apply K, fine_of.
Qed.

Lemma string_of_len n : 0 <= n -> exists s, slen s = n.
Proof.
  intros Hn. exists (string_of_list_ascii (repeat "a"%char (Z.to_nat n))).
  unfold slen. rewrite <- ascii_length, list_ascii_of_string_of_list_ascii, repeat_length, Z2Nat.id by assumption. reflexivity.
Qed.

(** A string of 2^31-1 characters makes the stored length negative, which passes the check
    of the remaining space and reaches memcpy; with a negative declared length the check is
    made after conversion to unsigned and succeeds on an empty buffer. *)
Theorem C33_refuted :
  (exists s, forall hard buf, 8 <= zlen buf < 2^31 ->
     fst (serialize hard (GStr s) (zlen buf) buf 0) = Undef) /\
  (forall hard, fst (serialize hard (GInt 1) (-1) [] 0) = Undef).
Proof.
  split; [|intros []; vm_compute; reflexivity].
  destruct (string_of_len (2^31 - 1) ltac:(lia)) as [s L]. exists s. intros hard buf Hb.
  cbn [serialize]. unfold put_str. rewrite L. change (to_i32 (2^31 - 1 + 1)) with (- 2^31).
  assert (R : ready (W buf 0 (zlen buf))) by (unfold ready; cbn; lia).
  unfold wseq at 1. pose proof (writes_i32 True (tag_num (tag_of (GStr s))) _ R) as K.
  destruct (put_i32 (tag_num (tag_of (GStr s))) (W buf 0 (zlen buf))) as [[[]| | |] st1]; try tauto;
    [|cbn [wavail] in K; rewrite le_zlen in K; lia].
  destruct K as [K1 ->]. rewrite le_zlen in K1. pose proof (wrote_ready (le 4 (tag_num (tag_of (GStr s)))) _ R ltac:(rewrite le_zlen; exact K1)) as R1.
  unfold wseq. pose proof (writes_i32 True (-2^31) _ R1) as K.
  destruct (put_i32 (- 2^31) _) as [[[]| | |] st2]; try tauto;
    [|cbn [wavail wrote] in K; rewrite !le_zlen in K; lia].
  destruct K as [K2 ->]. cbn [wrote wavail] in *. rewrite le_zlen in K2.
  rewrite !le_zlen. destruct (Z.leb_spec (- 2 ^ 31) (zlen buf - Z.of_nat 4 - Z.of_nat 4)); [reflexivity|lia].
Qed.

(** * C34: round trip.

    Full statement: the theorem without the hypotheses [no_pointer], [no_mat_complex] and
    [nul_free].  False in the code for pointers, complex matrices and strings or keys with
    embedded zero bytes, see [C34_refuted] and [C32_refuted]. *)
Lemma portable_iff g : portable g <-> no_pointer g /\ no_mat_complex g /\ nul_free g.
Proof.
  split.
  - intros H. unfold no_pointer, no_mat_complex, nul_free, all_strings.
    split; [|split]; (eapply (everywhere_and portable_here (fun _ => True)); [|exact H|now apply everywhere_true]);
      unfold portable_here; intros x Hx _; tauto.
  - intros (H1 & H2 & H3). unfold portable.
    eapply (everywhere_and _ _ _ g); [|eapply (everywhere_and (fun x => tag_of x <> TPtr /\ tag_of x <> TVPtr) (fun x => tag_of x <> TMComplex)
      (fun x => tag_of x <> TPtr /\ tag_of x <> TVPtr /\ tag_of x <> TMComplex)); [|exact H1|exact H2]|exact H3].
    + intros x Hx Hs. unfold portable_here. cbv beta in *. destruct Hx as (?&?&?). auto.
    + cbv beta. intros x [? ?] ?. auto.
Qed.

(** The bytes followed by anything are read back, whatever the receiver [old] held, and the
    returned count is the number of bytes of the encoding.  The recursion limit of the model
    is reached only below the nesting depth. *)
Theorem C34_round_trip_partial : forall hard g old buf n buf' rest fuel, wf g -> short g ->
  no_pointer g -> no_mat_complex g -> nul_free g ->
  zlen buf < 2^31 -> serialize hard g (zlen buf) buf 0 = (Ok n, buf') ->
  zlen (buf' ++ rest) < 2^31 -> (depth g < fuel)%nat ->
  de_serialize fuel (zlen (buf' ++ rest)) (buf' ++ rest) old = (Ok n, g) /\
  mem_size g = Ok n /\
  de_serialize fuel n (firstn (Z.to_nat n) buf') old = (Ok n, g).
Proof.
  intros hard g old buf n buf' rest fuel Hw Hs Hp Hc Hn Hb E Hr Hf.
  pose proof (serialize_ok hard g Hs (zlen buf) buf 0 ltac:(lia) ltac:(pose proof (zlen_nonneg buf); lia) eq_refl) as K.
  rewrite E in K. destruct K as (-> & Hle & ->).
  assert (Pg : portable g) by (apply portable_iff; tauto).
  cbn [wrote wbuf wpos Z.to_nat firstn app] in *. pose proof (zlen_nonneg (skipn (Z.to_nat (0 + zlen (enc g))) buf)).
  pose proof (zlen_nonneg rest).
  split; [|split].
  - apply de_ser_ok; auto.
    + rewrite !zlen_app in *. lia.
    + exists [], (skipn (Z.to_nat (0 + zlen (enc g))) buf ++ rest). cbn [app]. now rewrite <- app_assoc.
  - apply mem_size_ok. lia.
  - replace (firstn (Z.to_nat (zlen (enc g))) (enc g ++ skipn (Z.to_nat (0 + zlen (enc g))) buf)) with (enc g).
    + apply de_ser_ok; auto; try lia. exists [], []. cbn [app]. now rewrite app_nil_r.
    + unfold zlen. rewrite Nat2Z.id, firstn_app, firstn_all, Nat.sub_diag. cbn [firstn]. now rewrite app_nil_r.
Qed.

(** What does not come back: a pointer becomes an empty container and its bytes are not
    consumed; a string is cut at a zero byte; so is a key, which can merge two entries. *)
Theorem C34_refuted :
  (exists p buf, serialize false (GPtr p) 12 (repeat 0 12) 0 = (Ok 12, buf) /\
     forall old, de_serialize 5 12 buf old = (Ok 4, GNone)) /\
  (exists p buf, serialize false (GVPtr [p]) 16 (repeat 0 16) 0 = (Ok 16, buf) /\
     forall old, de_serialize 5 16 buf old = (Ok 4, GNone)) /\
  (exists s buf, s <> EmptyString /\ serialize false (GStr s) 10 (repeat 0 10) 0 = (Ok 10, buf) /\
     forall old, de_serialize 5 10 buf old = (Ok 10, GStr EmptyString)) /\
  (exists k1 k2 buf n, wf (GMap [(k1, GInt 1); (k2, GInt 2)]) /\
     serialize false (GMap [(k1, GInt 1); (k2, GInt 2)]) 50 (repeat 0 50) 0 = (Ok n, buf) /\
     forall old, de_serialize 5 50 buf old = (Ok n, GMap [(k1, GInt 2)])).
Proof.
  split; [|split; [|split]].
  - exists 5. eexists. split; [vm_compute; reflexivity|]. intros old. vm_compute. reflexivity.
  - exists 5. eexists. split; [vm_compute; reflexivity|]. intros old. vm_compute. reflexivity.
  - exists (String Ascii.zero EmptyString). eexists. split; [discriminate|]. split; [vm_compute; reflexivity|].
    intros old. vm_compute. reflexivity.
  - exists "a"%string, (String "a" (String Ascii.zero EmptyString)). eexists. exists 37.
    split; [|split; [vm_compute; reflexivity|intros old; vm_compute; reflexivity]].
    wfd.
Qed.

Example C34_example : wf sample /\ no_pointer sample /\ no_mat_complex sample /\ nul_free sample /\
  exists buf', serialize false sample 130 (repeat 7 130) 0 = (Ok 115, buf') /\
  de_serialize 4 132 (buf' ++ [1; 2]) (GInt 1) = (Ok 115, sample).
Proof.
  split; [exact sample_wf|]. pose proof sample_ok as (H0 & H1 & H2 & _). split; [exact H1|]. split; [exact H0|]. split; [exact H2|].
  eexists. split; [vm_compute; reflexivity|]. vm_compute. reflexivity.
Qed.

(** * C35: serialization is injective. *)
Theorem C35_injective : forall hard g h buf1 buf2 n1 n2 out1 out2, wf g -> wf h -> short g -> short h ->
  zlen buf1 < 2^31 -> zlen buf2 < 2^31 ->
  serialize hard g (zlen buf1) buf1 0 = (Ok n1, out1) -> serialize hard h (zlen buf2) buf2 0 = (Ok n2, out2) ->
  prefix_of (firstn (Z.to_nat n1) out1) (firstn (Z.to_nat n2) out2) -> g = h.
Proof.
  intros hard g h buf1 buf2 n1 n2 out1 out2 Wg Wh Sg Sh B1 B2 E1 E2 [r Hp].
  pose proof (serialize_ok hard g Sg (zlen buf1) buf1 0 ltac:(lia) ltac:(pose proof (zlen_nonneg buf1); lia) eq_refl) as K1.
  pose proof (serialize_ok hard h Sh (zlen buf2) buf2 0 ltac:(lia) ltac:(pose proof (zlen_nonneg buf2); lia) eq_refl) as K2.
  rewrite E1 in K1. rewrite E2 in K2. destruct K1 as (-> & L1 & ->), K2 as (-> & L2 & ->).
  cbn [wrote wbuf wpos Z.to_nat firstn app] in Hp.
  assert (F : forall (l m : list Z), firstn (Z.to_nat (zlen l)) (l ++ m) = l).
  { intros l m. unfold zlen. rewrite Nat2Z.id, firstn_app, firstn_all, Nat.sub_diag. cbn [firstn]. apply app_nil_r. }
  rewrite !F in Hp. destruct (enc_pfree g h r []) as [K _]; auto; try lia. now rewrite app_nil_r.
Qed.
Example C35_example : exists out1 out2,
  serialize false (GVec [GInt 1]) 16 (repeat 0 16) 0 = (Ok 16, out1) /\
  serialize false (GVec [GInt 1; GNone]) 20 (repeat 0 20) 0 = (Ok 20, out2) /\ firstn 4 out1 = firstn 4 out2.
Proof. eexists. eexists. split; [vm_compute; reflexivity|]. split; vm_compute; reflexivity. Qed.

(** * C36: de_serialize never reads outside the buffer.

    Full statement: for every byte string and declared length the outcome is [Ok] or [Throw].
    False in the code, see [C36_refuted]; what holds is the round trip above (encodings
    followed by anything are read within bounds) and that a returned count is within the
    declared length. *)
Theorem C36_count_partial : forall fuel dim buf old n g, de_serialize fuel dim buf old = (Ok n, g) -> n <= dim.
Proof.
  intros fuel dim buf old n g E. unfold de_serialize in E. destruct fuel as [|fuel]; [discriminate|]. cbn [de_ser] in E.
  destruct (rd_i32 buf 0); try discriminate. unfold check_end in E.
  destruct (de_body _ _ _ _ _ _) as [[k| | |] h]; try discriminate.
  destruct (Z.leb_spec k dim); [|discriminate]. inversion E; subst; assumption.
Qed.

(** Reading past the end happens before any check: on an empty buffer, on a truncated
    encoding, on a string without terminator, on a hostile count; a negative stored string
    length moves the read position back and the recursion never ends. *)
Theorem C36_refuted : forall old,
  de_serialize 5 0 [] old = (Undef, GNone) /\
  de_serialize 5 4 (le 4 3) old = (Undef, GNone) /\
  fst (de_serialize 5 11 (le 4 7 ++ le 4 3 ++ [65; 66; 67]) old) = Undef /\
  fst (de_serialize 5 12 (le 4 10 ++ le 4 2 ++ le 4 9) old) = Undef /\
  (forall fuel, fst (de_serialize fuel 17 (le 4 19 ++ le 4 2 ++ le 4 7 ++ le 4 (-16) ++ [0]) old) = Diverge).
Proof.
  intros old. do 4 (split; [vm_compute; reflexivity|]).
  set (b := le 4 19 ++ le 4 2 ++ le 4 7 ++ le 4 (-16) ++ [0]).
  assert (K : forall fuel dim, 0 <= dim < 2^31 - 4 -> fst (de_ser fuel b dim 0) = Diverge).
  { induction fuel as [|fuel IH]; intros dim Hd; [reflexivity|]. cbn [de_ser].
    change (rd_i32 b 0) with (@Ok Z 19). cbn [de_body]. change (step rd_i32 4 b 0 4) with (Ok (2, 8)).
    cbv iota beta. change (Z.to_nat (to_u32 2)) with 2%nat. cbn [de_vec]. rewrite chk32_ok by (unfold int32; lia).
    destruct fuel as [|fuel]; [reflexivity|].
    assert (E8 : de_ser (S fuel) b (dim - 8) (0 + 8) = (if -8 <=? dim - 8 then Ok (-8) else Throw, GStr EmptyString))
      by reflexivity.
    rewrite E8. destruct (Z.leb_spec (-8) (dim - 8)); [|lia]. change (chk32 (8 + -8)) with (@Ok Z 0).
    cbv iota beta. rewrite chk32_ok by (unfold int32; lia). replace (dim - 0) with dim by lia. change (0 + 0) with 0.
    specialize (IH dim Hd). destruct (de_ser (S fuel) b dim 0) as [r g]. cbn [fst] in IH. subst r. reflexivity. }
  intros fuel. apply (K fuel 17). lia.
Qed.

Print Assumptions C32_mem_size_partial.
Print Assumptions C32_mem_size_value.
Print Assumptions C32_refuted.
Print Assumptions C33_bounded_partial.
Print Assumptions C33_refuted.
Print Assumptions C34_round_trip_partial.
Print Assumptions C34_refuted.
Print Assumptions C35_injective.
Print Assumptions C36_count_partial.
Print Assumptions C36_refuted.
