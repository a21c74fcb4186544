(** Lemmas about dump and print_content_types. *)
From Coq Require Import ZArith Bool Lia Ascii String List.
From Verif Require Import Base F64 StrMap Value MBasic SCopy MGet MMat Props_mat MMap SCapi SCollapse MNum LNum MText LTable MJson SJson SJsonText SToJson MToJson LToJson
  MToYaml SToYaml LToYaml MDump SDump.
Import ListNotations.
Local Open Scope Z_scope.

(** * Keys with formatting *)
Lemma space_blank c : is_space c = true <-> blank c.
Proof.
  unfold is_space, blank. rewrite orb_true_iff, andb_true_iff, !N.leb_le, N.eqb_eq. apply or_iff_compat_r. unfold ch. split; intros H.
  - rewrite <- (ascii_N_embedding c), H. reflexivity.
  - rewrite H. reflexivity.
Qed.
Lemma digit_decimal c : digit_char c = true <-> decimal c.
Proof. unfold digit_char, decimal. rewrite andb_true_iff, !N.leb_le. tauto. Qed.
Lemma line_underline c : is_line c = true <-> underline c.
Proof.
  unfold is_line, underline. rewrite !orb_true_iff, !Ascii.eqb_eq. cbn. intuition (subst; auto).
Qed.
Lemma eol_ends c : is_eol c = true <-> ends_line c.
Proof.
  unfold is_eol, ends_line. rewrite orb_true_iff, !N.eqb_eq. unfold ch. split; intros [H|H]; [left|right|left|right];
    try (rewrite <- (ascii_N_embedding c), H; reflexivity); rewrite H; reflexivity.
Qed.

Lemma skip_space_split t : exists s, t = s ++ skip_space t /\ Forall blank s /\ ~ starts_with blank (skip_space t).
Proof.
  induction t as [|c t (s & E & F & N)]; cbn [skip_space].
  - exists []. split; [reflexivity|]. split; [constructor|]. now intros (c & t & H & _).
  - destruct (is_space c) eqn:Ec.
    + exists (c :: s). split; [cbn [app]; now rewrite <- E|]. split; [|assumption]. constructor; [now apply space_blank|assumption].
    + exists []. split; [reflexivity|]. split; [constructor|]. intros (d & t' & [= <- <-] & H). apply space_blank in H. congruence.
Qed.
Lemma skip_space_skips s t : Forall blank s -> ~ starts_with blank t -> skip_space (s ++ t) = t.
Proof.
  intros H N. induction H as [|c s Hc _ IH]; cbn [app skip_space].
  - destruct t as [|c t]; [reflexivity|]. cbn [skip_space]. destruct (is_space c) eqn:Ec; [|reflexivity].
    destruct N. exists c, t. split; [reflexivity|]. now apply space_blank.
  - apply space_blank in Hc. now rewrite Hc.
Qed.
Lemma skip_digits_split t : exists s, t = s ++ skip_digits t /\ Forall decimal s /\ ~ starts_with decimal (skip_digits t).
Proof.
  induction t as [|c t (s & E & F & N)]; cbn [skip_digits].
  - exists []. split; [reflexivity|]. split; [constructor|]. now intros (c & t & H & _).
  - destruct (digit_char c) eqn:Ec.
    + exists (c :: s). split; [cbn [app]; now rewrite <- E|]. split; [|assumption]. constructor; [now apply digit_decimal|assumption].
    + exists []. split; [reflexivity|]. split; [constructor|]. intros (d & t' & [= <- <-] & H). apply digit_decimal in H. congruence.
Qed.
Lemma skip_digits_skips s t : Forall decimal s -> ~ starts_with decimal t -> skip_digits (s ++ t) = t.
Proof.
  intros H N. induction H as [|c s Hc _ IH]; cbn [app skip_digits].
  - destruct t as [|c t]; [reflexivity|]. cbn [skip_digits]. destruct (digit_char c) eqn:Ec; [|reflexivity].
    destruct N. exists c, t. split; [reflexivity|]. now apply digit_decimal.
  - apply digit_decimal in Hc. now rewrite Hc.
Qed.
Lemma eol_none t : existsb is_eol t = false <-> ~ Exists ends_line t.
Proof.
  rewrite <- not_true_iff_false, existsb_exists, Exists_exists. split; intros H K; apply H; destruct K as (c & Hc & E); exists c; (split; [assumption|]); now apply eol_ends.
Qed.
Lemma blank_decimal c : blank c -> ~ decimal c.
Proof. intros [->|H] K; [vm_compute in K; destruct K as [K _]; now apply K|]. unfold decimal in K. lia. Qed.
Lemma hash_blank : ~ blank "#"%char.
Proof. intros [H|H]; [discriminate|]. vm_compute in H. destruct H as [_ H]. now apply H. Qed.
Lemma hash_decimal : ~ decimal "#"%char.
Proof. intros H. vm_compute in H. destruct H as [H _]. now apply H. Qed.
Lemma hash_line : is_line "#"%char = false.
Proof. reflexivity. Qed.
Lemma app_starts Q s t : (forall c, In c s -> ~ Q c) -> ~ starts_with Q t -> ~ starts_with Q (s ++ t).
Proof.
  intros H N. destruct s as [|c s]; [assumption|]. intros (d & t' & [= <- _] & K). apply (H c); [now left|assumption].
Qed.
Lemma not_starts Q c t : ~ Q c -> ~ starts_with Q (c :: t).
Proof. intros N (d & t' & [= <- _] & K). contradiction. Qed.

Theorem parse_recognises : recognises parse_key.
Proof.
  intros k ((two & u) & t). split.
  - unfold parse_key. destruct (skip_space_split k) as (s1 & E1 & F1 & N1). destruct (skip_space k) as [|c k1]; [discriminate|].
    destruct (digit_char c) eqn:Ec; [|discriminate]. destruct (skip_digits_split k1) as (d & E2 & F2 & N2).
    destruct (skip_space_split (skip_digits k1)) as (s2 & E3 & F3 & N3). destruct (skip_space (skip_digits k1)) as [|h k2]; [discriminate|].
    destruct (Ascii.eqb_spec h "#"); [|discriminate]. subst h.
    set (r := match k2 with [] => (false, k2) | h' :: t2 => if Ascii.eqb h' "#" then (true, t2) else (false, k2) end).
    assert (R : k2 = (if fst r then txt "#" else []) ++ snd r /\ (fst r = false -> ~ starts_with (eq "#"%char) (snd r))).
    { unfold r. destruct k2 as [|h' k2]; [split; [reflexivity|]; now intros _ (x & y & Q & _)|].
      destruct (Ascii.eqb_spec h' "#"); [subst; split; [reflexivity|discriminate]|]. split; [reflexivity|]. intros _ (x & y & [= <- _] & <-). contradiction. }
    destruct r as (two', k3). cbn [fst snd] in R. destruct R as (E4 & M1).
    set (r := match k3 with [] => (None, k3) | c' :: t3 => if is_line c' then (Some c', t3) else (None, k3) end).
    assert (R : k3 = (match fst r with Some c => [c] | None => [] end) ++ snd r /\ match fst r with Some c => underline c | None => ~ starts_with underline (snd r) end).
    { unfold r. destruct k3 as [|c' k3]; [split; [reflexivity|]; now intros (x & y & Q & _)|].
      destruct (is_line c') eqn:El; [split; [reflexivity|]; now apply line_underline|]. split; [reflexivity|]. intros (x & y & [= <- _] & Q). apply line_underline in Q. congruence. }
    destruct r as (u', k4). cbn [fst snd] in R. destruct R as (E5 & M2).
    destruct (existsb is_eol (skip_space k4)) eqn:Ex; [discriminate|]. intros [= <- <- <-].
    destruct (skip_space_split k4) as (s3 & E6 & F6 & N6).
    cbn [formatted]. exists s1, (c :: d), s2, s3. split.
    { rewrite E1. f_equal. cbn [app]. f_equal. rewrite E2 at 1. f_equal. rewrite E3. f_equal. rewrite E4, E5, E6 at 1. destruct two'; reflexivity. }
    split; [assumption|]. split; [constructor; [now apply digit_decimal|assumption]|]. split; [discriminate|]. split; [assumption|]. split; [assumption|].
    split; [destruct u'; [assumption|]; now rewrite <- E6|]. split.
    { intros -> ->. rewrite <- E6. cbn [app] in E5. rewrite E5 in M1. now apply M1. }
    split; [assumption|]. now apply eol_none.
  - cbn [formatted]. intros (s1 & d & s2 & s3 & E & F1 & F2 & N2 & F3 & F4 & M2 & M1 & N4 & X).
    destruct d as [|c d]; [easy|]. pose proof (Forall_inv F2) as Hc. pose proof (Forall_inv_tail F2) as Hd.
    set (k3 := s3 ++ t) in *. set (k2 := (match u with Some c => [c] | None => [] end) ++ k3) in *.
    unfold parse_key. rewrite E. cbn [app]. rewrite skip_space_skips; [|assumption|apply not_starts; intros B; now apply (blank_decimal c)].
    apply digit_decimal in Hc. rewrite Hc.
    set (k1 := (if two then txt "##" else txt "#") ++ k2) in *.
    assert (K1 : exists k1', k1 = "#"%char :: k1' /\ k1' = (if two then txt "#" else []) ++ k2) by (unfold k1; destruct two; eexists; split; reflexivity).
    destruct K1 as (k1' & K1 & K1').
    rewrite skip_digits_skips; [|assumption|].
    2:{ apply app_starts; [|rewrite K1; apply not_starts, hash_decimal]. intros x Hx. rewrite Forall_forall in F3. now apply blank_decimal, F3. }
    rewrite skip_space_skips; [|assumption|rewrite K1; apply not_starts, hash_blank]. rewrite K1. cbn [Ascii.eqb]. change (Ascii.eqb "#" "#") with true. cbn match.
    assert (R1 : match k1' with [] => (false, k1') | h' :: t2 => if Ascii.eqb h' "#" then (true, t2) else (false, k1') end = (two, k2)).
    { rewrite K1'. destruct two; [reflexivity|]. cbn [app]. destruct k2 as [|h' k2'] eqn:Ek; [reflexivity|]. destruct (Ascii.eqb_spec h' "#"); [|reflexivity]. subst h'. exfalso.
      destruct u as [c'|]; unfold k2 in Ek; cbn [app] in Ek.
      - injection Ek as -> _. now apply line_underline in M2.
      - apply (M1 eq_refl eq_refl). unfold k3 in *. rewrite Ek. now exists "#"%char, k2'. }
    rewrite R1.
    assert (R2 : match k2 with [] => (None, k2) | c' :: t3 => if is_line c' then (Some c', t3) else (None, k2) end = (u, k3)).
    { unfold k2. destruct u as [c'|]; cbn [app].
      - apply line_underline in M2. now rewrite M2.
      - destruct k3 as [|c' k3'] eqn:Ek; [reflexivity|]. destruct (is_line c') eqn:El; [|reflexivity]. destruct M2. exists c', k3'. split; [reflexivity|]. now apply line_underline. }
    rewrite R2. unfold k3. rewrite skip_space_skips by assumption. now rewrite (proj2 (eol_none t) X).
Qed.
Lemma recognises_parse fmt : recognises fmt -> forall k, fmt k = parse_key k.
Proof.
  intros H k. destruct (fmt k) as [r|] eqn:E.
  - apply H in E. apply parse_recognises in E. now symmetry.
  - destruct (parse_key k) as [r|] eqn:E'; [|reflexivity]. apply parse_recognises, H in E'. congruence.
Qed.

(** * Lines *)
Lemma ended_app ls ls' : concat (map ended (ls ++ ls')) = concat (map ended ls) ++ concat (map ended ls').
Proof. now rewrite map_app, concat_app. Qed.
Lemma ended_complete ls : complete (concat (map ended ls)).
Proof.
  destruct (rev ls) as [|l ls'] eqn:E.
  - apply (f_equal (@rev _)) in E. rewrite rev_involutive in E. subst. now left.
  - apply (f_equal (@rev _)) in E. rewrite rev_involutive in E. cbn [rev] in E. subst. right. rewrite ended_app. cbn [map concat]. rewrite app_nil_r.
    unfold ended at 2. eexists. rewrite app_assoc. reflexivity.
Qed.
Lemma ended_has l ls : In l ls -> has_line l (concat (map ended ls)).
Proof.
  intros H. apply in_split in H as (a & b & ->). exists (concat (map ended a)), (concat (map ended b)). split; [|apply ended_complete].
  rewrite ended_app. cbn [map concat]. unfold ended at 2. now rewrite <- !app_assoc.
Qed.

(** * Matrices *)
Lemma omapM_nth {A B} (f : A -> out B) l r k a : omapM f l = Ok r -> nth_error l k = Some a -> exists b, f a = Ok b /\ nth_error r k = Some b.
Proof.
  revert r k. induction l as [|x l IH]; intros r k E H; [now destruct k|]. cbn [omapM] in E.
  destruct (f x) as [y| | |] eqn:Ex; try discriminate. cbn [bind] in E. destruct (omapM f l) as [r'| | |]; try discriminate. cbn [bind] in E. apply Ok_inj in E. subst r.
  destruct k; cbn [nth_error] in *.
  - injection H as <-. now exists y.
  - now apply (IH r').
Qed.
Lemma zseq_nth n k : (k < Z.to_nat n)%nat -> nth_error (zseq n) k = Some (Z.of_nat k).
Proof. intros H. unfold zseq. rewrite nth_error_map. rewrite (nth_error_nth' _ 0%nat) by now rewrite seq_length. now rewrite seq_nth. Qed.
Lemma row_read {A} (m : mat A) i : mat_ok m -> (i < Z.to_nat (mrows m))%nat ->
  omapM (fun j => mat_get m (Z.of_nat i) j) (zseq (mcols m)) = Ok (row_of m i) /\ zlen (row_of m i) = mcols m.
Proof.
  intros Hm Hi. pose proof (mat_columns m Hm) as C. destruct Hm as (_ & Hc & _).
  set (cs := columns (Z.to_nat (mrows m)) (Z.to_nat (mcols m)) (mdata m)) in *.
  assert (Lc : List.length cs = Z.to_nat (mcols m)) by apply columns_length.
  assert (P : forall j c, nth_error cs j = Some c -> exists x, mat_get m (Z.of_nat i) (Z.of_nat j) = Ok x /\ nth_error c i = Some x).
  { intros j c Hj. assert (J : (j < Z.to_nat (mcols m))%nat) by (rewrite <- Lc; apply nth_error_Some; congruence).
    destruct (omapM_nth _ _ _ _ _ C (zseq_nth _ _ J)) as (c' & E & Ec). rewrite Hj in Ec. injection Ec as <-.
    destruct (omapM_nth _ _ _ _ _ E (zseq_nth _ _ Hi)) as (x & Ex & En). now exists x. }
  assert (G : forall cs k, (forall j c, nth_error cs j = Some c -> exists x, mat_get m (Z.of_nat i) (Z.of_nat (k + j)) = Ok x /\ nth_error c i = Some x) ->
     omapM (fun j => mat_get m (Z.of_nat i) j) (map Z.of_nat (seq k (List.length cs))) = Ok (concat (map (fun c => match nth_error c i with Some a => [a] | None => [] end) cs)) /\
     List.length (concat (map (fun c => match nth_error c i with Some a => [a] | None => [] end) cs)) = List.length cs).
  { clear. intros cs. induction cs as [|c cs IH]; intros k H; [split; reflexivity|]. cbn [List.length seq map omapM concat].
    destruct (H 0%nat c eq_refl) as (x & E & Ex). rewrite Nat.add_0_r in E. rewrite E, Ex. cbn [bind app].
    destruct (IH (S k)) as [I1 I2]. { intros j d Hd. specialize (H (S j) d Hd). now rewrite <- plus_n_Sm in H. }
    rewrite I1. split; [reflexivity|]. cbn [List.length]. now rewrite I2. }
  unfold zseq. rewrite <- Lc. destruct (G cs 0%nat P) as [G1 G2]. split; [exact G1|]. unfold zlen, row_of. fold cs. rewrite G2, Lc. lia.
Qed.
Lemma copies_repeat n c : copies n [c] = repeat c n.
Proof. induction n as [|n IH]; [reflexivity|]. cbn [repeat]. rewrite <- IH. reflexivity. Qed.
Lemma pad_right n t : pad n t = right_aligned n t.
Proof. unfold pad, right_aligned. change (txt " ") with [" "%char]. now rewrite copies_repeat. Qed.
Lemma mat_row_text {A} f0 w f (m : mat A) i : mat_ok m -> 0 < mcols m -> (i < Z.to_nat (mrows m))%nat ->
  mat_row f0 w f m (Z.of_nat i) = Ok (ended (row_text f0 w f (row_of m i))).
Proof.
  intros Hm Hc Hi. destruct (row_read m i Hm Hi) as [E L]. unfold mat_row. rewrite zseq_S in * by assumption. cbn [tl]. cbn [omapM] in E.
  destruct (mat_get m (Z.of_nat i) 0) as [x| | |]; try discriminate. cbn [bind] in *.
  destruct (omapM (fun j => mat_get m (Z.of_nat i) j) (map (fun k => k + 1) (zseq (mcols m - 1)))) as [xs| | |]; try discriminate. cbn [bind] in *.
  apply Ok_inj in E. rewrite <- E. cbn [row_text]. unfold ended. rewrite <- app_assoc, pad_right, flat_map_concat_map.
  rewrite (List.map_ext _ (fun b => txt " " ++ right_aligned w (f b))); [reflexivity|]. intros y. now rewrite pad_right.
Qed.
Lemma mat_lines_text {A} f0 w f (m : mat A) : mat_ok m -> mat_lines false f0 w f m = Ok (concat (map ended (mat_text f0 w f m))).
Proof.
  intros Hm. pose proof Hm as (Hr & Hc & _). unfold mat_lines, mat_text.
  destruct (Z.eqb_spec (mcols m) 0) as [Ec|Nc].
  - rewrite andb_false_r, orb_true_r. cbn [map concat]. unfold ended, put_long. rewrite app_nil_r, <- !app_assoc. reflexivity.
  - destruct (Z.eqb_spec (mrows m) 0) as [Er|Nr].
    + rewrite Er. cbn [Z.ltb andb orb map concat]. unfold ended, put_long. rewrite app_nil_r, <- !app_assoc. reflexivity.
    + destruct (Z.ltb_spec 0 (mrows m)); [|lia]. cbn [negb andb orb].
      rewrite (omapM_ext _ (fun i => Ok (ended (row_text f0 w f (row_of m (Z.to_nat i)))))).
      * rewrite omapM_total. cbn [bind]. unfold rows_of, zseq. rewrite !map_map. 
        rewrite (List.map_ext _ (fun x => ended (row_text f0 w f (row_of m x)))); [reflexivity|]. intros i. now rewrite Nat2Z.id.
      * intros i Hi. unfold zseq in Hi. apply in_map_iff in Hi as (j & <- & Hj). apply in_seq in Hj. rewrite Nat2Z.id. apply mat_row_text; [assumption|lia|lia].
Qed.

(** * The walk *)
Lemma walk_head g : exists r, walk g = ([], g) :: r.
Proof. destruct g; eexists; reflexivity. Qed.
Lemma walk_flat g : (forall v, g <> GVec v) -> (forall m, g <> GMap m) -> walk g = [([], g)].
Proof. intros Hv Hm. destruct g; try reflexivity; nested_contra Hv Hm. Qed.
Lemma elems_steps w i v pv : In pv (walk_elems w i v) -> exists s p, fst pv = s :: p.
Proof.
  revert i. induction v as [|a v IH]; intros i H; [destruct H|]. cbn [walk_elems] in H. apply in_app_iff in H as [H|H]; [|now apply IH in H].
  apply in_map_iff in H as (x & <- & _). eexists _, _. reflexivity.
Qed.
Lemma members_steps w m pv : In pv (walk_members w m) -> exists s p, fst pv = s :: p.
Proof.
  induction m as [|(k, a) m IH]; intros H; [destruct H|]. cbn [walk_members] in H. apply in_app_iff in H as [H|H]; [|now apply IH].
  apply in_map_iff in H as (x & <- & _). eexists _, _. reflexivity.
Qed.
Lemma walk_tail g pv : In pv (tl (walk g)) -> exists s p, fst pv = s :: p.
Proof. destruct g; cbn [walk tl]; try (intros []); [apply elems_steps|apply members_steps]. Qed.

Lemma walk_sub g : forall p v, sub p g = Some v -> In (p, v) (walk g).
Proof.
  induction g as [g Hv Hm | l IH | m IH] using gc_nest_ind; intros p v H.
  - destruct p as [|s p]; [cbn in H; injection H as <-; destruct (walk_head g) as (r & ->); now left|].
    destruct s, g; try discriminate; nested_contra Hv Hm.
  - destruct p as [|s p]; [cbn in H; injection H as <-; now left|]. destruct s as [k|i]; [discriminate|]. cbn [sub] in H.
    destruct (znth i l) as [e|] eqn:E; [|discriminate]. right. unfold znth in E. destruct (Z.ltb_spec i 0) as [|Hi]; [discriminate|].
    assert (G : forall l k n, Forall (fun g => forall p v, sub p g = Some v -> In (p, v) (walk g)) l -> nth_error l n = Some e -> In (SIdx (k + Z.of_nat n) :: p, v) (walk_elems walk k l)).
    { clear - H. intros l. induction l as [|a l IHl]; intros k n F E; [now destruct n|]. cbn [walk_elems]. apply in_app_iff. destruct n as [|n]; cbn [nth_error] in E.
      - injection E as <-. left. apply in_map_iff. exists (p, v). split; [cbn [fst snd]; now rewrite Z.add_0_r|]. now apply (Forall_inv F).
      - right. replace (k + Z.of_nat (S n)) with (k + 1 + Z.of_nat n) by lia. apply IHl; [now apply Forall_inv_tail in F|assumption]. }
    specialize (G l 0 (Z.to_nat i) IH E). rewrite Z2Nat.id in G by assumption. exact G.
  - destruct p as [|s p]; [cbn in H; injection H as <-; now left|]. destruct s as [k|i]; [|discriminate]. cbn [sub] in H.
    destruct (mfind k m) as [e|] eqn:E; [|discriminate]. right. apply mfind_in in E. change (In (SKey k :: p, v) (walk_members walk m)).
    revert IH E. induction m as [|(k', a) m IHm]; intros F E; [destruct E|]. cbn [walk_members]. apply in_app_iff. destruct E as [E|E].
    + injection E as -> ->. left. apply in_map_iff. exists (p, v). split; [reflexivity|]. now apply (Forall_inv F).
    + right. apply IHm; [now apply Forall_inv_tail in F|assumption].
Qed.
Lemma sub_walk g : wf g -> forall p v, In (p, v) (walk g) -> sub p g = Some v.
Proof.
  induction g as [g Hv Hm | l IH | m IH] using gc_nest_ind; intros W p v H.
  - rewrite walk_flat in H by assumption. destruct H as [H|[]]. injection H as <- <-. reflexivity.
  - cbn [walk] in H. destruct H as [H|H]; [injection H as <- <-; reflexivity|]. apply wf_vec in W.
    assert (G : forall k, 0 <= k -> In (p, v) (walk_elems walk k l) -> exists n e q, p = SIdx (k + Z.of_nat n) :: q /\ nth_error l n = Some e /\ sub q e = Some v).
    { clear H. induction l as [|a l IHl]; intros k Hk H; [destruct H|]. cbn [walk_elems] in H. apply in_app_iff in H as [H|H].
      - apply in_map_iff in H as ((q & v') & [= <- <-] & H). exists 0%nat, a, q. split; [f_equal; f_equal; lia|]. split; [reflexivity|].
        apply (Forall_inv IH); [now apply (Forall_inv W)|assumption].
      - destruct (IHl (Forall_inv_tail IH) (Forall_inv_tail W) (k + 1) ltac:(lia) H) as (n & e & q & -> & En & Eq). exists (S n), e, q. split; [f_equal; f_equal; lia|]. auto. }
    destruct (G 0 ltac:(lia) H) as (n & e & q & -> & En & Eq). cbn [sub]. rewrite Z.add_0_l, znth_nat, En. exact Eq.
  - cbn [walk] in H. destruct H as [H|H]; [injection H as <- <-; reflexivity|]. apply wf_map in W as [Sm W].
    assert (G : In (p, v) (walk_members walk m) -> exists k e q, p = SKey k :: q /\ In (k, e) m /\ sub q e = Some v).
    { clear H Sm. induction m as [|(k', a) m IHm]; intros H; [destruct H|]. cbn [walk_members] in H. apply in_app_iff in H as [H|H].
      - apply in_map_iff in H as ((q & v') & [= <- <-] & H). exists k', a, q. split; [reflexivity|]. split; [now left|].
        apply (Forall_inv IH); [now apply (Forall_inv W)|assumption].
      - destruct (IHm (Forall_inv_tail IH) (Forall_inv_tail W) H) as (k & e & q & -> & En & Eq). exists k, e, q. split; [reflexivity|]. split; [now right|assumption]. }
    destruct (G H) as (k & e & q & -> & En & Eq). cbn [sub]. now rewrite (in_mfind _ _ _ Sm En).
Qed.

(** * dump *)
Section Dump.
Variables P SP : nat.
Let L := dump_lines parse_key P SP.

Lemma below prefix indent s p v : p <> [] -> L prefix indent (s :: p, v) = L (prefix ++ indent) indent0 (p, v).
Proof.
  intros N. unfold L, dump_lines. cbn [rev]. destruct (rev p) as [|s' above] eqn:E.
  - apply (f_equal (@rev _)) in E. rewrite rev_involutive in E. contradiction.
  - cbn [app]. rewrite app_length. cbn [List.length]. rewrite Nat.add_1_r.
    assert (D : forall n, dump_indent prefix indent (S n) = dump_indent (prefix ++ indent) indent0 n).
    { intros [|n]; cbn [dump_indent]; [unfold copies; cbn [repeat concat]; now rewrite app_nil_r|]. rewrite <- app_assoc. reflexivity. }
    now rewrite !D.
Qed.
Lemma child prefix indent s a :
  flat_map (L prefix indent) (map (fun pv => (s :: fst pv, snd pv)) (walk a)) =
  (if with_label s a then map (fun l => prefix ++ label parse_key s ++ txt ": " ++ l) (own_lines P SP [] a)
   else label_lines parse_key prefix s ++ own_lines P SP (prefix ++ indent) a) ++
  flat_map (L (prefix ++ indent) indent0) (tl (walk a)).
Proof.
  destruct (walk_head a) as (r & E). pose proof (walk_tail a) as T. rewrite E in *. cbn [tl map flat_map fst snd] in *. f_equal.
  - unfold L, dump_lines. cbn [rev app List.length dump_indent copies repeat concat]. now rewrite app_nil_r.
  - clear E. induction r as [|(p, v) r IH]; [reflexivity|]. cbn [map flat_map fst snd]. rewrite below.
    + f_equal. apply IH. intros pv H. apply T. now right.
    + destruct (T (p, v) (or_introl eq_refl)) as (s' & q & Q). cbn [fst] in Q. rewrite Q. discriminate.
Qed.
Lemma root prefix indent a : dump_text parse_key P SP prefix indent a =
  concat (map ended (own_lines P SP prefix a)) ++ concat (map ended (flat_map (L prefix indent) (tl (walk a)))).
Proof. unfold dump_text. destruct (walk_head a) as (r & E). rewrite E. cbn [tl flat_map]. now rewrite ended_app. Qed.

Lemma dump_vec v prefix indent hx : dump P SP (GVec v) prefix indent hx = dump_elems (dump P SP) prefix indent v 0 hx.
Proof. reflexivity. Qed.
Lemma dump_map m prefix indent hx : dump P SP (GMap m) prefix indent hx = dump_members (dump P SP) prefix indent m hx.
Proof. reflexivity. Qed.

Lemma simple_scalar g : simple_data g = scalarb g.
Proof. now destruct g. Qed.
Lemma short_label i g : fits g -> short g = with_label (SIdx i) g.
Proof.
  intros F. unfold short, with_label. rewrite simple_scalar.
  destruct g; try reflexivity; cbn [fits few] in F; cbn [num_elements numbers scalarb orb]; unfold few in F;
    (rewrite to_u32_id; [reflexivity|unfold uint32; split; [apply Nat2Z.is_nonneg|exact F]]).
Qed.
Lemma head_label prefix k : head_lines prefix (txt k) = concat (map ended (key_lines parse_key prefix k)).
Proof.
  unfold head_lines, key_lines. destruct (parse_key (txt k)) as [((two & u) & t)|].
  - destruct two, u; cbn [app map concat]; unfold ended; cbn [app]; rewrite ?app_nil_r, <- ?app_assoc; reflexivity.
  - cbn [map concat]. unfold ended. rewrite app_nil_r, <- !app_assoc. reflexivity.
Qed.
Lemma spaced_items {A} (f : A -> text) v : put_items f v = spaced f v.
Proof. unfold put_items, spaced. rewrite flat_map_concat_map. reflexivity. Qed.
Lemma str_text prefix v : str_lines prefix 0 false v =
  concat (map ended (map (fun iv => prefix ++ print_int (Z.of_nat (fst iv)) ++ txt ": """ ++ txt (snd iv) ++ txt """") (combine (seq 0 (List.length v)) v))).
Proof.
  assert (G : forall k, str_lines prefix (Z.of_nat k) false v =
    concat (map ended (map (fun iv => prefix ++ print_int (Z.of_nat (fst iv)) ++ txt ": """ ++ txt (snd iv) ++ txt """") (combine (seq k (List.length v)) v)))).
  { induction v as [|s v IH]; intros k; [reflexivity|]. cbn [str_lines List.length seq combine map concat fst snd].
    replace (Z.of_nat k + 1) with (Z.of_nat (S k)) by lia. rewrite IH. unfold ended at 2. unfold put_long. rewrite <- !app_assoc. cbn [app txt]. rewrite <- ?app_assoc. reflexivity. }
  exact (G 0%nat).
Qed.
Lemma dump_flat g prefix indent : (forall v, g <> GVec v) -> (forall m, g <> GMap m) -> wf g -> dump_node g ->
  dump P SP g prefix indent false = Ok (concat (map ended (own_lines P SP prefix g)), false).
Proof.
  intros Hv Hm W N.
  destruct g; try nested_contra Hv Hm; cbn [dump_node] in N; try contradiction; cbn [dump own_lines];
    try (cbn [map concat]; unfold ended; rewrite app_nil_r, <- !app_assoc, ?spaced_items; reflexivity).
  - now rewrite str_text.
  - rewrite mat_lines_text; [reflexivity|]. now apply (wf_mat_ok _ _ W).
  - rewrite mat_lines_text; [reflexivity|]. now apply (wf_mat_ok _ _ W).
  - rewrite mat_lines_text; [reflexivity|]. now apply (wf_mat_ok _ _ W).
  - rewrite mat_lines_text; [reflexivity|]. now apply (wf_mat_ok _ _ W).
Qed.
Lemma label_flat s g : with_label s g = true -> (forall v, g <> GVec v) /\ (forall m, g <> GMap m).
Proof. destruct g, s; cbn; try discriminate; intros _; split; discriminate. Qed.
Lemma idx_lines prefix i : concat (map ended (label_lines parse_key prefix (SIdx i))) = prefix ++ print_int i ++ ":"%char :: [nl].
Proof. unfold label_lines. cbn [map concat]. unfold ended. rewrite app_nil_r, <- !app_assoc. reflexivity. Qed.
Lemma label_idx s g : with_label s g = true -> with_label (SIdx 0) g = true.
Proof. destruct g, s; cbn; try discriminate; auto. Qed.
Lemma own_pre g : with_label (SIdx 0) g = true -> dump_node g -> exists l, forall pre, own_lines P SP pre g = [pre ++ l].
Proof. destruct g; cbn [with_label scalarb numbers orb own_lines dump_node]; try discriminate; try contradiction; intros _ _; eexists; reflexivity. Qed.
Lemma labelled s g prefix : with_label s g = true -> dump_node g ->
  concat (map ended (map (fun l => prefix ++ label parse_key s ++ txt ": " ++ l) (own_lines P SP [] g))) =
  prefix ++ label parse_key s ++ txt ": " ++ concat (map ended (own_lines P SP [] g)).
Proof.
  intros H N. destruct (own_pre g (label_idx _ _ H) N) as (l & E). rewrite E. cbn [map concat]. unfold ended. rewrite !app_nil_r, <- !app_assoc. reflexivity.
Qed.
Lemma tail_flat g : (forall v, g <> GVec v) -> (forall m, g <> GMap m) -> tl (walk g) = [].
Proof. intros Hv Hm. now rewrite walk_flat. Qed.

Definition dumped (g : gc) : Prop := forall prefix indent, dump P SP g prefix indent false = Ok (dump_text parse_key P SP prefix indent g, false).

(** What is written for an element or member. *)
Lemma child_text prefix indent s a : dumped a -> everywhere dump_node a ->
  concat (map ended (flat_map (L prefix indent) (map (fun pv => (s :: fst pv, snd pv)) (walk a)))) =
  if with_label s a then prefix ++ label parse_key s ++ txt ": " ++ dump_text parse_key P SP [] indent0 a
  else concat (map ended (label_lines parse_key prefix s)) ++ dump_text parse_key P SP (prefix ++ indent) indent0 a.
Proof.
  intros D N. rewrite child, ended_app, !root. apply everywhere_here in N. destruct (with_label s a) eqn:E.
  - destruct (label_flat s a E) as [Hv Hm]. rewrite tail_flat by assumption. cbn [flat_map map concat]. rewrite !app_nil_r. now apply labelled.
  - now rewrite ended_app, <- app_assoc.
Qed.
Theorem dump_written g : wf g -> fits g -> everywhere dump_node g -> dumped g.
Proof.
  induction g as [g Hv Hm | v IH | m IH] using gc_nest_ind; intros W F N prefix indent.
  - rewrite dump_flat by (assumption || now apply everywhere_here in N). unfold dump_text. rewrite walk_flat by assumption. cbn [flat_map dump_lines rev]. now rewrite app_nil_r.
  - apply wf_vec in W. apply fits_vec in F as [_ F]. apply everywhere_vec in N as [_ N]. rewrite dump_vec, root. cbn [own_lines map concat app walk tl].
    assert (G : forall i, dump_elems (dump P SP) prefix indent v i false = Ok (concat (map ended (flat_map (L prefix indent) (walk_elems walk i v))), false)); [|apply G].
    induction v as [|a v IHv]; intros i; [reflexivity|].
    apply Forall_cons_iff in IH as [Ia IH]. apply Forall_cons_iff in W as [Wa W]. apply Forall_cons_iff in F as [Fa F]. apply Forall_cons_iff in N as [Na N].
    specialize (Ia Wa Fa Na). cbn [dump_elems walk_elems]. rewrite flat_map_app, ended_app, (child_text _ _ _ _ Ia Na), (short_label i a Fa).
    change (with_label (SIdx i) a) with (with_label (SIdx 0) a). destruct (with_label (SIdx 0) a); rewrite Ia; cbn [bind]; rewrite (IHv IH W F N); cbn [bind]; rewrite ?idx_lines, <- ?app_assoc; reflexivity.
  - apply wf_map in W as [_ W]. apply fits_map in F. apply everywhere_map in N as [_ N]. rewrite dump_map, root. cbn [own_lines map concat app walk tl].
    assert (G : dump_members (dump P SP) prefix indent m false = Ok (concat (map ended (flat_map (L prefix indent) (walk_members walk m))), false)); [|apply G].
    induction m as [|(k, a) m IHm]; [reflexivity|].
    apply Forall_cons_iff in IH as [Ia IH]. apply Forall_cons_iff in W as [Wa W]. apply Forall_cons_iff in F as [Fa F]. apply Forall_cons_iff in N as [Na N]. cbn [snd] in *.
    specialize (Ia Wa Fa Na). cbn [dump_members walk_members]. rewrite flat_map_app, ended_app, (child_text _ _ _ _ Ia Na), simple_scalar.
    replace (with_label (SKey k) a) with (scalarb a) by (unfold with_label; now rewrite orb_false_r).
    destruct (scalarb a); rewrite Ia; cbn [bind]; rewrite (IHm IH W F N); cbn [bind]; rewrite ?head_label, <- ?app_assoc; reflexivity.
Qed.
End Dump.

(** * print_content_types *)
Section Types.
Let T := type_lines parse_key.
Lemma tbelow prefix indent s p v : p <> [] -> T prefix indent (s :: p, v) = T (prefix ++ indent) indent (p, v).
Proof.
  intros N. unfold T, type_lines. cbn [rev]. destruct (rev p) as [|s' above] eqn:E.
  - apply (f_equal (@rev _)) in E. rewrite rev_involutive in E. contradiction.
  - cbn [app]. rewrite app_length. cbn [List.length]. rewrite Nat.add_1_r.
    assert (D : forall n, types_indent prefix indent (S n) = types_indent (prefix ++ indent) indent n).
    { intros n. unfold types_indent, copies. cbn [repeat concat]. now rewrite <- app_assoc. }
    now rewrite !D.
Qed.
Lemma tchild prefix indent s a :
  flat_map (T prefix indent) (map (fun pv => (s :: fst pv, snd pv)) (walk a)) =
  (if scalarb a || match numbers a with Some _ => true | None => false end then [prefix ++ label parse_key s ++ txt ": " ++ kind_text a]
   else label_lines parse_key prefix s ++ own_kind [] a) ++
  flat_map (T (prefix ++ indent) indent) (tl (walk a)).
Proof.
  destruct (walk_head a) as (r & E). pose proof (walk_tail a) as Q. rewrite E in *. cbn [tl map flat_map fst snd] in *. f_equal.
  - unfold T, type_lines. cbn [rev app List.length types_indent copies repeat concat]. unfold types_indent. now rewrite app_nil_r.
  - clear E. induction r as [|(p, v) r IH]; [reflexivity|]. cbn [map flat_map fst snd]. rewrite tbelow.
    + f_equal. apply IH. intros pv H. apply Q. now right.
    + destruct (Q (p, v) (or_introl eq_refl)) as (s' & q & Qq). cbn [fst] in Qq. rewrite Qq. discriminate.
Qed.
Lemma troot prefix indent a : types_text parse_key prefix indent a =
  concat (map ended (own_kind prefix a)) ++ concat (map ended (flat_map (T prefix indent) (tl (walk a)))).
Proof. unfold types_text. destruct (walk_head a) as (r & E). rewrite E. cbn [tl flat_map]. now rewrite ended_app. Qed.

Lemma types_vec v prefix indent : types_of (GVec v) prefix indent = types_elems types_of prefix indent v 0.
Proof. reflexivity. Qed.
Lemma types_map m prefix indent : types_of (GMap m) prefix indent = types_members types_of prefix indent m.
Proof. reflexivity. Qed.
Lemma types_flat g prefix indent : (forall v, g <> GVec v) -> (forall m, g <> GMap m) ->
  types_of g prefix indent = concat (map ended (own_kind prefix g)).
Proof.
  intros Hv Hm. destruct g; try nested_contra Hv Hm; cbn [types_of own_kind scalarb kind_text map concat app]; unfold ended; rewrite app_nil_r, <- ?app_assoc; reflexivity.
Qed.
Lemma simple_inline a : (simple_data a || simple_vec_data a) = (scalarb a || match numbers a with Some _ => true | None => false end).
Proof. now destruct a. Qed.
Lemma inline_flat a : (scalarb a || match numbers a with Some _ => true | None => false end) = true ->
  (forall v, a <> GVec v) /\ (forall m, a <> GMap m) /\ forall indent, types_of a [] indent = ended (kind_text a).
Proof.
  intros H. destruct a; cbn in H; try discriminate; (split; [discriminate|]; split; [discriminate|]; intros indent);
    cbn [types_of kind_text app]; unfold ended; rewrite <- ?app_assoc; reflexivity.
Qed.
Lemma inline_not a : (scalarb a || match numbers a with Some _ => true | None => false end) = false -> forall pre, own_kind pre a = own_kind [] a.
Proof. intros H pre. destruct a; cbn in H; try discriminate; reflexivity. Qed.
Definition typed (g : gc) : Prop := forall prefix indent, types_of g prefix indent = types_text parse_key prefix indent g.
Lemma tchild_text prefix indent s a : typed a ->
  concat (map ended (flat_map (T prefix indent) (map (fun pv => (s :: fst pv, snd pv)) (walk a)))) =
  if simple_data a || simple_vec_data a then prefix ++ label parse_key s ++ txt ": " ++ types_of a [] indent0
  else concat (map ended (label_lines parse_key prefix s)) ++ types_of a (prefix ++ indent) indent.
Proof.
  intros D. rewrite tchild, ended_app, simple_inline. destruct (scalarb a || _) eqn:E.
  - destruct (inline_flat a E) as (Hv & Hm & Ht). rewrite tail_flat by assumption. rewrite Ht. cbn [flat_map map concat]. rewrite !app_nil_r. unfold ended. now rewrite <- !app_assoc.
  - rewrite D, troot, ended_app, <- app_assoc, (inline_not a E (prefix ++ indent)). reflexivity.
Qed.
Theorem types_written g : typed g.
Proof.
  induction g as [g Hv Hm | v IH | m IH] using gc_nest_ind; intros prefix indent.
  - rewrite types_flat by assumption. unfold types_text. rewrite walk_flat by assumption. cbn [flat_map type_lines rev]. now rewrite app_nil_r.
  - rewrite types_vec, troot. cbn [own_kind map concat app walk tl].
    assert (G : forall i, types_elems types_of prefix indent v i = concat (map ended (flat_map (T prefix indent) (walk_elems walk i v)))); [|apply G].
    induction v as [|a v IHv]; intros i; [reflexivity|]. apply Forall_cons_iff in IH as [Ia IH].
    cbn [types_elems walk_elems]. rewrite flat_map_app, ended_app, (tchild_text _ _ _ _ Ia), (IHv IH). f_equal.
    destruct (simple_data a || simple_vec_data a); [reflexivity|]. rewrite idx_lines, <- !app_assoc. reflexivity.
  - rewrite types_map, troot. cbn [own_kind map concat app walk tl].
    assert (G : types_members types_of prefix indent m = concat (map ended (flat_map (T prefix indent) (walk_members walk m)))); [|apply G].
    induction m as [|(k, a) m IHm]; [reflexivity|]. apply Forall_cons_iff in IH as [Ia IH]. cbn [snd] in Ia.
    cbn [types_members walk_members]. rewrite flat_map_app, ended_app, (tchild_text _ _ _ _ Ia), (IHm IH). f_equal.
    destruct (simple_data a || simple_vec_data a); [reflexivity|]. now rewrite head_label.
Qed.
End Types.

(** * Same shape, same text *)
Lemma shape_types : forall g h, same_shape g h -> forall prefix indent, types_of g prefix indent = types_of h prefix indent.
Proof.
  assert (Z0 : forall g h, same_shape g h -> simple_data g = simple_data h /\ simple_vec_data g = simple_vec_data h) by (intros g h H; destruct H; split; reflexivity).
  intros g. induction g as [g Hv Hm | v IH | m IH] using gc_nest_ind; intros h H prefix indent.
  - inversion H; subst; try nested_contra Hv Hm; cbn [types_of]; unfold zlen; congruence.
  - inversion H as [| | | | | | | | | | | | | | | | | | |v1 v' F|]; subst. rewrite !types_vec. generalize 0 as i. induction F as [|a b v w Hab F IHf]; intros i; [reflexivity|].
    apply Forall_cons_iff in IH as [Ia IH]. cbn [types_elems]. destruct (Z0 _ _ Hab) as [-> ->]. rewrite !(Ia b Hab). f_equal. apply IHf; [assumption|now constructor].
  - inversion H as [| | | | | | | | | | | | | | | | | | | |m1 m' F]; subst. rewrite !types_map. induction F as [|(k, a) (k', b) v w [Hk Hab] F IHf]; [reflexivity|].
    apply Forall_cons_iff in IH as [Ia IH]. cbn [fst snd] in *. subst k'. cbn [types_members]. destruct (Z0 _ _ Hab) as [-> ->]. rewrite !(Ia b Hab). f_equal. apply IHf; [assumption|now constructor].
Qed.
