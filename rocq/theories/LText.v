(** Lemmas about the text functions. *)
From Coq Require Import ZArith Bool Lia Ascii String List.
From Verif Require Import Base F64 StrMap Value MBasic MGet MMap MMat MNum LNum MText SText.
Import ListNotations.
Local Open Scope Z_scope.

Lemma inset_In d c : inset d c = true <-> In c d.
Proof.
  unfold inset. rewrite existsb_exists. split.
  - intros (x & H & E). apply Ascii.eqb_eq in E. now subst.
  - intros H. exists c. split; [assumption | apply Ascii.eqb_refl].
Qed.
Lemma inset_not d c : inset d c = false <-> ~ In c d.
Proof. rewrite <- inset_In. destruct (inset d c); split; intros; congruence || easy. Qed.

Lemma txt_untxt t : txt (untxt t) = t.
Proof. apply list_ascii_of_string_of_list_ascii. Qed.
Lemma untxt_txt s : untxt (txt s) = s.
Proof. apply string_of_list_ascii_of_string. Qed.

(** ** Tokenizer *)
Lemma index_none p t : Forall (fun c => p c = false) t -> index p t = None.
Proof. induction 1; simpl; [reflexivity|]. now rewrite H, IHForall. Qed.
Lemma index_some p a c b : Forall (fun c => p c = false) a -> p c = true -> index p (a ++ c :: b) = Some (length a).
Proof. induction 1 as [|x a Hx H IH]; simpl; intros Hc; [now rewrite Hc|]. now rewrite Hx, IH. Qed.

Lemma splits_gap d g s ts : Forall (fun c => In c d) g -> splits d s ts -> splits d (g ++ s) ts.
Proof.
  intros Hg H. destruct H.
  - apply splits_end. apply Forall_app; auto.
  - rewrite app_assoc. apply splits_token; auto. apply Forall_app; auto.
Qed.

Definition none_of (d : text) (c : ascii) : bool := negb (inset d c).

Lemma skipn_all_app {A} (a b : list A) n : n = length a -> skipn n (a ++ b) = b.
Proof. intros ->. rewrite skipn_app, skipn_all, Nat.sub_diag. reflexivity. Qed.

Lemma splits_length d s ts : splits d s ts -> (length ts <= length s)%nat.
Proof.
  induction 1; simpl; [lia|]. rewrite !app_length. destruct t; [easy|]. simpl. lia.
Qed.

Lemma tok_loop_splits d s r ts : splits d r ts -> forall pre fuel,
  s = pre ++ r -> (length ts < fuel)%nat ->
  tok_loop fuel s d (find_from (fun c => negb (inset d c)) s (Some (length pre)))
    (find_from (inset d) s (find_from (fun c => negb (inset d c)) s (Some (length pre)))) = Ok ts.
Proof.
  induction 1 as [gap Hg | gap t r ts Hg Ht Hn Hr H IH]; intros pre fuel Es Hf.
  - subst s. unfold find_from at 1 3. rewrite skipn_all_app by reflexivity.
    rewrite index_none. 2:{ eapply Forall_impl; [|exact Hg]. intros c Hc. cbv beta. apply inset_In in Hc. now rewrite Hc. }
    cbn [option_map find_from]. destruct fuel; reflexivity.
  - destruct t as [|c t]; [easy|].
    assert (L : find_from (fun c => negb (inset d c)) s (Some (length pre)) = Some (length (pre ++ gap))).
    { subst s. unfold find_from. rewrite skipn_all_app by reflexivity. cbn [app].
      rewrite index_some; [simpl; f_equal; rewrite app_length; reflexivity | |].
      - eapply Forall_impl; [|exact Hg]. intros x Hx. cbv beta. apply inset_In in Hx. now rewrite Hx.
      - apply Forall_inv in Hn. apply inset_not in Hn. now rewrite Hn. }
    rewrite L.
    assert (Hn' : Forall (fun c => inset d c = false) (c :: t)).
    { eapply Forall_impl; [|exact Hn]. intros x Hx. now apply inset_not. }
    destruct fuel as [|fuel]; [simpl in Hf; lia|].
    destruct r as [|rc r].
    + assert (P : find_from (inset d) s (Some (length (pre ++ gap))) = None).
      { subst s. unfold find_from. rewrite app_assoc. rewrite skipn_all_app by reflexivity.
        rewrite index_none; [reflexivity|]. now rewrite app_nil_r. }
      rewrite P. cbn [tok_loop bind]. cbn [find_from].
      assert (ts = []) as ->.
      { pose proof (splits_length _ _ _ H) as HL. destruct ts; [reflexivity|simpl in HL; lia]. }
      assert (E : tok_loop fuel s d None None = Ok []) by (destruct fuel; reflexivity).
      rewrite E. cbn [bind]. subst s. rewrite app_assoc. rewrite skipn_all_app by reflexivity. now rewrite app_nil_r.
    + assert (P : find_from (inset d) s (Some (length (pre ++ gap))) = Some (length (pre ++ gap ++ c :: t))).
      { subst s. unfold find_from. rewrite app_assoc. rewrite skipn_all_app by reflexivity.
        rewrite index_some; [|assumption|].
        - cbn [option_map]. f_equal. rewrite !app_length. lia.
        - apply inset_In. apply Hr. reflexivity. }
      rewrite P. cbn [tok_loop bind].
      rewrite (IH (pre ++ gap ++ c :: t) fuel).
      * cbn [bind]. f_equal. f_equal. subst s.
        replace (pre ++ gap ++ (c :: t) ++ rc :: r) with ((pre ++ gap) ++ (c :: t) ++ rc :: r) by (rewrite <- !app_assoc; reflexivity).
        rewrite skipn_all_app by reflexivity.
        replace (length (pre ++ gap ++ c :: t) - length (pre ++ gap))%nat with (length (c :: t)).
        2:{ rewrite !app_length. lia. }
        rewrite firstn_app, Nat.sub_diag, firstn_all. cbn [firstn]. rewrite app_nil_r. reflexivity.
      * subst s. rewrite <- !app_assoc. reflexivity.
      * simpl in Hf. lia.
Qed.

Lemma tokenize_splits d s ts : splits d s ts -> tokenize s d = Ok (drop_eol ts).
Proof.
  intros H. unfold tokenize.
  pose proof (tok_loop_splits d s s ts H [] (S (length s)) eq_refl) as E.
  cbn [length] in E. rewrite E by (pose proof (splits_length _ _ _ H); lia). reflexivity.
Qed.

Lemma splits_exists d s : exists ts, splits d s ts.
Proof.
  remember (length s) as n eqn:En. assert (Hn : (length s <= n)%nat) by lia. clear En.
  revert s Hn. induction n as [|n IH]; intros s Hn.
  - destruct s; [|simpl in Hn; lia]. exists []. apply splits_end. constructor.
  - destruct s as [|c s]. { exists []. apply splits_end. constructor. }
    simpl in Hn. destruct (IH s ltac:(lia)) as (ts & H).
    destruct (inset d c) eqn:E.
    + exists ts. apply (splits_gap d [c]); [|assumption]. constructor; [now apply inset_In|constructor].
    + apply inset_not in E. destruct H as [gap Hg | gap t r ts Hg Ht Hnt Hr H].
      * exists [[c]]. apply (splits_token d [] [c] gap []); try easy; try (constructor; easy).
        intros x Hx. destruct gap; [easy|]. injection Hx as <-. now apply Forall_inv in Hg.
      * destruct gap as [|g gap].
        -- exists ((c :: t) :: ts). apply (splits_token d [] (c :: t) r ts); try easy. now constructor.
        -- exists ([c] :: t :: ts). apply (splits_token d [] [c] ((g :: gap) ++ t ++ r) (t :: ts)); try easy; try (constructor; easy).
           intros x Hx. injection Hx as <-. now apply Forall_inv in Hg.
Qed.

Lemma run_unique {A} (P : A -> Prop) a b a' b' : a ++ b = a' ++ b' ->
  Forall P a -> Forall P a' -> (forall c, hd_error b = Some c -> ~ P c) -> (forall c, hd_error b' = Some c -> ~ P c) ->
  a = a' /\ b = b'.
Proof.
  revert a'. induction a as [|x a IH]; intros [|y a'] E Ha Ha' Hb Hb'; simpl in E.
  - easy.
  - subst b. exfalso. apply (Hb y); [reflexivity|]. now apply Forall_inv in Ha'.
  - subst b'. exfalso. apply (Hb' x); [reflexivity|]. now apply Forall_inv in Ha.
  - injection E as <- E. destruct (IH a' E) as (-> & ->); try easy; eapply Forall_inv_tail; eassumption.
Qed.

Lemma splits_unique d s ts : splits d s ts -> forall ts', splits d s ts' -> ts = ts'.
Proof.
  induction 1 as [gap Hg | gap t r ts Hg Ht Hn Hr H IH]; intros ts' H'.
  - inversion H' as [|g' t' r' ts0 Hg' Ht' Hn' Hr' H0 E]; [reflexivity|]. subst.
    destruct t' as [|c t']; [easy|]. apply Forall_app in Hg as (_ & Hg). apply Forall_inv in Hg. now apply Forall_inv in Hn'.
  - inversion H' as [g' Hg' E | g' t' r' ts0 Hg' Ht' Hn' Hr' H0 E]; subst.
    + destruct t as [|c t]; [easy|]. apply Forall_app in Hg' as (_ & Hg'). apply Forall_inv in Hg'. now apply Forall_inv in Hn.
    + destruct (run_unique (fun c => In c d) _ _ _ _ E) as (E1 & E2); try assumption.
      * destruct t' as [|c t']; [easy|]. intros x Hx. injection Hx as <-. now apply Forall_inv in Hn'.
      * destruct t as [|c t]; [easy|]. intros x Hx. injection Hx as <-. now apply Forall_inv in Hn.
      * destruct (run_unique (fun c => ~ In c d) _ _ _ _ E2) as (-> & ->); try assumption.
        -- intros x Hx. specialize (Hr' x Hx). tauto.
        -- intros x Hx. specialize (Hr x Hx). tauto.
        -- f_equal. now apply IH.
Qed.

Lemma drop_eol_snoc ts t : drop_eol (ts ++ [t]) = (match t with c :: _ => if Ascii.eqb c nl || Ascii.eqb c cr then ts else ts ++ [t] | [] => ts ++ [t] end).
Proof.
  unfold drop_eol. rewrite rev_app_distr. cbn [rev app]. destruct t as [|c t]; [reflexivity|].
  destruct (_ || _); [|reflexivity]. apply rev_involutive.
Qed.
Lemma drop_eol_id ts : (forall t, In t ts -> ~ starts_eol t) -> drop_eol ts = ts.
Proof.
  destruct ts as [|t ts _] using rev_ind; [reflexivity|]. intros H. rewrite drop_eol_snoc.
  destruct t as [|c t]; [reflexivity|].
  destruct (_ || _) eqn:E; [|reflexivity]. exfalso. apply (H (c :: t)).
  - apply in_or_app. right. now left.
  - apply orb_true_iff in E as [E|E]; apply Ascii.eqb_eq in E; subst c; [now left | now right].
Qed.

Lemma tokens_iff d s ts : tokens d s ts <-> tokenize s d = Ok ts.
Proof.
  split.
  - intros [ts' H He | ts' t H He]; rewrite (tokenize_splits _ _ _ H); f_equal.
    + destruct ts' as [|t ts' _] using rev_ind; [reflexivity|]. rewrite drop_eol_snoc.
      destruct t as [|c t]; [reflexivity|]. destruct (_ || _) eqn:E; [|reflexivity]. exfalso. apply (He ts' (c :: t) eq_refl).
      apply orb_true_iff in E as [E|E]; apply Ascii.eqb_eq in E; subst c; [now left | now right].
    + rewrite drop_eol_snoc. destruct t as [|c t]; [destruct He; easy|].
      destruct (_ || _) eqn:E; [reflexivity|]. apply orb_false_iff in E as [E1 E2].
      destruct He as [He|He]; injection He as ->; easy.
  - destruct (splits_exists d s) as (full & H). rewrite (tokenize_splits _ _ _ H). intros E. assert (E' : drop_eol full = ts) by congruence. clear E.
    destruct full as [|t full _] using rev_ind.
    + subst ts. apply tokens_all; [assumption|]. intros ts' t E. destruct ts'; discriminate.
    + rewrite drop_eol_snoc in E'. destruct t as [|c t].
      * subst ts. apply tokens_all; [assumption|]. intros ts' t E. apply app_inj_tail in E as [_ <-]. intros [?|?]; discriminate.
      * destruct (_ || _) eqn:E.
        -- subst ts. apply (tokens_eol _ _ _ (c :: t)); [assumption|].
           apply orb_true_iff in E as [E|E]; apply Ascii.eqb_eq in E; subst c; [now left | now right].
        -- subst ts. apply tokens_all; [assumption|]. intros ts' t' E'. apply app_inj_tail in E' as [_ <-].
           apply orb_false_iff in E as [E1 E2]. intros [He|He]; injection He as ->; easy.
Qed.
Lemma tokens_plain d s ts : splits d s ts -> (forall t, In t ts -> ~ starts_eol t) -> tokens d s ts.
Proof.
  intros H He. apply tokens_all; [assumption|]. intros ts' t ->. apply He. apply in_or_app. right. now left.
Qed.

(** Joining plain tokens with a delimiter splits back. *)
Lemma splits_join d delim t ts : In delim d -> Forall (fun t => t <> [] /\ Forall (fun c => ~ In c d) t) (t :: ts) ->
  splits d (sep_by delim (t :: ts)) (t :: ts).
Proof.
  intros Hd. revert t. induction ts as [|u ts IH]; intros t H.
  - cbn [sep_by flat_map]. apply (splits_token d [] t [] []); try easy; try apply (Forall_inv H). apply splits_end. constructor.
  - cbn [sep_by flat_map]. apply (splits_token d [] t _ (u :: ts)); try easy; try apply (Forall_inv H).
    + intros c Hc. now injection Hc as <-.
    + apply (splits_gap d [delim]); [now repeat constructor|]. apply IH. now apply Forall_inv_tail in H.
Qed.

(** ** Lines *)
Lemma cut_line_nl l r : one_line l -> cut_line (l ++ newline :: r) = (l, Some r).
Proof.
  unfold one_line. induction l as [|c l IH]; intros H; simpl; [reflexivity|].
  destruct (Ascii.eqb_spec c nl) as [->|Hc]; [exfalso; apply H; now left|].
  rewrite IH; [reflexivity|]. intros Hi. apply H. now right.
Qed.
Lemma cut_line_end l : one_line l -> cut_line l = (l, None).
Proof.
  unfold one_line. induction l as [|c l IH]; intros H; simpl; [reflexivity|].
  destruct (Ascii.eqb_spec c nl) as [->|Hc]; [exfalso; apply H; now left|].
  rewrite IH; [reflexivity|]. intros Hi. apply H. now right.
Qed.
Lemma has_comment_iff cc l : has_comment cc l = true <-> commented cc l.
Proof.
  unfold has_comment, commented. rewrite existsb_exists. split; intros (c & H & E); exists c; split; auto; now apply inset_In.
Qed.
Lemma has_comment_not cc l : has_comment cc l = false <-> ~ commented cc l.
Proof. rewrite <- has_comment_iff. destruct (has_comment cc l); split; intros; congruence || easy. Qed.

Definition measure (st : stream) : nat :=
  length (s_rest st) + (if s_eof st then 0 else 1) + (if s_fail st then 0 else 1).
Lemma cut_line_len t : match cut_line t with (l, Some r) => (length r < length t)%nat | (l, None) => True end.
Proof.
  induction t as [|c t IH]; simpl; [exact I|]. destruct (Ascii.eqb c nl); [simpl; lia|].
  destruct (cut_line t) as [l [r|]]; [simpl; lia | exact I].
Qed.
Lemma getline_measure line st : s_fail st = false -> (measure (snd (getline line st)) < measure st)%nat.
Proof.
  intros F. unfold getline, measure. rewrite F. destruct (s_eof st) eqn:E; simpl.
  - lia.
  - pose proof (cut_line_len (s_rest st)). destruct (cut_line (s_rest st)) as [l [r|]]; simpl; [lia|]. destruct l; lia.
Qed.
Lemma measure_fuel st : (measure st < fuel_of st)%nat.
Proof. unfold measure, fuel_of. destruct (s_eof st), (s_fail st); lia. Qed.

(** get_line does not depend on the fuel, and always gives an answer. *)
Lemma get_line_fuel cc st : forall f f' line n, (measure st < f)%nat -> (measure st < f')%nat ->
  get_line f cc line n st = get_line f' cc line n st.
Proof.
  remember (measure st) as m eqn:Em. revert st Em. induction m as [m IH] using lt_wf_ind.
  intros st Em f f' line n Hf Hf'. destruct f as [|f]; [lia|]. destruct f' as [|f']; [lia|]. cbn [get_line].
  destruct (s_fail st) eqn:F; [reflexivity|].
  pose proof (getline_measure line st F) as G. destruct (getline line st) as [line' st']. cbn [snd] in G.
  destruct (has_comment cc line'); [|reflexivity]. apply (IH (measure st')); lia.
Qed.
Lemma get_line_ok cc st : forall f line n, (measure st < f)%nat -> 0 <= n ->
  exists k l st', get_line f cc line n st = Ok (k, l, st') /\ (k = 0 \/ n < k /\ (measure st' < measure st)%nat /\ ~ commented cc l).
Proof.
  remember (measure st) as m eqn:Em. revert st Em. induction m as [m IH] using lt_wf_ind.
  intros st Em f line n Hf Hn. destruct f as [|f]; [lia|]. cbn [get_line].
  destruct (s_fail st) eqn:F. { exists 0, line, st. split; [reflexivity|now left]. }
  pose proof (getline_measure line st F) as G. destruct (getline line st) as [line' st']. cbn [snd] in G.
  destruct (has_comment cc line') eqn:C.
  - destruct (IH (measure st') ltac:(lia) st' eq_refl f line' (n + 1) ltac:(lia) ltac:(lia)) as (k & l & st'' & E & [H|(H & H' & H'')]).
    + exists k, l, st''. split; [assumption|now left].
    + exists k, l, st''. split; [assumption|right]. repeat split; try lia. assumption.
  - exists (n + 1), line', st'. split; [reflexivity|right]. repeat split; try lia. now apply has_comment_not.
Qed.

Lemma reads_exists cc st : forall line, exists ls, reads cc line st ls.
Proof.
  remember (measure st) as m eqn:Em. revert st Em. induction m as [m IH] using lt_wf_ind. intros st Em line.
  destruct (get_line_ok cc st (fuel_of st) line 0 (measure_fuel st) ltac:(lia)) as (k & l & st' & E & [->|(H & H' & _)]).
  - exists []. eapply reads_end. exact E.
  - destruct (IH (measure st') ltac:(lia) st' eq_refl l) as (ls & Hls). exists (l :: ls).
    eapply reads_next; [exact E | lia | exact Hls].
Qed.
Lemma reads_unique cc line st ls : reads cc line st ls -> forall ls', reads cc line st ls' -> ls = ls'.
Proof.
  induction 1 as [line st l st' E | line st n l st' ls E Hn H IH]; intros ls' H'; inversion H'; subst; rewrite E in *;
    match goal with H : Ok _ = Ok _ |- _ => inversion H; subst end; try reflexivity; try lia.
  f_equal. now apply IH.
Qed.

(** Reading with one more line in front. *)
Lemma get_line_cons cc line l r : one_line l ->
  get_line_and_skip_comments cc line (open (l ++ newline :: r)) =
  if has_comment cc l then get_line (S (measure (open r))) cc l 1 (open r) else Ok (1, l, open r).
Proof.
  intros Hl. unfold get_line_and_skip_comments.
  rewrite (get_line_fuel cc _ _ (S (S (measure (open (l ++ newline :: r)))))) by (try apply measure_fuel; lia).
  assert (M : (S (measure (open r)) <= measure (open (l ++ newline :: r)))%nat).
  { unfold measure, open. cbn. rewrite app_length. cbn. lia. }
  remember (S (measure (open (l ++ newline :: r)))) as F eqn:EF.
  remember (S (measure (open r))) as F' eqn:EF'.
  cbn [get_line]. cbn [s_fail open]. unfold getline at 1. cbn [s_eof s_fail s_rest open orb]. rewrite cut_line_nl by assumption.
  change (Stream r false false) with (open r). cbn [Z.add].
  destruct (has_comment cc l); [|reflexivity].
  apply get_line_fuel; lia.
Qed.

Lemma get_line_shift cc st : forall f line line' n n', s_eof st = false -> s_fail st = false -> (measure st < f)%nat -> 0 <= n -> 0 <= n' ->
  exists l st', (get_line f cc line n st = Ok (0, l, st') /\ get_line f cc line' n' st = Ok (0, l, st')) \/
  (exists k k', 0 < k /\ 0 < k' /\ get_line f cc line n st = Ok (k, l, st') /\ get_line f cc line' n' st = Ok (k', l, st')).
Proof.
  remember (measure st) as m eqn:Em. revert st Em. induction m as [m IH] using lt_wf_ind.
  intros st Em f line line' n n' E F Hf Hn Hn'. destruct f as [|f]; [lia|]. cbn [get_line]. rewrite F.
  pose proof (getline_measure line st F) as G.
  assert (GE : getline line' st = getline line st) by (unfold getline; rewrite E, F; reflexivity).
  rewrite GE. destruct (getline line st) as [l1 st1]. cbn [snd] in G.
  destruct (has_comment cc l1).
  - assert (D : get_line f cc l1 (n + 1) st1 = get_line f cc l1 (n + 1) st1) by reflexivity.
    (* same line, only the counters differ *)
    clear - G Em Hn Hn' Hf. assert (Hf1 : (measure st1 < f)%nat) by lia. clear Em G Hf.
    assert (H0 : 0 <= n + 1) by lia. assert (H1 : 0 <= n' + 1) by lia. revert H0 H1. generalize (n + 1) (n' + 1). clear n n' Hn Hn'.
    revert l1 st1 Hf1. induction f as [|f IH]; intros l1 st1 Hf1 n n' Hn Hn'; [lia|]. cbn [get_line].
    destruct (s_fail st1) eqn:F1. { exists l1, st1. now left. }
    pose proof (getline_measure l1 st1 F1) as G. destruct (getline l1 st1) as [l2 st2]. cbn [snd] in G.
    destruct (has_comment cc l2).
    + apply IH; lia.
    + exists l2, st2. right. exists (n + 1), (n' + 1). repeat split; lia.
  - exists l1, st1. right. exists (n + 1), (n' + 1). repeat split; lia.
Qed.

Lemma reads_line_irr cc line line' st ls : s_eof st = false -> s_fail st = false -> reads cc line st ls -> reads cc line' st ls.
Proof.
  intros E F H. destruct (get_line_shift cc st (fuel_of st) line line' 0 0 E F (measure_fuel st) ltac:(lia) ltac:(lia))
    as (l & st' & [(A & B)|(k & k' & Hk & Hk' & A & B)]); inversion H; subst;
  unfold get_line_and_skip_comments in *; rewrite A in *;
  match goal with H : Ok _ = Ok _ |- _ => inversion H; subst; clear H end; try lia.
  - eapply reads_end. exact B.
  - eapply reads_next; [exact B | assumption | assumption].
Qed.

Lemma reads_skip cc line l r ls : one_line l -> commented cc l -> reads cc line (open r) ls -> reads cc line (open (l ++ newline :: r)) ls.
Proof.
  intros Hl Hc H. apply (reads_line_irr _ _ l) in H; [|reflexivity|reflexivity].
  pose proof (get_line_cons cc line l r Hl) as E. apply has_comment_iff in Hc. rewrite Hc in E.
  destruct (get_line_shift cc (open r) (S (measure (open r))) l l 0 1 eq_refl eq_refl ltac:(lia) ltac:(lia) ltac:(lia))
    as (l' & st' & [(A & B)|(k & k' & Hk & Hk' & A & B)]);
  rewrite (get_line_fuel cc (open r) _ (fuel_of (open r))) in A by (try apply measure_fuel; lia);
  inversion H; subst; unfold get_line_and_skip_comments in *; rewrite A in *;
  match goal with H : Ok _ = Ok _ |- _ => inversion H; subst; clear H end; try lia; rewrite B in E.
  - eapply reads_end. exact E.
  - eapply reads_next; [exact E | assumption | assumption].
Qed.
Lemma reads_keep cc line l r ls : one_line l -> ~ commented cc l -> reads cc line (open r) ls -> reads cc line (open (l ++ newline :: r)) (l :: ls).
Proof.
  intros Hl Hc H. apply (reads_line_irr _ _ l) in H; [|reflexivity|reflexivity].
  pose proof (get_line_cons cc line l r Hl) as E. apply has_comment_not in Hc. rewrite Hc in E.
  eapply reads_next; [exact E | lia | exact H].
Qed.

(** What the end of the text gives. *)
Lemma reads_last_comment cc line l : one_line l -> commented cc l -> reads cc line (open l) [].
Proof.
  intros Hl Hc. apply has_comment_iff in Hc. destruct l as [|c l]; [discriminate|].
  apply (reads_end cc line (open (c :: l)) (c :: l) (Stream [] true true)). unfold get_line_and_skip_comments.
  unfold fuel_of. rewrite Nat.add_comm. cbn [Nat.add get_line]. cbn [s_fail open]. unfold getline at 1. cbn [s_eof s_fail s_rest open orb].
  rewrite cut_line_end by assumption. rewrite Hc. cbn [s_fail]. unfold getline. cbn [s_eof s_fail orb]. rewrite Hc.
  reflexivity.
Qed.
Lemma reads_last_empty cc line : reads cc line (open []) [[]].
Proof. eapply reads_next; [reflexivity|lia|]. eapply reads_end. reflexivity. Qed.
Lemma reads_last_data cc line l : one_line l -> ~ commented cc l -> l <> [] -> reads cc line (open l) [l; l].
Proof.
  intros Hl Hc Hne. apply has_comment_not in Hc.
  eapply reads_next.
  - unfold get_line_and_skip_comments, fuel_of. rewrite Nat.add_comm. cbn [Nat.add get_line]. cbn [s_fail open]. unfold getline at 1. cbn [s_eof s_fail s_rest open orb].
    rewrite cut_line_end by assumption. rewrite Hc. reflexivity.
  - lia.
  - destruct l as [|c l]; [easy|]. eapply reads_next.
    + unfold get_line_and_skip_comments, fuel_of. cbn [s_rest length Nat.add get_line s_fail]. unfold getline at 1. cbn [s_eof s_fail s_rest orb].
      rewrite Hc. reflexivity.
    + lia.
    + eapply reads_end. reflexivity.
Qed.

Lemma lines_cons l ls r : lines (l :: ls) ++ r = l ++ newline :: (lines ls ++ r).
Proof. unfold lines. cbn [map concat]. rewrite <- !app_assoc. reflexivity. Qed.

Lemma reads_lines cc line ls ks r rs : Forall one_line ls -> kept cc ls ks -> reads cc line (open r) rs ->
  reads cc line (open (lines ls ++ r)) (ks ++ rs).
Proof.
  intros Hl Hk Hr. induction Hk as [|l ls ks Hc Hk IH|l ls ks Hc Hk IH].
  - exact Hr.
  - rewrite lines_cons. apply reads_skip; [now apply Forall_inv in Hl|assumption|]. apply IH. now apply Forall_inv_tail in Hl.
  - rewrite lines_cons. apply reads_keep; [now apply Forall_inv in Hl|assumption|]. apply IH. now apply Forall_inv_tail in Hl.
Qed.
