(** C65: read_formatted_data2. *)
From Coq Require Import ZArith Bool Lia Ascii String List.
From Verif Require Import Base F64 StrMap Value MBasic MGet MMap MMat MNum LNum MText SText LText LTable.
Import ListNotations.
Local Open Scope Z_scope.

(** ** Specification *)

(** The lines read from a text: those of a text made of complete lines are these lines; a
    last line without newline is found twice. *)
Inductive seen : text -> list text -> Prop :=
| seen_complete ls : Forall one_line ls -> seen (lines ls) ls
| seen_broken ls l : Forall one_line ls -> one_line l -> l <> [] -> seen (lines ls ++ l) (ls ++ [l; l]).
(** Lines that are not rows. *)
Definition skipped (cc l : text) : Prop := l = [] \/ commented cc l.
(** [table2 cc dl ncol ls rows ok cs]: the rows given by the lines [ls]; [cs] are the skipped
    lines met.  A line of delimiters only ends the table; a row with another number of tokens
    is an error ([ok] is false) and ends it too. *)
Inductive table2 (cc dl : text) (ncol : nat) : list text -> list (list text) -> bool -> list text -> Prop :=
| t2_end : table2 cc dl ncol [] [] true []
| t2_skip l ls rows ok cs : skipped cc l -> table2 cc dl ncol ls rows ok cs -> table2 cc dl ncol (l :: ls) rows ok (l :: cs)
| t2_blank l ls : ~ skipped cc l -> tokens dl l [] -> table2 cc dl ncol (l :: ls) [] true []
| t2_row l ls ts rows ok cs : ~ skipped cc l -> tokens dl l ts -> ts <> [] -> length ts = ncol ->
    table2 cc dl ncol ls rows ok cs -> table2 cc dl ncol (l :: ls) (ts :: rows) ok cs
| t2_bad l ls ts : ~ skipped cc l -> tokens dl l ts -> ts <> [] -> length ts <> ncol ->
    table2 cc dl ncol (l :: ls) [] false [].

(** [trimmed s t]: [t] is [s] without the blanks at both ends, or [s] has nothing else. *)
Definition blank (c : ascii) : Prop := c = " "%char \/ c = ascii_of_nat 9.
Definition trimmed (s t : text) : Prop :=
  (Forall blank s /\ t = s) \/
  exists a b, s = a ++ t ++ b /\ Forall blank a /\ Forall blank b /\ t <> [] /\
    (forall c, hd_error t = Some c -> ~ blank c) /\ (forall c, hd_error (rev t) = Some c -> ~ blank c).
(** A skipped line of the form ?! name = value gives a parameter: a number if the value
    starts like one, else a string. *)
Inductive parameter (l : text) : string -> gc -> Prop :=
| par_intro a rest lhs rhs more name value :
    l = a :: "!"%char :: rest -> rest <> [] -> tokens ["="%char] rest (lhs :: rhs :: more) ->
    trimmed lhs name -> trimmed rhs value ->
    parameter l (cstr (string_of_list_ascii name))
      (match strtod value with Some x => GReal x | None => GStr (string_of_list_ascii value) end).
(** The value found under [k]: the one of the last parameter of this name, else the old one. *)
Inductive value_of (k : string) : list text -> option gc -> option gc -> Prop :=
| value_end o : value_of k [] o o
| value_new l v ls o o' : parameter l k v -> value_of k ls (Some v) o' -> value_of k (l :: ls) o o'
| value_old l ls o o' : (forall v, ~ parameter l k v) -> value_of k ls o o' -> value_of k (l :: ls) o o'.
Definition at_key (k : string) (g : gc) : option gc := match g with GMap m => mfind k m | _ => None end.
(** The parameters of the lines [cs] have been stored. *)
Definition stored (cs : list text) (p p' : gc) : Prop :=
  (forall k, value_of k cs (at_key k p) (at_key k p')) /\
  ((forall l k v, In l cs -> ~ parameter l k v) -> p' = p).

(** ** Lines *)

(** The lines that getline produces until the stream fails. *)
Inductive yields : text -> stream -> list text -> Prop :=
| y_fail line st : s_fail st = true -> yields line st []
| y_next line st l st' vs : s_fail st = false -> getline line st = (l, st') -> yields l st' vs -> yields line st (l :: vs).

Lemma yields_lines ls : forall line r vs, Forall one_line ls -> (forall line', yields line' (open r) vs) ->
  yields line (open (lines ls ++ r)) (ls ++ vs).
Proof.
  induction ls as [|l ls IH]; intros line r vs F H; [apply H|]. inversion F; subst. rewrite lines_cons.
  apply y_next with (st' := open (lines ls ++ r)); [reflexivity| |cbn [app]; auto].
  unfold getline. cbn [s_eof s_fail s_rest open orb]. rewrite cut_line_nl by assumption. reflexivity.
Qed.
Lemma yields_seen t vs : seen t vs -> forall line, exists end_, (end_ = [] \/ end_ = [[]]) /\ yields line (open t) (vs ++ end_).
Proof.
  intros [ls F|ls l F Hl N] line.
  - exists [[]]. split; [now right|]. rewrite <- (app_nil_r (lines ls)). apply yields_lines; [assumption|].
    intros line'. eapply y_next; [reflexivity|reflexivity|]. now apply y_fail.
  - exists []. split; [now left|]. rewrite app_nil_r. apply yields_lines; [assumption|]. intros line'.
    assert (getline line' (open l) = (l, Stream [] true false)) as G.
    { unfold getline. cbn [s_eof s_fail s_rest open orb]. rewrite cut_line_end by assumption. destruct l; [contradiction|reflexivity]. }
    eapply y_next; [reflexivity|exact G|]. eapply y_next; [reflexivity|reflexivity|]. now apply y_fail.
Qed.
Lemma yields_measure line st vs : yields line st vs -> (length vs <= measure st)%nat.
Proof.
  induction 1 as [|line st l st' vs F G Y IH]; cbn [length]; [lia|].
  pose proof (getline_measure line st F) as M. rewrite G in M. cbn [snd] in M. lia.
Qed.

Definition skips (cc l : text) : bool := (match l with [] => true | _ => false end) || has_comment cc l.
Lemma skips_iff cc l : skips cc l = true <-> skipped cc l.
Proof.
  unfold skips, skipped. rewrite orb_true_iff, has_comment_iff. destruct l; split; intros [H|H]; try discriminate; auto.
Qed.
Lemma skips_not cc l : skips cc l = false <-> ~ skipped cc l.
Proof. rewrite <- skips_iff. destruct (skips cc l); split; congruence. Qed.

(** ** Parameters *)
Lemma trim_front_spec t : exists a, t = a ++ trim_front t /\ Forall blank a /\ (forall c, hd_error (trim_front t) = Some c -> ~ blank c).
Proof.
  induction t as [|c t (a & E & F & N)]; cbn [trim_front]; [exists []; repeat split; [constructor|discriminate]|].
  destruct (Ascii.eqb_spec c " ") as [->|N1]; cbn [orb].
  - exists (" "%char :: a). cbn [app]. rewrite <- E. repeat split; auto. constructor; [now left|assumption].
  - destruct (Ascii.eqb_spec c (chr 9)) as [->|N2].
    + exists (chr 9 :: a). cbn [app]. rewrite <- E. repeat split; auto. constructor; [now right|assumption].
    + exists []. repeat split; [constructor|]. cbn. intros c' [= <-] [->| ->]; contradiction.
Qed.
Lemma trim_trimmed s : trimmed s (trim s).
Proof.
  unfold trim, trimmed. destruct (trim_front_spec s) as (a & E & F & N). destruct (trim_front s) as [|c t] eqn:T.
  - left. split; [|reflexivity]. rewrite app_nil_r in E. now subst.
  - right. destruct (trim_front_spec (rev (c :: t))) as (b & E' & F' & N').
    destruct (trim_front (rev (c :: t))) as [|c' t'] eqn:T'.
    { exfalso. rewrite app_nil_r in E'. apply (N c eq_refl). rewrite Forall_forall in F'. apply F'. rewrite <- E'.
      apply in_rev. rewrite rev_involutive. now left. }
    exists a, (rev b). apply (f_equal (@rev ascii)) in E'. rewrite rev_involutive, rev_app_distr in E'.
    repeat split.
    + rewrite <- E'. exact E.
    + assumption.
    + now apply Forall_rev.
    + intros K. apply (f_equal (@length ascii)) in K. rewrite rev_length in K. discriminate.
    + intros x Hx. apply N. rewrite E'. destruct (rev (c' :: t')) eqn:R; [|exact Hx].
      apply (f_equal (@length ascii)) in R. rewrite rev_length in R. discriminate.
    + rewrite rev_involutive. exact N'.
Qed.
Lemma blank_run a t a' t' : a ++ t = a' ++ t' -> Forall blank a -> Forall blank a' ->
  (forall c, hd_error t = Some c -> ~ blank c) -> (forall c, hd_error t' = Some c -> ~ blank c) -> a = a' /\ t = t'.
Proof.
  revert a'. induction a as [|x a IH]; intros [|y a'] E F F' N N'; cbn [app] in E; subst.
  - auto.
  - inversion F'; subst. exfalso. now apply (N y).
  - inversion F; subst. exfalso. now apply (N' x).
  - injection E as <- E. inversion F; inversion F'; subst. destruct (IH a' E) as [-> ->]; auto.
Qed.
Lemma trimmed_unique s t t' : trimmed s t -> trimmed s t' -> t = t'.
Proof.
  assert (forall a u b, Forall blank (a ++ u ++ b) -> u <> [] -> (forall c, hd_error u = Some c -> ~ blank c) -> False) as C.
  { intros a [|c u] b F H N; [contradiction|]. apply (N c eq_refl). rewrite Forall_forall in F. apply F. apply in_or_app. right. now left. }
  intros [[F ->]|(a & b & E & Fa & Fb & N & N1 & N2)] [[F' ->]|(a' & b' & E' & Fa' & Fb' & N' & N1' & N2')].
  - reflexivity.
  - exfalso. subst s. eapply C; eauto.
  - exfalso. subst s. eapply C; eauto.
  - rewrite E in E'. destruct (blank_run a (t ++ b) a' (t' ++ b') E' Fa Fa') as [_ X].
    + destruct t; [contradiction|]. exact N1.
    + destruct t'; [contradiction|]. exact N1'.
    + apply (f_equal (@rev ascii)) in X. rewrite !rev_app_distr in X.
      destruct (blank_run (rev b) (rev t) (rev b') (rev t') X) as [_ Y]; auto using Forall_rev.
      apply (f_equal (@rev ascii)) in Y. now rewrite !rev_involutive in Y.
Qed.

(** What a skipped line does to the parameters. *)
Lemma read_param_spec l p : exists p', read_param l (Some p) = Ok (Some p') /\
  ((exists k v, parameter l k v /\ (forall k' v', parameter l k' v' -> k' = k /\ v' = v) /\
      at_key k p' = Some v /\ forall k', k' <> k -> at_key k' p' = at_key k' p) \/
   ((forall k v, ~ parameter l k v) /\ p' = p)).
Proof.
  assert (forall (P : Prop), P -> (forall k v, ~ parameter l k v) -> P /\ ((forall k v, ~ parameter l k v) /\ p = p)) as Q by tauto.
  destruct l as [|a [|c [|c2 r]]]; cbn [read_param].
  1-3: exists p; split; [reflexivity|]; right; split; [|reflexivity]; intros k v H; inversion H; subst;
       repeat match goal with E : _ :: _ = _ :: _ |- _ => injection E as E | E : [] = _ :: _ |- _ => discriminate end; subst; congruence.
  destruct (Ascii.eqb_spec c "!") as [->|N].
  2:{ exists p. split; [reflexivity|]. right. split; [|reflexivity]. intros k v H. inversion H; subst. congruence. }
  cbn [skipn]. destruct (splits_exists ["="%char] (c2 :: r)) as (full & Hs).
  pose proof (tokenize_splits _ _ _ Hs) as Tk. change (txt "=") with ["="%char]. rewrite Tk. cbn [bind].
  assert (forall ts, tokens ["="%char] (c2 :: r) ts -> ts = drop_eol full) as U.
  { intros ts T. apply tokens_iff in T. rewrite Tk in T. now injection T as <-. }
  apply tokens_iff in Tk.
  destruct (drop_eol full) as [|lhs [|rhs more]] eqn:D.
  1-2: exists p; split; [reflexivity|]; right; split; [|reflexivity]; intros k v H; inversion H as [? ? ? ? ? ? ? E ? T]; injection E as _ <-;
       apply U in T; discriminate.
  set (v := match strtod (trim rhs) with Some x => GReal x | None => GStr (untxt (trim rhs)) end).
  eexists. split; [reflexivity|]. left. exists (cstr (untxt (trim lhs))), v. split; [|split; [|split]].
  - eapply par_intro; [reflexivity|discriminate|exact Tk|apply trim_trimmed|apply trim_trimmed].
  - intros k' v' H. inversion H as [? ? ? ? ? ? ? E ? T T1 T2]. injection E as _ <-. apply U in T. injection T as -> -> ->.
    rewrite (trimmed_unique _ _ _ T1 (trim_trimmed lhs)), (trimmed_unique _ _ _ T2 (trim_trimmed rhs)). split; reflexivity.
  - unfold with_key. cbn [snd at_key]. apply mfind_mset_same.
  - intros k' H. unfold with_key. cbn [snd at_key]. rewrite mfind_mset_other by assumption. destruct p; reflexivity.
Qed.
Lemma read_param_none l : read_param l None = Ok None.
Proof. destruct l as [|? [|? [|? ?]]]; reflexivity. Qed.
(** Of a number of lines. *)
Inductive scanned : list text -> option gc -> option gc -> Prop :=
| scan_end p : scanned [] p p
| scan_line l ls p p1 p2 : read_param l p = Ok p1 -> scanned ls p1 p2 -> scanned (l :: ls) p p2.
Lemma scanned_none ls p : scanned ls None p -> p = None.
Proof. induction ls as [|l ls IH]; intros H; inversion H as [|? ? ? p1 ? E S]; subst; [reflexivity|]. rewrite read_param_none in E. injection E as <-. auto. Qed.
Lemma scanned_stored ls : forall p q, scanned ls (Some p) q -> exists p', q = Some p' /\ stored ls p p'.
Proof.
  induction ls as [|l ls IH]; intros p q H; inversion H as [|? ? ? p1 ? E S]; subst.
  - exists p. split; [reflexivity|]. split; [intros; constructor|reflexivity].
  - destruct (read_param_spec l p) as (p1' & E1 & C). rewrite E in E1. injection E1 as ->. destruct (IH _ _ S) as (p' & -> & S1 & S2).
    exists p'. split; [reflexivity|]. destruct C as [(k & v & P & U & A & B)|[N ->]].
    + split.
      * intros k'. specialize (S1 k'). destruct (string_dec k' k) as [->|D].
        -- rewrite A in S1. now apply value_new with (v := v).
        -- rewrite B in S1 by assumption. apply value_old; [|assumption]. intros v' P'. destruct (U _ _ P'). contradiction.
      * intros X. exfalso. eapply (X l); [now left|exact P].
    + split.
      * intros k'. apply value_old; [apply N|apply S1].
      * intros X. apply S2. intros l' k' v' I. apply X. now right.
Qed.
Lemma scanned_app a b p q r : scanned a p q -> scanned b q r -> scanned (a ++ b) p r.
Proof. induction 1; cbn [app]; [auto|]. intros. econstructor; eauto. Qed.
Lemma scanned_exists ls : forall p, exists q, scanned ls p q.
Proof.
  induction ls as [|l ls IH]; intros p; [eexists; constructor|].
  assert (exists p1, read_param l p = Ok p1) as (p1 & E).
  { destruct p as [p|]; [destruct (read_param_spec l p) as (p' & E & _); eauto|rewrite read_param_none; eauto]. }
  destruct (IH p1) as (q & S). exists q. econstructor; eauto.
Qed.

(** ** The reading loop *)
Lemma get_line2_skip cc line st vs : yields line st vs -> forall f n pars,
  (measure st < f)%nat -> 0 <= n ->
  (forall cs v ws pars', vs = cs ++ v :: ws -> Forall (skipped cc) cs -> ~ skipped cc v -> scanned cs pars pars' ->
     exists k st', get_line2 f cc line n pars st = Ok (k, v, st', pars') /\ n < k /\ yields v st' ws /\ (measure st' < measure st)%nat) /\
  (forall pars', Forall (skipped cc) vs -> scanned vs pars pars' ->
     exists l st', get_line2 f cc line n pars st = Ok (0, l, st', pars')).
Proof.
  induction 1 as [line st F|line st l st' vs F G Y IH]; intros f n pars Hf Hn; (destruct f as [|f]; [lia|]); cbn [get_line2]; rewrite F.
  - split; [intros [|] v ws pars' E; discriminate|]. intros pars' _ S. inversion S; subst. eauto.
  - rewrite G. change (match l with [] => true | _ => false end || has_comment cc l) with (skips cc l).
    assert (measure st' < measure st)%nat as M by (pose proof (getline_measure line st F) as M; rewrite G in M; exact M). split.
    + intros [|c cs] v ws pars' E Fc Nv S; cbn [app] in E; injection E as -> ->.
      * inversion S; subst. apply skips_not in Nv. rewrite Nv. exists (n + 1), st'. repeat split; auto; lia.
      * inversion Fc as [|? ? Fl Fc']; subst. inversion S as [|? ? ? p1 ? E1 S1]; subst. apply skips_iff in Fl. rewrite Fl, E1. cbn [bind].
        destruct (IH f (n + 1) p1 ltac:(lia) ltac:(lia)) as [IH1 _].
        destruct (IH1 cs v ws pars' eq_refl Fc' Nv S1) as (k & st2 & -> & H1 & H2 & H3). exists k, st2. repeat split; auto; lia.
    + intros pars' Fc S. inversion Fc as [|? ? Fl Fc']; subst. inversion S as [|? ? ? p1 ? E1 S1]; subst.
      apply skips_iff in Fl. rewrite Fl, E1. cbn [bind].
      destruct (IH f (n + 1) p1 ltac:(lia) ltac:(lia)) as [_ IH2]. apply IH2; assumption.
Qed.

(** Rows one after the other, over all columns. *)
Lemma read_rows2_table cc dl hs vs rows ok cs : table2 cc dl (length hs) vs rows ok cs ->
  forall line st f pars pars' data, yields line st vs -> (measure st < f)%nat -> scanned cs pars pars' ->
  read_rows2 f cc dl line hs st pars data =
    ((if ok : bool then Ok tt else Throw), fold_left (fun d r => push_cols hs r d) rows data, pars').
Proof.
  (* the skipped lines before the next row *)
  assert (forall vs rows ok cs, table2 cc dl (length hs) vs rows ok cs ->
    exists c1 vs2 cs2, vs = c1 ++ vs2 /\ cs = c1 ++ cs2 /\ Forall (skipped cc) c1 /\ table2 cc dl (length hs) vs2 rows ok cs2 /\
      (vs2 = [] \/ exists v ws, vs2 = v :: ws /\ ~ skipped cc v)) as P.
  { clear. induction 1 as [|l ls rows ok cs K T (c1 & vs2 & cs2 & -> & -> & F & T2 & C)|l ls K T|l ls ts rows ok cs K T N L T2 IH|l ls ts K T N L].
    - exists [], [], []. repeat split; auto using t2_end.
    - exists (l :: c1), vs2, cs2. repeat split; auto.
    - exists [], (l :: ls), []. repeat split; eauto using t2_blank.
    - exists [], (l :: ls), cs. repeat split; eauto using t2_row.
    - exists [], (l :: ls), []. repeat split; eauto using t2_bad. }
  intros T line st f. revert vs rows ok cs T line st.
  induction f as [|f IH]; intros vs rows ok cs T line st pars pars' data Y Hf S; [lia|]. cbn [read_rows2].
  destruct (P _ _ _ _ T) as (c1 & vs2 & cs2 & -> & -> & F & T2 & C).
  assert (exists q, scanned c1 pars q /\ scanned cs2 q pars') as (q & S1 & S2).
  { clear -S. revert pars S. induction c1 as [|c c1 IH]; intros pars S; [exists pars; split; [constructor|assumption]|].
    cbn [app] in S. inversion S as [|? ? ? p1 ? E S1]; subst. destruct (IH _ S1) as (q & A & B). exists q. split; [econstructor; eauto|assumption]. }
  destruct (get_line2_skip cc line st _ Y (fuel_of st) 0 pars (measure_fuel st) ltac:(lia)) as [G1 G2].
  destruct C as [->|(v & ws & -> & Nv)].
  - rewrite app_nil_r in *. destruct (G2 q F S1) as (l & st' & ->). cbn [Z.eqb]. inversion T2; subst. inversion S2; subst. reflexivity.
  - destruct (G1 c1 v ws q eq_refl F Nv S1) as (k & st' & -> & Hk & Y' & M). destruct (k =? 0) eqn:K0; [apply Z.eqb_eq in K0; lia|].
    inversion T2 as [|l ls r o c K Tr|l ls K Tk|l ls ts r o c K Tk N L Tr|l ls ts K Tk N L]; subst; try contradiction; apply tokens_iff in Tk; rewrite Tk.
    + inversion S2; subst. reflexivity.
    + destruct ts as [|t ts]; [contradiction|]. assert (zlen (t :: ts) =? zlen hs = true) as -> by (unfold zlen; rewrite L; apply Z.eqb_refl).
      rewrite (IH _ _ _ _ Tr v st' q pars'); [reflexivity|assumption|lia|assumption].
    + destruct ts as [|t ts]; [contradiction|]. assert (zlen (t :: ts) =? zlen hs = false) as -> by (unfold zlen; apply Z.eqb_neq; lia).
      inversion S2; subst. reflexivity.
Qed.

(** ** Columns *)
Definition col (h : string) (g : gc) : list Z := match at_key h g with Some (GVReal v) => v | _ => [] end.
Definition is_col (h : string) (g : gc) : Prop := exists v, at_key h g = Some (GVReal v).
Lemma push_cols_spec hs : forall ts g, length ts = length hs -> NoDup hs -> Forall no_nul hs -> Forall (fun h => is_col h g) hs ->
  (forall i h t, nth_error hs i = Some h -> nth_error ts i = Some t ->
     at_key h (push_cols hs ts g) = Some (GVReal (col h g ++ [atof t]))) /\
  (forall k, ~ In k hs -> at_key k (push_cols hs ts g) = at_key k g).
Proof.
  induction hs as [|h hs IH]; intros [|t ts] g L D N C; try discriminate; cbn [push_cols].
  - split; [intros [|]; discriminate|reflexivity].
  - inversion D as [|? ? Nh D']; subst. inversion N as [|? ? Nn N']; subst. inversion C as [|? ? [v Cv] C']; subst. injection L as L.
    set (g1 := push_col h (atof t) g).
    assert (forall k, k <> h -> at_key k g1 = at_key k g) as O.
    { intros k K. unfold g1, push_col, with_key. cbn [snd at_key]. rewrite cstr_id by assumption. rewrite mfind_mset_other by assumption.
      destruct g; reflexivity. }
    assert (at_key h g1 = Some (GVReal (col h g ++ [atof t]))) as A.
    { unfold g1, push_col, with_key. cbn [snd at_key]. rewrite cstr_id by assumption. rewrite mfind_mset_same.
      destruct g; try discriminate. cbn [old_map]. cbn [at_key] in Cv. unfold col. cbn [at_key]. rewrite Cv. reflexivity. }
    assert (Forall (fun h => is_col h g1) hs) as C1.
    { rewrite Forall_forall in *. intros k Hk. destruct (C' k Hk) as [w W]. exists w. rewrite O; [assumption|]. intros ->. contradiction. }
    destruct (IH ts g1 L D' N' C1) as [I1 I2]. split.
    + intros [|i] h' t' Eh Et; cbn [nth_error] in Eh, Et.
      * injection Eh as <-. injection Et as <-. rewrite I2 by assumption. exact A.
      * rewrite (I1 i h' t' Eh Et). do 2 f_equal. f_equal. unfold col. rewrite O; [reflexivity|]. intros ->. apply Nh. eapply nth_error_In; eauto.
    + intros k Hk. rewrite I2 by (intros X; apply Hk; now right). apply O. intros ->. apply Hk. now left.
Qed.
Lemma push_rows2_spec hs rows : forall g, Forall (fun r => length r = length hs) rows -> NoDup hs -> Forall no_nul hs -> Forall (fun h => is_col h g) hs ->
  (forall i h, nth_error hs i = Some h ->
     at_key h (fold_left (fun d r => push_cols hs r d) rows g) = Some (GVReal (col h g ++ map (fun r => atof (nth i r [])) rows))) /\
  (forall k, ~ In k hs -> at_key k (fold_left (fun d r => push_cols hs r d) rows g) = at_key k g).
Proof.
  induction rows as [|r rows IH]; intros g L D N C; cbn [fold_left map].
  - split; [|reflexivity]. intros i h E. rewrite app_nil_r. rewrite Forall_forall in C. destruct (C h (nth_error_In _ _ E)) as [v V].
    unfold col. now rewrite V.
  - inversion L as [|? ? Lr L']; subst. destruct (push_cols_spec hs r g Lr D N C) as [P1 P2].
    assert (forall i h, nth_error hs i = Some h -> at_key h (push_cols hs r g) = Some (GVReal (col h g ++ [atof (nth i r [])]))) as P1'.
    { intros i h E. apply (P1 i); [assumption|]. apply nth_error_nth'. rewrite Lr. apply nth_error_Some. congruence. }
    assert (Forall (fun h => is_col h (push_cols hs r g)) hs) as C1.
    { rewrite Forall_forall. intros h Hh. apply In_nth_error in Hh as (i & E). eexists. eapply P1'. exact E. }
    destruct (IH (push_cols hs r g) L' D N C1) as [I1 I2]. split.
    + intros i h E. rewrite (I1 i h E). do 2 f_equal. unfold col at 1. rewrite (P1' i h E). now rewrite <- app_assoc.
    + intros k Hk. rewrite I2, P2 by assumption. reflexivity.
Qed.
Lemma add_cols_spec hs : forall g, Forall no_nul hs ->
  (forall h, In h hs -> at_key h (fold_left (fun d h => add_col h d) hs g) = Some (GVReal (col h g))) /\
  (forall k, ~ In k hs -> at_key k (fold_left (fun d h => add_col h d) hs g) = at_key k g).
Proof.
  induction hs as [|h hs IH]; intros g N; cbn [fold_left]; [split; [contradiction|reflexivity]|].
  inversion N as [|? ? Nn N']; subst. set (g1 := add_col h g).
  assert (forall k, k <> h -> at_key k g1 = at_key k g) as O.
  { intros k K. unfold g1, add_col, with_key. cbn [snd at_key]. rewrite cstr_id by assumption. rewrite mfind_mset_other by assumption.
    destruct g; reflexivity. }
  assert (at_key h g1 = Some (GVReal (col h g))) as A.
  { unfold g1, add_col, with_key. cbn [snd at_key]. rewrite cstr_id by assumption. rewrite mfind_mset_same.
    unfold col. destruct g; try reflexivity. cbn [old_map at_key]. destruct (mfind h m) as [[]|]; reflexivity. }
  assert (forall k, col k g1 = col k g) as Q.
  { intros k. unfold col. destruct (string_dec k h) as [->|K]; [|now rewrite O]. rewrite A. reflexivity. }
  destruct (IH g1 N') as [I1 I2]. split.
  - intros k [<-|Hk].
    + destruct (in_dec string_dec h hs) as [I|I]; [rewrite I1 by assumption; now rewrite Q|rewrite I2 by assumption; exact A].
    + rewrite I1 by assumption. now rewrite Q.
  - intros k Hk. rewrite I2 by (intros X; apply Hk; now right). apply O. intros ->. apply Hk. now left.
Qed.
Lemma table2_len cc dl n vs rows ok cs : table2 cc dl n vs rows ok cs -> Forall (fun r => length r = n) rows.
Proof. induction 1; auto. Qed.
Lemma table2_end cc dl n vs rows ok cs e : table2 cc dl n vs rows ok cs -> e = [] \/ e = [[]] ->
  exists cs', table2 cc dl n (vs ++ e) rows ok cs' /\ (cs' = cs \/ cs' = cs ++ [[]]).
Proof.
  intros T [->| ->]; [exists cs; rewrite app_nil_r; auto|].
  induction T as [|l ls rows ok cs K T (c & I & C)|l ls K T|l ls ts rows ok cs K T N L T2 (c & I & C)|l ls ts K T N L]; cbn [app].
  - exists [[]]. split; [|now right]. apply t2_skip; [now left|apply t2_end].
  - exists (l :: c). split; [now apply t2_skip|]. destruct C as [->| ->]; auto.
  - exists []. split; [now apply t2_blank|now left].
  - exists c. split; [eapply t2_row; eauto|assumption].
  - exists []. split; [eapply t2_bad; eauto|now left].
Qed.
Lemma scanned_empty cs p q : scanned (cs ++ [[]]) p q -> scanned cs p q.
Proof.
  revert p. induction cs as [|c cs IH]; intros p H; cbn [app] in H; inversion H as [|? ? ? p1 ? E S]; subst.
  - inversion S; subst. assert (read_param [] p = Ok p) as R by (destruct p; reflexivity). rewrite R in E. injection E as <-. constructor.
  - econstructor; eauto.
Qed.

(** ** C65 *)

(** The first line that is not skipped gives the headers, the following ones the rows.  If the
    container had no "data" before, then afterwards every header is the name of the column of
    its numbers, "data" has no other column, and the parameters given by the skipped lines up
    to the end of the table have been stored, the last one of each name.  The call throws
    exactly when a row has another number of tokens than the headers. *)
Theorem C65_reading_partial cc dl t pre hl ls hs rows ok cs g p :
  seen t (pre ++ hl :: ls) -> Forall (skipped cc) pre -> ~ skipped cc hl -> tokens dl hl hs ->
  NoDup (map string_of_list_ascii hs) -> Forall no_nul (map string_of_list_ascii hs) ->
  table2 cc dl (length hs) ls rows ok cs -> at_key "data" g = None ->
  exists g' p', read_formatted_data2 cc dl (open t) (Some p) g = ((if ok : bool then Ok tt else Throw), g', Some p') /\
    (exists d, at_key "data" g' = Some d /\
       (forall i h, nth_error hs i = Some h ->
          at_key (string_of_list_ascii h) d = Some (GVReal (map (fun r => atof (nth i r [])) rows))) /\
       forall k, ~ In k (map string_of_list_ascii hs) -> at_key k d = None) /\
    at_key "headers" g' = Some (GVStr (map string_of_list_ascii hs)) /\
    (forall k, k <> "data"%string -> k <> "headers"%string -> at_key k g' = at_key k g) /\
    stored (pre ++ cs) p p'.
Proof.
  intros Hs Fp Nh Tk D N T Hg.
  destruct (yields_seen _ _ Hs []) as (e & He & Y). rewrite <- app_assoc in Y. cbn [app] in Y.
  destruct (table2_end _ _ _ _ _ _ _ e T He) as (cs' & T' & Hc).
  destruct (scanned_exists pre (Some p)) as (q & S1). destruct (scanned_exists cs' q) as (q2 & S2).
  destruct (get_line2_skip cc [] (open t) _ Y (fuel_of (open t)) 0 (Some p) (measure_fuel _) ltac:(lia)) as [G1 _].
  destruct (G1 pre hl (ls ++ e) q eq_refl Fp Nh S1) as (k & st' & G & Hk & Y' & M).
  assert (scanned (pre ++ cs) (Some p) q2) as S.
  { apply (scanned_app _ _ _ _ _ S1). destruct Hc as [->| ->]; [assumption|now apply scanned_empty]. }
  destruct (scanned_stored _ _ _ S) as (p' & -> & St).
  unfold read_formatted_data2. rewrite G. apply tokens_iff in Tk. rewrite Tk. cbv zeta.
  set (names := map untxt hs). set (m0 := old_map (set_map0 g)).
  set (data1 := fold_left (fun d h => add_col h d) names _).
  assert (table2 cc dl (length names) (ls ++ e) rows ok cs') as T2 by (unfold names; now rewrite map_length).
  rewrite (read_rows2_table cc dl names _ _ _ _ T2 hl st' (fuel_of (open t)) q (Some p') data1 Y'); [|pose proof (measure_fuel (open t)); lia|assumption].
  eexists. exists p'. split; [reflexivity|].
  assert (forall k, at_key k g = mfind k m0) as G0 by (intros k0; unfold m0; destruct g; reflexivity).
  assert (mfind k_data (mset k_headers (GVStr names) m0) = None) as K0 by (rewrite mfind_mset_other by discriminate; rewrite <- G0; exact Hg).
  unfold data1 in *. rewrite K0 in *. clear data1. set (data1 := fold_left (fun d h => add_col h d) names GNone).
  destruct (add_cols_spec names GNone N) as [A1 A2].
  assert (Forall (fun h => is_col h data1) names) as C1.
  { rewrite Forall_forall. intros h Hh. eexists. apply A1. exact Hh. }
  assert (Forall (fun r => length r = length names) rows) as L1 by (eapply table2_len; eauto).
  destruct (push_rows2_spec names rows data1 L1 D N C1) as [P1 P2].
  split; [|split; [|split]].
  - eexists. split; [cbn [at_key]; apply mfind_mset_same|]. split.
    + intros i h E. assert (nth_error names i = Some (untxt h)) as E' by (unfold names; rewrite nth_error_map, E; reflexivity).
      change (string_of_list_ascii h) with (untxt h). rewrite (P1 i _ E').
      unfold col. unfold data1. rewrite A1 by (eapply nth_error_In; eauto). reflexivity.
    + intros k0 Hk0. rewrite P2 by exact Hk0. unfold data1. rewrite A2 by exact Hk0. reflexivity.
  - cbn [at_key]. rewrite mfind_mset_other by discriminate. apply mfind_mset_same.
  - intros k0 H1 H2. cbn [at_key]. rewrite !mfind_mset_other by assumption. now rewrite G0.
  - exact St.
Qed.
(** Without a container for parameters the table is the same. *)
Theorem C65_no_parameters cc dl t pre hl ls hs rows ok cs g :
  seen t (pre ++ hl :: ls) -> Forall (skipped cc) pre -> ~ skipped cc hl -> tokens dl hl hs ->
  table2 cc dl (length hs) ls rows ok cs -> forall p,
  exists o g' p', read_formatted_data2 cc dl (open t) None g = (o, g', None) /\
    read_formatted_data2 cc dl (open t) (Some p) g = (o, g', p').
Proof.
  intros Hs Fp Nh Tk T p.
  destruct (yields_seen _ _ Hs []) as (e & He & Y). rewrite <- app_assoc in Y. cbn [app] in Y.
  destruct (table2_end _ _ _ _ _ _ _ e T He) as (cs' & T' & Hc). apply tokens_iff in Tk.
  assert (forall pars, exists pars', read_formatted_data2 cc dl (open t) pars g =
    (fst (fst (read_formatted_data2 cc dl (open t) None g)), snd (fst (read_formatted_data2 cc dl (open t) None g)), pars') /\ (pars = None -> pars' = None)) as R.
  { assert (forall pars, exists pars', scanned (pre ++ cs') pars pars' /\ read_formatted_data2 cc dl (open t) pars g =
      ((if ok : bool then Ok tt else Throw),
       GMap (mset k_data (fold_left (fun d r => push_cols (map untxt hs) r d) rows
               (fold_left (fun d h => add_col h d) (map untxt hs)
                 (match mfind k_data (mset k_headers (GVStr (map untxt hs)) (old_map (set_map0 g))) with Some e => e | None => GNone end)))
             (mset k_headers (GVStr (map untxt hs)) (old_map (set_map0 g)))), pars')) as Q.
    { intros pars. destruct (scanned_exists pre pars) as (q & S1). destruct (scanned_exists cs' q) as (q2 & S2). exists q2.
      split; [exact (scanned_app _ _ _ _ _ S1 S2)|].
      destruct (get_line2_skip cc [] (open t) _ Y (fuel_of (open t)) 0 pars (measure_fuel _) ltac:(lia)) as [G1 _].
      destruct (G1 pre hl (ls ++ e) q eq_refl Fp Nh S1) as (k & st' & G & Hk & Y' & M).
      unfold read_formatted_data2. rewrite G, Tk. cbv zeta.
      assert (table2 cc dl (length (map untxt hs)) (ls ++ e) rows ok cs') as T2 by (now rewrite map_length).
      rewrite (read_rows2_table cc dl _ _ _ _ _ T2 hl st' (fuel_of (open t)) q q2 _ Y'); [reflexivity|pose proof (measure_fuel (open t)); lia|assumption]. }
    intros pars. destruct (Q None) as (n & Sn & En). destruct (Q pars) as (q & Sq & Eq). rewrite En, Eq. cbn [fst snd]. exists q.
    split; [reflexivity|]. intros ->. now apply scanned_none in Sq. }
  destruct (R None) as (n & E1 & X). specialize (X eq_refl). subst n. destruct (R (Some p)) as (q & E2 & _). eauto.
Qed.
(** Every text has its lines, and every list of lines has its table. *)
Theorem C65_total cc dl n t : exists vs, seen t vs /\ exists rows ok cs, table2 cc dl n vs rows ok cs.
Proof.
  assert (exists vs, seen t vs) as (vs & S).
  { assert (exists ls l, t = lines ls ++ l /\ Forall one_line ls /\ one_line l) as (ls & l & -> & F & O).
    { induction t as [|c t (ls & l & E & F & O)]; [exists [], []; repeat split; [constructor|intros []]|].
      destruct (Ascii.eqb_spec c newline) as [->|K].
      - exists ([] :: ls), l. split; [rewrite E; reflexivity|]. split; [constructor; [intros []|assumption]|assumption].
      - destruct ls as [|l0 ls].
        + exists [], (c :: l). cbn in E |- *. subst. repeat split; [constructor|]. intros [H|H]; auto.
        + exists ((c :: l0) :: ls), l. rewrite E. split; [reflexivity|]. inversion F; subst. split; [|assumption]. constructor; [|assumption].
          intros [H|H]; auto. }
    destruct l as [|c l]; [exists ls; rewrite app_nil_r; now constructor|]. eexists. apply seen_broken; [assumption|assumption|discriminate]. }
  exists vs. split; [assumption|]. clear S. induction vs as [|v vs (rows & ok & cs & T)]; [exists [], true, []; constructor|].
  destruct (skips cc v) eqn:K; [apply skips_iff in K|apply skips_not in K].
  - exists rows, ok, (v :: cs). now constructor.
  - destruct (splits_exists dl v) as (full & H). pose proof (tokenize_splits _ _ _ H) as E. apply tokens_iff in E.
    destruct (drop_eol full) as [|t0 ts] eqn:Q; [exists [], true, []; now apply t2_blank|].
    destruct (Nat.eq_dec (length (t0 :: ts)) n) as [L|L].
    + exists ((t0 :: ts) :: rows), ok, cs. eapply t2_row; eauto. discriminate.
    + exists [], false, []. eapply t2_bad; eauto. discriminate.
Qed.
(** A last line without newline becomes two rows. *)
Theorem C65_last_line_refuted :
  read_formatted_data2 (txt "#") (txt " ") (open (lines [txt "x"] ++ txt "5")) None GNone =
    (Ok tt, GMap [("data"%string, GMap [("x"%string, GVReal [f_of_Z 5; f_of_Z 5])]); ("headers"%string, GVStr ["x"%string])], None).
Proof. vm_compute. reflexivity. Qed.
(** Two columns of the same name are mixed, and columns of an older table grow. *)
Theorem C65_names_refuted :
  read_formatted_data2 (txt "#") (txt " ") (open (lines [txt "x x"; txt "1 2"])) None GNone =
    (Ok tt, GMap [("data"%string, GMap [("x"%string, GVReal [f_of_Z 1; f_of_Z 2])]); ("headers"%string, GVStr ["x"; "x"]%string)], None).
Proof. vm_compute. reflexivity. Qed.
Theorem C65_again_refuted : exists t g g2,
  read_formatted_data2 (txt "#") (txt " ") (open t) None GNone = (Ok tt, g, None) /\
  read_formatted_data2 (txt "#") (txt " ") (open t) None g = (Ok tt, g2, None) /\ g2 <> g.
Proof.
  exists (lines [txt "a"; txt "1"]).
  exists (GMap [("data"%string, GMap [("a"%string, GVReal [f_of_Z 1])]); ("headers"%string, GVStr ["a"%string])]).
  exists (GMap [("data"%string, GMap [("a"%string, GVReal [f_of_Z 1; f_of_Z 1])]); ("headers"%string, GVStr ["a"%string])]).
  split; [vm_compute; reflexivity|]. split; [vm_compute; reflexivity|]. discriminate.
Qed.
(** An unterminated comment in the only line becomes the header. *)
Theorem C65_header_refuted :
  read_formatted_data2 (txt "#") (txt " ") (open (txt "#x")) None GNone =
    (Ok tt, GMap [("data"%string, GMap [("#x"%string, GVReal [])]); ("headers"%string, GVStr ["#x"%string])], None).
Proof. vm_compute. reflexivity. Qed.

(** ** A case *)
Definition t2_text : list text := [txt "#! k = 7 "; txt "a b"; txt ""; txt "1 2"; txt "#! k = hello"; txt "3 4"].
Example C65_case : exists g' p',
  read_formatted_data2 (txt "#") (txt " ") (open (lines t2_text)) (Some GNone) GNone = (Ok tt, g', Some p') /\
  stored [txt "#! k = 7 "; txt ""; txt "#! k = hello"] GNone p'.
Proof.
  destruct (C65_reading_partial (txt "#") (txt " ") (lines t2_text) [txt "#! k = 7 "] (txt "a b")
    [txt ""; txt "1 2"; txt "#! k = hello"; txt "3 4"] [txt "a"; txt "b"] [[txt "1"; txt "2"]; [txt "3"; txt "4"]] true
    [txt ""; txt "#! k = hello"] GNone GNone) as (g' & p' & E & _ & _ & _ & S); [..|exists g', p'; split; [exact E|exact S]].
  - apply (seen_complete t2_text). repeat constructor; intros H; repeat (destruct H as [H|H]; [discriminate|]); exact H.
  - constructor; [apply skips_iff; reflexivity|constructor].
  - apply skips_not. reflexivity.
  - apply tokens_iff. vm_compute. reflexivity.
  - constructor; [intros [H|[]]; discriminate|]. constructor; [intros []|constructor].
  - constructor; [intros [H|[]]; discriminate|]. constructor; [intros [H|[]]; discriminate|constructor].
  - apply t2_skip; [apply skips_iff; reflexivity|]. eapply t2_row; [apply skips_not; reflexivity|apply tokens_iff; vm_compute; reflexivity|discriminate|reflexivity|].
    apply t2_skip; [apply skips_iff; reflexivity|]. eapply t2_row; [apply skips_not; reflexivity|apply tokens_iff; vm_compute; reflexivity|discriminate|reflexivity|].
    apply t2_end.
  - reflexivity.
Qed.
Example C65_case_parameter : parameter (txt "#! k = 7 ") "k" (GReal (f_of_Z 7)).
Proof.
  pose proof (par_intro (txt "#! k = 7 ") "#"%char (txt " k = 7 ") (txt " k ") (txt " 7 ") [] (txt "k") (txt "7")) as H.
  assert (strtod (txt "7") = Some (f_of_Z 7)) as E by (vm_compute; reflexivity). rewrite E in H. apply H; clear.
  - reflexivity.
  - discriminate.
  - apply tokens_iff. vm_compute. reflexivity.
  - right. exists (txt " "), (txt " "). repeat split; try (repeat constructor); try discriminate; cbn; intros c [= <-] [K|K]; discriminate.
  - right. exists (txt " "), (txt " "). repeat split; try (repeat constructor); try discriminate; cbn; intros c [= <-] [K|K]; discriminate.
Qed.

Print Assumptions C65_reading_partial.
Print Assumptions C65_no_parameters.
Print Assumptions C65_total.
