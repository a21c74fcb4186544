(** Property C113: from_json is defined on every text whose arrays hold no large reals. *)
From Coq Require Import ZArith Bool Lia Ascii String List.
From Verif Require Import Base F64 StrMap Value MBasic WfDec SGet SPromote MCollapse SCollapse LCollapse MNum MText MJson SJson LJson MRapid SDefined Props_defined.
From Verif Require LOps LOps2.
Import ListNotations.
Local Open Scope Z_scope.

(** Every real that is an element of an array is an int or not an integer at all. *)
Definition small_reals (j : json) : Prop :=
  match j with JArr l => forall x, In (JDbl x) l -> int_or_fraction x | _ => True end.

(** Arrays are not longer than the fuel of the parser. *)
Definition arrays_upto (n : nat) (j : json) : Prop := match j with JArr l => (length l <= n)%nat | _ => True end.
Lemma jall_impl (P Q : json -> Prop) : (forall j, P j -> Q j) -> forall j, jall P j -> jall Q j.
Proof.
  intros I. induction j as [j Ha Ho | l IH | m IH] using json_nest_ind; intros H.
  - destruct j; try (destruct H as [H _]; split; [now apply I|exact Logic.I]); [now contradiction (Ha l)|now contradiction (Ho m)].
  - apply jall_arr in H as [H F]. apply jall_arr. split; [now apply I|]. rewrite Forall_forall in *. auto.
  - apply jall_obj in H as [H F]. apply jall_obj. split; [now apply I|]. rewrite Forall_forall in *. auto.
Qed.
Lemma upto_S n j : jall (arrays_upto n) j -> jall (arrays_upto (S n)) j.
Proof. apply jall_impl. intros []; cbn [arrays_upto]; auto. Qed.
Lemma number_upto n t j r : parse_number t = Some (j, r) -> jall (arrays_upto n) j.
Proof.
  unfold parse_number. destruct (parse_int t) as [[[[[[neg i] sd] big] x] r1]|]; [|discriminate].
  destruct (parse_frac i sd big x r1) as [[[[dbl x1] ef] r2]|]; [|discriminate].
  destruct (parse_exp i dbl x1 ef r2) as [[[[dbl' x2] e] r3]|]; [|discriminate].
  destruct dbl'; [|intros H; apply Some_inj in H; apply (f_equal fst) in H; cbn [fst] in H; rewrite <- H; split; exact I].
  cbv zeta. destruct (inf <=? _); [discriminate|]. intros H; apply Some_inj in H; apply (f_equal fst) in H; cbn [fst] in H; rewrite <- H. split; exact I.
Qed.
Lemma value_upto n :
  (forall t j r, parse_value n t = Some (j, r) -> jall (arrays_upto n) j) /\
  (forall t l r, parse_elems n t = Some (l, r) -> (length l <= n)%nat /\ Forall (jall (arrays_upto n)) l) /\
  (forall t m r, parse_members n t = Some (m, r) -> Forall (fun kv => jall (arrays_upto n) (snd kv)) m).
Proof.
  induction n as [|n (IV & IE & IM)]; [split; [|split]; intros; discriminate|]. split; [|split].
  - intros t j r. destruct t as [|c t]; [discriminate|]. cbn [parse_value].
    destruct (Ascii.eqb c "n"). { destruct (consume_all _ _); [|discriminate]. intros H. inversion H. split; exact I. }
    destruct (Ascii.eqb c "t"). { destruct (consume_all _ _); [|discriminate]. intros H. inversion H. split; exact I. }
    destruct (Ascii.eqb c "f"). { destruct (consume_all _ _); [|discriminate]. intros H. inversion H. split; exact I. }
    destruct (Ascii.eqb c (ascii_of_N 34)). { destruct (parse_string _) as [[s r1]|]; [|discriminate]. intros H. inversion H. split; exact I. }
    destruct (Ascii.eqb c "{").
    { cbv zeta. destruct (consume "}" _); [intros H; inversion H; split; exact I|]. destruct (parse_members n _) as [[m r1]|] eqn:E; [|discriminate].
      intros H. inversion H; subst. apply jall_obj. split; [exact I|]. apply IM in E. revert E. apply Forall_impl. intros kv. apply upto_S. }
    destruct (Ascii.eqb c "[").
    { cbv zeta. destruct (consume "]" _); [intros H; inversion H; split; [cbn; lia|exact I]|]. destruct (parse_elems n _) as [[m r1]|] eqn:E; [|discriminate].
      intros H. inversion H; subst. apply IE in E as [L E]. apply jall_arr. split; [cbn [arrays_upto]; lia|]. revert E. apply Forall_impl. intros k. apply upto_S. }
    apply number_upto.
  - intros t l r. cbn [parse_elems]. destruct (parse_value n t) as [[j r1]|] eqn:E; [|discriminate]. apply IV, upto_S in E. cbv zeta.
    destruct (consume "," _).
    + destruct (parse_elems n _) as [[l' r2]|] eqn:E2; [|discriminate]. apply IE in E2 as [L E2]. intros H. inversion H; subst.
      split; [cbn [length]; lia|]. constructor; [assumption|]. revert E2. apply Forall_impl. intros k. apply upto_S.
    + destruct (consume "]" _); [|discriminate]. intros H. inversion H; subst. split; [cbn [length]; lia|]. constructor; [exact E | constructor].
  - intros t l r. cbn [parse_members]. destruct (parse_string t) as [[k r0]|]; [|discriminate]. destruct (consume ":" _); [|discriminate].
    destruct (parse_value n _) as [[j r1]|] eqn:E; [|discriminate]. apply IV, upto_S in E. cbv zeta.
    destruct (consume "," _).
    + destruct (parse_members n _) as [[l' r2]|] eqn:E2; [|discriminate]. apply IM in E2. intros H. inversion H; subst. constructor; [exact E|].
      revert E2. apply Forall_impl. intros kv. apply upto_S.
    + destruct (consume "}" _); [|discriminate]. intros H. inversion H; subst. constructor; [exact E | constructor].
Qed.
Lemma skip_length t : (length (skip_blanks t) <= length t)%nat.
Proof. induction t as [|c t IH]; cbn [skip_blanks]; [lia|]. destruct (rj_blank c); cbn [length]; lia. Qed.
Lemma rapid_upto t j : rapidjson t = Some j -> jall (arrays_upto (2 * length t + 2)) j.
Proof.
  unfold rapidjson. cbv zeta. destruct (at_end _); [discriminate|]. destruct (parse_value _ _) as [[j' r]|] eqn:V; [|discriminate].
  apply (proj1 (value_upto _)) in V. destruct (at_end _); [|discriminate]. intros E. apply Some_inj in E. subst j'. revert V. apply jall_impl.
  intros k H. pose proof (skip_length t). destruct k; cbn [arrays_upto] in *; try exact I. lia.
Qed.

(** Decoding keeps containers harmless. *)
Definition short_array (j : json) : Prop := match j with JArr l => zlen l < 2^31 | _ => True end.
Lemma harmless_vec v : harmless (GVec v) <-> (zlen v < 2^31 /\ Forall number_fits v) /\ Forall harmless v.
Proof. unfold harmless. now rewrite everywhere_vec. Qed.
Lemma harmless_map m : harmless (GMap m) <-> Forall (fun kv => harmless (snd kv)) m.
Proof. unfold harmless. rewrite everywhere_map. cbn [harmless_node]. tauto. Qed.
Lemma none_harmless : harmless GNone.
Proof. split; exact I. Qed.
Lemma alloc_harmless (l : list json) g : harmless g -> zlen l < 2^31 ->
  zlen (alloc_vec (zlen l) g) < 2^31 /\ Forall number_fits (alloc_vec (zlen l) g) /\ Forall harmless (alloc_vec (zlen l) g).
Proof.
  intros H L. assert (V : zlen (old_vec g) < 2^31 /\ Forall number_fits (old_vec g) /\ Forall harmless (old_vec g)).
  { destruct g; try (split; [unfold zlen; cbn; lia|split; constructor]). apply harmless_vec in H. cbn [old_vec]. tauto. }
  destruct V as (V1 & V2 & V3). unfold alloc_vec. split; [|split].
  - unfold valloc. destruct (0 <? zlen l); [|exact V1]. rewrite LOps.zlen_resize by apply zlen_nonneg. exact L.
  - apply LOps.valloc_all; [exact I|exact V2].
  - apply LOps.valloc_all; [exact none_harmless|exact V3].
Qed.
Lemma decode_number_fits x g : (forall y, x = JDbl y -> int_or_fraction y) -> number_fits (decode_json x g).
Proof.
  intros H. destruct x; try exact I; [|now apply H]. cbn [decode_json]. unfold decode_int. destruct (_ && _); [exact I|]. destruct (_ && _); [exact I|]. destruct (_ && _); exact I.
Qed.
Lemma decode_harmless j : jall short_array j -> jall small_reals j -> forall g, harmless g -> harmless (decode_json j g).
Proof.
  induction j as [j Ha Ho | l IH | m IH] using json_nest_ind; intros S R g Hg.
  - destruct j; try (split; exact I); [|now contradiction (Ha l)|now contradiction (Ho m)].
    cbn [decode_json]. unfold decode_int. destruct (_ && _); [split; exact I|]. destruct (_ && _); [split; exact I|]. destruct (_ && _); split; exact I.
  - apply jall_arr in S as [S0 S]. apply jall_arr in R as [R0 R]. cbn [short_array small_reals] in S0, R0. rewrite decode_arr. apply harmless_vec.
    destruct (alloc_harmless l g Hg S0) as (V1 & V2 & V3). clear S0. generalize dependent (alloc_vec (zlen l) g).
    assert (G : forall v, Forall number_fits v -> Forall harmless v -> length (decode_all l v) = length v /\ Forall number_fits (decode_all l v) /\ Forall harmless (decode_all l v)).
    { induction IH as [|x l Ex _ IHl]; intros v V2 V3; [destruct v; now split|]. destruct v as [|e v]; [now split|]. cbn [decode_all length].
      inversion S; inversion R; inversion V2; inversion V3; subst.
      destruct (IHl ltac:(assumption) (fun y Hy => R0 y (or_intror Hy)) ltac:(assumption) v ltac:(assumption) ltac:(assumption)) as (A & B & C).
      split; [now rewrite A|]. split; constructor; try assumption; [|now apply Ex]. apply decode_number_fits. intros y ->. apply R0. now left. }
    intros v V1 V2 V3. destruct (G v V2 V3) as (A & B & C). unfold zlen in *. rewrite A. auto.
  - apply jall_obj in S as [_ S]. apply jall_obj in R as [_ R]. rewrite decode_obj. apply harmless_map.
    assert (F : Forall (fun kv => harmless (snd kv)) (old_map g)) by (destruct g; try constructor; now apply harmless_map).
    generalize dependent (old_map g). induction IH as [|[k x] m Ex _ IHl]; intros acc F; cbn [decode_members]; [exact F|].
    inversion S; inversion R; subst. cbn [fst snd] in *. apply IHl; [assumption|assumption|]. apply LJson.mset_forall; [exact F|]. cbn [snd]. apply Ex; [assumption|assumption|].
    destruct (mfind (cstr k) acc) as [e|] eqn:E; [|apply none_harmless]. apply mfind_in in E. rewrite Forall_forall in F. apply (F _ E).
Qed.

(** * C113: from_json on any text and any container without large reals in generic vectors returns
    true or false or throws.  (With a large real in an array it need not: [1e300,[1]], C39.) *)
Theorem C113_defined : forall t g, wf g -> harmless g -> zlen t < 2^30 - 1 ->
  (forall j, rapidjson t = Some j -> jall small_reals j) ->
  (exists b g', from_json_text t g = (Ok b, g')) \/ (exists g', from_json_text t g = (Throw, g')).
Proof.
  intros t g W H L R. unfold from_json_text. destruct (rapidjson t) as [j|] eqn:E; [|left; cbn [from_json]; eauto].
  specialize (R j eq_refl). pose proof (rapid_upto t j E) as U.
  assert (S : jall short_array j).
  { revert U. apply jall_impl. intros k K. destruct k; try exact I. cbn [arrays_upto short_array] in *. unfold zlen in *. lia. }
  assert (Wd : wf (decode_json j g)).
  { apply LOps2.decode_ok; [|exact W]. unfold rapidjson in E. cbv zeta in E. destruct (at_end _); [discriminate|].
    destruct (parse_value _ _) as [[j' r]|] eqn:V; [|discriminate]. apply (proj1 (LOps2.value_fits _)) in V. destruct (at_end _); [|discriminate].
    apply Some_inj in E. now subst j'. }
  cbn [from_json]. unfold MJson.finish.
  destruct (C110_defined _ Wd (decode_harmless j S R g H)) as [(g' & ->)|(g' & ->)]; [left; exists true, g'; reflexivity|right; exists g'; reflexivity].
Qed.
(** Both outcomes occur, also with duplicate names and over old content; and the condition is needed. *)
Example C113_example :
  (forall j, rapidjson (quoted "{'a':[2.0,1],'a':[['x'],[]]}") = Some j -> jall small_reals j) /\
  (exists g', from_json_text (quoted "{'a':[2.0,1],'a':[['x'],[]]}") (GVec [GInt 1]) = (Ok true, g')) /\
  (exists g', from_json_text (quoted "['a',[1]]") GNone = (Throw, g')) /\
  (exists g', from_json_text (quoted "[1e300,[1]]") GNone = (Undef, g')).
Proof.
  split; [|split; [|split]]; try (eexists; vm_compute; reflexivity).
  intros j E. destruct (rapidjson _) as [k|] eqn:K in E; [|discriminate]. apply Some_inj in E. subst k. vm_compute in K. apply Some_inj in K. subst j.
  cbn [jall snd small_reals In]. repeat match goal with |- _ /\ _ => split | |- True => exact I end;
    intros x Hx; repeat destruct Hx as [Hx|Hx]; try discriminate Hx; try contradiction.
  assert (x = 4611686018427387904) by congruence. subst x. clear. intros n F.
  assert (fis 4611686018427387904 2) as F0 by (vm_compute; reflexivity). rewrite (fis_inj _ n 2 F F0). vm_compute. split; congruence.
Qed.
Print Assumptions C113_defined.
