(** Exactly when collapse, and with it the JSON reader, fails. *)
From Coq Require Import ZArith Bool Lia Ascii String List.
From Verif Require Import Base F64 StrMap Value MBasic MGet SGet SPromote MCollapse SCollapse LCollapse LCollapse2 SClash LClash.
From Verif Require Import MJson SJson LJson LJson2 SClashJson WfDec.
Import ListNotations.
Local Open Scope Z_scope.

(** * C107: collapse of parsed data fails exactly on a clash *)
Theorem C107_exact : forall g, wf g -> weight g < 2^31 -> parsed g ->
  ((exists g', collapse g = (Ok tt, g')) <-> everywhere no_clash g).
Proof.
  intros g W S P. assert (B : bounded g) by (split; [exact W|split; [exact S|exact P]]). split.
  - intros [g' E]. now apply (collapse_seen g B g').
  - now apply collapse_calm.
Qed.

(** ** Documents *)
Definition dec (j : json) : gc := decode_json j GNone.
Lemma dec_int z : signed_int (JInt z) -> dec (JInt z) = if small_int z then GInt z else GLong z.
Proof. exact (decode_int_cases z). Qed.
Lemma dec_kind j : signed_int j -> value_kind (dec j) = json_kind j.
Proof.
  intros S. destruct j; try reflexivity.
  rewrite (dec_int z S). cbn [json_kind]. destruct (small_int z); reflexivity.
Qed.
Lemma dec_basic j : signed_int j -> (basic (dec j) <-> json_basic j).
Proof.
  intros S. destruct j; try reflexivity.
  rewrite (dec_int z S). destruct (small_int z); reflexivity.
Qed.
Lemma dec_converts k j : signed_int j -> json_basic j -> (converts k (dec j) <-> json_converts k j).
Proof.
  intros S B. destruct j; try contradiction; destruct k; try reflexivity; rewrite (dec_int z S); cbn [json_converts];
    destruct (small_int z) eqn:E; try reflexivity.
  cbn [converts]. unfold small_int in E. apply andb_true_iff in E as [E1 E2]. apply Z.leb_le in E1. apply Z.ltb_lt in E2. unfold int32. split; [lia|auto].
Qed.
(** A row of one value is an array of one value. *)
Lemma dec_row j k : jall signed_int j ->
  (zlen (elems (dec j)) = 1 /\ row_kind (dec j) = Some k <-> exists x, j = JArr [x] /\ json_kind x = Some k).
Proof.
  intros S. destruct j as [|b|z|x|s|l|m].
  1-5,7: split; [intros [_ R]|intros (y & E & _); discriminate]; exfalso; apply jall_here in S.
  3: rewrite (dec_int z S) in R; destruct (small_int z).
  1-7: discriminate R.
  apply jall_arr in S as [_ S]. unfold dec. rewrite decode_arr_none. cbn [elems]. split.
  - intros [L R]. destruct l as [|x [|y l]]; try discriminate R. exists x. split; [reflexivity|].
    cbn [map row_kind] in R. inversion S as [|? ? Sx _]; subst. rewrite <- (dec_kind x); [exact R|]. now apply jall_here in Sx.
  - intros (x & E & K). injection E as ->. split; [reflexivity|]. cbn [map row_kind]. inversion S as [|? ? Sx _]; subst.
    rewrite <- K. apply dec_kind. now apply jall_here in Sx.
Qed.
Lemma clash_dec l : Forall (jall signed_int) l -> (clash row_kind (map dec l) <-> json_clash l).
Proof.
  intros S. rewrite Forall_forall in S. split.
  - intros (k & K & Hall & (b & Hb & Rb) & (c & Hc & Bc & Cc)). exists k. split; [exact K|]. split; [|split].
    + intros e He. destruct (Hall (dec e) (in_map dec l e He)) as [L [B|(m & R & Le)]].
      * left. apply dec_basic in B; [exact B|]. exact (jall_here _ _ (S e He)).
      * right. destruct (proj1 (dec_row e m (S e He)) (conj L R)) as (x & -> & Kx). now exists x, m.
    + pose proof (proj1 (Hall b Hb)) as L. apply in_map_iff in Hb as (e & <- & He).
      destruct (proj1 (dec_row e k (S e He)) (conj L Rb)) as (x & -> & Kx). now exists x.
    + apply in_map_iff in Hc as (e & <- & He). exists e. split; [exact He|]. pose proof (jall_here _ _ (S e He)) as Se.
      apply dec_basic in Bc; [|exact Se]. split; [exact Bc|]. rewrite <- (dec_converts k e Se Bc). exact Cc.
  - intros (k & K & Hall & (x & Hx & Kx) & (c & Hc & Bc & Cc)). exists k. split; [exact K|]. split; [|split].
    + intros e' He'. apply in_map_iff in He' as (e & <- & He). pose proof (jall_here _ _ (S e He)) as Se.
      destruct (Hall e He) as [B|(y & m & E & Ky & Le)].
      * apply (dec_basic e Se) in B. split; [now apply basic_one|now left].
      * destruct (proj2 (dec_row e m (S e He))) as [L R]; [now exists y|]. split; [exact L|right; now exists m].
    + exists (dec (JArr [x])). split; [now apply in_map|]. apply (dec_row (JArr [x]) k (S _ Hx)). now exists x.
    + exists (dec c). split; [now apply in_map|]. pose proof (jall_here _ _ (S c Hc)) as Sc. split; [now apply dec_basic|].
      rewrite (dec_converts k c Sc Bc). exact Cc.
Qed.
Lemma jall_flat (P : json -> Prop) j : (forall l, j <> JArr l) -> (forall m, j <> JObj m) -> P j -> jall P j.
Proof. intros Ha Ho H. destruct j; try (split; [exact H|exact I]); [now contradiction (Ha l)|now contradiction (Ho m)]. Qed.
Lemma find_in {A} (m : list (string * A)) k x : NoDup (map fst m) -> In (k, x) m -> find (fun kx => String.eqb (fst kx) k) m = Some (k, x).
Proof.
  intros N H. induction m as [|[k0 y] m IH]; [destruct H|]. cbn [map fst] in N. apply NoDup_cons_iff in N as [N0 N]. cbn [find fst].
  destruct (String.eqb_spec k0 k) as [->|D].
  - destruct H as [H|H]; [now rewrite H|]. exfalso. apply N0. now apply (in_map fst) in H.
  - apply IH; [exact N|]. destruct H as [H|H]; [|exact H]. injection H as E _. contradiction.
Qed.
Lemma by_key_forall_back {A} (P : A -> Prop) (m : list (string * A)) : NoDup (map fst m) ->
  Forall (fun kv => P (snd kv)) (by_key m) -> Forall (fun kv => P (snd kv)) m.
Proof.
  intros N F. rewrite Forall_forall in *. intros [k x] Hx.
  assert (E : mfind k (by_key m) = Some x) by (rewrite by_key_find by exact N; now rewrite (find_in m k x N Hx)).
  apply mfind_in in E. exact (F _ E).
Qed.
Lemma no_clash_dec j : jall plain_strings j -> jall distinct_names j -> jall signed_int j ->
  (everywhere no_clash (dec j) <-> jall no_json_clash j).
Proof.
  intros Hp Hd Hs. split.
  - revert Hp Hd Hs. induction j as [j Ha Ho | l IH | m IH] using json_nest_ind; intros Hp Hd Hs E.
    + apply jall_flat; auto. destruct j; try exact I. now contradiction (Ha l).
    + apply jall_arr in Hp as [_ Hp]. apply jall_arr in Hd as [_ Hd]. apply jall_arr in Hs as [_ Hs].
      unfold dec in E. rewrite decode_arr_none in E. apply everywhere_vec in E as [E0 E]. apply jall_arr. split.
      * cbn [no_json_clash]. rewrite <- (clash_dec l Hs). exact E0.
      * rewrite Forall_forall in *. intros e He. apply IH; auto. apply E. exact (in_map dec l e He).
    + apply jall_obj in Hp as [Hp0 Hp]. apply jall_obj in Hd as [Hd0 Hd]. apply jall_obj in Hs as [_ Hs].
      unfold dec in E. rewrite decode_obj_none in E by assumption. apply everywhere_map in E as [_ E].
      apply by_key_forall_back in E; [|unfold vmap; rewrite map_map; exact Hd0].
      apply jall_obj. split; [exact I|]. rewrite Forall_forall in *. intros e He. apply IH; auto.
      apply (E (fst e, decode_json (snd e) GNone)). exact (in_map (fun kv => (fst kv, decode_json (snd kv) GNone)) m e He).
  - intros Hc. apply (decode_everywhere (fun j => no_json_clash j /\ match j with JArr l => Forall (jall signed_int) l | _ => True end)); auto.
    + intros k Ha Ho _. pose proof (decode_tag_flat k Ha Ho) as T. destruct (decode_json k GNone); try exact I.
      exfalso. cbn in T. intuition discriminate.
    + intros l [N S]. cbn [no_clash]. change (~ clash row_kind (map dec l)). rewrite (clash_dec l S). exact N.
    + intros m. exact I.
    + clear Hp Hd. induction j as [j Ha Ho | l IH | m IH] using json_nest_ind.
      * apply jall_flat; auto. apply jall_here in Hc. split; [exact Hc|]. destruct j; try exact I. now contradiction (Ha l).
      * apply jall_arr in Hs as [_ Hs]. apply jall_arr in Hc as [Hc0 Hc]. apply jall_arr. split; [split; assumption|].
        rewrite Forall_forall in *. auto.
      * apply jall_obj in Hs as [_ Hs]. apply jall_obj in Hc as [Hc0 Hc]. apply jall_obj. split; [split; exact I|].
        rewrite Forall_forall in *. auto.
Qed.
(** Reading a JSON document into an empty container. *)
Theorem C107_json_exact : forall j,
  jall ranged j -> jall plain_strings j -> jall distinct_names j -> jall signed_int j -> jsize j < 2^31 ->
  ((exists g, from_json (Some j) GNone = (Ok true, g)) <-> jall no_json_clash j).
Proof.
  intros j Hr Hp Hd Hs Hn. rewrite <- (no_clash_dec j Hp Hd Hs).
  rewrite <- (C107_exact (dec j)); [|exact (decode_wf j Hr Hp Hd)|unfold dec; rewrite decode_weight by assumption; exact Hn|exact (decode_parsed j Hp Hd)].
  cbn [from_json]. unfold finish, dec. destruct (collapse (decode_json j GNone)) as [[[]| | |] g'] eqn:E; cbn [omap bind].
  - split; intros _; eexists; reflexivity.
  - split; intros [g X]; discriminate X.
  - split; intros [g X]; discriminate X.
  - split; intros [g X]; discriminate X.
Qed.

(** A failure is an exception, unless the value that does not convert is a double whose
    integer value is too large for the type. *)
Theorem C107_throws : forall g, wf g -> weight g < 2^31 -> parsed g -> everywhere no_overflow g ->
  (exists g', collapse g = (Ok tt, g')) \/ (exists g', collapse g = (Throw, g')).
Proof.
  intros g W S P N. pose proof (collapse_soft g (conj W (conj S P)) N) as H.
  destruct (collapse g) as [[[]| | |] g']; [left; now exists g'|right; now exists g'|exfalso; apply H; now left|exfalso; apply H; now right].
Qed.

(** A document that clashes deep inside, a similar one that does not, and one with a double
    next to an array of one integer. *)
Definition half : Z := 1022 * 2^52.
Definition bad_doc : json := JObj [("k"%string, JArr [JNull; JArr [JStr "a"%string; JBool true; JArr [JInt 1]; JArr [JBool false]]])].
Definition good_doc : json := JObj [("k"%string, JArr [JNull; JArr [JStr "a"%string; JArr [JInt 1; JInt 2]]; JArr [JInt 7; JArr [JInt 8]]])].
Example C107_example :
  (forall j, In j [bad_doc; good_doc] ->
     jall ranged j /\ jall plain_strings j /\ jall distinct_names j /\ jall signed_int j /\ jsize j < 2^31) /\
  ~ jall no_json_clash bad_doc /\ jall no_json_clash good_doc /\
  json_clash [JDbl half; JArr [JInt 1]] /\ ~ json_clash [JDbl half; JArr [JDbl half]; JArr [JInt 1]].
Proof.
  assert (H : forall j, In j [bad_doc; good_doc] ->
     jall ranged j /\ jall plain_strings j /\ jall distinct_names j /\ jall signed_int j /\ jsize j < 2^31).
  { intros j [<-|[<-|[]]].
    all: split; [cbn; repeat split; (lia || (unfold zlen; cbn; lia))|].
    all: split; [cbn; repeat split; repeat constructor; (unfold no_nul; cbn; intuition discriminate)|].
    all: split; [cbn; repeat split; repeat constructor; intros []|].
    all: split; [cbn; repeat split; left; lia|reflexivity]. }
  split; [exact H|]. split; [|split; [|split]].
  - destruct (H bad_doc (or_introl eq_refl)) as (H1 & H2 & H3 & H4 & H5).
    rewrite <- (C107_json_exact bad_doc H1 H2 H3 H4 H5). intros [g E]. vm_compute in E. discriminate E.
  - destruct (H good_doc (or_intror (or_introl eq_refl))) as (H1 & H2 & H3 & H4 & H5).
    apply (C107_json_exact good_doc H1 H2 H3 H4 H5). eexists. vm_compute. reflexivity.
  - exists KInt. split; [discriminate|]. split; [|split].
    + intros e [<-|[<-|[]]]; [left; exact I|right]. exists (JInt 1), KInt. split; [reflexivity|]. split; [reflexivity|cbn; lia].
    + exists (JInt 1). split; [right; now left|reflexivity].
    + exists (JDbl half). split; [now left|]. split; [exact I|]. cbn [json_converts]. intros Wh.
      apply (cpk_basic KInt (GReal half)) in Wh as [l E]; [|discriminate|vm_compute; split; congruence|exact I]. vm_compute in E. discriminate E.
  - intros (k & K & Hall & _ & (e & He & Be & Ce)). apply Ce.
    assert (k = KReal) as ->.
    { destruct (Hall (JArr [JDbl half])) as [B|(x & m & E & Kx & Le)]; [right; now left|destruct B|].
      injection E as <-. cbn in Kx. injection Kx as <-. destruct k; cbn in Le; try lia. reflexivity. }
    destruct He as [<-|[<-|[<-|[]]]]; try destruct Be; exact I.
Qed.
(** The condition of C107_throws is met by data that makes collapse throw. *)
Example C107_throws_example : exists g g', wf g /\ weight g < 2^31 /\ parsed g /\ everywhere no_overflow g /\ collapse g = (Throw, g').
Proof.
  exists (GVec [GStr "a"%string; GVec [GInt 1]]). eexists. split; [vm_compute; repeat split; congruence|]. split; [reflexivity|].
  split; [cbn; unfold parsed_node; cbn; tauto|]. split; [|vm_compute; reflexivity].
  assert (A : forall v, (forall x, ~ In (GReal x) v) -> ~ overflow row_kind v) by (intros v N (k & _ & _ & _ & (x & n & Hx & _)); exact (N x Hx)).
  cbn. repeat split; apply A; intros x; cbn; intuition discriminate.
Qed.

Print Assumptions C107_exact.
Print Assumptions C107_json_exact.
Print Assumptions C107_throws.
