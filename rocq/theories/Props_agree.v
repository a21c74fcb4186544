(** Property C111: the two JSON readers make the same container of a text. *)
From Coq Require Import ZArith Bool Lia Ascii String List.
From Verif Require Import Base F64 StrMap Value MBasic WfDec SGet SPromote SCollapse MNum MText MJson SJson LJson LJson2 LBuild SJsonText MJson2 LJson2Parse LJson2Doc LToJson SRapid MRapid LRapidUtf LRapidDoc LRapidOut Props_json2 Props_rapid.
Import ListNotations.
Local Open Scope Z_scope.

(** A string does not hold a NUL unless it is written with a \u escape. *)
Lemma jchars_no_nul t s : jchars false t s -> Forall solid s.
Proof.
  induction 1 as [|c t s Hc _ _ _ IH|n t s Hn _ _ IH|c d t s Hs _ IH|h n t s E|h1 n1 h2 n2 t s E]; try discriminate E.
  - constructor.
  - constructor; [|assumption]. unfold solid. lia.
  - apply Forall_app. split; [now apply utf8_solid|assumption].
  - constructor; [|assumption]. destruct Hs as [Hs|[E _]]; [|discriminate E]. cbn [In] in Hs.
    decompose [or] Hs; try contradiction; match goal with H : (_, _) = (_, _) |- _ => injection H as <- <- end; unfold solid; vm_compute; discriminate.
Qed.
Lemma jstring_no_nul t s : jstring false t s -> no_nul s.
Proof.
  intros H. inversion H as [u v Hc]; subst. apply jchars_no_nul in Hc. unfold no_nul, untxt.
  rewrite list_ascii_of_string_of_list_ascii. intros Hi. rewrite Forall_forall in Hc. apply (Hc _ Hi). reflexivity.
Qed.
Lemma gtext_no_nul_rec :
  (forall t j, gval (jstring false) plain t j -> jall plain_strings j) /\
  (forall t l, gelems (jstring false) plain t l -> Forall (jall plain_strings) l) /\
  (forall t m, gmembers (jstring false) plain t m -> Forall no_nul (map fst m) /\ Forall (fun kv => jall plain_strings (snd kv)) m).
Proof.
  apply gjson_ind; intros; try (split; exact I).
  - match goal with H : plain _ _ |- _ => destruct H as (neg & l & lf & e & real & _ & [(_ & _ & ->)|(_ & _ & _ & ->)]) end; split; exact I.
  - split; [|exact I]. cbn [plain_strings]. eapply jstring_no_nul; eassumption.
  - apply jall_arr. split; [exact I|assumption].
  - apply jall_obj. split; constructor.
  - apply jall_obj. match goal with H : _ /\ _ |- _ => destruct H end. split; assumption.
  - constructor; [assumption|constructor].
  - constructor; assumption.
  - split; constructor; try apply Forall_nil; [|assumption]. cbn [fst]. eapply jstring_no_nul; eassumption.
  - match goal with H : _ /\ _ |- _ => destruct H end. split; constructor; try assumption. cbn [fst]. eapply jstring_no_nul; eassumption.
Qed.
Lemma gtext_no_nul t j : gtext (jstring false) plain t j -> jall plain_strings j.
Proof. intros (w & u & w' & _ & _ & V & _). now apply gtext_no_nul_rec in V. Qed.

(** The reader that fills a container from a document keeps the document as it is. *)
Lemma decode_build j : jall plain_strings j -> jall distinct_names j -> jall signed_int j -> decode_json j GNone = build j.
Proof.
  induction j as [j Ha Ho | l IH | m IH] using json_nest_ind; intros Hp Hd Hs.
  - apply jall_here in Hp. apply jall_here in Hs. destruct j; try reflexivity.
    + cbn [decode_json build]. cbn [signed_int] in Hs. now rewrite (decode_int_cases z Hs).
    + cbn [decode_json set_string build]. now rewrite (cstr_id _ Hp).
    + now contradiction (Ha l).
    + now contradiction (Ho m).
  - apply jall_arr in Hp as [_ Hp]. apply jall_arr in Hd as [_ Hd]. apply jall_arr in Hs as [_ Hs].
    rewrite decode_arr_none. cbn [build]. f_equal. rewrite Forall_forall in *. apply map_ext_in. auto.
  - apply jall_obj in Hp as [Hp0 Hp]. apply jall_obj in Hd as [Hd0 Hd]. apply jall_obj in Hs as [_ Hs].
    rewrite decode_obj_none by assumption. cbn [build]. f_equal. f_equal. apply vmap_ext. rewrite Forall_forall in *. auto.
Qed.
Lemma signed_int64 j : jall signed_int j -> jall int64_literals j.
Proof.
  induction j as [j Ha Ho | l IH | m IH] using json_nest_ind; intros Hs.
  - apply jall_here in Hs. destruct j; try (split; exact I).
    + split; [|exact I]. cbn [signed_int int64_literals] in *. lia.
    + now contradiction (Ha l).
    + now contradiction (Ho m).
  - apply jall_arr in Hs as [_ Hs]. apply jall_arr. split; [exact I|]. rewrite Forall_forall in *. auto.
  - apply jall_obj in Hs as [_ Hs]. apply jall_obj. split; [exact I|]. rewrite Forall_forall in *. auto.
Qed.

(** * C111: from_json (rapidjson) and from_json2 (the project's own parser) agree on JSON texts.
    False as it stands: on an array inside an array, on the escapes \/ and \u, on a number at the
    end of the text, on integers from 2^31 to 2^32 - 1, and on a real whose digits rapidjson does
    not round correctly. *)
Definition disagree (t : text) : Prop := (exists j, json_text true t j) /\ from_json2 t GNone <> from_json_text t GNone.
Lemma one_array t j : jnumber t j -> json_text true ("["%char :: ([] ++ t ++ []) ++ ["]"%char]) (JArr [j]).
Proof.
  intros H. pose proof ws_nil as N. exists [], ("["%char :: ([] ++ t ++ []) ++ ["]"%char]), []. split; [exact (eq_sym (app_nil_r _))|]. split; [assumption|]. split; [|assumption].
  apply jv_arr. apply je_one; [assumption|now apply jv_number|assumption].
Qed.
Theorem C111_refuted :
  disagree (txt "[[1],[2]]") /\ disagree (ch 34 :: txt "\/" ++ [ch 34]) /\ disagree (txt "7") /\
  disagree (txt "[2147483648]") /\ disagree (txt "[0.41192923963093764]").
Proof.
  pose proof ws_nil as N.
  assert (D : forall t, (exists j, json_text true t j) -> from_json2 t GNone <> from_json_text t GNone -> disagree t) by (intros t A B; now split).
  split; [|split; [|split; [|split]]]; apply D; try (vm_compute; discriminate).
  - exists (JArr [JArr [JInt 1]; JArr [JInt 2]]). exists [], (txt "[[1],[2]]"), []. split; [reflexivity|]. split; [assumption|]. split; [|assumption].
    change (txt "[[1],[2]]") with ("["%char :: ([] ++ ("["%char :: ([] ++ txt "1" ++ []) ++ ["]"%char]) ++ [] ++ ","%char :: ([] ++ ("["%char :: ([] ++ txt "2" ++ []) ++ ["]"%char]) ++ [])) ++ ["]"%char]).
    apply jv_arr. apply je_more; try assumption.
    + apply jv_arr. apply je_one; [assumption| |assumption]. exact (jdigit 1 ltac:(lia)).
    + apply je_one; [assumption| |assumption]. apply jv_arr. apply je_one; [assumption| |assumption]. exact (jdigit 2 ltac:(lia)).
  - exists (JStr (untxt ["/"%char])). exists [], (ch 34 :: txt "\/" ++ [ch 34]), []. split; [reflexivity|]. split; [assumption|]. split; [|assumption].
    apply jv_string. constructor. change (txt "\/") with [ch 92; "/"%char]. apply jc_escape; [right; auto|constructor].
  - exists (JInt 7). apply (proj1 C59_number_refuted).
  - eexists. apply (one_array (txt "2147483648")). apply number_jnumber.
    num false [2;1;4;7;4;8;3;6;4;8] (@None (list Z)) (@None (bool * list Z)).
  - eexists. apply (one_array (txt "0.41192923963093764")). apply number_jnumber.
    num false [0] (Some [4;1;1;9;2;9;2;3;9;6;3;0;9;3;7;6;4]) (@None (bool * list Z)).
Qed.

(** What remains: without those, and with integers of 64 bits, reals that rapidjson computes with
    one operation ([plain]: at most 2^53 times a power of ten up to 22) and different names in every
    object, both give the same outcome and the same container, whatever collapse does with it; the
    container may hold anything before except a vector or a map. *)
Theorem C111_agree_partial : forall t j g, gtext (jstring false) plain t j ->
  (is_num j = true -> exists t' c, t = t' ++ [c] /\ blank c) ->
  jall no_array_in_array j -> jall signed_int j -> jall distinct_names j ->
  (forall v, g <> GVec v) -> (forall m, g <> GMap m) ->
  from_json2 t g = from_json_text t g.
Proof.
  intros t j g H Hn Ha Hs Hd Hv Hm.
  assert (T : gtext (jstring true) plain t j) by (revert H; apply gtext_mono; [apply jstring_more|auto]).
  assert (F : json_text false t j) by (apply gtext_json; revert H; apply gtext_mono; [auto|apply plain_jnumber]).
  rewrite (C59_steps t j g F Hn), (proj2 (C98_exact_partial t j g T)). cbn [from_json]. f_equal.
  rewrite (proj1 (feed_build j Ha Hd (signed_int64 j Hs)) g) by (split; assumption).
  rewrite decode_fresh by (split; assumption). symmetry. apply decode_build; [eapply gtext_no_nul; eassumption|assumption|assumption].
Qed.
Local Ltac strf := constructor; repeat first [apply jc_nil | apply jc_plain; [vm_compute; split; congruence|discriminate|discriminate|] |
  apply jc_escape; [left; cbn [In]; auto 10|]].
Example C111_example : let t := "{"%char :: m98 ++ ["}"%char] in
  gtext (jstring false) plain t j98 /\ is_num j98 = false /\
  jall no_array_in_array j98 /\ jall signed_int j98 /\ jall distinct_names j98 /\
  from_json2 t (GInt 3) = (Ok true, GMap [(untxt ["a"%char], GVReal [f_of_Z 1; f_of_Z 2500]); (untxt ["b"%char; ch 10], GReal (2^63 + f_of_Q 1 8))]).
Proof.
  assert (B : ws [" "%char]) by (constructor; [cbn; auto|constructor]). assert (N : ws []) by constructor. destruct plain_ex as (P1 & P2 & P3).
  cbv zeta. split.
  { exists [], ("{"%char :: m98 ++ ["}"%char]), []. split; [reflexivity|]. split; [assumption|]. split; [|assumption].
    apply gv_obj. apply gm_more; try assumption; [strf| |].
    - apply gv_arr. apply ge_more; [assumption|now apply gv_number|assumption|]. apply ge_one; [assumption|now apply gv_number|assumption].
    - apply gm_one; try assumption; [strf|now apply gv_number]. }
  split; [reflexivity|]. unfold j98.
  split; [cbn [jall no_array_in_array snd]; repeat match goal with |- _ /\ _ => split | |- True => exact I end; intros l H; cbn in H; intuition discriminate|].
  split; [cbn [jall signed_int snd]; repeat match goal with |- _ /\ _ => split | |- True => exact I end; left; lia|].
  split; [cbn [jall distinct_names snd map fst]; repeat match goal with |- _ /\ _ => split | |- True => exact I
            | |- NoDup _ => constructor end; cbn; intuition discriminate|].
  vm_compute; reflexivity.
Qed.
Print Assumptions C111_refuted.
Print Assumptions C111_agree_partial.
