(** Properties C59 to C61: reading JSON text with from_json2. *)
From Coq Require Import ZArith Bool Lia Ascii String List.
From Verif Require Import Base F64 StrMap Value WfDec MBasic SGet SPromote MCollapse SCollapse LCollapse LCollapse2 Props_collapse
  MNum LNum MText MJson SJson LJson LBuild Props_json MJson2 SJsonText LJson2Run LJson2Lex LJson2Parse LJson2Doc SJsonToks LJsonToks LJsonTaken.
Import ListNotations.
Local Open Scope Z_scope.

(** * C59: from_json2 stores the data of the document.

    Full statement: for every text [t] and document [j] with [json_text true t j],
    from_json2 t GNone returns true and the data of the container are [json_data j]. *)

(** False in the code. *)
Lemma ws_nil : ws []. Proof. constructor. Qed.
Lemma digits_of l : Forall is_digit l -> digits (map digit l) l.
Proof. induction 1 as [|d l [H0 H9] _ IH]; constructor; [split; [lia|reflexivity]|assumption]. Qed.
Lemma jdigit d : 0 <= d <= 9 -> jval true [digit d] (JInt d).
Proof.
  intros H. apply jv_number. apply (jn_int false [digit d] [d]).
  - constructor; [|constructor]. split; [assumption|reflexivity].
  - unfold int_part. destruct (Z.eq_dec d 0); [left; now subst|right; eauto].
Qed.
(** Arrays inside arrays are flattened, with an empty array left in front of each. *)
Theorem C59_nested_refuted : exists t j g, json_text true t j /\ json_data j = DList [DList [d_int 1]; DList [d_int 2]] /\
  parse t GNone = (Ok tt, g) /\ data_of g = DList [DList []; d_int 1; DList []; d_int 2].
Proof.
  exists (txt "[[1],[2]]"), (JArr [JArr [JInt 1]; JArr [JInt 2]]), (GVec [GVec []; GInt 1; GVec []; GInt 2]).
  split; [|split; [vmc|split; vmc]].
  assert (E : forall d, 0 <= d <= 9 -> jval true ("["%char :: [digit d] ++ ["]"%char]) (JArr [JInt d])).
  { intros d H. apply jv_arr. replace [digit d] with ([] ++ [digit d] ++ []) by reflexivity. apply je_one; auto using ws_nil, jdigit. }
  exists [], (txt "[[1],[2]]"), []. split; [reflexivity|]. repeat split; [apply ws_nil| |apply ws_nil].
  change (txt "[[1],[2]]") with ("["%char :: ([] ++ ("["%char :: [digit 1] ++ ["]"%char]) ++ [] ++ ","%char :: ([] ++ ("["%char :: [digit 2] ++ ["]"%char]) ++ [])) ++ ["]"%char]).
  apply jv_arr. apply je_more; [apply ws_nil|apply E; lia|apply ws_nil|]. apply je_one; [apply ws_nil|apply E; lia|apply ws_nil].
Qed.
(** The escapes \/ and \uXXXX are stored as they are written. *)
Theorem C59_escape_refuted :
  (exists t, json_text true t (JStr "/") /\ from_json2 t GNone = (Ok true, GStr "\/")) /\
  (exists t, json_text true t (JStr "A") /\ from_json2 t GNone = (Ok true, GStr "\u0041")).
Proof.
  split.
  - exists (ch 34 :: [ch 92; "/"%char] ++ [ch 34]). split; [|vmc].
    exists [], (ch 34 :: [ch 92; "/"%char] ++ [ch 34]), []. split; [reflexivity|]. repeat split; [apply ws_nil| |apply ws_nil].
    apply jv_string. change "/"%string with (untxt ["/"%char]). constructor. apply jc_escape; [right; auto|constructor].
  - set (h := ["0"; "0"; "4"; "1"]%char). exists (ch 34 :: (ch 92 :: "u"%char :: h ++ []) ++ [ch 34]). split; [|vmc].
    exists [], (ch 34 :: (ch 92 :: "u"%char :: h ++ []) ++ [ch 34]), []. split; [reflexivity|]. repeat split; [apply ws_nil| |apply ws_nil].
    apply jv_string. change "A"%string with (untxt (utf8 65 ++ [])). constructor. apply jc_code; [reflexivity| |lia|constructor].
    exists "0"%char, "0"%char, "4"%char, "1"%char, 0, 0, 4, 1.
    split; [reflexivity|]. repeat (split; [left; split; [lia|reflexivity]|]). reflexivity.
Qed.
(** A number at the very end of the text is dropped and the container left empty. *)
Theorem C59_number_refuted : json_text true (txt "7") (JInt 7) /\ from_json2 (txt "7") GNone = (Ok true, GNone).
Proof.
  split; [|vmc]. exists [], (txt "7"), []. split; [reflexivity|]. split; [apply ws_nil|]. split; [|apply ws_nil]. exact (jdigit 7 ltac:(lia)).
Qed.
(** Integers that do not fit in 64 bits become the nearest 64-bit integer. *)
Theorem C59_integer_refuted : exists t j g, json_text true t j /\ json_data j = d_int (10^20) /\
  from_json2 t GNone = (Ok true, g) /\ data_of g = d_int (2^63 - 1).
Proof.
  set (l := [1;0;0;0;0;0;0;0;0;0;0;0;0;0;0;0;0;0;0;0;0]).
  exists (map digit l ++ [" "%char]), (JInt (dval l)), (GLong (2^63 - 1)). split; [|split; [vmc|split; vmc]].
  exists [], (map digit l), [" "%char]. split; [reflexivity|]. split; [apply ws_nil|]. split.
  - apply jv_number. apply (jn_int false (map digit l) l).
    + apply digits_of. unfold l. repeat constructor; lia.
    + right. exists 1, (tl l). split; [reflexivity|lia].
  - constructor; [cbn; auto|constructor].
Qed.

(** What happens for every document without those two escapes: the parser accepts it and
    leaves [feed j g], the effect of its values one after the other; then [finish] collapses. *)
Theorem C59_steps : forall t j g, json_text false t j ->
  (is_num j = true -> exists t' c, t = t' ++ [c] /\ blank c) ->
  from_json2 t g = finish (feed j g).
Proof. intros t j g H Hn. unfold from_json2. now rewrite (parse_json t j g H Hn). Qed.

(** What remains of the full statement: no escapes \/ and \u, no array directly inside an
    array, integers that fit in 64 bits, different member names, a number at top level followed
    by white space; and for collapse (see C37), no arrays that hold both reals and 64-bit
    integers that are not exactly doubles, no arrays that mix scalars with one-element arrays and fewer than 2^31 values. *)
Theorem C59_document_partial : forall t j, json_text false t j ->
  (is_num j = true -> exists t' c, t = t' ++ [c] /\ blank c) ->
  jall no_array_in_array j -> jall int64_literals j -> jall distinct_names j ->
  jall unrounded_doc j -> jall not_jmixed j -> jsize j < 2^31 ->
  exists g, from_json2 t GNone = (Ok true, g) /\ wf g /\ data_of g = json_data j.
Proof.
  intros t j H Hn Ha Hi Hd He Hm Hs. rewrite (C59_steps t j GNone H Hn).
  rewrite (proj1 (feed_build j Ha Hd Hi)) by (split; intros; discriminate).
  apply finish_build; try assumption. eapply json_storable; eassumption.
Qed.
(** Without the conditions for collapse: integers next to reals may be rounded to the nearest
    double, and in mixed arrays a number may become a one-element list or null an empty list. *)
Theorem C59_general_partial : forall t j r g, json_text false t j ->
  (is_num j = true -> exists t' c, t = t' ++ [c] /\ blank c) ->
  jall no_array_in_array j -> jall int64_literals j -> jall distinct_names j ->
  jall no_subnormal j -> jsize j < 2^31 ->
  from_json2 t GNone = (r, g) -> r = Ok true \/ r = Throw ->
  wf g /\ sim true true (json_data j) (data_of g).
Proof.
  intros t j r g H Hn Ha Hi Hd Ht Hs E Hr. rewrite (C59_steps t j GNone H Hn) in E.
  rewrite (proj1 (feed_build j Ha Hd Hi)) in E by (split; intros; discriminate).
  apply (finish_build_sim j r g); try assumption. eapply json_storable; eassumption.
Qed.
(** Before collapse the container is exactly the document: members by name in a map, array
    elements in order in a vector, whatever (but no vector or map) the container held. *)
Theorem C59_tree_partial : forall t j g, json_text false t j ->
  (is_num j = true -> exists t' c, t = t' ++ [c] /\ blank c) ->
  jall no_array_in_array j -> jall int64_literals j -> jall distinct_names j ->
  (forall v, g <> GVec v) -> (forall m, g <> GMap m) ->
  exists g', parse t g = (Ok tt, g') /\ wf g' /\ data_of g' = json_data j.
Proof.
  intros t j g H Hn Ha Hi Hd Hv Hm. exists (build j). rewrite (parse_json t j g H Hn).
  rewrite (proj1 (feed_build j Ha Hd Hi)) by (split; assumption). split; [reflexivity|].
  pose proof (json_storable _ _ _ H Hi) as S. split; [now apply build_wf|now apply build_data].
Qed.
(** A document that meets the conditions: [ {"a":-2.5e1,"b":"x\n"} ,null, true] with blanks. *)
Definition t59 : text :=
  " "%char :: ("["%char :: ([" "%char] ++ ("{"%char ::
    ([] ++ (ch 34 :: ["a"%char] ++ [ch 34]) ++ [] ++ ":"%char :: [] ++ (minus true ++ [digit 2] ++ ("."%char :: [digit 5]) ++ ("e"%char :: [] ++ [digit 1])) ++ [] ++ ","%char ::
     ([] ++ (ch 34 :: ["b"%char] ++ [ch 34]) ++ [] ++ ":"%char :: [] ++ (ch 34 :: ["x"%char; ch 92; "n"%char] ++ [ch 34]) ++ []))
    ++ ["}"%char]) ++ [" "%char] ++ ","%char ::
    ([] ++ txt "null" ++ [] ++ ","%char :: ([" "%char] ++ txt "true" ++ []))) ++ ["]"%char]).
Definition x59 : Z := (if true then 2^63 else 0) + scale (dval ([2] ++ [5])) (dval [1] - zlen [5]).
Definition j59 : json := JArr [JObj [("a"%string, JDbl x59); ("b"%string, JStr (String "x" (String (ch 10) "")))]; JNull; JBool true].
Example C59_example : json_text false t59 j59 /\ is_num j59 = false /\
  jall no_array_in_array j59 /\ jall int64_literals j59 /\ jall distinct_names j59 /\
  jall unrounded_doc j59 /\ jall not_jmixed j59 /\ jsize j59 < 2^31 /\
  from_json2 t59 GNone = (Ok true, build j59).
Proof.
  assert (B : ws [" "%char]) by (constructor; [cbn; auto|constructor]). pose proof ws_nil as N.
  split.
  { exists [" "%char], (tl t59), []. split; [vmc|]. split; [assumption|]. split; [|assumption].
    unfold t59. cbn [tl]. apply jv_arr. apply je_more; [assumption| |assumption|].
    - apply jv_obj. apply jm_more; try assumption.
      + change "a"%string with (untxt ["a"%char]). constructor. apply jc_plain; [split; vm_compute; congruence|discriminate|discriminate|constructor].
      + apply jv_number. unfold x59.
        refine (jn_real true [digit 2] [2] ("."%char :: [digit 5]) [5] ("e"%char :: [] ++ [digit 1]) (dval [1]) _ _ _ _ _).
        * apply (digits_of [_]). repeat constructor; lia.
        * right. exists 2, []. split; [reflexivity|lia].
        * right. exists [digit 5]. split; [reflexivity|]. split; [|discriminate]. apply (digits_of [_]). repeat constructor; lia.
        * right. exists "e"%char, [digit 1], [1], false, []. split; [reflexivity|]. split; [auto|]. split; [|split; [discriminate|split; [now left|reflexivity]]].
          apply (digits_of [_]). repeat constructor; lia.
        * discriminate.
      + apply jm_one; try assumption.
        * change "b"%string with (untxt ["b"%char]). constructor. apply jc_plain; [split; vm_compute; congruence|discriminate|discriminate|constructor].
        * apply jv_string. change (String "x" (String (ch 10) "")) with (untxt ["x"%char; ch 10]). constructor.
          apply jc_plain; [split; vm_compute; congruence|discriminate|discriminate|]. apply jc_escape; [|constructor].
          left. cbn [In]. do 4 right. left. reflexivity.
    - apply je_more; [assumption|constructor|assumption|]. apply je_one; [assumption|constructor|assumption]. }
  unfold j59. split; [reflexivity|].
  split; [cbn [jall no_array_in_array snd]; repeat match goal with |- _ /\ _ => split | |- True => exact I end; intros l H; cbn in H; intuition discriminate|].
  split; [cbn [jall int64_literals snd]; repeat match goal with |- _ /\ _ => split | |- True => exact I end|].
  split; [cbn [jall distinct_names snd map fst]; repeat match goal with |- _ /\ _ => split | |- True => exact I
            | |- NoDup _ => constructor end; cbn; intuition discriminate|].
  split; [apply exact_unrounded; cbn [jall exact_ints snd]; repeat match goal with |- _ /\ _ => split | |- True => exact I end|].
  split; [cbn [jall not_jmixed snd]; repeat match goal with |- _ /\ _ => split | |- True => exact I end;
          try (intros a b Ha Hb; cbn in Hb; intuition discriminate); intros [H1 H2]; cbn in H1, H2; intuition discriminate|].
  split; vm_compute; reflexivity.
Qed.

(** * C60: from_json2 on any text. *)

(** The parser always terminates, and it returns or throws: no undefined behaviour, whatever
    the text and whatever the container held.  The container stays well-formed, also when an
    exception is thrown half way. *)
Theorem C60_any_text : forall t g,
  (fst (parse t g) = Ok tt \/ fst (parse t g) = Throw) /\ (wf g -> wf (snd (parse t g))).
Proof. intros t g. split; [apply parse_stops|apply parse_wf]. Qed.
(** from_json2 throws when the parser throws, and otherwise collapses what was read. *)
Theorem C60_outcome : forall t g, wf g -> exists g', wf g' /\
  (from_json2 t g = (Throw, g') \/ from_json2 t g = finish g').
Proof.
  intros t g W. exists (snd (parse t g)). pose proof (parse_wf t g W). split; [assumption|].
  unfold from_json2. destruct (parse_stops t g) as [E|E]; destruct (parse t g) as [r g']; cbn [fst] in E; subst; auto.
Qed.
Example C60_example :
  fst (from_json2 (txt "{""a"": [1, [2}") (GVBool [true])) = Throw /\ fst (from_json2 (txt "]]") GNone) = Throw /\
  fst (from_json2 (txt "{""a"": 1}") GNone) = Ok true.
Proof. vmc. Qed.

(** * C61: invalid text is rejected.

    Full statement: if no document [j] has [json_text true t j], from_json2 t g throws.  False
    in the code: what follows the document is not always looked at, empty text is accepted and
    the lexer takes more numbers than JSON has. *)
Lemma json_text_first esc t j : json_text esc t j -> exists c, In c t /\ ~ blank c.
Proof.
  intros (w & u & w' & -> & _ & H & _).
  assert (G : exists c, In c u /\ ~ blank c).
  { destruct H as [| | |t j Hn|t s Hs|w0 _|t l _|w0 _|t m _];
      try (match goal with |- exists c, In c (?a :: _) /\ _ => exists a; split; [now left|] | |- exists c, In c (txt (String ?a _)) /\ _ => exists a; split; [now left|] end;
           cbn; intuition discriminate).
    - assert (D : forall d, is_digit d -> ~ blank (digit d)).
      { apply digit_cases; cbn; intuition discriminate. }
      assert (F : forall (neg : bool) x l r, digits x l -> int_part l -> exists c, In c (minus neg ++ x ++ r) /\ ~ blank c).
      { intros neg x l r Hd Hi. apply digits_map in Hd as [-> Hl]. apply int_part_nonempty in Hi. destruct l as [|d l]; [easy|].
        inversion Hl; subst. exists (digit d). split; [|now apply D]. apply in_app_iff. right. now left. }
      destruct Hn as [neg x l Hd Hi|neg x l tf lf te e Hd Hi Hf He Hne].
      + specialize (F neg x l [] Hd Hi). now rewrite app_nil_r in F.
      + exact (F neg x l _ Hd Hi).
    - destruct Hs. exists (ch 34). split; [now left|]. cbn; intuition discriminate. }
  destruct G as (c & H1 & H2). exists c. split; [|assumption]. apply in_app_iff. right. apply in_app_iff. now left.
Qed.
Theorem C61_empty_refuted : (forall j, ~ json_text true [] j) /\ from_json2 [] GNone = (Ok true, GNone).
Proof. split; [|vmc]. intros j H. destruct (json_text_first _ _ _ H) as (c & [] & _). Qed.
(** Every string, array or object of a document starts with its opening character; so a text
    whose first character is an opening brace and that has no closing brace at the end (white
    space aside) is not a document. *)
Lemma json_brace t j : json_text true ("{"%char :: t) j -> exists t' w, t = t' ++ "}"%char :: w /\ ws w.
Proof.
  intros (w & u & w' & E & Hw & Hj & Hw'). destruct w as [|b w].
  2:{ inversion Hw as [|? ? Hb _]; subst. injection E as <- _. cbn in Hb. intuition discriminate. }
  cbn [app] in E. destruct Hj as [| | |t0 j Hn|t0 s Hs|w0 _|t0 l _|w0 _|t0 m _]; try discriminate.
  - exfalso. assert (D : forall d, is_digit d -> digit d <> "{"%char).
    { apply digit_cases; discriminate. }
    assert (F : forall (neg : bool) x l r, digits x l -> int_part l -> "{"%char :: t <> minus neg ++ x ++ r).
    { intros neg x l r Hd Hi. apply digits_map in Hd as [-> Hl]. apply int_part_nonempty in Hi. destruct l as [|d l]; [easy|].
      inversion Hl; subst. destruct neg; [discriminate|]. cbn. intros E0. injection E0 as E0 _. now apply (D d). }
    destruct Hn as [neg x l Hd Hi|neg x l tf lf te e Hd Hi Hf He Hne].
    + apply (F neg x l w' Hd Hi). now rewrite app_assoc.
    + apply (F neg x l ((tf ++ te) ++ w') Hd Hi). rewrite E, <- !app_assoc. reflexivity.
  - destruct Hs. discriminate.
  - cbn [app] in E. injection E as ->. exists w0, w'. rewrite <- app_assoc. split; [reflexivity|assumption].
  - cbn [app] in E. injection E as ->. exists t0, w'. rewrite <- app_assoc. split; [reflexivity|assumption].
Qed.
Theorem C61_rest_refuted : (forall j, ~ json_text true (txt "{} x") j) /\ from_json2 (txt "{} x") GNone = (Ok true, GMap []).
Proof.
  split; [|vmc]. intros j H. apply json_brace in H as (t' & w & E & Hw).
  destruct t' as [|c1 [|c2 [|c3 [|c4 t']]]]; try discriminate E.
  - injection E as <-. inversion Hw as [|? ? _ Hw1]; subst. inversion Hw1 as [|? ? Hx _]; subst. cbn in Hx. intuition discriminate.
Qed.
(** What is proved instead: the parser returns exactly on the texts of SJsonToks.v (JSON with
    looser tokens, or nothing, before the end or a character that begins no token), whatever
    the container held; on all other texts from_json2 throws. *)
Theorem C61_taken_partial : forall t g,
  (fst (parse t g) = Ok tt <-> taken t) /\ (~ taken t -> fst (from_json2 t g) = Throw) /\
  (taken t -> from_json2 t g = finish (snd (parse t g))).
Proof.
  intros t g. pose proof (parse_taken t g) as P. split; [exact P|]. unfold from_json2.
  destruct (parse_stops t g) as [E|E]; destruct (parse t g) as [r g']; cbn [fst snd] in *; subst r; split; intros H; try reflexivity.
  - destruct H. now apply P.
  - apply P in H. discriminate H.
Qed.
(** Not JSON, yet taken; and a text that is not taken. *)
Example C61_taken_example :
  taken (txt "[+01, -1.] # {") /\ from_json2 (txt "[+01, -1.] # {") GNone = (Ok true, GVReal [f_of_Z 1; f_of_Z 1 + 2^63]) /\
  ~ taken (txt "[1,]") /\ fst (from_json2 (txt "[1,]") GNone) = Throw.
Proof.
  split; [|split; [vmc|split; [|vmc]]].
  - apply (C61_taken_partial _ GNone). vmc.
  - intros H. apply (C61_taken_partial _ GNone) in H. vm_compute in H. discriminate H.
Qed.

Print Assumptions C59_document_partial.
Print Assumptions C59_general_partial.
Print Assumptions C59_tree_partial.
Print Assumptions C60_any_text.
Print Assumptions C61_rest_refuted.
Print Assumptions C61_taken_partial.
