(** Properties C47 and C62: the JSON text written by to_json, and reading it back. *)
From Coq Require Import ZArith Bool Lia Ascii String List.
From Verif Require Import Base F64 StrMap Value WfDec MBasic MGet SGet SPromote MCollapse SCollapse MMat MNum LNum MText MJson SJson LJson LJson2
  SJsonText MJson2 LJson2Lex LJson2Parse LJson2Doc SToJson MToJson LToJson LRound Props_json Props_json2.
Import ListNotations.
Local Open Scope Z_scope.

(** * C47: to_json writes a JSON document with the data of the container.

    Full statement: for every container [g] there are a text [t] and a document [j] with
    json_of P SP prefix g = Ok t, json_text false t j and json_data j = data_of g. *)

(** What remains: the text is a JSON document if every value in the container has one of the
    forms of [json_node] (no pointers, infinities, NaNs, complex matrices or empty vectors, maps
    and matrices; strings without control characters except \b, \t, \n, \r; member names
    that need no escape). *)
Theorem C47_valid_partial : forall P SP prefix g, (1 <= P)%nat -> ws prefix -> wf g -> everywhere json_node g ->
  exists t j, json_of P SP prefix g = Ok t /\ json_text false t j.
Proof.
  intros P SP prefix g HP Hp W N. destruct (to_json_written P SP HP g W N prefix Hp) as (w & u & j & E & Hw & Hj & _).
  exists (w ++ u), j. unfold json_of. rewrite E. split; [reflexivity|]. exists w, u, []. rewrite app_nil_r. auto using ws_nil.
Qed.
(** And it describes the data of the container if there are no complex numbers (they are
    written as strings) and P digits are enough for its reals (17 always are). *)
Lemma written_doc P SP prefix g : (1 <= P)%nat -> ws prefix -> wf g -> everywhere json_node g ->
  exists t j, json_of P SP prefix g = Ok t /\ json_text false t j /\ doc P g j.
Proof.
  intros HP Hp W N. destruct (to_json_written P SP HP g W N prefix Hp) as (w & u & j & E & Hw & Hj & D).
  exists (w ++ u), j. unfold json_of. rewrite E. split; [reflexivity|]. split; [|assumption]. exists w, u, []. rewrite app_nil_r. auto using ws_nil.
Qed.
Theorem C47_data_partial : forall P SP prefix g, (1 <= P)%nat -> ws prefix -> wf g ->
  everywhere json_node g -> everywhere (exact_node P) g ->
  exists t j, json_of P SP prefix g = Ok t /\ json_text false t j /\ json_data j = data_of g.
Proof.
  intros P SP prefix g HP Hp W N X. destruct (written_doc P SP prefix g HP Hp W N) as (t & j & E & H & D).
  exists t, j. split; [assumption|]. split; [assumption|]. now apply (doc_data P).
Qed.

(** The full statement is false in the code.  A text that from_json2 refuses, and that has no u
    and no slash in it, is not a JSON document. *)
Lemma jchars_noesc t s : jchars true t s -> ~ In "u"%char t -> ~ In "/"%char t -> jchars false t s.
Proof.
  induction 1 as [|c t s H1 H2 H3 _ IH|n t s H1 H2 _ IH|c d t s H _ IH|h n t s _ H1 H2 _ IH|h1 n1 h2 n2 t s _ H1 H2 H3 H4 _ IH]; intros Nu Ns.
  - constructor.
  - apply jc_plain; auto. apply IH; [intros K; apply Nu; now right|intros K; apply Ns; now right].
  - apply jc_utf8; auto. apply IH; [intros K; apply Nu; apply in_app_iff; now right|intros K; apply Ns; apply in_app_iff; now right].
  - apply jc_escape.
    + destruct H as [H|(_ & -> & _)]; [left; exact H|]. exfalso. apply Ns. right. now left.
    + apply IH; [intros K; apply Nu; right; now right|intros K; apply Ns; right; now right].
  - exfalso. apply Nu. right. now left.
  - exfalso. apply Nu. right. now left.
Qed.
Definition no_u (t : text) : Prop := ~ In "u"%char t /\ ~ In "/"%char t.
Lemma no_u_app a b : no_u (a ++ b) -> no_u a /\ no_u b.
Proof. unfold no_u. rewrite !in_app_iff. tauto. Qed.
Lemma no_u_cons c b : no_u (c :: b) -> no_u b.
Proof. unfold no_u. cbn [In]. tauto. Qed.
Lemma jstring_noesc t s : jstring true t s -> no_u t -> jstring false t s.
Proof. intros [t0 s0 H] N. apply no_u_cons in N. apply no_u_app in N as [N _]. constructor. destruct N. now apply jchars_noesc. Qed.
Lemma jval_noesc :
  (forall t j, jval true t j -> no_u t -> jval false t j) /\
  (forall t l, jelems true t l -> no_u t -> jelems false t l) /\
  (forall t m, jmembers true t m -> no_u t -> jmembers false t m).
Proof.
  apply (json_mut true (fun t j => no_u t -> jval false t j) (fun t l => no_u t -> jelems false t l) (fun t m => no_u t -> jmembers false t m)).
  - constructor.
  - constructor.
  - constructor.
  - intros. now apply jv_number.
  - intros. apply jv_string. now apply jstring_noesc.
  - intros. now constructor.
  - intros t l _ IH N. apply jv_arr. apply IH. apply no_u_cons in N. now apply no_u_app in N as [N _].
  - intros. now constructor.
  - intros t l _ IH N. apply jv_obj. apply IH. apply no_u_cons in N. now apply no_u_app in N as [N _].
  - intros w t j w' Hw _ IH Hw' N. apply no_u_app in N as [_ N]. apply no_u_app in N as [N _]. apply je_one; auto.
  - intros w t j w' ts l Hw _ IH Hw' _ IHl N. apply no_u_app in N as [_ N]. apply no_u_app in N as [N N2]. apply no_u_app in N2 as [_ N2]. apply no_u_cons in N2.
    apply je_more; auto.
  - intros w k s w1 w2 t j w' Hw Hk Hw1 Hw2 _ IH Hw' N. apply no_u_app in N as [_ N]. apply no_u_app in N as [Nk N]. apply no_u_app in N as [_ N].
    apply no_u_cons in N. apply no_u_app in N as [_ N]. apply no_u_app in N as [N _]. apply jm_one; auto using jstring_noesc.
  - intros w k s w1 w2 t j w' ts m Hw Hk Hw1 Hw2 _ IH Hw' _ IHm N. apply no_u_app in N as [_ N]. apply no_u_app in N as [Nk N]. apply no_u_app in N as [_ N].
    apply no_u_cons in N. apply no_u_app in N as [_ N]. apply no_u_app in N as [N N2]. apply no_u_app in N2 as [_ N2]. apply no_u_cons in N2.
    apply jm_more; auto using jstring_noesc.
Qed.
Lemma not_json t : no_u t -> fst (parse (t ++ [" "%char]) GNone) = Throw -> forall j, ~ json_text true t j.
Proof.
  intros N E j (w & u & w' & -> & Hw & Hj & Hw').
  assert (J : json_text false ((w ++ u ++ w') ++ [" "%char]) j).
  { exists w, u, (w' ++ [" "%char]). split; [now rewrite <- !app_assoc|]. split; [assumption|]. split.
    - apply (proj1 jval_noesc); [assumption|]. apply no_u_app in N as [_ N]. now apply no_u_app in N as [N _].
    - apply Forall_app. split; [assumption|]. constructor; [cbn; auto|constructor]. }
  rewrite (parse_json _ j GNone J) in E; [discriminate|]. intros _. eexists. exists " "%char. split; [reflexivity|]. cbn. auto.
Qed.
Lemma no_u_dec t : forallb (fun c => negb (Ascii.eqb c "u"%char || Ascii.eqb c "/"%char)) t = true -> no_u t.
Proof. rewrite forallb_forall. intros H. split; intros K; now apply H in K. Qed.
Definition not_json_text (r : out text) : Prop := exists t, r = Ok t /\ forall j, ~ json_text true t j.
Lemma not_json_dec P SP g t : json_of P SP [] g = Ok t -> forallb (fun c => negb (Ascii.eqb c "u"%char || Ascii.eqb c "/"%char)) t = true ->
  fst (parse (t ++ [" "%char]) GNone) = Throw -> not_json_text (json_of P SP [] g).
Proof. intros E H1 H2. exists t. split; [assumption|]. apply not_json; [now apply no_u_dec|assumption]. Qed.
Ltac refuse := eapply not_json_dec; [vm_compute; reflexivity|vm_compute; reflexivity|vm_compute; reflexivity].

(** Empty vectors and maps, at top level and as members. *)
Theorem C47_empty_refuted :
  not_json_text (json_of 17 12 [] (GVInt [])) /\ not_json_text (json_of 17 12 [] (GMap [])) /\
  not_json_text (json_of 17 12 [] (GMap [("a"%string, GVec [])])) /\ not_json_text (json_of 17 12 [] (GMInt (Mat 0 0 []))).
Proof.
  split; [refuse|]. split; [|split; refuse].
  exists []. split; [reflexivity|]. intros j H. destruct (json_text_first _ _ _ H) as (c & [] & _).
Qed.
(** Names are not escaped. *)
Theorem C47_name_refuted : not_json_text (json_of 17 12 [] (GMap [("a""b"%string, GInt 1)])).
Proof. refuse. Qed.
(** Numbers have only digits, signs, points and exponents; anything else starts with one of
    the characters below. *)
Definition num_char (c : ascii) : bool := existsb (Ascii.eqb c) (map digit [0;1;2;3;4;5;6;7;8;9] ++ ["-"; "+"; "."; "e"; "E"]%char).
Lemma digits_chars t l : digits t l -> forallb num_char t = true.
Proof.
  intros H. apply digits_map in H as [-> H]. apply forallb_forall. intros c Hc. apply in_map_iff in Hc as (d & <- & Hd).
  rewrite Forall_forall in H. specialize (H d Hd). revert d H Hd. apply (digit_cases (fun d => In d l -> num_char (digit d) = true)); reflexivity.
Qed.
Lemma number_chars t j : jnumber t j -> forallb num_char t = true.
Proof.
  assert (M : forall neg, forallb num_char (minus neg) = true) by (intros []; reflexivity).
  destruct 1 as [neg t l Hd Hi|neg t l tf lf te e Hd Hi Hf He _]; rewrite !forallb_app, M, (digits_chars _ _ Hd); [reflexivity|]. cbn [andb].
  apply andb_true_iff. split.
  - destruct Hf as [[-> _]|(u & -> & Hu & _)]; [reflexivity|]. apply (digits_chars _ _ Hu).
  - destruct He as [[-> _]|(c & u & k & ng & sg & -> & Hc & Hu & _ & Hs & _)]; [reflexivity|]. cbn [forallb]. rewrite forallb_app, (digits_chars _ _ Hu).
    destruct Hc as [-> | ->], Hs as [-> |[_ ->]]; rewrite ?M; reflexivity.
Qed.
Lemma json_start c t j : json_text true (c :: t) j -> ~ blank c ->
  (exists u w, c :: t = u ++ w /\ forallb num_char u = true /\ ws w) \/ In c (txt "ntf[{") \/
  (c = ch 34 /\ exists x s w, t = x ++ ch 34 :: w /\ jchars true x s /\ ws w).
Proof.
  intros (w & u & w' & E & Hw & Hj & Hw') Hc. destruct w as [|b w].
  2:{ exfalso. injection E as -> _. inversion Hw; subst. contradiction. }
  cbn [app] in E. destruct Hj as [| | |t0 j Hn|t0 s Hs|w0 _|t0 l _|w0 _|t0 m _];
    try (right; left; injection E as -> _; cbn; tauto).
  - left. exists t0, w'. split; [assumption|]. split; [now apply number_chars in Hn|assumption].
  - right. right. destruct Hs as [x s Hx]. injection E as -> ->. split; [reflexivity|]. exists x, s, w'. rewrite <- app_assoc. auto.
Qed.
(** Infinities, complex matrices, pointers. *)
Theorem C47_number_refuted :
  not_json_text (json_of 17 12 [] (GReal (2047 * 2^52))) /\ not_json_text (json_of 17 12 [] (GMComplex (Mat 1 1 [(0, 0)]))) /\
  not_json_text (json_of 17 12 [] (GPtr 255)).
Proof.
  split; [|split; [refuse|]].
  - exists (txt "inf"). split; [vm_compute; reflexivity|]. intros j H. apply json_start in H; [|cbn; intuition discriminate].
    destruct H as [(u & w & E & Hu & Hw)|[H|(H & _)]]; [|cbn in H; intuition discriminate|discriminate].
    destruct u as [|a u]; cbn [app] in E; [destruct w as [|a w]; [discriminate|]; injection E as <- _; inversion Hw as [|? ? Hb _]; cbn in Hb; intuition discriminate|].
    injection E as <- _. discriminate Hu.
  - exists (txt "0xff"). split; [vm_compute; reflexivity|]. intros j H. apply json_start in H; [|cbn; intuition discriminate].
    destruct H as [(u & w & E & Hu & Hw)|[H|(H & _)]]; [|cbn in H; intuition discriminate|discriminate].
    assert (K : In "x"%char (u ++ w)) by (rewrite <- E; right; now left). apply in_app_iff in K as [K|K].
    + rewrite forallb_forall in Hu. now apply Hu in K.
    + unfold ws in Hw. rewrite Forall_forall in Hw. apply Hw in K. cbn in K. intuition discriminate.
Qed.
(** The escape \v, and control characters written as they are. *)
Theorem C47_string_refuted :
  not_json_text (json_of 17 12 [] (GStr (String (ch 11) ""))) /\ not_json_text (json_of 17 12 [] (GStr (String (ch 1) ""))).
Proof.
  assert (U : forall n r c t, 128 <= n < 1114112 -> utf8 n ++ r = c :: t -> (128 <= byte c)%N).
  { intros n r c t Hn E. pose proof (utf8_high n Hn) as H. destruct (utf8 n) as [|a k] eqn:Eu.
    - unfold utf8 in Eu. destruct (n <? 128); [discriminate|]. destruct (n <? 2048); [discriminate|]. destruct (n <? 65536); discriminate.
    - injection E as -> _. now inversion H. }
  split.
  - exists [ch 34; ch 92; "v"%char; ch 34]. split; [vm_compute; reflexivity|]. intros j H. apply json_start in H; [|cbn; intuition discriminate].
    destruct H as [(u & w & E & Hu & Hw)|[H|(_ & x & s & w & E & Hx & Hw)]]; [|cbn in H; intuition discriminate|].
    { destruct u as [|a u]; cbn [app] in E; [destruct w as [|a w]; [discriminate|]; injection E as <- _; inversion Hw as [|? ? Hb _]; cbn in Hb; intuition discriminate|].
      injection E as <- _. discriminate Hu. }
    destruct x as [|c1 [|c2 x]]; try discriminate E. cbn [app] in E. injection E as <- <- E. 
    change (jchars true (ch 92 :: "v"%char :: x) s) in Hx. remember (ch 92 :: "v"%char :: x) as y eqn:Ey. destruct Hx as [|c t s H1 H2 H3 _|n t s H1 H2 _|c d t s H _|h n t s _ H1 H2 _|h1 n1 h2 n2 t s _ H1 H2 H3 H4 _]; try discriminate Ey.
    + injection Ey as -> _. now apply H3.
    + apply U in Ey; [|assumption]. vm_compute in Ey. now apply Ey.
    + injection Ey as -> _. destruct H as [H|(_ & H & _)]; [|discriminate]. cbn in H. intuition discriminate.
  - exists [ch 34; ch 1; ch 34]. split; [vm_compute; reflexivity|]. intros j H. apply json_start in H; [|cbn; intuition discriminate].
    destruct H as [(u & w & E & Hu & Hw)|[H|(_ & x & s & w & E & Hx & Hw)]]; [|cbn in H; intuition discriminate|].
    { destruct u as [|a u]; cbn [app] in E; [destruct w as [|a w]; [discriminate|]; injection E as <- _; inversion Hw as [|? ? Hb _]; cbn in Hb; intuition discriminate|].
      injection E as <- _. discriminate Hu. }
    destruct x as [|c1 x]; [discriminate|]. cbn [app] in E. injection E as <- E.
    change (jchars true (ch 1 :: x) s) in Hx. remember (ch 1 :: x) as y eqn:Ey. destruct Hx as [|c t s H1 H2 H3 _|n t s H1 H2 _|c d t s H _|h n t s _ H1 H2 _|h1 n1 h2 n2 t s _ H1 H2 H3 H4 _]; try discriminate Ey.
    + injection Ey as -> _. vm_compute in H1. destruct H1 as [H1 _]. now apply H1.
    + apply U in Ey; [|assumption]. vm_compute in Ey. now apply Ey.
Qed.
(** Valid JSON, but other data: an empty map in a vector disappears, complex numbers are
    strings, and 6 digits do not suffice for every real. *)
Theorem C47_data_refuted :
  (exists t, json_of 17 12 [] (GVec [GMap []]) = Ok t /\ json_text false t (JArr [])) /\
  (exists t, json_of 17 12 [] (GComplex (f_of_Z 1, f_of_Z 2)) = Ok t /\ json_text false t (JStr "1+2i")) /\
  (exists t, json_of 6 12 [] (GReal (f_of_Z 1234567)) = Ok t /\ exists j, json_text false t j /\ json_data j = d_int 1234570).
Proof.
  split; [|split].
  - exists (nl :: "["%char :: (nl :: txt "  " ++ [nl]) ++ ["]"%char]). split; [vm_compute; reflexivity|].
    exists [nl], ("["%char :: (nl :: txt "  " ++ [nl]) ++ ["]"%char]), []. split; [reflexivity|].
    split; [constructor; [cbn; auto|constructor]|]. split; [|constructor]. apply jv_arr0.
    repeat (constructor; [cbn; auto|]). constructor.
  - exists (ch 34 :: txt "1+2i" ++ [ch 34]). split; [vm_compute; reflexivity|].
    exists [], (ch 34 :: txt "1+2i" ++ [ch 34]), []. split; [reflexivity|]. split; [constructor|]. split; [|constructor].
    apply jv_string. change "1+2i"%string with (untxt (txt "1+2i")). constructor. apply plain_json. apply plain_forall.
    repeat (apply Forall_cons; [split; [split; vm_compute; congruence|split; discriminate]|]). constructor.
  - exists (txt "1.23457e+06"). split; [vm_compute; reflexivity|].
    exists (JDbl (0 + scale (dval ([1] ++ [2;3;4;5;7])) (dval [0;6] - zlen [2;3;4;5;7]))). split; [|vm_compute; reflexivity].
    exists [], (txt "1.23457e+06"), []. split; [reflexivity|]. split; [constructor|]. split; [|constructor]. apply jv_number.
    refine (jn_real false [digit 1] [1] ("."%char :: map digit [2;3;4;5;7]) [2;3;4;5;7] ("e"%char :: ["+"%char] ++ map digit [0;6]) (dval [0;6]) _ _ _ _ _).
    + apply (digits_of [_]). repeat constructor; lia.
    + right. exists 1, []. split; [reflexivity|lia].
    + right. eexists. split; [reflexivity|]. split; [|discriminate]. apply digits_of. repeat constructor; lia.
    + right. exists "e"%char, (map digit [0;6]), [0;6], false, ["+"%char]. split; [reflexivity|]. split; [auto|]. split; [|split; [discriminate|split; [now right|reflexivity]]].
      apply digits_of. repeat constructor; lia.
    + discriminate.
Qed.
(** A pointer switches the stream to hexadecimal for the integers after it. *)
Theorem C47_hex_refuted : exists t, json_of 17 12 [] (GVec [GPtr 0; GInt 16]) = Ok t /\
  untxt t = "
[
  0,
  0x10
]"%string.
Proof. eexists. split; vm_compute; reflexivity. Qed.
(** A container that meets the conditions. *)
Definition g47 : gc := GMap [("a"%string, GVReal [f_of_Z 1; f_of_Z (-2)]); ("b"%string, GVec [GStr "x""y"%string; GNone; GMap [("k"%string, GBool true)]]);
  ("c"%string, GInt 7)].
Lemma clean_dec s : forallb (fun c => (32 <=? byte c)%N && (byte c <? 128)%N) (txt s) = true -> clean_text (txt s).
Proof.
  induction (txt s) as [|c t IH]; [constructor|]. cbn [forallb]. intros H. apply andb_true_iff in H as [H1 H2]. apply andb_true_iff in H1 as [H0 H1].
  apply N.leb_le in H0. apply N.ltb_lt in H1. apply ct_char; [left; lia|auto].
Qed.
Lemma plain_dec s : forallb (fun c => (32 <=? byte c)%N && (byte c <? 128)%N && negb (Ascii.eqb c (ch 34)) && negb (Ascii.eqb c (ch 92))) (txt s) = true -> plain_text (txt s).
Proof.
  induction (txt s) as [|c t IH]; [constructor|]. cbn [forallb]. intros H. apply andb_true_iff in H as [H1 H2].
  apply andb_true_iff in H1 as [H1 H4]. apply andb_true_iff in H1 as [H1 H3]. apply andb_true_iff in H1 as [H0 H1].
  apply N.leb_le in H0. apply N.ltb_lt in H1. apply pt_char; [|auto]. split; [lia|].
  split; [destruct (Ascii.eqb_spec c (ch 34)); [discriminate|assumption]|destruct (Ascii.eqb_spec c (ch 92)); [discriminate|assumption]].
Qed.
Ltac every := repeat match goal with
  | |- everywhere _ (GVec _) => apply everywhere_vec; split
  | |- everywhere _ (GMap _) => apply everywhere_map; split
  | |- Forall _ (_ :: _) => apply Forall_cons
  | |- Forall _ [] => apply Forall_nil
  | |- everywhere _ (snd _) => cbn [snd]
  | |- everywhere _ _ => split; [|exact I]
  end.
Lemma g47_ok : wf g47 /\ everywhere json_node g47 /\ everywhere (exact_node 6) g47.
Proof.
  split; [unfold g47; wfd|]. split; unfold g47; every; cbn [json_node exact_node fst snd]; try exact I; try discriminate.
  - split; [discriminate|]. every; apply plain_dec; reflexivity.
  - split; [discriminate|]. every; vm_compute; reflexivity.
  - apply clean_dec. reflexivity.
  - split; [discriminate|]. every. apply plain_dec. reflexivity.
  - every; left; apply dec_digits_int; vm_compute; congruence.
Qed.
Example C47_example : exists t, json_of 6 12 (txt "  ") g47 = Ok t /\ wf g47 /\ everywhere json_node g47 /\ everywhere (exact_node 6) g47 /\ ws (txt "  ").
Proof.
  eexists. split; [vm_compute; reflexivity|]. destruct g47_ok as (A & B & C). split; [exact A|]. split; [exact B|]. split; [exact C|].
  repeat (constructor; [cbn; auto|]). constructor.
Qed.

(** * C62: what to_json writes can be read back.

    Full statement: for every container [g], reading the text [t] of json_of P SP prefix g with
    from_json2, or with from_json (which gets the document [j] of [t] from rapidjson), returns
    true and gives a container with the data of [g]. *)

(** False in the code, even when the text is valid JSON.  from_json2 flattens a matrix; from_json
    makes numbers from 2^31 to 2^32-1 negative, among them reals. *)
Definition length_of (d : dat) : Z := match d with DList l => zlen l | _ => 0 end.
Theorem C62_matrix_refuted : exists t g', json_of 17 12 [] (GMInt (Mat 1 2 [1; 2])) = Ok t /\
  from_json2 t GNone = (Ok true, g') /\ length_of (data_of g') = 4 /\ length_of (data_of (GMInt (Mat 1 2 [1; 2]))) = 2.
Proof.
  eexists. eexists. split; [vm_compute; reflexivity|]. split; [vm_compute; reflexivity|]. split; vm_compute; reflexivity.
Qed.
Theorem C62_range_refuted : exists t j g', json_of 17 12 [] (GReal (f_of_Z (3 * 10^9))) = Ok t /\ json_text false t j /\
  from_json (Some j) GNone = (Ok true, g') /\ data_of g' = d_int (3 * 10^9 - 2^32).
Proof.
  exists (map digit [3;0;0;0;0;0;0;0;0;0]), (JInt (dval [3;0;0;0;0;0;0;0;0;0])), (GInt (-1294967296)). split; [vm_compute; reflexivity|]. split; [|split; vm_compute; reflexivity].
  exists [], (map digit [3;0;0;0;0;0;0;0;0;0]), []. split; [reflexivity|]. split; [constructor|]. split; [|constructor]. apply jv_number.
  refine (jn_int false (map digit [3;0;0;0;0;0;0;0;0;0]) [3;0;0;0;0;0;0;0;0;0] _ _); [apply (digits_of [3;0;0;0;0;0;0;0;0;0]); repeat constructor; lia|]. right. exists 3, [0;0;0;0;0;0;0;0;0]. split; [reflexivity|lia].
Qed.

Lemma pow18 P : (P <= 18)%nat -> 10 ^ Z.of_nat P <= 10 ^ 18.
Proof. intros H. apply Z.pow_le_mono_r; lia. Qed.
Lemma fis_data x n : d_int n = d_real x -> fis x n.
Proof. unfold d_int, d_real, num_of_f, num_of_Z, fis. intros E. destruct (fscaled x); [|discriminate]. injection E as E. now rewrite E. Qed.
Lemma int32_fits i : int32 i -> - 2^63 <= i < 2^63 /\ (- 2^31 <= i < 2^31 \/ representable i).
Proof. unfold int32. intros H. split; [lia|]. left. lia. Qed.
Lemma int32_kept i : int32 i -> small_or_large i.
Proof. unfold int32, small_or_large. lia. Qed.
Lemma clean_no_nul s : clean_text (txt s) -> no_nul s.
Proof.
  unfold no_nul. change (list_ascii_of_string s) with (txt s). induction 1 as [|c t Hc _ IH|n t H1 H2 _ IH]; [easy| |].
  - intros [->|K]; [|auto]. destruct Hc as [Hc|Hc]; cbn in Hc; [lia|intuition discriminate].
  - intros K. apply in_app_iff in K as [K|K]; [|auto]. pose proof (utf8_high n H1) as F. rewrite Forall_forall in F. apply F in K. cbn in K. lia.
Qed.
Lemma plain_no_nul s : plain_text (txt s) -> no_nul s.
Proof.
  unfold no_nul. change (list_ascii_of_string s) with (txt s). induction 1 as [|c t Hc _ IH|n t H1 H2 _ IH]; [easy| |].
  - intros [->|K]; [|auto]. destruct Hc as [Hc _]. cbn in Hc. lia.
  - intros K. apply in_app_iff in K as [K|K]; [|auto]. pose proof (utf8_high n H1) as F. rewrite Forall_forall in F. apply F in K. cbn in K. lia.
Qed.

Section Back.
  Variables (P : nat) (g : gc) (j : json).
  Hypothesis HP : (P <= 18)%nat.
  Hypothesis W : wf g.
  Hypothesis N : everywhere json_node g.
  Hypothesis X : everywhere (exact_node P) g.
  Hypothesis L : exact_longs g.
  Hypothesis D : doc P g j.
  Let fits (n : Z) : Prop := - 2^63 <= n < 2^63 /\ (- 2^31 <= n < 2^31 \/ representable n).

  Lemma real_fits x : f64 x -> realQ P fits x.
  Proof.
    intros Hx n Hn E. assert (10 ^ 18 < 2 ^ 63) by reflexivity. pose proof (pow18 P HP). split; [lia|].
    right. exists x. split; [assumption|now apply fis_data].
  Qed.
  Lemma real_kept x : f64 x -> real_small_or_large x -> realQ P (fun n => fits n /\ small_or_large n) x.
  Proof. intros Hx K n Hn E. split; [now apply real_fits with (x := x)|]. apply K. now apply fis_data. Qed.

  Lemma back_ints : jall (fun j => int64_literals j /\ exact_ints j /\ match j with JStr s => no_nul s | _ => True end) j.
  Proof.
    assert (F : jall (leafQ fits no_nul) j).
    { apply (doc_leaf P fits no_nul g); [|assumption].
      pose proof (everywhere_and _ _ _ X (everywhere_and _ _ _ N (everywhere_and _ _ _ L (everywhere_wf _ W)))) as A.
      revert A. apply everywhere_impl. intros h (Xh & Nh & Lh & Wh). split; [assumption|].
      destruct h; try exact I; cbn [wf longs_representable json_node] in *.
      - now apply int32_fits.
      - split; [exact Wh|now right].
      - now apply real_fits.
      - now apply clean_no_nul.
      - eapply Forall_impl; [|exact Wh]. intros a. apply int32_fits.
      - rewrite Forall_forall in *. intros a Ha. split; [exact (Wh a Ha)|right; auto].
      - eapply Forall_impl; [|exact Wh]. intros a. apply real_fits.
      - destruct Nh as [_ Nh]. eapply Forall_impl; [|exact Nh]. intros a. apply clean_no_nul.
      - destruct Wh as (_ & _ & _ & Wh). eapply Forall_impl; [|exact Wh]. intros a. apply int32_fits.
      - destruct Wh as (_ & _ & _ & Wh). rewrite Forall_forall in *. intros a Ha. split; [exact (Wh a Ha)|right; auto].
      - destruct Wh as (_ & _ & _ & Wh). eapply Forall_impl; [|exact Wh]. intros a. apply real_fits. }
    revert F. apply jall_impl. intros i H. destruct i; cbn in *; unfold fits in *; tauto.
  Qed.
  Lemma back_kept : everywhere ints_kept g -> jall signed_int j.
  Proof.
    intros K. assert (F : jall (leafQ (fun n => fits n /\ small_or_large n) (fun _ => True)) j).
    { apply (doc_leaf P _ _ g); [|assumption].
      pose proof (everywhere_and _ _ _ X (everywhere_and _ _ _ K (everywhere_and _ _ _ L (everywhere_wf _ W)))) as A.
      revert A. apply everywhere_impl. intros h (Xh & Kh & Lh & Wh). split; [assumption|].
      destruct h; try exact I; cbn [wf longs_representable ints_kept] in *.
      - split; [now apply int32_fits|now apply int32_kept].
      - split; [split; [exact Wh|now right]|assumption].
      - now apply real_kept.
      - eapply Forall_impl; [|exact Wh]. intros a Ha. split; [now apply int32_fits|now apply int32_kept].
      - rewrite Forall_forall in *. intros a Ha. split; [split; [exact (Wh a Ha)|right; auto]|auto].
      - rewrite Forall_forall in *. intros a Ha. apply real_kept; auto.
      - apply Forall_forall. auto.
      - destruct Wh as (_ & _ & _ & Wh). eapply Forall_impl; [|exact Wh]. intros a Ha. split; [now apply int32_fits|now apply int32_kept].
      - destruct Wh as (_ & _ & _ & Wh). rewrite Forall_forall in *. intros a Ha. split; [split; [exact (Wh a Ha)|right; auto]|auto].
      - destruct Wh as (_ & _ & _ & Wh). rewrite Forall_forall in *. intros a Ha. apply real_kept; auto. }
    revert F. apply jall_impl. intros i H. destruct i; cbn in *; unfold fits, small_or_large in *; try exact I. lia.
  Qed.
  Lemma back_names : jall plain_strings j.
  Proof.
    assert (K : jall (fun j => match j with JObj m => Forall no_nul (map fst m) | _ => True end) j).
    { revert D. apply (doc_all P json_node); [| |
        |assumption]; try (intros; exact I).
      - intros h i Hv Hm _ H. inversion H; subst; try nested_contra Hv Hm; try (split; exact I).
        all: try match goal with
          | H : list_doc _ _ _ |- _ => apply (list_doc_all _ _ _ _ H); [intros; exact I|]; cbn beta; intros a k Ha Hi
          | H : mat_doc _ _ _ |- _ => apply (mat_doc_all _ _ _ _ H); [intros; exact I|intros; exact I|]; cbn beta; intros a k Ha Hi
          end.
        all: try match goal with H : real_doc _ _ _ |- _ => destruct H as [(? & -> & _)|(? & -> & _)] end.
        all: try match goal with H : is_str _ |- _ => destruct H as (? & ->) end.
        all: subst; split; exact I.
      - intros m l [_ Hm] Hl. replace (map fst l) with (map fst m).
        + apply Forall_forall. intros k Hk. apply in_map_iff in Hk as (a & <- & Ha). rewrite Forall_forall in Hm. apply plain_no_nul. auto.
        + clear Hm. induction Hl as [|a b m l [E _] _ IH]; [reflexivity|]. cbn. now f_equal. }
    pose proof (jall_and _ _ _ K back_ints) as A. revert A. apply jall_impl. intros i (H1 & _ & _ & H2). destruct i; auto.
  Qed.
End Back.

(** What remains for from_json2: the conditions of C47; no vectors or matrices directly inside
    vectors, no matrices; 64-bit integers that are exactly doubles, at most 18 digits, fewer than
    2^30 values; and the container is not just a number. *)
Theorem C62_json2_partial : forall P SP prefix g, (1 <= P <= 18)%nat -> ws prefix -> wf g ->
  everywhere json_node g -> everywhere (exact_node P) g -> everywhere no_nested_arrays g -> exact_longs g -> weight g < 2^30 ->
  ~ In (tag_of g) [TInt; TLong; TReal] ->
  exists t g', json_of P SP prefix g = Ok t /\ from_json2 t GNone = (Ok true, g') /\ wf g' /\ data_of g' = data_of g.
Proof.
  intros P SP prefix g HP Hp W N X A L S T.
  destruct (written_doc P SP prefix g ltac:(lia) Hp W N) as (t & j & E & H & D). exists t.
  pose proof (back_ints P g j ltac:(lia) W N X L D) as B.
  pose proof (doc_no_arrays P g j (everywhere_and _ _ _ A X) D) as [B1 B2].
  pose proof (doc_size P g j W N D) as Sz.
  destruct (C59_document_partial t j H) as (g' & E' & W' & E2); try assumption.
  - intros F. exfalso. apply T. destruct D; try discriminate F; cbn; auto;
      match goal with H : is_str _ |- _ => destruct H as (? & ->) | H : list_doc _ _ _ |- _ => destruct H as (? & -> & _) | H : mat_doc _ _ _ |- _ => destruct H as (? & -> & _) end; discriminate F.
  - revert B. apply jall_impl. tauto.
  - now apply (doc_names P g).
  - apply exact_unrounded. revert B. apply jall_impl. tauto.
  - lia.
  - exists g'. split; [assumption|]. split; [assumption|]. split; [assumption|]. rewrite E2. now apply (doc_data P).
Qed.
(** And for from_json, where matrices and nested vectors are read back: the conditions of C47, no
    numbers from 2^31 to 2^32-1, no vectors that mix scalars with one-element vectors. *)
Lemma doc_back : forall P g esc t j, (1 <= P <= 18)%nat -> wf g ->
  everywhere json_node g -> everywhere (exact_node P) g -> everywhere not_mixed_data g -> everywhere ints_kept g -> exact_longs g -> weight g < 2^30 ->
  json_text esc t j -> doc P g j -> exists g', from_json (Some j) GNone = (Ok true, g') /\ wf g' /\ data_of g' = data_of g.
Proof.
  intros P g esc t j HP W N X M K L S H D.
  pose proof (back_ints P g j ltac:(lia) W N X L D) as B.
  pose proof (doc_size P g j W N D) as Sz.
  destruct (C45_document_partial j) as (g' & E' & W' & E2).
  - pose proof (short_all (2^31) j ltac:(lia)) as B3.
    assert (B4 : jall double_literals j) by (destruct H as (w & u & w' & _ & _ & Hj & _); exact (proj1 (json_f64 esc) _ _ Hj)).
    pose proof (jall_and _ _ _ B (jall_and _ _ _ B3 B4)) as B5. revert B5. apply jall_impl.
    intros i ((I1 & _) & I2 & I3). destruct i; cbn in *; try exact I; try assumption; lia.
  - now apply (back_names P g j ltac:(lia) W N X L D).
  - now apply (doc_names P g).
  - lia.
  - now apply (back_kept P g j ltac:(lia) W X L D).
  - apply exact_unrounded. revert B. apply jall_impl. tauto.
  - now apply (doc_unmixed P g).
  - exists g'. split; [assumption|]. split; [assumption|]. rewrite E2. now apply (doc_data P).
Qed.
Theorem C62_json_partial : forall P SP prefix g, (1 <= P <= 18)%nat -> ws prefix -> wf g ->
  everywhere json_node g -> everywhere (exact_node P) g -> everywhere not_mixed_data g -> everywhere ints_kept g -> exact_longs g -> weight g < 2^30 ->
  exists t j g', json_of P SP prefix g = Ok t /\ json_text false t j /\
    from_json (Some j) GNone = (Ok true, g') /\ wf g' /\ data_of g' = data_of g.
Proof.
  intros P SP prefix g HP Hp W N X M K L S.
  destruct (written_doc P SP prefix g ltac:(lia) Hp W N) as (t & j & E & H & D).
  destruct (doc_back P g false t j HP W N X M K L S H D) as (g' & E2). exists t, j, g'. auto.
Qed.
Definition g62 : gc := GVec [GMap [("m"%string, GMInt (Mat 2 2 [1; 2; 3; 4])); ("r"%string, GVReal [f_of_Z 1; f_of_Z (-2)])]; GVec [GVInt [1; 2]; GVLong [2^40; 4]]].
Lemma kept_real k : fis (f_of_Z k) k -> small_or_large k -> real_small_or_large (f_of_Z k).
Proof.
  intros Hk K n Hn. unfold fis in *. rewrite Hk in Hn. apply Some_inj in Hn. pose proof fone_pos. apply Z.mul_reg_r in Hn; [now subst|lia].
Qed.
Example C62_example :
  (wf g47 /\ everywhere json_node g47 /\ everywhere (exact_node 6) g47 /\ everywhere no_nested_arrays g47 /\ exact_longs g47 /\ weight g47 < 2^30 /\
   ~ In (tag_of g47) [TInt; TLong; TReal]) /\
  (wf g62 /\ everywhere json_node g62 /\ everywhere (exact_node 6) g62 /\ everywhere not_mixed_data g62 /\ everywhere ints_kept g62 /\ exact_longs g62 /\ weight g62 < 2^30).
Proof.
  split.
  - destruct g47_ok as (A & B & C). split; [exact A|]. split; [exact B|]. split; [exact C|]. unfold g47, exact_longs.
    split; [every; cbn [no_nested_arrays]; try exact I; every; cbn; tauto|].
    split; [every; exact I|]. split; [vm_compute; reflexivity|]. cbn. intuition discriminate.
  - unfold g62, exact_longs. split; [wfd|].
    split; [every; cbn [json_node fst mrows mcols]; try discriminate; try (split; [lia|split; lia]);
            split; [discriminate| |discriminate|]; every; try (apply plain_dec; reflexivity); vm_compute; reflexivity|].
    split; [every; cbn [exact_node]; try exact I; every; left; apply dec_digits_int; vm_compute; congruence|].
    split; [every; cbn [not_mixed_data]; try exact I; intros a b d Ha Hb Hs _; cbn in Ha; exfalso;
            repeat (destruct Ha as [<-|Ha]; [cbn in Hs; intuition discriminate|]); exact Ha|].
    split; [every; cbn [ints_kept]; try exact I; every; first [unfold small_or_large; lia|apply kept_real; [vm_compute; reflexivity|unfold small_or_large; lia]]|].
    split; [|vm_compute; reflexivity].
    every; cbn [longs_representable]; try exact I. every.
    + exists (f_of_Z (2^40)). split; [unfold f64; vm_compute; split; congruence|vm_compute; reflexivity].
    + exists (f_of_Z 4). split; [unfold f64; vm_compute; split; congruence|vm_compute; reflexivity].
Qed.

Print Assumptions C47_valid_partial.
Print Assumptions C47_data_partial.
Print Assumptions C47_empty_refuted.
Print Assumptions C47_name_refuted.
Print Assumptions C47_number_refuted.
Print Assumptions C47_string_refuted.
Print Assumptions C47_data_refuted.
Print Assumptions C47_hex_refuted.
Print Assumptions C62_matrix_refuted.
Print Assumptions C62_range_refuted.
Print Assumptions C62_json2_partial.
Print Assumptions C62_json_partial.
