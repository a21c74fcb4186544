(** Properties C98 and C99: the texts that from_json accepts, and the reals in them. *)
From Coq Require Import ZArith Bool Lia Ascii String List.
From Verif Require Import Base F64 StrMap Value WfDec SGet SPromote SCollapse MNum LNum LJson2Doc MText MJson SJson SJsonText SToJson MToJson LToJson LToJsonNum SRapid MRapid LRapidNum LRapid LRapidReal LRapidRel LRapidAcc LRapidFin LRapidUtf LRapidDoc LRapidOut Props_tojson.
Import ListNotations.
Local Open Scope Z_scope.

Lemma json_rapid (num : text -> json -> Prop) t j : (forall t j, num t j -> rj_num t j) -> gtext (jstring true) num t j -> rapidjson t = Some j.
Proof.
  intros Hn H. apply rapidjson_spec. exists t, []. split; [now rewrite app_nil_r|]. split; [exact I|].
  revert H. apply gtext_mono; [intros; now apply jstring_bstring|exact Hn].
Qed.

(** * C98: from_json accepts exactly the JSON texts and finds their document.
    False as it stands: zero with an exponent from 309 on is refused; bytes that are no UTF-8 are taken, and so is
    anything after a NUL byte. *)
Theorem C98_zero_refuted : forall g, json_text true (txt "0e309") (JDbl 0) /\ from_json_text (txt "0e309") g = (Ok false, g).
Proof.
  intros g. split; [|reflexivity]. exists [], (txt "0e309"), []. split; [reflexivity|]. split; [constructor|]. split; [|constructor].
  apply jv_number. refine (jn_real false (txt "0") [0] [] [] (txt "e309") 309 _ _ _ _ _).
  - constructor; [split; [lia|reflexivity]|constructor].
  - now left.
  - now left.
  - right. exists "e"%char, (txt "309"), [3; 0; 9], false, []. split; [reflexivity|]. split; [now left|].
    split; [repeat (constructor; [split; [lia|reflexivity]|]); constructor|]. split; [discriminate|]. split; [now left|reflexivity].
  - discriminate.
Qed.
(** A string of one byte 255 is no JSON text. *)
Theorem C98_bytes_refuted : let t := [ch 34; ch 255; ch 34] in
  from_json_text t GNone = (Ok true, GStr (untxt [ch 255])) /\ forall j, ~ json_text true t j.
Proof.
  cbv zeta. split; [vm_compute; reflexivity|]. intros j H. apply json_utf8 in H.
  apply (utf8_drop [ch 34]) in H; [|constructor; [now apply asc_ch|constructor]].
  inversion H as [|n t Hn Hs U E]. destruct (utf8_cases n Hn) as [(c & R & A)|[Hn' R]].
  - rewrite R in E. injection E as E _. subst c. unfold asc in A. vm_compute in A. discriminate.
  - revert E. unfold utf8. destruct (Z.ltb_spec n 128); [lia|].
    assert (B : forall z, 0 <= z < 255 -> ch (Z.to_N z) <> ch 255).
    { intros z Hz E. apply (f_equal N_of_ascii) in E. unfold ch in E. rewrite !N_ascii_embedding in E by lia. lia. }
    assert (0 <= n / 64 /\ 0 <= n / 4096 /\ 0 <= n / 262144 /\ (n < 2048 -> n / 64 < 63) /\ (n < 65536 -> n / 4096 < 31) /\ n / 262144 < 15) as (D1 & D2 & D3 & D4 & D5 & D6).
    { repeat split; intros; first [apply Z.div_pos; lia | apply Z.div_lt_upper_bound; lia]. }
    destruct (Z.ltb_spec n 2048); [|destruct (Z.ltb_spec n 65536)]; cbn [map app]; intros E; apply (f_equal (hd (ch 0))) in E; cbn [hd] in E; revert E; apply B; (split; [lia|]); [specialize (D4 ltac:(assumption))|specialize (D5 ltac:(assumption))|]; lia.
Qed.
Theorem C98_nul_refuted : let t := txt "1" ++ [ch 0] ++ txt " trash" in
  from_json_text t GNone = (Ok true, GInt 1) /\ forall j, ~ json_text true t j.
Proof.
  cbv zeta. split; [vm_compute; reflexivity|]. intros j H.
  apply json_solid in H. rewrite Forall_forall in H. apply (H (ch 0)); [cbn; auto|reflexivity].
Qed.

(** Texts whose numbers are 64-bit integers or reals of few digits and small exponents are read
    exactly. *)
Theorem C98_exact_partial : forall t j g, gtext (jstring true) plain t j ->
  json_text true t j /\ from_json_text t g = from_json (Some j) g.
Proof.
  intros t j g H. split.
  - apply gtext_json. revert H. apply gtext_mono; [auto|apply plain_jnumber].
  - unfold from_json_text. now rewrite (json_rapid plain t j plain_rj H).
Qed.
(** Texts whose numbers are at most 10^308 and have at most 308 digits before the point are read,
    with numbers that stand for those of the text up to rounding errors. *)
Definition same_number (j0 j : json) : Prop := exists s, jnumber s j0 /\ close s j.
Theorem C98_accepted_partial : forall t j0 g, gtext (jstring true) (fun s i => jnumber s i /\ moderate s) t j0 ->
  exists j, same_doc same_number j0 j /\ from_json_text t g = from_json (Some j) g.
Proof.
  intros t j0 g H.
  destruct (gtext_renumber (jstring true) (fun s i => jnumber s i /\ moderate s) rj_num same_number t j0) with (2 := H) as (j & Hj & S).
  - intros s i [Hi Hm]. destruct (moderate_rj s Hm) as (j & R & C). exists j. split; [exact R|]. exists s. auto.
  - exists j. split; [exact S|]. unfold from_json_text. now rewrite (json_rapid rj_num t j (fun _ _ x => x) Hj).
Qed.
(** Nothing else is accepted: what is read is, up to the first NUL byte, a JSON text but for bytes
    that are no UTF-8.  The document is the one of the text; its numbers are of the same kind. *)
Theorem C98_only_partial : forall t j g, rapidjson t = Some j ->
  from_json_text t g = from_json (Some j) g /\
  exists u v j0, t = u ++ v /\ (v = [] \/ exists r, v = ch 0 :: r) /\ gtext bstring jnumber u j0 /\ same_doc like j j0 /\
    (utf8_text u -> json_text true u j0).
Proof.
  intros t j g H. split; [unfold from_json_text; now rewrite H|]. apply rapidjson_spec in H as (u & v & -> & Ev & H).
  destruct (gtext_renumber bstring rj_num jnumber like u j rj_like H) as (j0 & H0 & S). exists u, v, j0. split; [reflexivity|]. split.
  - destruct v as [|c r]; [now left|right]. exists r. f_equal. cbn in Ev. unfold byte in Ev. rewrite <- (ascii_N_embedding c), Ev. reflexivity.
  - split; [exact H0|]. split; [exact S|]. intros U. apply gtext_json. now apply gtext_utf8.
Qed.
(** So UTF-8 texts without NUL bytes are refused if they are no JSON texts, and the container stays
    as it was. *)
Theorem C98_refused : forall t g, utf8_text t -> ~ In (ch 0) t -> (forall j, ~ json_text true t j) -> from_json_text t g = (Ok false, g).
Proof.
  intros t g U N H. unfold from_json_text. destruct (rapidjson t) as [j|] eqn:E; [|reflexivity]. exfalso.
  destruct (C98_only_partial t j g E) as (_ & u & v & j0 & -> & Hv & _ & _ & K). destruct Hv as [->|(r & ->)].
  - rewrite app_nil_r in *. now apply (H j0), K.
  - apply N. apply in_or_app. right. now left.
Qed.


(** A text that is read exactly, and one with numbers that are not. *)
Lemma number_intro neg l lf ex : Forall is_digit l -> int_part l ->
  match lf with Some l => Forall is_digit l /\ l <> [] | None => True end ->
  match ex with Some (ne, l) => Forall is_digit l /\ l <> [] | None => True end ->
  number (minus neg ++ map digit l ++ match lf with Some l => "."%char :: map digit l | None => [] end ++
          match ex with Some (ne, l) => "e"%char :: minus ne ++ map digit l | None => [] end)
    neg l (fd lf) (ev ex) (match lf, ex with None, None => false | _, _ => true end).
Proof.
  intros Hl Hi Hf He.
  assert (L : literal (minus neg ++ map digit l ++ match lf with Some l => "."%char :: map digit l | None => [] end ++
          match ex with Some (ne, l) => "e"%char :: minus ne ++ map digit l | None => [] end) neg l lf ex).
  { eexists _, _. split; [reflexivity|]. split; [assumption|]. split; [assumption|]. split.
    - destruct lf as [lf|]; [|reflexivity]. destruct Hf. now split.
    - destruct ex as [[ne le]|]; [|reflexivity]. destruct He. exists "e"%char, (minus ne). split; [reflexivity|]. split; [now left|]. split; [now left|]. now split. }
  destruct (literal_number _ _ _ _ _ L) as (real & N & _ & R). 
  assert (E : real = match lf, ex with None, None => false | _, _ => true end).
  { destruct lf as [lf|], ex as [ex|]; try (apply R; first [left; discriminate | right; discriminate]).
    destruct real; [|reflexivity]. destruct (proj1 R eq_refl); congruence. }
  rewrite <- E. exact N.
Qed.
Ltac fd := repeat (apply Forall_cons; [unfold is_digit; lia|]); apply Forall_nil.
Ltac ip := first [now left | right; eexists _, _; split; [reflexivity|lia]].
Ltac num n l f e := refine (number_intro n l f e ltac:(fd) ltac:(ip) _ _); first [exact I | split; [fd|discriminate]].
Ltac str := constructor; repeat first [apply jc_nil | apply jc_plain; [vm_compute; split; congruence|discriminate|discriminate|] |
  apply (jc_escape true); [left; cbn [In]; auto 10|]].
(** {"a":[1, 2.5e3],"b\n":-0.125} *)
Definition m98 : text := ([] ++ (ch 34 :: ["a"%char] ++ [ch 34]) ++ [] ++ ":"%char :: [] ++
    ("["%char :: ([] ++ txt "1" ++ [] ++ ","%char :: ([" "%char] ++ txt "2.5e3" ++ [])) ++ ["]"%char]) ++ [] ++ ","%char ::
    ([] ++ (ch 34 :: ["b"%char; ch 92; "n"%char] ++ [ch 34]) ++ [] ++ ":"%char :: [] ++ txt "-0.125" ++ [])).
Definition j98 : json := JObj [(untxt ["a"%char], JArr [JInt 1; JDbl (f_of_Z 2500)]); (untxt ["b"%char; ch 10], JDbl (2^63 + f_of_Q 1 8))].
Lemma plain_ex : plain (txt "1") (JInt 1) /\ plain (txt "2.5e3") (JDbl (f_of_Z 2500)) /\ plain (txt "-0.125") (JDbl (2^63 + f_of_Q 1 8)).
Proof.
  split; [|split].
  - exists false, [1], [], 0, false. split; [num false [1] (@None (list Z)) (@None (bool * list Z))|]. left. vmc.
  - exists false, [2], [5], 3, true. split; [num false [2] (Some [5]) (Some (false, [3]))|]. right. vmc.
  - exists true, [0], [1; 2; 5], 0, true. split; [num true [0] (Some [1; 2; 5]) (@None (bool * list Z))|]. right. vmc.
Qed.
Lemma int_part_first u l : digits u l -> int_part l -> exists d r, u = digit d :: r /\ 0 <= d <= 9.
Proof. intros Hu Hi. destruct Hu as [|c d u l [Hd ->] Hu]; [destruct Hi as [Hi|(d & r & Hi & _)]; discriminate|]. exists d, u. auto. Qed.
Lemma jval_nonempty j : ~ jval true [] j.
Proof.
  intros H. inversion H. match goal with H : jnumber _ _ |- _ => apply jnumber_number in H as (neg & l & lf & e & real & (u & tf & te & E & Hu & Hi & _) & _) end.
  destruct (int_part_first _ _ Hu Hi) as (d & r & -> & _). destruct neg; discriminate E. inversion H0.
Qed.
Lemma jval_n u j : jval true ("n"%char :: u) j -> u = txt "ull".
Proof.
  intros H. inversion H; try reflexivity.
  - match goal with H : jnumber _ _ |- _ => apply jnumber_number in H as (neg & l & lf & e & real & (v & tf & te & E & Hu & Hi & _) & _) end.
    destruct (int_part_first _ _ Hu Hi) as (d & r & -> & Hd). destruct neg; [discriminate E|]. cbn [minus app] in E. exfalso.
    apply (f_equal (hd (ch 0))) in E. cbn [hd] in E. assert (K : forall d, 0 <= d <= 9 -> digit d <> "n"%char) by (intros k Hk E2; assert (k = 0 \/ k = 1 \/ k = 2 \/ k = 3 \/ k = 4 \/ k = 5 \/ k = 6 \/ k = 7 \/ k = 8 \/ k = 9) as D by lia; repeat (destruct D as [->|D]; [discriminate E2|]); subst k; discriminate E2).
    now apply (K d).
  - match goal with H : jstring _ _ _ |- _ => inversion H end.
Qed.
Example C98_example : "{"%char :: m98 ++ ["}"%char] = quoted "{'a':[1, 2.5e3],'b\n':-0.125}" /\
  gtext (jstring true) plain ("{"%char :: m98 ++ ["}"%char]) j98 /\
  from_json_text ("{"%char :: m98 ++ ["}"%char]) GNone =
    (Ok true, GMap [(untxt ["a"%char], GVReal [f_of_Z 1; f_of_Z 2500]); (untxt ["b"%char; ch 10], GReal (2^63 + f_of_Q 1 8))]) /\
  (moderate (txt "3e-5") /\ moderate (txt "18446744073709551616") /\ moderate (txt "0.1234567890123456789")) /\
  (utf8_text (txt "nul") /\ ~ In (ch 0) (txt "nul") /\ forall j, ~ json_text true (txt "nul") j).
Proof.
  assert (B : ws [" "%char]) by (constructor; [cbn; auto|constructor]). assert (N : ws []) by constructor. destruct plain_ex as (P1 & P2 & P3).
  split; [reflexivity|]. split.
  { exists [], ("{"%char :: m98 ++ ["}"%char]), []. split; [reflexivity|]. split; [assumption|]. split; [|assumption].
    apply gv_obj. apply gm_more; try assumption; [str| |].
    - apply gv_arr. apply ge_more; [assumption|now apply gv_number|assumption|]. apply ge_one; [assumption|now apply gv_number|assumption].
    - apply gm_one; try assumption; [str|now apply gv_number]. }
  split; [vm_compute; reflexivity|]. split; [split; [|split]|].
  - exists false, [3], [], (-5), true. split; [num false [3] (@None (list Z)) (Some (true, [5]))|]. vmc.
  - exists false, [1;8;4;4;6;7;4;4;0;7;3;7;0;9;5;5;1;6;1;6], [], 0, false. split; [num false [1;8;4;4;6;7;4;4;0;7;3;7;0;9;5;5;1;6;1;6] (@None (list Z)) (@None (bool * list Z))|]. vmc.
  - exists false, [0], [1;2;3;4;5;6;7;8;9;0;1;2;3;4;5;6;7;8;9], 0, true. split; [num false [0] (Some [1;2;3;4;5;6;7;8;9;0;1;2;3;4;5;6;7;8;9]) (@None (bool * list Z))|]. vmc.
  - assert (U : utf8_text (txt "nul")) by (apply utf8_ascii; repeat (constructor; [reflexivity|]); constructor).
    assert (Z0 : ~ In (ch 0) (txt "nul")) by (cbn; intuition discriminate). split; [exact U|]. split; [exact Z0|].
    intros j (w & u & w' & E & W & V & W'). destruct W as [|c w Hc W]; [|injection E as <- _; cbn in Hc; lia].
    cbn [app] in E. destruct u as [|c u]; [now apply jval_nonempty in V|]. injection E as <- E.
    rewrite (jval_n _ _ V) in E. discriminate E.
Qed.

(** * C99: from_json reads a real as the double nearest to it.
    False: reals of more digits or with larger exponents are multiplied and divided by a power of
    ten, with a rounding at each step.  1e-23 is read as its neighbour. *)
Theorem C99_refuted : exists x, jnumber (txt "1e-23") (JDbl x) /\ from_json_text (txt "1e-23") GNone = (Ok true, GReal (x + 1)).
Proof.
  exists (f_of_Q 1 (10^23)). split; [|vm_compute; reflexivity].
  refine (number_jnumber _ false [1] [] (-23) true _). num false [1] (@None (list Z)) (Some (true, [2; 3])).
Qed.
(** A number alone in a text is read. *)
Lemma alone t j : rj_num t j -> rapidjson t = Some j.
Proof.
  intros H. apply (json_rapid rj_num t j); [auto|]. exists [], t, []. split; [now rewrite app_nil_r|]. split; [constructor|]. split; [now apply gv_number|constructor].
Qed.
Lemma read_alone t x g : rj_num t (JDbl x) -> from_json_text t g = (Ok true, GReal x).
Proof. intros H. unfold from_json_text. rewrite (alone _ _ H). reflexivity. Qed.
(** The nearest double for m * 10^p with m below 2^53 and p from -22 to 22. *)
Theorem C99_exact_partial : forall t neg l lf e, number t neg l lf e true -> dval (l ++ lf) < 2^53 -> -22 <= e - zlen lf <= 22 ->
  exists x, jnumber t (JDbl x) /\ forall g, from_json_text t g = (Ok true, GReal x).
Proof.
  intros t neg l lf e H Hm Hp. eexists. split; [exact (number_jnumber _ _ _ _ _ _ H)|]. intros g. apply read_alone, plain_rj.
  exists neg, l, lf, e, true. split; [exact H|]. right. auto.
Qed.
(** Otherwise, for numbers from 10^-307 to 10^308 with up to 308 digits before the point, a double
    that is off by a few units of the last place: the relative error is at most k / (2^52 - k),
    k = 10 or twice the number of digits before the point.  Zero is exact. *)
Theorem C99_error_partial : forall t neg l lf e, number t neg l lf e true ->
  let m := dval (l ++ lf) in
  let p := e - zlen lf in
  let k := Z.max 10 (2 * zlen l) in
  zlen l <= 308 -> zlen lf <= 2 * 10^9 -> vden p <= 10^307 * vnum m p -> vnum m p <= 10^308 * vden p ->
  exists x, (forall g, from_json_text t g = (Ok true, GReal x)) /\ is_finite x = true /\ fsign x = neg /\
    Z.abs (fmag x * vden p - vnum m p * fone) * (2^52 - k) <= k * (vnum m p * fone).
Proof.
  intros t neg l lf e H m p k Hz Hzf Hlo Hhi.
  assert (Hm : 0 < m).
  { assert (0 <= m) by (apply dval_nonneg; destruct (number_digits _ _ _ _ _ _ H); now apply Forall_app).
    destruct (Z.eq_dec m 0) as [E|E]; [|lia]. exfalso. rewrite E in Hlo. assert (V : vnum 0 p = 0) by (unfold vnum; destruct (0 <=? p); reflexivity).
    rewrite V, Z.mul_0_r in Hlo. pose proof (vden_pos p). lia. }
  destruct (number_near _ _ _ _ _ _ H Hz Hzf Hhi) as (x & X & (_ & F & S & _ & N)); [fold m; lia|now left|].
  exists x. split; [intros g; now apply read_alone|]. split; [exact F|]. split; [exact S|]. exact (N Hm Hlo).
Qed.
Theorem C99_zero_partial : forall t neg l lf e, number t neg l lf e true -> dval (l ++ lf) = 0 ->
  zlen l <= 308 -> zlen lf <= 2 * 10^9 -> e <= 308 + zlen lf ->
  forall g, from_json_text t g = (Ok true, GReal (if neg then 2^63 else 0)).
Proof.
  intros t neg l lf e H Hm Hz Hzf He g.
  destruct (number_literal _ _ _ _ _ _ H) as (lf' & ex & L & <- & <- & P & R).
  destruct (num_res_about neg l lf' ex P) as (x & E & _ & Hx0 & _); [pose proof (proj1 R eq_refl); tauto|assumption|assumption| |auto|].
  - rewrite Hm. unfold vnum. pose proof (vden_pos (ev ex - zlen (fd lf'))). assert (0 < top) by reflexivity. destruct (0 <=? _); apply Z.mul_nonneg_nonneg; lia.
  - rewrite (Hx0 Hm) in E. apply read_alone. exists neg, l, lf', ex. split; [exact L|]. rewrite E. now rewrite Z.add_0_r.
Qed.
Example C99_example :
  (number (txt "2.5e3") false [2] [5] 3 true /\ dval ([2] ++ [5]) < 2^53 /\ -22 <= 3 - zlen [5] <= 22) /\
  (number (txt "1e-23") false [1] [] (-23) true /\ zlen [1] <= 308 /\ vden (-23) <= 10^307 * vnum 1 (-23) /\ vnum 1 (-23) <= 10^308 * vden (-23)) /\
  number (txt "-0.00e7") true [0] [0; 0] 7 true.
Proof.
  split; [split; [num false [2] (Some [5]) (Some (false, [3]))|vmc]|].
  split; [split; [num false [1] (@None (list Z)) (Some (true, [2; 3]))|vmc]|]. num true [0] (Some [0; 0]) (Some (false, [7])).
Qed.

(** * C62, on the text: to_json writes a text from which from_json reads the same data.

    Here the text goes through rapidjson.  The conditions are those of C62_json_partial and, because
    rapidjson does not read every real to the nearest double (C99), at most 15 digits, and reals that are
    zero or from 10^-7 to 10^22. *)
Theorem C62_text_partial : forall P SP prefix g, (1 <= P <= 15)%nat -> ws prefix -> wf g ->
  everywhere json_node g -> everywhere (exact_node P) g -> everywhere (real_node medium) g ->
  everywhere not_mixed_data g -> everywhere ints_kept g -> exact_longs g -> weight g < 2^30 ->
  exists t g', json_of P SP prefix g = Ok t /\ from_json_text t GNone = (Ok true, g') /\ wf g' /\ data_of g' = data_of g.
Proof.
  intros P SP prefix g HP Hp W N X Q M K L S.
  destruct (g_to_json_written plain P medium int_plain (fun x Hx Hf Hm => real_plain P x HP Hx Hf Hm) SP g W N Q prefix Hp) as (w & u & j & E & Hw & Hu & D).
  assert (T : gtext (jstring true) plain (w ++ u) j).
  { exists w, u, []. rewrite app_nil_r. split; [reflexivity|]. split; [assumption|]. split; [|apply ws_nil].
    revert Hu. apply gval_mono; [exact jstring_more|auto]. }
  destruct (C98_exact_partial _ _ GNone T) as [Ht Er].
  destruct (doc_back P g true (w ++ u) j ltac:(lia) W N X M K L S Ht D) as (g' & E2 & W' & E3).
  exists (w ++ u), g'. unfold json_of. rewrite E. split; [reflexivity|]. rewrite Er. auto.
Qed.
(** With 17 digits, which determine every double, the real 0.41192923963093764 is read as its neighbour. *)
Theorem C62_text_refuted : let x := 4601092277398325530 in
  json_of 17 4 [] (GReal x) = Ok (txt "0.41192923963093764") /\
  from_json_text (txt "0.41192923963093764") GNone = (Ok true, GReal (x - 1)).
Proof. split; vm_compute; reflexivity. Qed.
Example C62_text_example :
  wf g62 /\ everywhere json_node g62 /\ everywhere (exact_node 6) g62 /\ everywhere (real_node medium) g62 /\
  everywhere not_mixed_data g62 /\ everywhere ints_kept g62 /\ exact_longs g62 /\ weight g62 < 2^30.
Proof.
  destruct C62_example as (_ & A & B & C & D & E & F & G).
  split; [exact A|]. split; [exact B|]. split; [exact C|]. split; [|tauto].
  unfold g62. every; cbn [real_node]; try exact I. every; right; vmc.
Qed.

Print Assumptions C98_zero_refuted.
Print Assumptions C98_bytes_refuted.
Print Assumptions C98_nul_refuted.
Print Assumptions C98_exact_partial.
Print Assumptions C98_accepted_partial.
Print Assumptions C98_only_partial.
Print Assumptions C98_refused.
Print Assumptions C99_refuted.
Print Assumptions C99_exact_partial.
Print Assumptions C99_error_partial.
Print Assumptions C99_zero_partial.
Print Assumptions C62_text_partial.
Print Assumptions C62_text_refuted.
