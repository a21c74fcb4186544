(** UTF-8 texts in the rapidjson reader. *)
From Coq Require Import ZArith Bool Lia Ascii String List.
From Verif Require Import Base MNum LNum MJson SJsonText SRapid LRapidStr LToJson LJson2Lex.
Import ListNotations.
Local Open Scope Z_scope.

Definition asc (c : ascii) : Prop := (byte c < 128)%N.
Definition high (c : ascii) : Prop := (128 <= byte c)%N.

Lemma utf8_low n : 0 <= n < 128 -> utf8 n = [ch (Z.to_N n)].
Proof. intros H. unfold utf8. now rewrite (proj2 (Z.ltb_lt _ _)) by lia. Qed.
Lemma utf8_nonempty n : utf8 n <> [].
Proof. unfold utf8. destruct (_ <? _); [discriminate|]. destruct (_ <? _); [discriminate|]. destruct (_ <? _); discriminate. Qed.
(** A character of a UTF-8 text is a single byte or consists of high bytes. *)
Lemma utf8_cases n : 0 <= n < 1114112 -> (exists c, utf8 n = [c] /\ asc c) \/ (128 <= n /\ Forall high (utf8 n)).
Proof.
  intros H. destruct (Z.lt_ge_cases n 128) as [L|L].
  - left. exists (ch (Z.to_N n)). split; [apply utf8_low; lia|]. unfold asc. rewrite byte_ch; lia.
  - right. split; [assumption|]. apply utf8_high. lia.
Qed.
Lemma utf8_text_split t : utf8_text t -> forall a c b, t = a ++ c :: b -> asc c -> utf8_text a /\ utf8_text b.
Proof.
  induction 1 as [|n t Hn Hs Ht IH]; intros a c b E Hc; [now destruct a|].
  destruct (utf8_cases n Hn) as [(x & U & Hx)|[Hn' U]].
  - rewrite U in E. cbn [app] in E. destruct a as [|y a]; cbn [app] in E; injection E as <- E.
    + subst t. split; [constructor|assumption].
    + destruct (IH a c b E Hc) as [A B]. split; [|assumption]. replace (x :: a) with (utf8 n ++ a) by (rewrite U; reflexivity). now constructor.
  - assert (S : exists a', a = utf8 n ++ a' /\ t = a' ++ c :: b).
    { clear IH Ht. revert a E. induction U as [|y u Hy U IHu]; intros a E; [exists a; auto|]. cbn [app] in E.
      destruct a as [|z a]; cbn [app] in E; injection E as <- E.
      - unfold high in Hy. unfold asc in Hc. lia.
      - destruct (IHu a E) as (a' & -> & ->). exists a'. auto. }
    destruct S as (a' & -> & ->). destruct (IH a' c b eq_refl Hc) as [A B]. split; [|assumption]. now constructor.
Qed.
Lemma utf8_drop a b : Forall asc a -> utf8_text (a ++ b) -> utf8_text b.
Proof.
  induction 1 as [|c a Hc Ha IH]; [auto|]. intros H. apply IH. exact (proj2 (utf8_text_split _ H [] c (a ++ b) eq_refl Hc)).
Qed.
Lemma utf8_keep a b : Forall asc b -> utf8_text (a ++ b) -> utf8_text a.
Proof.
  destruct 1 as [|c b Hc Hb]; [now rewrite app_nil_r|]. intros H. exact (proj1 (utf8_text_split _ H a c b eq_refl Hc)).
Qed.
Lemma ws_asc w : ws w -> Forall asc w.
Proof.
  apply Forall_impl. intros c H. unfold asc, blank in *. cbn in H. lia.
Qed.

(** ** Strings *)
Lemma dig_asc c d : dig c d -> asc c.
Proof. intros [H ->]. unfold asc. rewrite byte_ch by lia. lia. Qed.
Lemma hex_asc c d : hex c d -> asc c.
Proof. intros [H|(H & [-> | ->])]; [eapply dig_asc; eassumption| |]; unfold asc; rewrite byte_ch by lia; lia. Qed.
Lemma hex4_asc h n : hex4 h n -> Forall asc h.
Proof.
  intros (a & b & c & d & x & y & z & w & -> & Ha & Hb & Hc & Hd & _).
  repeat (constructor; [eapply hex_asc; eassumption|]). constructor.
Qed.
Lemma escape_asc c d : simple_escape true c d -> asc c.
Proof.
  intros [H|(_ & -> & _)]; [|reflexivity]. cbn [In] in H.
  repeat (destruct H as [H|H]; [injection H as <- _; vm_compute; reflexivity|]). destruct H.
Qed.
Lemma jchars_bchars t s : jchars true t s -> bchars t s.
Proof.
  induction 1 as [|c t s Hc H1 H2 H IH|n t s Hn Hs H IH|c d t s Hc H IH|h n t s _ Hh Hs H IH|h1 n1 h2 n2 t s _ Hh1 Hn1 Hh2 Hn2 H IH].
  - constructor.
  - constructor; auto. lia.
  - pose proof (utf8_high n ltac:(lia)) as U. induction U as [|c u Hc U IHu]; [exact IH|]. cbn [app].
    constructor; [lia| | |exact IHu]; intros ->; vm_compute in Hc; congruence.
  - now constructor.
  - now constructor.
  - now constructor.
Qed.
Lemma bchars_high u t s : Forall high u -> bchars (u ++ t) s -> exists s', s = u ++ s' /\ bchars t s'.
Proof.
  intros U. revert s. induction U as [|c u Hc U IH]; intros s H; [exists s; auto|]. cbn [app] in H. inversion H; subst.
  - match goal with B : bchars _ _ |- _ => destruct (IH _ B) as (s' & -> & B') end. exists s'. auto.
  - exfalso. revert Hc. vm_compute. congruence.
  - exfalso. revert Hc. vm_compute. congruence.
  - exfalso. revert Hc. vm_compute. congruence.
Qed.
Lemma asc_ch n : (n < 128)%N -> asc (ch n).
Proof. intros H. unfold asc. rewrite byte_ch; lia. Qed.
Lemma bchars_jchars k : forall t s, (List.length t <= k)%nat -> bchars t s -> utf8_text t -> jchars true t s.
Proof.
  induction k as [|k IH]; intros t s Hk H U.
  - destruct t; [|cbn in Hk; lia]. inversion H. constructor.
  - destruct H as [|c t s Hc H1 H2 H|c d t s Hc H|h n t s Hh Hs H|h1 n1 h2 n2 t s Hh1 Hn1 Hh2 Hn2 H]; cbn [List.length] in Hk.
    + constructor.
    + destruct (N.lt_ge_cases (byte c) 128) as [L|L].
      * constructor; auto. apply IH; [lia|assumption|]. apply (utf8_drop [c] t); [constructor; [exact L|constructor]|exact U].
      * inversion U as [|n t2 Hn Hs2 U2 E]. destruct (utf8_cases n Hn) as [(x & E2 & Hx)|[Hn' Hh]].
        { exfalso. rewrite E2 in E. injection E as -> _. unfold asc in Hx. lia. }
        assert (B : bchars (utf8 n ++ t2) (c :: s)) by (rewrite E; now constructor).
        destruct (bchars_high _ _ _ Hh B) as (s' & Es & B'). rewrite Es. apply jc_utf8; [lia|assumption|].
        apply IH; [|assumption|assumption]. assert (Le : List.length (utf8 n ++ t2) = S (List.length t)) by (rewrite E; reflexivity).
        rewrite app_length in Le. pose proof (utf8_nonempty n) as Ne. destruct (utf8 n); [congruence|]. cbn [List.length] in Le. lia.
    + constructor; [assumption|]. apply IH; [lia|assumption|]. apply (utf8_drop [ch 92; c] t); [|exact U].
      constructor; [now apply asc_ch|]. constructor; [now apply escape_asc in Hc|constructor].
    + rewrite app_length in Hk. apply jc_code; auto. apply IH; [lia|assumption|]. apply (utf8_drop (ch 92 :: "u"%char :: h) t); [|exact U].
      constructor; [now apply asc_ch|]. constructor; [reflexivity|eapply hex4_asc; eassumption].
    + rewrite app_length in Hk. cbn [List.length] in Hk. rewrite app_length in Hk. apply jc_pair; auto. apply IH; [lia|assumption|].
      apply (utf8_drop (ch 92 :: "u"%char :: h1 ++ ch 92 :: "u"%char :: h2) t).
      * constructor; [now apply asc_ch|]. constructor; [reflexivity|]. apply Forall_app. split; [eapply hex4_asc; eassumption|].
        constructor; [now apply asc_ch|]. constructor; [reflexivity|eapply hex4_asc; eassumption].
      * cbn [app]. rewrite <- app_assoc. exact U.
Qed.
Lemma bstring_jstring t s : bstring t s -> utf8_text t -> jstring true t s.
Proof.
  intros [u r H] U. constructor. apply (bchars_jchars (List.length u)); [lia|assumption|].
  apply (utf8_keep u [ch 34]); [constructor; [now apply asc_ch|constructor]|].
  apply (utf8_drop [ch 34]); [constructor; [now apply asc_ch|constructor]|exact U].
Qed.
Lemma jstring_bstring t s : jstring true t s -> bstring t s.
Proof. intros [u r H]. constructor. now apply jchars_bchars. Qed.

(** ** Documents *)
Section Doc.
  Variable num : text -> json -> Prop.
  Lemma gval_utf8 :
    (forall t j, gval bstring num t j -> utf8_text t -> gval (jstring true) num t j) /\
    (forall t l, gelems bstring num t l -> utf8_text t -> gelems (jstring true) num t l) /\
    (forall t m, gmembers bstring num t m -> utf8_text t -> gmembers (jstring true) num t m).
  Proof.
    assert (Sq : forall c, In c ["["%char; "]"%char; "{"%char; "}"%char; ","%char; ":"%char] -> asc c).
    { intros c H. cbn [In] in H. repeat (destruct H as [<-|H]; [reflexivity|]). destruct H. }
    assert (Inner : forall o t c, asc o -> asc c -> utf8_text (o :: t ++ [c]) -> utf8_text t).
    { intros o t c Ho Hc U. apply (utf8_keep t [c]); [now constructor; [|constructor]|].
      apply (utf8_drop [o]); [now constructor; [|constructor]|exact U]. }
    assert (Mid : forall w t w', ws w -> ws w' -> utf8_text (w ++ t ++ w') -> utf8_text t).
    { intros w t w' Hw Hw' U. apply (utf8_keep t w'); [now apply ws_asc|]. apply (utf8_drop w); [now apply ws_asc|exact U]. }
    apply gjson_ind.
    - intros _. apply gv_null.
    - intros _. apply gv_true.
    - intros _. apply gv_false.
    - intros t j H _. now apply gv_number.
    - intros t s H U. apply gv_string. now apply bstring_jstring.
    - intros w H _. now apply gv_arr0.
    - intros t l _ IH U. apply gv_arr. apply IH. apply (Inner "["%char t "]"%char); auto; apply Sq; cbn; auto.
    - intros w H _. now apply gv_obj0.
    - intros t l _ IH U. apply gv_obj. apply IH. apply (Inner "{"%char t "}"%char); auto; apply Sq; cbn; auto.
    - intros w t j w' Hw _ IH Hw' U. apply ge_one; auto. apply IH. eapply Mid; [| |exact U]; assumption.
    - intros w t j w' ts l Hw _ IH Hw' _ IHs U.
      assert (E : w ++ t ++ w' ++ ","%char :: ts = (w ++ t ++ w') ++ ","%char :: ts) by now rewrite <- !app_assoc.
      destruct (utf8_text_split _ U _ _ _ E) as [U1 U2]; [apply Sq; cbn; auto 10|]. apply ge_more; auto. apply IH. eapply Mid; [| |exact U1]; assumption.
    - intros w k s w1 w2 t j w' Hw Hk Hw1 Hw2 _ IH Hw' U.
      assert (E : w ++ k ++ w1 ++ ":"%char :: w2 ++ t ++ w' = (w ++ k ++ w1) ++ ":"%char :: w2 ++ t ++ w') by now rewrite <- !app_assoc.
      destruct (utf8_text_split _ U _ _ _ E) as [U1 U2]; [apply Sq; cbn; auto 10|].
      apply gm_one; auto; [apply bstring_jstring; [assumption|]|apply IH]; eapply Mid; [| |eassumption| | |eassumption]; assumption.
    - intros w k s w1 w2 t j w' ts m Hw Hk Hw1 Hw2 _ IH Hw' _ IHs U.
      assert (E : w ++ k ++ w1 ++ ":"%char :: w2 ++ t ++ w' ++ ","%char :: ts = (w ++ k ++ w1) ++ ":"%char :: w2 ++ t ++ w' ++ ","%char :: ts) by now rewrite <- !app_assoc.
      destruct (utf8_text_split _ U _ _ _ E) as [U1 U2]; [apply Sq; cbn; auto 10|].
      assert (E2 : w2 ++ t ++ w' ++ ","%char :: ts = (w2 ++ t ++ w') ++ ","%char :: ts) by now rewrite <- !app_assoc.
      destruct (utf8_text_split _ U2 _ _ _ E2) as [U3 U4]; [apply Sq; cbn; auto 10|].
      apply gm_more; auto; [apply bstring_jstring; [assumption|]|apply IH]; eapply Mid; [| |eassumption| | |eassumption]; assumption.
  Qed.
  Lemma gtext_utf8 t j : gtext bstring num t j -> utf8_text t -> gtext (jstring true) num t j.
  Proof.
    intros (w & u & w' & -> & Hw & V & Hw') U. exists w, u, w'. split; [reflexivity|]. split; [assumption|]. split; [|assumption].
    apply gval_utf8; [assumption|]. apply (utf8_keep u w'); [now apply ws_asc|]. apply (utf8_drop w); [now apply ws_asc|exact U].
  Qed.
End Doc.

(** The grammar is monotone in its strings and numbers. *)
Lemma gval_mono (str str' : text -> string -> Prop) (num num' : text -> json -> Prop) :
  (forall t s, str t s -> str' t s) -> (forall t j, num t j -> num' t j) ->
  (forall t j, gval str num t j -> gval str' num' t j) /\
  (forall t l, gelems str num t l -> gelems str' num' t l) /\
  (forall t m, gmembers str num t m -> gmembers str' num' t m).
Proof.
  intros Hs Hn. apply gjson_ind; intros; first [apply gv_null | apply gv_true | apply gv_false | now apply gv_string; auto | now apply gv_arr0 | now apply gv_arr | now apply gv_obj0 |
  now apply gv_obj | now apply ge_one | now apply ge_more | now apply gm_one; auto | now apply gm_more; auto | now apply gv_number; auto].
Qed.
Lemma gtext_mono (str str' : text -> string -> Prop) (num num' : text -> json -> Prop) t j :
  (forall t s, str t s -> str' t s) -> (forall t j, num t j -> num' t j) -> gtext str num t j -> gtext str' num' t j.
Proof.
  intros Hs Hn (w & u & w' & -> & Hw & V & Hw'). exists w, u, w'. split; [reflexivity|]. split; [assumption|]. split; [|assumption].
  revert V. now apply gval_mono.
Qed.
(** Changing only the numbers. *)
Lemma gval_renumber (str : text -> string -> Prop) (num num' : text -> json -> Prop) (R : json -> json -> Prop) :
  (forall t j, num t j -> exists j', num' t j' /\ R j j') ->
  (forall t j, gval str num t j -> exists j', gval str num' t j' /\ same_doc R j j') /\
  (forall t l, gelems str num t l -> exists l', gelems str num' t l' /\ same_docs R l l') /\
  (forall t m, gmembers str num t m -> exists m', gmembers str num' t m' /\ same_members R m m').
Proof.
  intros Hn. apply gjson_ind.
  - exists JNull. split; [apply gv_null|constructor].
  - eexists. split; [apply gv_true|constructor].
  - eexists. split; [apply gv_false|constructor].
  - intros t j H. destruct (Hn t j H) as (j' & H' & Hr). exists j'. split; [now apply gv_number|now apply sd_num].
  - intros t s H. eexists. split; [apply gv_string; eassumption|constructor].
  - intros w H. eexists. split; [now apply gv_arr0|apply sd_arr; constructor].
  - intros t l _ (l' & H & S). exists (JArr l'). split; [now apply gv_arr|now apply sd_arr].
  - intros w H. eexists. split; [now apply gv_obj0|apply sd_obj; constructor].
  - intros t l _ (l' & H & S). exists (JObj l'). split; [now apply gv_obj|now apply sd_obj].
  - intros w t j w' Hw _ (j' & H & S) Hw'. exists [j']. split; [now apply ge_one|constructor; [assumption|constructor]].
  - intros w t j w' ts l Hw _ (j' & H & S) Hw' _ (l' & H2 & S2). exists (j' :: l'). split; [now apply ge_more|now constructor].
  - intros w k s w1 w2 t j w' Hw Hk Hw1 Hw2 _ (j' & H & S) Hw'. exists [(s, j')]. split; [now apply gm_one|constructor; [assumption|constructor]].
  - intros w k s w1 w2 t j w' ts m Hw Hk Hw1 Hw2 _ (j' & H & S) Hw' _ (m' & H2 & S2). exists ((s, j') :: m'). split; [now apply gm_more|now constructor].
Qed.
Lemma gtext_renumber (str : text -> string -> Prop) (num num' : text -> json -> Prop) (R : json -> json -> Prop) t j :
  (forall t j, num t j -> exists j', num' t j' /\ R j j') -> gtext str num t j -> exists j', gtext str num' t j' /\ same_doc R j j'.
Proof.
  intros Hn (w & u & w' & -> & Hw & V & Hw'). destruct (proj1 (gval_renumber str num num' R Hn) _ _ V) as (j' & V' & S).
  exists j'. split; [|assumption]. exists w, u, w'. auto.
Qed.
