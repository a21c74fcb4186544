(** Lemmas for to_yaml: the text written is YAML. *)
From Coq Require Import ZArith Bool Lia Ascii String List.
From Verif Require Import Base F64 StrMap Value MBasic SGet SPromote SCollapse MMat MNum LNum LNum2 MText MJson SJson LJson SJsonText
  SToJson MToJson LJson2Lex LToJson LRound Props_mat MYaml SDocs MToYaml SToYaml.
Import ListNotations.
Local Open Scope Z_scope.

(** * Lines *)
Definition one_line (t : text) : Prop := ~ In line_end t.
Lemma one_app a b : one_line (a ++ b) <-> one_line a /\ one_line b.
Proof. unfold one_line. rewrite in_app_iff. tauto. Qed.
Lemma one_high t : Forall (fun c => (11 <= byte c)%N) t -> one_line t.
Proof. intros H I. rewrite Forall_forall in H. specialize (H _ I). change (byte line_end) with 10%N in H. lia. Qed.
Lemma one_plain t : Forall plain_char t -> one_line t.
Proof. intros H. apply one_high. eapply Forall_impl; [|exact H]. intros c [Hc _]. cbn beta. lia. Qed.
Lemma one_chars t s : jchars false t s -> one_line t.
Proof.
  intros H. apply one_high. induction H as [|c t s H1 H2 H3 _ IH|n t s H1 H2 _ IH|c d t s H _ IH|h n t s C|h1 n1 h2 n2 t s C]; try discriminate C.
  - constructor.
  - constructor; [lia|assumption].
  - apply Forall_app. split; [|assumption]. eapply Forall_impl; [|exact (utf8_high n H1)]. cbn beta. intros c Hc. lia.
  - constructor; [vm_compute; discriminate|]. constructor; [|assumption].
    destruct H as [H|(C & _)]; [|discriminate C]. cbn [In] in H. intuition (match goal with E : (_, _) = (_, _) |- _ => injection E as <- <- end; vm_compute; discriminate).
Qed.
Lemma one_string s : clean_text (txt s) -> one_line (string_escape s).
Proof.
  intros H. apply escape_string in H.
  assert (G : forall a, jstring false a s -> one_line a); [|exact (G _ H)].
  clear H. intros a H. destruct H as [t u Hc]. apply one_chars in Hc. change (ch 34 :: t ++ [ch 34]) with ([ch 34] ++ t ++ [ch 34]).
  apply one_app. split; [intros [K|[]]; discriminate K|]. apply one_app. split; [assumption|intros [K|[]]; discriminate K].
Qed.
Lemma one_list {A} (f : A -> text) pre v : one_line pre -> Forall (fun a => one_line (f a)) v -> one_line (put_list f pre v).
Proof.
  intros Hp H. revert pre Hp. induction H as [|a v Ha _ IH]; intros pre Hp; cbn [put_list]; [intros []|].
  rewrite !one_app. split; [assumption|]. split; [assumption|]. apply IH. intros K. cbn in K. intuition discriminate.
Qed.
Lemma one_vec {A} (f : A -> text) v : Forall (fun a => one_line (f a)) v -> one_line (put_vec f v).
Proof. intros H. unfold put_vec. apply one_app. split; [apply one_list; [|assumption]|]; intros K; cbn in K; intuition discriminate. Qed.
Lemma one_int n : one_line (print_int n).
Proof.
  pose proof (int_json n) as H. intros I.
  assert (G : Forall (fun c => (11 <= byte c)%N) (print_int n)); [|now apply one_high in G].
  clear I. inversion H as [neg t l Hd Hi E|]. apply Forall_app. split; [destruct neg; cbn; repeat constructor; vm_compute; discriminate|].
  clear -Hd. induction Hd as [|c d t l [Hr ->] _ IH]; constructor; [|assumption]. rewrite byte_ch; lia.
Qed.
Lemma one_bool b : one_line (put_bool b).
Proof. destruct b; intros K; cbn in K; intuition discriminate. Qed.
Lemma one_real P x : one_line (print_g P x).
Proof. apply one_plain. apply print_g_plain. Qed.

(** * Trees *)
Lemma flow_doc j : yaml_doc (flow_tree j) = j.
Proof.
  induction j as [j Ha Ho | l IH | m IH] using json_nest_ind.
  - destruct j; try reflexivity; [now contradiction (Ha l)|now contradiction (Ho m)].
  - cbn [flow_tree yaml_doc]. rewrite map_map. f_equal. induction IH as [|a l E _ IHl]; [reflexivity|]. cbn [map]. now rewrite E, IHl.
  - cbn [flow_tree yaml_doc]. rewrite map_map. f_equal. induction IH as [|[k a] l E _ IHl]; [reflexivity|]. cbn [map fst snd key_name] in *. now rewrite E, IHl.
Qed.
Lemma flow_keys j : yall string_keys (flow_tree j).
Proof.
  induction j as [j Ha Ho | l IH | m IH] using json_nest_ind.
  - destruct j; try (split; exact I); [now contradiction (Ha l)|now contradiction (Ho m)].
  - cbn [flow_tree]. apply yall_seq. split; [exact I|]. now apply Forall_map.
  - cbn [flow_tree]. apply yall_map. split; [|now apply Forall_map]. cbn [string_keys]. apply Forall_map. apply Forall_forall. intros [k a] _. now exists k.
Qed.
Lemma ynode_le n n' t y : ynode n t y -> (n' <= n)%nat -> ynode n' t y.
Proof. intros H L. inversion H; subst; [now apply yn_flow|eapply yn_seq; [|eassumption]; lia|eapply yn_map; [|eassumption]; lia]. Qed.
Lemma le_plus2 k : (S k <= k + 2)%nat.
Proof. lia. Qed.
Lemma spaces_add k : spaces k ++ txt "  " = spaces (k + 2).
Proof. unfold spaces. change (txt "  ") with (repeat (ch 32) 2). now rewrite <- repeat_app. Qed.

(** * Matrices *)
Definition ycolumns {A} (f : A -> text) (prefix : text) (cs : list (list A)) : text :=
  flat_map (fun c => prefix ++ put_list f (txt "- [ ") c ++ txt " ]" ++ [nl]) cs.
Lemma yput_cols_ok {A} (f : A -> text) (m : mat A) prefix js cs :
  omapM (fun j => omapM (fun i => mat_get m i j) (zseq (mrows m))) js = Ok cs ->
  yput_cols f m prefix js = Ok (ycolumns f prefix cs).
Proof.
  revert cs. induction js as [|j js IH]; intros cs E; cbn [omapM yput_cols] in *.
  - apply Ok_inj in E. subst. reflexivity.
  - apply bind_ok in E as (c & Ec & E). apply bind_ok in E as (cs' & Ecs & E). apply Ok_inj in E. subst. rewrite Ec. cbn [bind].
    rewrite (IH _ Ecs). cbn [bind ycolumns flat_map]. fold (ycolumns f prefix cs'). rewrite <- !app_assoc. reflexivity.
Qed.
Lemma ycolumns_yaml {A} (f : A -> text) R k c cs :
  Forall (fun c => c <> [] /\ Forall (elem_json f R) c) (c :: cs) -> Forall (Forall (fun a => one_line (f a))) (c :: cs) ->
  exists l, yseq k (ycolumns f (spaces k) (c :: cs)) l /\ Forall (yall string_keys) l /\ Forall2 (list_doc R) (c :: cs) (map yaml_doc l).
Proof.
  revert c. induction cs as [|c' cs IH]; intros c H Hn; inversion H as [|? ? [Hc Hf] Hcs]; inversion Hn as [|? ? Hn0 Hns]; subst;
    destruct (put_vec_json f R c Hc Hf) as (jc & Hv & Ev); apply one_vec in Hn0.
  - exists [flow_tree jc]. split; [|split; [auto using flow_keys|cbn [map]; rewrite flow_doc; auto]].
    replace (ycolumns f (spaces k) [c]) with (spaces k ++ txt "- " ++ put_vec f c ++ [line_end]); [apply ys_one; now apply yn_flow|].
    cbn [ycolumns flat_map]. change (txt "- [ ") with (txt "- " ++ txt "[ "). rewrite put_list_pre by assumption. unfold put_vec.
    rewrite app_nil_r, <- !app_assoc. reflexivity.
  - destruct (IH c' Hcs Hns) as (l & Hl & Kl & El). exists (flow_tree jc :: l). split; [|split; [auto using flow_keys|cbn [map]; rewrite flow_doc; auto]].
    replace (ycolumns f (spaces k) (c :: c' :: cs)) with (spaces k ++ txt "- " ++ (put_vec f c ++ [line_end]) ++ ycolumns f (spaces k) (c' :: cs)); [apply ys_more; [now apply yn_flow|assumption]|].
    unfold ycolumns at 2. rewrite (flat_map_concat_map _ (c :: c' :: cs)). cbn [map concat]. rewrite <- flat_map_concat_map.
    fold (ycolumns f (spaces k) cs). unfold ycolumns at 1. cbn [flat_map]. fold (ycolumns f (spaces k) cs).
    change (txt "- [ ") with (txt "- " ++ txt "[ "). rewrite !put_list_pre by (try assumption; inversion Hcs as [|? ? [? _] _]; assumption). unfold put_vec.
    rewrite <- !app_assoc. reflexivity.
Qed.
Lemma yput_mat_yaml {A} (f : A -> text) (Q : A -> Prop) R k (m : mat A) :
  wf_mat Q m -> 0 < mrows m -> 0 < mcols m -> mrows m * mcols m < 2^32 ->
  Forall (elem_json f R) (mdata m) -> Forall (fun a => one_line (f a)) (mdata m) ->
  exists t y, yput_mat f (spaces k) m = Ok t /\ ynode k t y /\ yall string_keys y /\ mat_doc R m (yaml_doc y).
Proof.
  intros Wm Hr Hc Hs He Ho. pose proof (wf_mat_ok Q m Wm Hs) as Hm. pose proof Hm as (_ & _ & _ & Hz).
  assert (Hl : length (mdata m) = (Z.to_nat (mrows m) * Z.to_nat (mcols m))%nat) by (unfold zlen in Hz; nia).
  assert (Hr0 : (0 < Z.to_nat (mrows m))%nat) by lia.
  pose proof (columns_forall _ _ _ _ Hr0 Hl He) as Hcs. pose proof (columns_forall _ _ _ _ Hr0 Hl Ho) as Hos. unfold mat_doc.
  destruct (columns (Z.to_nat (mrows m)) (Z.to_nat (mcols m)) (mdata m)) as [|c cs] eqn:Ec.
  { apply (f_equal (@length _)) in Ec. rewrite columns_length in Ec. cbn in Ec. lia. }
  destruct (ycolumns_yaml f R k c cs Hcs) as (l & Hj & Kj & Ej).
  { eapply Forall_impl; [|exact Hos]. intros x [_ Hx]. exact Hx. }
  unfold yput_mat. rewrite (yput_cols_ok f m _ _ _ (mat_columns m Hm)). rewrite Ec. cbn [bind]. eexists. exists (YSeq l).
  split; [reflexivity|]. split; [|split; [now apply yall_seq|exists (map yaml_doc l); auto]].
  change nl with line_end. apply (yn_seq k k); [lia|exact Hj].
Qed.

(** * Containers *)
Definition yput_elems (P SP : nat) (prefix : text) : list gc -> bool -> out (text * bool) :=
  fix elems (v : list gc) (hx : bool) : out (text * bool) :=
    match v with
    | [] => Ok ([], hx)
    | a :: v' =>
        do (t, h1) <- to_yaml P SP a (prefix ++ txt "  ") hx ;
        do (r, h2) <- elems v' h1 ;
        Ok (prefix ++ txt "- " ++ t ++ r, h2)
    end.
Definition yput_members (P SP : nat) (prefix : text) : list (string * gc) -> bool -> out (text * bool) :=
  fix members (m : list (string * gc)) (hx : bool) : out (text * bool) :=
    match m with
    | [] => Ok ([], hx)
    | (k, a) :: m' =>
        do (t, h1) <- to_yaml P SP a (prefix ++ txt "  ") hx ;
        do (r, h2) <- members m' h1 ;
        Ok (prefix ++ txt k ++ txt ": " ++ t ++ r, h2)
    end.
Lemma to_yaml_vec P SP v prefix hx : v <> [] -> to_yaml P SP (GVec v) prefix hx =
  do (b, h) <- yput_elems P SP prefix v hx ; Ok (nl :: b, h).
Proof. destruct v; [easy|reflexivity]. Qed.
Lemma to_yaml_map P SP m prefix hx : m <> [] -> to_yaml P SP (GMap m) prefix hx =
  do (b, h) <- yput_members P SP prefix m hx ; Ok (nl :: b, h).
Proof. destruct m; [easy|reflexivity]. Qed.

Definition ywritten (P SP : nat) (g : gc) : Prop := forall k,
  exists t y, to_yaml P SP g (spaces k) false = Ok (t, false) /\ ynode k t y /\ yall string_keys y /\ doc P g (yaml_doc y).
Lemma yput_elems_yaml P SP k a v : Forall (ywritten P SP) (a :: v) ->
  exists b l, yput_elems P SP (spaces k) (a :: v) false = Ok (b, false) /\ yseq k b l /\ Forall (yall string_keys) l /\
    Forall2 (doc P) (a :: v) (map yaml_doc l).
Proof.
  revert a. induction v as [|a' v IH]; intros a H; inversion H as [|? ? Ha Hv]; subst; destruct (Ha (k + 2)%nat) as (t & y & E & Hy & Ky & Dy);
    pose proof (ynode_le _ (S k) _ _ Hy (le_plus2 k)) as Hy'; clear Hy; rename Hy' into Hy.
  - exists (spaces k ++ txt "- " ++ t), [y]. cbn [yput_elems]. rewrite spaces_add, E. cbn [bind]. split; [now rewrite app_nil_r|].
    split; [now apply ys_one|]. split; [auto|]. cbn [map]. auto.
  - destruct (IH a' Hv) as (b & l & Eb & Hb & Kb & Db). exists (spaces k ++ txt "- " ++ t ++ b), (y :: l). split; [|split; [|split]].
    + change (yput_elems P SP (spaces k) (a :: a' :: v) false) with
        (do (t, h1) <- to_yaml P SP a (spaces k ++ txt "  ") false ; do (r, h2) <- yput_elems P SP (spaces k) (a' :: v) h1 ; Ok (spaces k ++ txt "- " ++ t ++ r, h2)).
      rewrite spaces_add, E. cbn [bind]. rewrite Eb. reflexivity.
    + now apply ys_more.
    + auto.
    + cbn [map]. auto.
Qed.
Lemma yput_members_yaml P SP k kv m : Forall (fun kv => ywritten P SP (snd kv)) (kv :: m) -> Forall (fun kv => yaml_key (fst kv)) (kv :: m) ->
  exists b l, yput_members P SP (spaces k) (kv :: m) false = Ok (b, false) /\ ymap k b l /\
    string_keys (YMap l) /\ Forall (fun kv => yall string_keys (snd kv)) l /\
    Forall2 (fun a b => fst a = fst b /\ doc P (snd a) (snd b)) (kv :: m) (map (fun kv => (key_name (fst kv), yaml_doc (snd kv))) l).
Proof.
  revert kv. induction m as [|kv' m IH]; intros [s a] H HK; inversion H as [|? ? Ha Hv]; inversion HK as [|? ? Hk Hks]; subst;
    cbn [snd fst] in Ha, Hk; destruct (Ha (k + 2)%nat) as (t & y & E & Hy & Ky & Dy);
    pose proof (ynode_le _ (S k) _ _ Hy (le_plus2 k)) as Hy'; clear Hy; rename Hy' into Hy.
  - exists (spaces k ++ txt s ++ txt ": " ++ t), [(YStr s, y)]. cbn [yput_members]. rewrite spaces_add, E. cbn [bind]. split; [now rewrite app_nil_r|].
    split; [now apply ym_one|]. split; [constructor; [now exists s|constructor]|]. split; [auto|]. cbn [map fst snd key_name]. auto.
  - destruct (IH kv' Hv Hks) as (b & l & Eb & Hb & Sb & Kb & Db). exists (spaces k ++ txt s ++ txt ": " ++ t ++ b), ((YStr s, y) :: l). split; [|split; [|split; [|split]]].
    + change (yput_members P SP (spaces k) ((s, a) :: kv' :: m) false) with
        (do (t, h1) <- to_yaml P SP a (spaces k ++ txt "  ") false ; do (r, h2) <- yput_members P SP (spaces k) (kv' :: m) h1 ; Ok (spaces k ++ txt s ++ txt ": " ++ t ++ r, h2)).
      rewrite spaces_add, E. cbn [bind]. rewrite Eb. reflexivity.
    + now apply ym_more.
    + constructor; [now exists s|exact Sb].
    + auto.
    + cbn [map fst snd key_name]. auto.
Qed.

Theorem to_yaml_written P SP : (1 <= P)%nat -> forall g, wf g -> everywhere yaml_node g -> ywritten P SP g.
Proof.
  intros HP.
  assert (One : forall g t, (forall prefix, to_yaml P SP g prefix false = Ok (t ++ [nl], false)) ->
    (exists j, jval false t j /\ one_line t /\ doc P g j) -> ywritten P SP g).
  { intros g t E (j & Hj & Ho & Ej) k. exists (t ++ [nl]), (flow_tree j). rewrite E, flow_doc. split; [reflexivity|]. split; [|split; [apply flow_keys|assumption]].
    change nl with line_end. now apply yn_flow. }
  induction g as [g Hv Hm | v IH | m IH] using gc_nest_ind; intros W N.
  - apply everywhere_here in N as [N N']. destruct g; try nested_contra Hv Hm; cbn [json_node wf] in N, W; try contradiction.
    + apply (One _ (txt "null")); [reflexivity|]. exists JNull. split; [constructor|]. split; [|constructor]. intros K. cbn in K. intuition discriminate.
    + apply (One _ (put_bool b)); [reflexivity|]. exists (JBool b). split; [apply bool_json|]. split; [apply one_bool|constructor].
    + apply (One _ (print_int i)); [reflexivity|]. exists (JInt i). split; [apply jv_number; apply int_json|]. split; [apply one_int|constructor].
    + apply (One _ (print_int l)); [reflexivity|]. exists (JInt l). split; [apply jv_number; apply int_json|]. split; [apply one_int|constructor].
    + apply (One _ (print_g P r)); [reflexivity|]. destruct (number_json P r HP W N) as (j & Hj & Ej). exists j.
      split; [now apply jv_number|]. split; [apply one_real|now constructor].
    + apply (One _ (string_escape s)); [reflexivity|]. exists (JStr s). split; [apply jv_string; now apply escape_string|]. split; [now apply one_string|constructor].
    + apply (One _ (put_vec put_bool v)); [reflexivity|]. destruct (put_vec_json _ _ v N (bool_elems v)) as (j & Hj & Ej). eexists. split; [eassumption|].
      split; [|now constructor]. apply one_vec. apply Forall_forall. intros; apply one_bool.
    + apply (One _ (put_vec print_int v)); [reflexivity|]. destruct (put_vec_json _ _ v N (int_elems v)) as (j & Hj & Ej). eexists. split; [eassumption|].
      split; [|now constructor]. apply one_vec. apply Forall_forall. intros; apply one_int.
    + apply (One _ (put_vec print_int v)); [reflexivity|]. destruct (put_vec_json _ _ v N (int_elems v)) as (j & Hj & Ej). eexists. split; [eassumption|].
      split; [|now constructor]. apply one_vec. apply Forall_forall. intros; apply one_int.
    + destruct N as [N F]. apply (One _ (put_vec (print_g P) v)); [reflexivity|].
      destruct (put_vec_json _ _ v N (real_elems P v HP W F)) as (j & Hj & Ej). eexists. split; [eassumption|].
      split; [|now constructor]. apply one_vec. apply Forall_forall. intros; apply one_real.
    + destruct N as [N F]. apply (One _ (put_vec string_escape v)); [reflexivity|].
      destruct (put_vec_json string_escape (fun s j => j = JStr s) v N) as (j & Hj & Ej).
      { apply Forall_forall. intros s Hs. rewrite Forall_forall in F. exists (JStr s). split; [apply jv_string; apply escape_string; auto|reflexivity]. }
      eexists. split; [eassumption|]. split; [|now constructor]. apply one_vec. eapply Forall_impl; [|exact F]. intros s. apply one_string.
    + destruct N as (N1 & N2 & N3). intros k.
      destruct (yput_mat_yaml print_int int32 _ k m W N1 N2 N3 (int_elems _)) as (t & y & Et & Hy & Ky & Dy); [apply Forall_forall; intros; apply one_int|].
      exists t, y. cbn [to_yaml]. change (put_int false) with print_int. rewrite Et. split; [reflexivity|]. split; [assumption|]. split; [assumption|now constructor].
    + destruct N as (N1 & N2 & N3). intros k.
      destruct (yput_mat_yaml print_int int64 _ k m W N1 N2 N3 (int_elems _)) as (t & y & Et & Hy & Ky & Dy); [apply Forall_forall; intros; apply one_int|].
      exists t, y. cbn [to_yaml]. change (put_long false) with print_int. rewrite Et. split; [reflexivity|]. split; [assumption|]. split; [assumption|now constructor].
    + destruct N as (N1 & N2 & N3 & F). intros k. pose proof W as (_ & _ & _ & Wd).
      destruct (yput_mat_yaml (print_g P) f64 _ k m W N1 N2 N3 (real_elems P _ HP Wd F)) as (t & y & Et & Hy & Ky & Dy); [apply Forall_forall; intros; apply one_real|].
      exists t, y. cbn [to_yaml]. rewrite Et. split; [reflexivity|]. split; [assumption|]. split; [assumption|now constructor].
  - apply wf_vec in W. apply everywhere_vec in N as [[Nv _] N]. cbn [json_node] in Nv. intros k.
    destruct v as [|a v]; [easy|]. rewrite to_yaml_vec by assumption.
    destruct (yput_elems_yaml P SP k a v) as (b & l & Eb & Hl & Kl & El).
    { rewrite Forall_forall in *. auto. }
    rewrite Eb. cbn [bind]. exists (nl :: b), (YSeq l). split; [reflexivity|]. split; [now apply (yn_seq k k)|].
    split; [now apply yall_seq|]. cbn [yaml_doc]. now constructor.
  - apply wf_map in W as [Ws W]. apply everywhere_map in N as [[[Nv _] Nk] N]. intros k.
    destruct m as [|a m]; [easy|]. rewrite to_yaml_map by assumption.
    destruct (yput_members_yaml P SP k a m) as (b & l & Eb & Hl & Sl & Kl & El); [rewrite Forall_forall in *; auto|assumption|].
    rewrite Eb. cbn [bind]. exists (nl :: b), (YMap l). split; [reflexivity|]. split; [now apply (yn_map k k)|].
    split; [now apply yall_map|]. cbn [yaml_doc]. now constructor.
Qed.
