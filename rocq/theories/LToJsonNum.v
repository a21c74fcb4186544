(** The text written by to_json, with the texts of its numbers: the proofs of LToJson.v for any
    set of number texts [num] that has the integers of 64 bits and the reals in [Q]. *)
From Coq Require Import ZArith Bool Lia Ascii String List.
From Verif Require Import Base F64 StrMap Value MBasic SGet SPromote SCollapse MMat MNum LNum LNum2 MText MJson SJson LJson SJsonText SRapid SToJson MToJson LJson2Lex Props_mat LToJson.
Import ListNotations.
Local Open Scope Z_scope.

Lemma int32_64 n : int32 n -> int64 n.
Proof. unfold int32, int64. lia. Qed.
Section Numbers.
Variable num : text -> json -> Prop.
Variable P : nat.
Variable Q : Z -> Prop.
Hypothesis int_num : forall n, int64 n -> num (print_int n) (JInt n).
Hypothesis real_num : forall x, f64 x -> is_finite x = true -> Q x -> exists j, num (print_g P x) j /\ real_doc P x j.

(** Each element is g_written as a value related to it by [R]. *)
Definition g_elem_json {A} (f : A -> text) (R : A -> json -> Prop) (a : A) : Prop :=
  exists j, gval (jstring false) num (f a) j /\ R a j.
Lemma g_put_list_json {A} (f : A -> text) R a v : Forall (g_elem_json f R) (a :: v) ->
  exists l, gelems (jstring false) num ([" "%char] ++ f a ++ put_list f (txt ", ") v ++ [" "%char]) l /\ Forall2 R (a :: v) l.
Proof.
  revert a. induction v as [|b v IH]; intros a H; inversion H as [|? ? (j & Hj & Ej) Hv]; subst.
  - exists [j]. split; [apply ge_one; auto using ws_space|]. auto.
  - destruct (IH b Hv) as (l & Hl & El). exists (j :: l). split; [|auto].
    cbn [put_list]. rewrite <- !app_assoc. change (txt ", ") with ([","%char] ++ [" "%char]) at 1. rewrite <- app_assoc.
    change ([" "%char] ++ f a ++ [] ++ ","%char :: ([" "%char] ++ f b ++ put_list f (txt ", ") v ++ [" "%char])) with
      ([" "%char] ++ f a ++ [","%char] ++ [" "%char] ++ f b ++ put_list f (txt ", ") v ++ [" "%char]).
    apply (ge_more (jstring false) num [" "%char] (f a) j []); auto using ws_space, ws_nil.
Qed.
Lemma g_put_vec_json {A} (f : A -> text) R v : v <> [] -> Forall (g_elem_json f R) v ->
  exists j, gval (jstring false) num (put_vec f v) j /\ list_doc R v j.
Proof.
  intros Hv H. destruct v as [|a v]; [easy|]. destruct (g_put_list_json f R a v H) as (l & Hl & El). exists (JArr l).
  split; [|exists l; auto].
  replace (put_vec f (a :: v)) with ("["%char :: ([" "%char] ++ f a ++ put_list f (txt ", ") v ++ [" "%char]) ++ ["]"%char]); [now apply gv_arr|].
  unfold put_vec. cbn [put_list]. change (txt "[ ") with ["["%char; " "%char]. change (txt " ]") with ([" "%char] ++ ["]"%char]).
  cbn [app]. rewrite <- !app_assoc. reflexivity.
Qed.

Lemma g_put_columns_json {A} (f : A -> text) R prefix prefix1 c cs : ws prefix -> ws prefix1 ->
  Forall (fun c => c <> [] /\ Forall (g_elem_json f R) c) (c :: cs) ->
  exists l, gelems (jstring false) num (nl :: put_columns f prefix1 (prefix1 ++ txt "[ ") (c :: cs) ++ txt " ]" ++ nl :: prefix) l /\
    Forall2 (list_doc R) (c :: cs) l.
Proof.
  intros Hp Hp1. revert c. induction cs as [|c' cs IH]; intros c H; inversion H as [|? ? [Hc Hf] Hcs]; subst;
    destruct (g_put_vec_json f R c Hc Hf) as (jc & Hv & Ev).
  - exists [jc]. split; [|auto].
    + replace (nl :: put_columns f prefix1 (prefix1 ++ txt "[ ") [c] ++ txt " ]" ++ nl :: prefix) with ((nl :: prefix1) ++ put_vec f c ++ (nl :: prefix)).
      * apply ge_one; auto using ws_nl.
      * cbn [put_columns]. rewrite put_list_pre by assumption. unfold put_vec. rewrite app_nil_r. cbn [app]. rewrite <- !app_assoc. reflexivity.
  - destruct (IH c' Hcs) as (l & Hl & El). exists (jc :: l). split; [|auto].
    + replace (nl :: put_columns f prefix1 (prefix1 ++ txt "[ ") (c :: c' :: cs) ++ txt " ]" ++ nl :: prefix) with
        ((nl :: prefix1) ++ put_vec f c ++ [] ++ ","%char :: nl :: put_columns f prefix1 (prefix1 ++ txt "[ ") (c' :: cs) ++ txt " ]" ++ nl :: prefix).
      * apply ge_more; auto using ws_nl, ws_nil.
      * inversion Hcs as [|? ? [Hc' _] _]; subst.
        cbn [put_columns]. rewrite put_list_pre by assumption.
        replace (txt " ]," ++ nl :: prefix1 ++ txt "[ ") with ((txt " ]," ++ nl :: prefix1) ++ txt "[ ") by now rewrite <- app_assoc.
        rewrite !put_list_pre by assumption. unfold put_vec. change (txt " ],") with (txt " ]" ++ [","%char]). cbn [app]. rewrite <- !app_assoc. reflexivity.
Qed.

Lemma g_put_mat_json {A} (f : A -> text) (Q' : A -> Prop) R prefix (m : mat A) : ws prefix ->
  wf_mat Q' m -> 0 < mrows m -> 0 < mcols m -> mrows m * mcols m < 2^32 ->
  Forall (g_elem_json f R) (mdata m) ->
  exists t j, put_mat f prefix (prefix ++ txt "  ") m = Ok t /\ gval (jstring false) num t j /\ mat_doc R m j.
Proof.
  intros Hp Wm Hr Hc Hs He. pose proof (wf_mat_ok Q' m Wm Hs) as Hm. pose proof Hm as (_ & _ & _ & Hz).
  assert (Hl : length (mdata m) = (Z.to_nat (mrows m) * Z.to_nat (mcols m))%nat) by (unfold zlen in Hz; nia).
  assert (Hr0 : (0 < Z.to_nat (mrows m))%nat) by lia.
  pose proof (columns_forall _ _ _ _ Hr0 Hl He) as Hcs. unfold mat_doc.
  destruct (columns (Z.to_nat (mrows m)) (Z.to_nat (mcols m)) (mdata m)) as [|c cs] eqn:Ec.
  { apply (f_equal (@length _)) in Ec. rewrite columns_length in Ec. cbn in Ec. lia. }
  destruct (g_put_columns_json f R prefix (prefix ++ txt "  ") c cs Hp (ws_indent _ Hp) Hcs) as (l & Hj & Ej).
  unfold put_mat. rewrite (put_cols_ok f m _ _ _ _ (mat_columns m Hm)). rewrite Ec. cbn [bind]. eexists. exists (JArr l).
  split; [reflexivity|]. split; [|exists l; auto].
  apply (gv_arr (jstring false) num) in Hj. revert Hj. generalize (txt " ]"). intros e Hj.
  change (txt "[") with ["["%char]. cbn [put_columns app] in Hj |- *. rewrite <- !app_assoc in Hj. rewrite <- !app_assoc. cbn [app] in Hj |- *.
  rewrite <- ?app_assoc in Hj. exact Hj.
Qed.

Definition g_written (SP : nat) (g : gc) : Prop := forall prefix, ws prefix ->
  exists w u j, to_json P SP g prefix false = Ok (w ++ u, false) /\ ws w /\ gval (jstring false) num u j /\ doc P g j.

Lemma g_put_elems_json SP prefix prefix1 a v c : ws prefix -> ws prefix1 -> Forall (g_written SP) (a :: v) ->
  exists b l, put_elems P SP prefix1 (a :: v) [c; nl] false = Ok (c :: b, false) /\
    gelems (jstring false) num (b ++ nl :: prefix) l /\ Forall2 (doc P) (a :: v) l.
Proof.
  intros Hp Hp1. revert a c. induction v as [|a' v IH]; intros a c H; inversion H as [|? ? Ha Hv]; subst;
    destruct (Ha prefix1 Hp1) as (w & u & j & E & Hw & Hj & Ej).
  - exists (nl :: prefix1 ++ w ++ u), [j]. cbn [put_elems]. rewrite E. cbn [bind]. split; [now rewrite !app_nil_r|]. split.
    + replace ((nl :: prefix1 ++ w ++ u) ++ nl :: prefix) with (((nl :: prefix1) ++ w) ++ u ++ (nl :: prefix)) by flat_text.
      apply ge_one; auto using ws_nl, ws_app.
    + auto.
  - destruct (IH a' ","%char Hv) as (b & l & Eb & Hl & El).
    exists (nl :: prefix1 ++ (w ++ u) ++ ","%char :: b), (j :: l). split; [|split].
    + change (put_elems P SP prefix1 (a :: a' :: v) [c; nl] false) with
        (do (t, h1) <- to_json P SP a prefix1 false ; do (r, h2) <- put_elems P SP prefix1 (a' :: v) [","%char; nl] h1 ; Ok ([c; nl] ++ prefix1 ++ t ++ r, h2)).
      rewrite E. cbn [bind]. rewrite Eb. reflexivity.
    + replace ((nl :: prefix1 ++ (w ++ u) ++ ","%char :: b) ++ nl :: prefix) with (((nl :: prefix1) ++ w) ++ u ++ [] ++ ","%char :: (b ++ nl :: prefix))
        by flat_text.
      apply ge_more; auto using ws_nl, ws_app, ws_nil.
    + auto.
Qed.
Lemma g_put_members_json SP prefix kv m c : ws prefix -> Forall (fun kv => g_written SP (snd kv)) (kv :: m) ->
  Forall (fun kv => plain_text (txt (fst kv))) (kv :: m) ->
  exists b l, put_members P SP prefix (kv :: m) [c; nl] false = Ok (c :: b, false) /\
    gmembers (jstring false) num (b ++ nl :: prefix) l /\ Forall2 (fun a b => fst a = fst b /\ doc P (snd a) (snd b)) (kv :: m) l.
Proof.
  intros Hp. revert kv c. induction m as [|kv' m IH]; intros [k a] c H HK; inversion H as [|? ? Ha Hv]; inversion HK as [|? ? Hk Hks]; subst;
    cbn [snd fst] in Ha, Hk; destruct (Ha (prefix ++ txt "  ") (ws_indent _ Hp)) as (w & u & j & E & Hw & Hj & Ej); apply plain_key in Hk.
  - exists (nl :: prefix ++ txt "  " ++ quote :: txt k ++ quote :: txt ": " ++ (w ++ u)), [(k, j)]. cbn [put_members]. rewrite E. cbn [bind].
    split; [now rewrite !app_nil_r|]. split.
    + replace ((nl :: prefix ++ txt "  " ++ quote :: txt k ++ quote :: txt ": " ++ (w ++ u)) ++ nl :: prefix) with
        ((nl :: prefix ++ txt "  ") ++ (ch 34 :: txt k ++ [ch 34]) ++ [] ++ ":"%char :: ([" "%char] ++ w) ++ u ++ (nl :: prefix))
        by flat_text.
      apply gm_one; auto using ws_nl, ws_app, ws_nil, ws_indent, ws_space.
    + auto.
  - destruct (IH kv' ","%char Hv Hks) as (b & l & Eb & Hl & El).
    exists (nl :: prefix ++ txt "  " ++ quote :: txt k ++ quote :: txt ": " ++ (w ++ u) ++ ","%char :: b), ((k, j) :: l). split; [|split].
    + change (put_members P SP prefix ((k, a) :: kv' :: m) [c; nl] false) with
        (do (t, h1) <- to_json P SP a (prefix ++ txt "  ") false ; do (r, h2) <- put_members P SP prefix (kv' :: m) [","%char; nl] h1 ;
         Ok ([c; nl] ++ prefix ++ txt "  " ++ quote :: txt k ++ quote :: txt ": " ++ t ++ r, h2)).
      rewrite E. cbn [bind]. rewrite Eb. reflexivity.
    + replace ((nl :: prefix ++ txt "  " ++ quote :: txt k ++ quote :: txt ": " ++ (w ++ u) ++ ","%char :: b) ++ nl :: prefix) with
        ((nl :: prefix ++ txt "  ") ++ (ch 34 :: txt k ++ [ch 34]) ++ [] ++ ":"%char :: ([" "%char] ++ w) ++ u ++ [] ++ ","%char :: (b ++ nl :: prefix))
        by flat_text.
      apply gm_more; auto using ws_nl, ws_app, ws_nil, ws_indent, ws_space.
    + auto.
Qed.
Lemma g_bool_json b : gval (jstring false) num (put_bool b) (JBool b).
Proof. destruct b; constructor. Qed.
Lemma g_quoted_json SP c : gval (jstring false) num (quote :: cplx_text SP c ++ [quote]) (JStr (untxt (cplx_text SP c))).
Proof. apply gv_string. change quote with (ch 34). constructor. apply plain_json. apply cplx_plain. Qed.

Lemma g_bool_elems v : Forall (g_elem_json put_bool (fun b j => j = JBool b)) v.
Proof. apply Forall_forall. intros b _. exists (JBool b). split; [apply g_bool_json|reflexivity]. Qed.
Lemma g_int_elems v : Forall int64 v -> Forall (g_elem_json print_int (fun i j => j = JInt i)) v.
Proof. apply Forall_impl. intros b Hb. exists (JInt b). split; [apply gv_number; now apply int_num|reflexivity]. Qed.
Lemma g_real_elems v : Forall f64 v -> Forall (fun x => is_finite x = true) v -> Forall Q v -> Forall (g_elem_json (print_g P) (real_doc P)) v.
Proof.
  intros W F Hq. apply Forall_forall. intros x Hx. rewrite Forall_forall in W, F, Hq.
  destruct (real_num x (W x Hx) (F x Hx) (Hq x Hx)) as (j & Hj & Ej). exists j. split; [now apply gv_number|assumption].
Qed.

Theorem g_to_json_written SP : forall g, wf g -> everywhere json_node g -> everywhere (real_node Q) g -> g_written SP g.
Proof.
  assert (One : forall g t, (forall prefix, to_json P SP g prefix false = Ok (t, false)) ->
    (exists j, gval (jstring false) num t j /\ doc P g j) -> g_written SP g).
  { intros g t E (j & Hj & Ej) prefix Hp. exists [], t, j. rewrite E. auto using ws_nil. }
  induction g as [g Hv Hm | v IH | m IH] using gc_nest_ind; intros W N Hq.
  - apply everywhere_here in N. apply everywhere_here in Hq. destruct g; try nested_contra Hv Hm; cbn [json_node wf real_node] in N, W, Hq; try contradiction.
    + apply (One _ (txt "null")); [reflexivity|]. exists JNull. split; constructor.
    + apply (One _ (put_bool b)); [reflexivity|]. exists (JBool b). split; [apply g_bool_json|constructor].
    + apply (One _ (print_int i)); [reflexivity|]. exists (JInt i). split; [apply gv_number; apply int_num; now apply int32_64|constructor].
    + apply (One _ (print_int l)); [reflexivity|]. exists (JInt l). split; [apply gv_number; now apply int_num|constructor].
    + apply (One _ (print_g P r)); [reflexivity|]. destruct (real_num r W N Hq) as (j & Hj & Ej). exists j.
      split; [now apply gv_number|now constructor].
    + apply (One _ (quote :: cplx_text SP c ++ [quote])); [reflexivity|]. exists (JStr (untxt (cplx_text SP c))).
      split; [apply g_quoted_json|constructor; eexists; reflexivity].
    + apply (One _ (string_escape s)); [reflexivity|]. exists (JStr s). split; [apply gv_string; now apply escape_string|constructor].
    + apply (One _ (put_vec put_bool v)); [reflexivity|]. destruct (g_put_vec_json _ _ v N (g_bool_elems v)) as (j & Hj & Ej). eexists. split; [eassumption|now constructor].
    + apply (One _ (put_vec print_int v)); [reflexivity|]. destruct (g_put_vec_json _ _ v N (g_int_elems v (Forall_impl _ int32_64 W))) as (j & Hj & Ej). eexists. split; [eassumption|now constructor].
    + apply (One _ (put_vec print_int v)); [reflexivity|]. destruct (g_put_vec_json _ _ v N (g_int_elems v W)) as (j & Hj & Ej). eexists. split; [eassumption|now constructor].
    + destruct N as [N F]. apply (One _ (put_vec (print_g P) v)); [reflexivity|].
      destruct (g_put_vec_json _ _ v N (g_real_elems v W F Hq)) as (j & Hj & Ej). eexists. split; [eassumption|now constructor].
    + apply (One _ (put_vec (fun c => quote :: cplx_text SP c ++ [quote]) v)); [reflexivity|].
      destruct (g_put_vec_json (fun c => quote :: cplx_text SP c ++ [quote]) (fun _ => is_str) v N) as (j & Hj & Ej).
      { apply Forall_forall. intros c _. eexists. split; [apply g_quoted_json|eexists; reflexivity]. }
      eexists. split; [eassumption|now constructor].
    + destruct N as [N F]. apply (One _ (put_vec string_escape v)); [reflexivity|].
      destruct (g_put_vec_json string_escape (fun s j => j = JStr s) v N) as (j & Hj & Ej).
      { apply Forall_forall. intros s Hs. rewrite Forall_forall in F. exists (JStr s). split; [apply gv_string; apply escape_string; auto|reflexivity]. }
      eexists. split; [eassumption|now constructor].
    + destruct N as (N1 & N2 & N3). intros prefix Hp.
      pose proof W as (_ & _ & _ & Wd).
      destruct (g_put_mat_json print_int int32 _ prefix m Hp W N1 N2 N3 (g_int_elems _ (Forall_impl _ int32_64 Wd))) as (t & j & Et & Hj & Ej).
      exists [], t, j. cbn [to_json]. change (put_int false) with print_int. rewrite Et. split; [reflexivity|]. split; [apply ws_nil|].
      split; [assumption|now constructor].
    + destruct N as (N1 & N2 & N3). intros prefix Hp.
      pose proof W as (_ & _ & _ & Wd).
      destruct (g_put_mat_json print_int int64 _ prefix m Hp W N1 N2 N3 (g_int_elems _ Wd)) as (t & j & Et & Hj & Ej).
      exists [], t, j. cbn [to_json]. change (put_long false) with print_int. rewrite Et. split; [reflexivity|]. split; [apply ws_nil|].
      split; [assumption|now constructor].
    + destruct N as (N1 & N2 & N3 & F). intros prefix Hp. pose proof W as (_ & _ & _ & Wd).
      destruct (g_put_mat_json (print_g P) f64 _ prefix m Hp W N1 N2 N3 (g_real_elems _ Wd F Hq)) as (t & j & Et & Hj & Ej).
      exists [], t, j. cbn [to_json]. rewrite Et. split; [reflexivity|]. split; [apply ws_nil|].
      split; [assumption|now constructor].
  - apply wf_vec in W. apply everywhere_vec in N as [Nv N]. apply everywhere_vec in Hq as [_ Hq]. cbn [json_node] in Nv. intros prefix Hp.
    destruct v as [|a v]; [easy|]. rewrite to_json_vec by assumption.
    destruct (g_put_elems_json SP prefix (prefix ++ txt "  ") a v "["%char Hp (ws_indent _ Hp)) as (b & l & Eb & Hl & El).
    { rewrite Forall_forall in *. auto. }
    rewrite Eb. cbn [bind]. exists (nl :: prefix), ("["%char :: (b ++ nl :: prefix) ++ ["]"%char]), (JArr l).
    split; [f_equal; f_equal; flat_text|]. split; [now apply ws_nl|]. split; [now apply gv_arr|now constructor].
  - apply wf_map in W as [Ws W]. apply everywhere_map in N as [[Nv Nk] N]. apply everywhere_map in Hq as [_ Hq]. intros prefix Hp.
    destruct m as [|a m]; [easy|]. rewrite to_json_map by assumption.
    destruct (g_put_members_json SP prefix a m "{"%char Hp) as (b & l & Eb & Hl & El); [rewrite Forall_forall in *; auto|assumption|].
    rewrite Eb. cbn [bind]. exists (nl :: prefix), ("{"%char :: (b ++ nl :: prefix) ++ ["}"%char]), (JObj l).
    split; [f_equal; f_equal; flat_text|]. split; [now apply ws_nl|]. split; [now apply gv_obj|now constructor].
Qed.

End Numbers.
