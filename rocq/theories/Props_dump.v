(** Properties C81 to C84: dump, print and print_content_types. *)
From Coq Require Import ZArith Bool Lia Ascii String List.
From Verif Require Import Base F64 StrMap Value WfDec MBasic SCopy SGet SPromote MMap SCapi MCollapse SCollapse MNum MText MJson SJson SJsonText SToJson MToJson LToJson
  Props_tojson SToYaml LToYaml Props_totoml MDump SDump LDump.
Import ListNotations.
Local Open Scope Z_scope.

(** A function that recognises keys with formatting; there is only one. *)
Lemma key_title_ext fmt k : recognises fmt -> key_title fmt k = key_title parse_key k.
Proof. intros R. unfold key_title. now rewrite (recognises_parse _ R). Qed.
Lemma label_ext fmt s : recognises fmt -> label fmt s = label parse_key s.
Proof. intros R. destruct s; cbn [label]; [now apply key_title_ext|reflexivity]. Qed.
Lemma label_lines_ext fmt pre s : recognises fmt -> label_lines fmt pre s = label_lines parse_key pre s.
Proof. intros R. destruct s; cbn [label_lines]; [|reflexivity]. unfold key_lines. now rewrite (recognises_parse _ R). Qed.
Lemma dump_lines_ext fmt P SP prefix indent pv : recognises fmt -> dump_lines fmt P SP prefix indent pv = dump_lines parse_key P SP prefix indent pv.
Proof. intros R. destruct pv as (p, g). unfold dump_lines. destruct (rev p); [reflexivity|]. now rewrite (label_ext _ _ R), (label_lines_ext _ _ _ R). Qed.
Lemma type_lines_ext fmt prefix indent pv : recognises fmt -> type_lines fmt prefix indent pv = type_lines parse_key prefix indent pv.
Proof. intros R. destruct pv as (p, g). unfold type_lines. destruct (rev p); [reflexivity|]. now rewrite (label_ext _ _ R), (label_lines_ext _ _ _ R). Qed.

(** * C81: dump shows every value of the container.

    Full statement: for every container and every value inside it, at any depth, dump prints the
    key or index of the value and the value, in the order of the container, indented by its
    depth, and nothing else.  False in the code for containers with pointers; the indentation
    is not the one that was asked for. *)
Theorem C81_exact_partial : forall fmt P SP prefix indent g, recognises fmt ->
  wf g -> fits g -> everywhere dump_node g ->
  dump_of P SP prefix indent g = Ok (dump_text fmt P SP prefix indent g).
Proof.
  intros fmt P SP prefix indent g R W F N. unfold dump_of. rewrite (dump_written P SP g W F N). cbn [bind]. unfold dump_text.
  rewrite (flat_map_ext _ (dump_lines fmt P SP prefix indent)); [reflexivity|]. intros pv. symmetry. now apply dump_lines_ext.
Qed.
(** [walk] visits exactly the values inside the container. *)
Theorem C81_walk : forall g p v, wf g -> (In (p, v) (walk g) <-> sub p g = Some v).
Proof. intros g p v W. split; [now apply sub_walk|apply walk_sub]. Qed.
(** In particular every scalar has a line of its own, with its key or index. *)
Lemma sub_everywhere Q g p v : everywhere Q g -> sub p g = Some v -> everywhere Q v.
Proof.
  revert g. induction p as [|s p IH]; intros g E H; [cbn in H; now injection H as <-|].
  destruct s as [k|i], g; try discriminate; cbn [sub] in H.
  - destruct (mfind k m) as [e|] eqn:Em; [|discriminate]. apply (IH e); [|assumption]. apply everywhere_map in E as [_ E]. rewrite Forall_forall in E.
    apply mfind_in in Em. now specialize (E _ Em).
  - unfold znth in H. destruct (_ <? _); [discriminate|]. destruct (nth_error v0 _) as [e|] eqn:Em; [|discriminate]. apply (IH e); [|assumption].
    apply everywhere_vec in E as [_ E]. rewrite Forall_forall in E. apply E. eapply nth_error_In; exact Em.
Qed.
Lemma dump_has fmt P SP prefix indent g p v l : recognises fmt -> wf g -> fits g -> everywhere dump_node g -> sub p g = Some v ->
  In l (dump_lines fmt P SP prefix indent (p, v)) -> exists t, dump_of P SP prefix indent g = Ok t /\ has_line l t.
Proof.
  intros R W F N S H. rewrite (C81_exact_partial fmt P SP prefix indent g R W F N). eexists. split; [reflexivity|]. apply ended_has. apply in_flat_map.
  exists (p, v). split; [now apply walk_sub|assumption].
Qed.
Theorem C81_scalars_partial : forall fmt P SP prefix indent g p s v, recognises fmt ->
  wf g -> fits g -> everywhere dump_node g -> sub (p ++ [s]) g = Some v -> scalar v ->
  exists t, dump_of P SP prefix indent g = Ok t /\
    has_line (dump_indent prefix indent (List.length p) ++ label fmt s ++ txt ": " ++ scalar_text P SP v) t.
Proof.
  intros fmt P SP prefix indent g p s v R W F N S C. apply (dump_has fmt P SP prefix indent g (p ++ [s]) v); try assumption.
  unfold dump_lines. rewrite rev_app_distr. cbn [rev app]. rewrite rev_length.
  pose proof (everywhere_here _ _ (sub_everywhere _ _ _ _ N S)) as Nv. unfold with_label.
  destruct v; try contradiction; cbn [scalarb orb own_lines map app]; left; reflexivity.
Qed.
(** Vectors of numbers in a map are printed below their key, each in one line. *)
Theorem C81_vectors_partial : forall fmt P SP prefix indent g p k v, recognises fmt ->
  wf g -> fits g -> everywhere dump_node g -> sub (p ++ [SKey k]) g = Some (GVInt v) ->
  exists t, dump_of P SP prefix indent g = Ok t /\
    has_line (dump_indent prefix indent (S (List.length p)) ++ txt "[" ++ concat (map (fun i => txt " " ++ print_int i) v) ++ txt " ]") t.
Proof.
  intros fmt P SP prefix indent g p k v R W F N S. apply (dump_has fmt P SP prefix indent g (p ++ [SKey k]) (GVInt v)); try assumption.
  unfold dump_lines. rewrite rev_app_distr. cbn [rev app]. rewrite rev_length. cbn [with_label scalarb numbers orb own_lines]. apply in_app_iff. right. left. reflexivity.
Qed.

(** Deciding [has_line]. *)
Fixpoint starts (l t : text) : bool :=
  match l, t with
  | [], _ => true
  | c :: l', d :: t' => Ascii.eqb c d && starts l' t'
  | _, _ => false
  end.
Fixpoint lineb (here : bool) (l t : text) : bool :=
  (here && starts (l ++ [nl]) t) || match t with [] => false | c :: t' => lineb (Ascii.eqb c nl) l t' end.
Lemma starts_app l t : starts l (l ++ t) = true.
Proof. induction l as [|c l IH]; [reflexivity|]. cbn [app starts]. now rewrite Ascii.eqb_refl. Qed.
Lemma has_lineb l t : has_line l t -> lineb true l t = true.
Proof.
  intros (a & b & -> & C).
  assert (G : forall a here, (a = [] -> here = true) -> complete a -> lineb here l (a ++ l ++ nl :: b) = true); [|now apply G].
  clear a C. induction a as [|c a IH]; intros here H C.
  - rewrite (H eq_refl). cbn [app]. assert (E : starts (l ++ [nl]) (l ++ nl :: b) = true).
    { change (nl :: b) with ([nl] ++ b). rewrite app_assoc. apply starts_app. }
    destruct (l ++ nl :: b) as [|c t]; cbn [lineb]; now rewrite E.
  - cbn [app lineb]. apply orb_true_iff. right. destruct C as [C|(u & E)]; [discriminate|]. apply IH.
    + intros ->. destruct u as [|d [|? u]]; cbn in E; try discriminate. now injection E as ->.
    + destruct a as [|d a]; [now left|]. right. destruct u as [|e u]; [discriminate|]. exists u. cbn in E. now injection E.
Qed.

(** With pointers: they make the numbers that follow hexadecimal, so that integers are printed
    like pointers, and an empty vector of pointers has no line. *)
Definition shown_alike (P : nat) (g g' : gc) : Prop :=
  value_ok g /\ value_ok g' /\ data_of g <> data_of g' /\ exists t, dump_of P 12 [] indent0 g = Ok t /\ dump_of P 12 [] indent0 g' = Ok t.
Theorem C81_pointer_refuted :
  shown_alike 6 (GVec [GPtr 255; GInt 16]) (GVec [GPtr 255; GPtr 16]) /\
  (let g := GVec [GVPtr []; GInt 1] in value_ok g /\ exists t, dump_of 6 12 [] indent0 g = Ok t /\ ~ has_line (txt "1: 1") t).
Proof.
  split.
  - split; [vok|]. split; [vok|]. split; [vm_compute; discriminate|]. eexists; split; vm_compute; reflexivity.
  - split; [vok|]. eexists. split; [vm_compute; reflexivity|]. intros H. apply has_lineb in H. vm_compute in H. discriminate H.
Qed.
(** Different containers shown alike: a string that contains a quote and a line end, keys with
    the same title, an empty map and an empty vector, and reals with more digits than the
    precision. *)
Theorem C81_alike_refuted :
  shown_alike 6 (GVec [GStr (String "a" (String (ch 34) (String (ch 10) (append "1: " (String (ch 34) "b")))))]) (GVec [GStr "a"%string; GStr "b"%string]) /\
  shown_alike 6 (GMap [("1# a"%string, GBool true)]) (GMap [("2# a"%string, GBool true)]) /\
  shown_alike 6 (GMap [("k"%string, GMap [])]) (GMap [("k"%string, GVec [])]) /\
  shown_alike 6 (GReal (f_of_Z 1234567)) (GReal (f_of_Z 1234570)).
Proof.
  split; [|split; [|split]].
  1-3: split; [vok|]; split; [vok|]; split; [vm_compute; discriminate|]; eexists; split; vm_compute; reflexivity.
  split; [vok|]. split; [vok|]. split; [|eexists; split; vm_compute; reflexivity].
  intros E. apply (f_equal (fun d => match d with DNum re _ => Some re | _ => None end)) in E. revert E. vm_compute. discriminate.
Qed.
(** The indentation that was asked for is used for the first level only. *)
Theorem C81_indent_refuted :
  let g := GMap [("a"%string, GMap [("b"%string, GMap [("c"%string, GBool true)])])] in
  value_ok g /\ exists t, dump_of 6 12 [] (txt "  ") g = Ok t /\ ~ has_line (txt "    c: true") t /\ has_line (txt "      c: true") t.
Proof.
  split; [vok|]. eexists. split; [vm_compute; reflexivity|]. split.
  - intros H. apply has_lineb in H. vm_compute in H. discriminate H.
  - exists (txt "a:" ++ nl :: txt "  b:" ++ [nl]), []. split; [reflexivity|]. right. exists (txt "a:" ++ nl :: txt "  b:"). reflexivity.
Qed.

(** * C82: the prefix is prepended to every line.

    Full statement: every line printed by dump and by print_content_types starts with the
    prefix.  False in the code: see the theorems called refuted. *)
Lemma lines_all prefix ls : Forall (fun l => exists r, l = prefix ++ r /\ one_line_text r) ls -> all_lines prefix (concat (map ended ls)).
Proof.
  induction 1 as [|l ls (r & -> & Hr) _ (rs & E & F)]; [now exists []|]. exists (r :: rs). split; [|now constructor].
  cbn [map concat]. rewrite E. unfold ended. now rewrite <- !app_assoc.
Qed.
Lemma one_same t : one_line_text t <-> one_line t.
Proof. reflexivity. Qed.
Ltac one := unfold one_line_text; let K := fresh in intros K; cbn in K; intuition discriminate.
Lemma ot_app a b : one_line_text (a ++ b) <-> one_line_text a /\ one_line_text b.
Proof. apply one_app. Qed.
Lemma ot_int n : one_line_text (print_int n). Proof. apply one_int. Qed.
Lemma ot_cplx SP c : one_line_text (cplx_text SP c).
Proof.
  unfold cplx_text. rewrite !ot_app. split; [apply one_real|]. split.
  - destruct (gt0 _); [|one]. change (one_line_text (txt "+" ++ print_g SP (snd c) ++ txt "i")). rewrite !ot_app. split; [one|]. split; [apply one_real|one].
  - destruct (lt0 _); [|one]. change (one_line_text (txt "-" ++ print_g SP (fneg (snd c)) ++ txt "i")). rewrite !ot_app. split; [one|]. split; [apply one_real|one].
Qed.
Lemma ot_concat l : Forall one_line_text l -> one_line_text (concat l).
Proof. induction 1 as [|a l Ha _ IH]; [one|]. cbn [concat]. now apply ot_app. Qed.
Lemma ot_copies n t : one_line_text t -> one_line_text (copies n t).
Proof. intros H. apply ot_concat. apply Forall_forall. intros x Hx. apply repeat_spec in Hx. now subst. Qed.
Lemma ot_spaced {A} (f : A -> text) v : (forall a, one_line_text (f a)) -> one_line_text (spaced f v).
Proof.
  intros H. unfold spaced. rewrite !ot_app. split; [one|]. split; [|one]. apply ot_concat. apply Forall_forall. intros x Hx. apply in_map_iff in Hx as (a & <- & _).
  apply ot_app. split; [one|apply H].
Qed.
Lemma title_one fmt k u two t : recognises fmt -> fmt k = Some (two, u, t) -> one_line_text t /\ (forall c, u = Some c -> c <> nl).
Proof.
  intros R E. apply R in E. destruct E as (s1 & d & s2 & s3 & _ & _ & _ & _ & _ & _ & U & _ & _ & X). split.
  - intros I. apply X. apply Exists_exists. exists nl. split; [assumption|]. now left.
  - intros c -> ->. vm_compute in U. intuition discriminate.
Qed.
Lemma ot_title fmt k : recognises fmt -> one_line_text (txt k) -> one_line_text (key_title fmt k).
Proof. intros R H. unfold key_title. destruct (fmt (txt k)) as [((two & u) & t)|] eqn:E; [|assumption]. now apply (title_one _ _ _ _ _ R) in E. Qed.
Definition prefixed (prefix l : text) : Prop := exists r, l = prefix ++ r /\ one_line_text r.
Lemma pre_app prefix i r : one_line_text i -> one_line_text r -> prefixed prefix ((prefix ++ i) ++ r).
Proof. intros Hi Hr. exists (i ++ r). split; [now rewrite app_assoc|]. now apply ot_app. Qed.
Lemma head_prefixed fmt prefix i s : recognises fmt -> one_line_text i ->
  match s with SKey k => one_line_text (txt k) /\ (forall u t, fmt (txt k) <> Some (true, u, t)) | SIdx _ => True end ->
  Forall (prefixed prefix) (label_lines fmt (prefix ++ i) s).
Proof.
  intros R Hi H. destruct s as [k|n]; cbn [label_lines].
  - destruct H as [Hk Hd]. unfold key_lines. destruct (fmt (txt k)) as [((two & u) & t)|] eqn:E.
    + destruct (title_one _ _ _ _ _ R E) as [Ht Hu]. destruct two; [now destruct (Hd u t)|]. cbn [app]. destruct u as [c|].
      * constructor; [now apply pre_app|]. constructor; [|constructor]. apply pre_app; [assumption|]. intros I. apply repeat_spec in I. now apply (Hu c).
      * constructor; [|constructor]. apply pre_app; [assumption|]. apply ot_app. split; [assumption|one].
    + constructor; [|constructor]. apply pre_app; [assumption|]. apply ot_app. split; [assumption|one].
  - constructor; [|constructor]. apply pre_app; [assumption|]. apply ot_app. split; [apply ot_int|one].
Qed.
Lemma own_prefixed P SP prefix i g : one_line_text i -> dump_node g -> lined (fun _ => None) ([], g) -> Forall (prefixed prefix) (own_lines P SP (prefix ++ i) g).
Proof.
  intros Hi N [H _]. destruct g; cbn [own_lines]; try contradiction; try (constructor; [|constructor]); try (now constructor); try (apply pre_app; [assumption|]);
    try (apply ot_spaced; intros; first [apply ot_int|apply one_real|apply ot_cplx|destruct a; one]); cbn [scalar_text]; try one; try apply ot_int; try apply one_real; try apply ot_cplx.
  - destruct b; one.
  - rewrite !ot_app. split; [one|]. split; [exact H|one].
  - apply Forall_forall. intros l Hl. apply in_map_iff in Hl as ((n & s) & <- & Hin). apply pre_app; [assumption|]. rewrite !ot_app. split; [apply ot_int|]. split; [one|].
    split; [|one]. apply in_combine_r in Hin. rewrite Forall_forall in H. now apply H.
Qed.
Theorem C82_prefix_partial : forall fmt P SP prefix indent g, recognises fmt ->
  wf g -> fits g -> everywhere dump_node g -> Forall (lined fmt) (walk g) -> one_line_text indent ->
  exists t, dump_of P SP prefix indent g = Ok t /\ all_lines prefix t.
Proof.
  intros fmt P SP prefix indent g R W F N Hl Hi. rewrite (C81_exact_partial fmt P SP prefix indent g R W F N). eexists. split; [reflexivity|].
  apply lines_all. change (Forall (prefixed prefix) (flat_map (dump_lines fmt P SP prefix indent) (walk g))). apply Forall_forall. intros l H.
  apply in_flat_map in H as ((p & v) & Hp & H). rewrite Forall_forall in Hl. specialize (Hl _ Hp).
  assert (Nv : dump_node v). { apply (sub_walk g W) in Hp. apply everywhere_here. now apply (sub_everywhere _ g p). }
  assert (Lv : lined (fun _ => None) ([], v)) by (destruct Hl as [Hl _]; split; [exact Hl|exact I]).
  unfold dump_lines in H. cbn [lined] in Hl. destruct (rev p) as [|s above].
  - pose proof (own_prefixed P SP prefix [] v ltac:(one) Nv Lv) as K. rewrite app_nil_r in K. rewrite Forall_forall in K. now apply K.
  - assert (D : forall n, exists i, dump_indent prefix indent n = prefix ++ i /\ one_line_text i).
    { intros [|n]; cbn [dump_indent]; [exists []; split; [now rewrite app_nil_r|one]|]. exists (indent ++ copies n (txt "    ")). split; [reflexivity|].
      apply ot_app. split; [assumption|]. apply ot_copies. one. }
    destruct (D (List.length above)) as (i1 & E1 & H1). destruct (D (S (List.length above))) as (i2 & E2 & H2). rewrite E1, E2 in H.
    destruct (with_label s v) eqn:Es.
    + apply in_map_iff in H as (r & <- & H). apply pre_app; [assumption|].
      pose proof (own_prefixed P SP [] [] v ltac:(one) Nv Lv) as K. rewrite Forall_forall in K. destruct (K _ H) as (r' & -> & Hr). cbn [app].
      rewrite !ot_app. split; [|split; [one|exact Hr]]. destruct s as [k|n]; cbn [label]; [|apply ot_int]. apply ot_title; [assumption|]. tauto.
    + apply in_app_iff in H as [H|H].
      * pose proof (head_prefixed fmt prefix i1 s R H1) as K. rewrite Forall_forall in K. apply K; [|assumption]. destruct s as [k|n]; [|exact I].
        destruct Hl as (_ & Hk & Hd). split; [assumption|]. intros u t E. specialize (Hd u t E). destruct v; try contradiction; discriminate Es.
      * pose proof (own_prefixed P SP prefix i2 v H2 Nv Lv) as K. rewrite Forall_forall in K. now apply K.
Qed.
Theorem C82_types_partial : forall fmt prefix indent g, recognises fmt ->
  Forall (type_lined fmt) (walk g) -> one_line_text indent -> all_lines prefix (types_of g prefix indent).
Proof.
  intros fmt prefix indent g R Hl Hi. rewrite types_written. apply lines_all.
  change (Forall (prefixed prefix) (flat_map (type_lines parse_key prefix indent) (walk g))). apply Forall_forall. intros l H.
  apply in_flat_map in H as ((p & v) & Hp & H). rewrite Forall_forall in Hl. specialize (Hl _ Hp). rewrite <- (type_lines_ext fmt _ _ _ R) in H.
  assert (Kv : one_line_text (kind_text v)). { destruct v; cbn [kind_text]; rewrite ?ot_app; repeat first [split | one | apply ot_int]. }
  unfold type_lines in H. cbn [type_lined] in Hl. destruct (rev p) as [|s above] eqn:Er.
  - assert (p = []) as -> by (apply (f_equal (@rev _)) in Er; now rewrite rev_involutive in Er).
    assert (S : own_kind prefix v = [prefix ++ kind_text v] \/ own_kind prefix v = []).
    { destruct v; cbn [own_kind scalarb]; try (now left); try (now right); destruct Hl as [Hl _]; try contradiction; now destruct Hl. }
    destruct S as [E|E]; rewrite E in H; [|destruct H]. destruct H as [<-|[]]. exists (kind_text v). auto.
  - assert (D : one_line_text (copies (List.length above) indent)) by now apply ot_copies.
    unfold types_indent in H. destruct (scalarb v || _) eqn:Es.
    + destruct H as [<-|[]]. apply pre_app; [assumption|]. rewrite !ot_app. split; [|split; [one|assumption]].
      destruct s as [k|n]; cbn [label]; [|apply ot_int]. apply ot_title; [assumption|]. tauto.
    + apply in_app_iff in H as [H|H].
      * pose proof (head_prefixed fmt prefix _ s R D) as K. rewrite Forall_forall in K. apply K; [|assumption]. destruct s as [k|n]; [|exact I].
        destruct Hl as (_ & Hk & Hd). split; [assumption|]. intros u t E. specialize (Hd u t E). destruct v; cbn in Es, Hd; try discriminate; destruct Hd as [Hd|Hd]; try contradiction; now destruct Hd.
      * destruct v; cbn in Es, H; try discriminate; destruct Hl as [Hl _]; contradiction.
Qed.
(** Lines without the prefix: matrices, the second line of a string, the line above a title
    with ##; in print_content_types vectors at the top and vectors of strings. *)
Fixpoint allb (here : bool) (p t : text) : bool :=
  match t with [] => true | c :: t' => (negb here || starts p t) && allb (Ascii.eqb c nl) p t' end.
Lemma allb_line p r t : one_line_text r -> allb false p (r ++ nl :: t) = allb true p t.
Proof.
  induction r as [|c r IH]; intros H; [reflexivity|]. cbn [app allb negb orb andb]. destruct (Ascii.eqb_spec c nl) as [->|_]; [destruct H; now left|].
  apply IH. intros K. apply H. now right.
Qed.
Lemma all_linesb p t : p <> [] -> one_line_text p -> all_lines p t -> allb true p t = true.
Proof.
  intros Np Hp (ls & -> & F). induction F as [|l ls Hl _ IH]; [reflexivity|]. cbn [map concat]. destruct p as [|c p]; [easy|].
  change (((c :: p) ++ l ++ [nl]) ++ concat (map (fun l => (c :: p) ++ l ++ [nl]) ls)) with (c :: (p ++ l ++ [nl]) ++ concat (map (fun l => (c :: p) ++ l ++ [nl]) ls)).
  cbn [allb negb orb]. apply andb_true_iff. split.
  - change (starts (c :: p) ((c :: p ++ l ++ [nl]) ++ concat (map (fun l => (c :: p) ++ l ++ [nl]) ls)) = true).
    change (c :: p ++ l ++ [nl]) with ((c :: p) ++ l ++ [nl]). rewrite <- app_assoc. apply starts_app.
  - destruct (Ascii.eqb_spec c nl) as [->|_]; [destruct Hp; now left|]. rewrite <- !app_assoc. cbn [app]. rewrite app_assoc. rewrite allb_line; [exact IH|].
    apply ot_app. split; [intros K; apply Hp; now right|assumption].
Qed.
Definition unprefixed (g : gc) : Prop := value_ok g /\ exists t, dump_of 6 12 (txt ">") indent0 g = Ok t /\ ~ all_lines (txt ">") t.
Theorem C82_dump_refuted :
  unprefixed (GMap [("m"%string, GMInt (Mat 1 2 [1; 2]))]) /\
  unprefixed (GVec [GStr (String "a" (String (ch 10) "b"))]) /\
  unprefixed (GMap [("1## a"%string, GMap [])]) /\
  unprefixed (GVec [GVPtr [1; 2]]).
Proof.
  split; [|split; [|split]]; (split; [vok|]; eexists; split; [vm_compute; reflexivity|]; intros H; apply all_linesb in H; [vm_compute in H; discriminate H|discriminate|one]).
Qed.
Definition type_unprefixed (g : gc) : Prop := value_ok g /\ ~ all_lines (txt ">") (types_of g (txt ">") indent0).
Theorem C82_types_refuted :
  type_unprefixed (GVInt [1; 2]) /\ type_unprefixed (GMap [("m"%string, GMInt (Mat 1 2 [1; 2]))]) /\ type_unprefixed (GVec [GVStr ["a"%string]]).
Proof.
  split; [|split]; (split; [vok|]; intros H; apply all_linesb in H; [vm_compute in H; discriminate H|discriminate|one]).
Qed.

(** * C83: print_content_types names the type of every value and shows no data. *)
Theorem C83_no_data : forall g h prefix indent, same_shape g h -> types_of g prefix indent = types_of h prefix indent.
Proof. intros g h prefix indent H. now apply shape_types. Qed.
Theorem C83_exact : forall fmt g prefix indent, recognises fmt -> types_of g prefix indent = types_text fmt prefix indent g.
Proof.
  intros fmt g prefix indent R. rewrite types_written. unfold types_text. rewrite (flat_map_ext _ (type_lines fmt prefix indent)); [reflexivity|].
  intros pv. symmetry. now apply type_lines_ext.
Qed.
(** The line of a value inside the container: with its key or index, or below it. *)
Theorem C83_every : forall fmt g prefix indent p s v, recognises fmt -> sub (p ++ [s]) g = Some v ->
  match v with GVec _ | GMap _ => True | _ =>
    has_line (prefix ++ copies (List.length p) indent ++ label fmt s ++ txt ": " ++ kind_text v) (types_of g prefix indent) \/
    has_line (kind_text v) (types_of g prefix indent) /\ scalarb v = false /\ numbers v = None
  end.
Proof.
  intros fmt g prefix indent p s v R S. rewrite (C83_exact fmt) by assumption.
  assert (H : forall l, In l (type_lines fmt prefix indent (p ++ [s], v)) -> has_line l (types_text fmt prefix indent g)).
  { intros l H. apply ended_has. apply in_flat_map. exists (p ++ [s], v). split; [now apply walk_sub|assumption]. }
  unfold type_lines in H. rewrite rev_app_distr in H. cbn [rev app] in H. rewrite rev_length in H. unfold types_indent in H.
  rewrite <- app_assoc in H.
  destruct v; try exact I; cbn [scalarb numbers orb] in H; try (left; apply H; left; reflexivity); right; (split; [|split; reflexivity]); apply H; apply in_app_iff; right; left; reflexivity.
Qed.

(** * C84: a key that is a number, # and a title is printed as its title; other keys as they are. *)
Theorem C84_unique : forall k r r', formatted k r -> formatted k r' -> r = r'.
Proof. intros k r r' H H'. apply parse_recognises in H, H'. congruence. Qed.
(** On the line of a scalar. *)
Theorem C84_title : forall P SP prefix indent k v two u t, scalar v -> dump_node v -> formatted (txt k) (two, u, t) ->
  dump_of P SP prefix indent (GMap [(k, v)]) = Ok (prefix ++ t ++ txt ": " ++ scalar_text P SP v ++ [nl]) /\
  types_of (GMap [(k, v)]) prefix indent = prefix ++ t ++ txt ": " ++ kind_text v ++ [nl].
Proof.
  intros P SP prefix indent k v two u t S N H. apply parse_recognises in H. unfold dump_of. split.
  - rewrite dump_map. cbn [dump_members]. unfold title. rewrite H, simple_scalar. destruct v; try contradiction; cbn [scalarb dump bind app]; rewrite ?app_nil_r; reflexivity.
  - rewrite types_map. cbn [types_members]. unfold title. rewrite H, simple_inline. destruct v; try contradiction; cbn [scalarb orb types_of app]; rewrite ?app_nil_r; reflexivity.
Qed.
Theorem C84_plain : forall P SP prefix indent k v, scalar v -> dump_node v -> (forall r, ~ formatted (txt k) r) ->
  dump_of P SP prefix indent (GMap [(k, v)]) = Ok (prefix ++ txt k ++ txt ": " ++ scalar_text P SP v ++ [nl]) /\
  types_of (GMap [(k, v)]) prefix indent = prefix ++ txt k ++ txt ": " ++ kind_text v ++ [nl].
Proof.
  intros P SP prefix indent k v S N H. assert (E : parse_key (txt k) = None). { destruct (parse_key (txt k)) as [r|] eqn:E; [|reflexivity]. apply parse_recognises in E. now destruct (H r). }
  unfold dump_of. split.
  - rewrite dump_map. cbn [dump_members]. unfold title. rewrite E, simple_scalar. destruct v; try contradiction; cbn [scalarb dump bind app]; rewrite ?app_nil_r; reflexivity.
  - rewrite types_map. cbn [types_members]. unfold title. rewrite E, simple_inline. destruct v; try contradiction; cbn [scalarb orb types_of app]; rewrite ?app_nil_r; reflexivity.
Qed.
(** Above a map or vector: an empty line for ##, then the title, underlined or with a colon. *)
Definition header (prefix t : text) (two : bool) (u : option ascii) : text :=
  (if two then [nl] else []) ++ prefix ++ t ++
  match u with Some c => [nl] ++ prefix ++ repeat c (List.length t) | None => txt ":" end ++ [nl].
Theorem C84_header : forall P SP prefix indent k v two u t, wf v -> fits v -> everywhere dump_node v ->
  match v with GVec _ | GMap _ => True | _ => False end -> formatted (txt k) (two, u, t) ->
  exists b, dump_of P SP (prefix ++ indent) indent0 v = Ok b /\
    dump_of P SP prefix indent (GMap [(k, v)]) = Ok (header prefix t two u ++ b) /\
    types_of (GMap [(k, v)]) prefix indent = header prefix t two u ++ types_of v (prefix ++ indent) indent.
Proof.
  intros P SP prefix indent k v two u t W F N S H. apply parse_recognises in H. eexists. unfold dump_of. split; [rewrite (dump_written P SP v W F N); reflexivity|]. split.
  - rewrite dump_map. cbn [dump_members]. rewrite simple_scalar. destruct (scalarb v) eqn:E; [destruct v; contradiction || discriminate|].
    rewrite (dump_written P SP v W F N). cbn [bind]. rewrite app_nil_r. unfold head_lines, header. rewrite H. destruct u; reflexivity.
  - rewrite types_map. cbn [types_members]. rewrite simple_inline. destruct (scalarb v || _) eqn:E; [destruct v; contradiction || discriminate|].
    rewrite app_nil_r. unfold head_lines, header. rewrite H. destruct u; reflexivity.
Qed.
(** With a function for all keys, as in C81 to C83. *)
Theorem C84_recognised : exists fmt, recognises fmt /\ forall fmt', recognises fmt' -> forall k, fmt' k = fmt k.
Proof. exists parse_key. split; [apply parse_recognises|]. intros fmt' R k. now apply recognises_parse. Qed.

(** * Examples *)
Definition g81 : gc := GMap
  [("1##- Title"%string, GMap [("x"%string, GInt 3); ("y"%string, GVec [GBool true; GMap [("z"%string, GReal (f_of_Z 2))]])]);
   ("2# v"%string, GStr "a"%string); ("w"%string, GVInt [1; -2])].
Example C81_ex : wf g81 /\ fits g81 /\ everywhere dump_node g81 /\
  sub ([SKey "1##- Title"; SKey "y"; SIdx 1]%string ++ [SKey "z"%string]) g81 = Some (GReal (f_of_Z 2)) /\ scalar (GReal (f_of_Z 2)) /\
  sub ([] ++ [SKey "w"%string]) g81 = Some (GVInt [1; -2]).
Proof.
  assert (V : value_ok g81) by (unfold g81; vok). destruct V as (W & _ & F). split; [assumption|]. split; [assumption|].
  split; [unfold g81; every; exact I|]. split; [reflexivity|]. split; [exact I|reflexivity].
Qed.
Example C82_ex : Forall (lined parse_key) (walk (GMap [("1#- T"%string, GMap [("x"%string, GStr "s"%string)]); ("v"%string, GVInt [1])])) /\ one_line_text (txt "  ") /\
  Forall (type_lined parse_key) (walk (GMap [("1#- T"%string, GMap [("x"%string, GStr "s"%string)]); ("v"%string, GVInt [1])])).
Proof.
  split; [|split; [one|]].
  - cbn [walk walk_members map app fst snd]. repeat (apply Forall_cons; [split; [try exact I; try one|cbn [rev app]; first [exact I|split; [one|intros u t E; vm_compute in E; discriminate E]]]|]). constructor.
  - cbn [walk walk_members map app fst snd]. repeat (apply Forall_cons; [split; [try exact I; try discriminate|cbn [rev app]; first [exact I|split; [one|intros u t E; vm_compute in E; discriminate E]]]|]). constructor.
Qed.
Example C83_ex : same_shape (GMap [("a"%string, GInt 1); ("b"%string, GVStr ["x"%string])]) (GMap [("a"%string, GInt 7); ("b"%string, GVStr ["y"%string])]) /\
  sub ([SKey "1##- Title"%string] ++ [SKey "x"%string]) g81 = Some (GInt 3).
Proof. split; [|reflexivity]. constructor. constructor; [split; [reflexivity|constructor]|]. constructor; [split; [reflexivity|now constructor]|constructor]. Qed.
Example C84_ex : formatted (txt " 12 ##= A title") (true, Some "="%char, txt "A title") /\ formatted (txt "1#") (false, None, []) /\ (forall r, ~ formatted (txt "plain") r) /\
  (forall r, ~ formatted (txt "#1 a") r).
Proof.
  split; [apply parse_recognises; reflexivity|]. split; [apply parse_recognises; reflexivity|]. split; intros r H; apply parse_recognises in H; vm_compute in H; discriminate H.
Qed.

Print Assumptions C81_exact_partial.
Print Assumptions C81_walk.
Print Assumptions C81_scalars_partial.
Print Assumptions C81_vectors_partial.
Print Assumptions C81_pointer_refuted.
Print Assumptions C81_alike_refuted.
Print Assumptions C81_indent_refuted.
Print Assumptions C82_prefix_partial.
Print Assumptions C82_types_partial.
Print Assumptions C82_dump_refuted.
Print Assumptions C82_types_refuted.
Print Assumptions C83_no_data.
Print Assumptions C83_exact.
Print Assumptions C83_every.
Print Assumptions C84_unique.
Print Assumptions C84_title.
Print Assumptions C84_plain.
Print Assumptions C84_header.
Print Assumptions C84_recognised.
