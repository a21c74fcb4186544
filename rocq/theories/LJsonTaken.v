(** The automaton of from_json2 takes exactly the texts of SJsonToks.v. *)
From Coq Require Import ZArith Bool Lia Ascii String List.
From Verif Require Import Base F64 StrMap Value MBasic MNum LNum MText MJson MJson2 SJsonText SJsonToks LJson2Run LJson2Lex LJson2Parse LJsonToks.
Import ListNotations.
Local Open Scope Z_scope.

(** * Tokens *)
Lemma tokens_cons t k ks r : tokens t (k :: ks) r -> exists v m, lex t = ((kind k, v), m) /\ tokens m ks r.
Proof. intros H. inversion H as [|w k' u m ks' r' Hw Hk Hr]; subst. destruct (token_lex w k u m Hw Hk) as (v & E). eauto. Qed.
Lemma tokens_app ks : forall t ls r, tokens t (ks ++ ls) r -> exists m, tokens t ks m /\ tokens m ls r.
Proof.
  induction ks as [|k ks IH]; intros t ls r H; cbn [app] in H; [exists t; split; [constructor|assumption]|].
  inversion H as [|w k' u m ks' r' Hw Hk Hr]; subst. apply IH in Hr as (m' & H1 & H2). exists m'. split; [now constructor|assumption].
Qed.
Lemma tokens_snoc t ks m : tokens t ks m -> forall w u k r, m = w ++ u ++ r -> lws w -> ltoken k u r -> tokens t (ks ++ [k]) r.
Proof.
  induction 1 as [t|w k u r ks r' Hw Hk H IH]; intros w0 u0 k0 r0 E Hw0 Hk0; cbn [app].
  - subst t. constructor; [assumption|assumption|constructor].
  - constructor; [assumption|assumption|]. now apply (IH w0 u0).
Qed.
Lemma kind_inj a b : kind a = kind b -> a = b.
Proof. destruct a, b; cbv; congruence. Qed.

(** * Taken texts are accepted *)
Definition value_ok (ks : list tk) : Prop :=
  forall t r s v S w, tokens t ks r -> In s vstates ->
  exists v' c, reach (Pst ((s, v) :: S) None t w) (Pst ((goto s 18, v') :: (s, v) :: S) None r (Wrap c (outer w))).
Definition elems_ok (ks : list tk) : Prop :=
  forall t r v S w, tokens t ks r ->
  exists v' c, reach (Pst ((14, v) :: S) None t w) (Pst ((22, v') :: (14, v) :: S) None r (Wrap c (outer w))).
Definition members_ok (ks : list tk) : Prop :=
  forall t r v S w, tokens t ks r ->
  exists v' c, reach (Pst ((13, v) :: S) None t w) (Pst ((18, v') :: (13, v) :: S) None r (Wrap c (outer w))).
Lemma member_ok ls : value_ok ls -> forall t r s v S w, tokens t (Str :: Colon :: ls) r -> In s [13; 25] ->
  exists v' c, reach (Pst ((s, v) :: S) None t w) (Pst ((if s =? 13 then 19 else 29, v') :: (s, v) :: S) None r (Wrap c (outer w))).
Proof.
  intros V t r s v S w H Hs. apply tokens_cons in H as (u & m & E & H). apply tokens_cons in H as (u1 & m1 & E1 & H).
  destruct (V m1 r 28 u1 ((23, u) :: (16, u) :: (s, v) :: S) (set_key u w) H) as (v' & c & R); [cbn; auto|].
  assert (K : exists p, outer (set_key u w) = p :: outer w) by (unfold set_key; destruct (cur w); cbn [outer]; eauto).
  destruct K as (p & K). rewrite K in R.
  exists u, (p c). eapply reach_shift with (a := 16); [exact E| | | |reflexivity|]; try (destruct Hs as [<-|[<-|[]]]; reflexivity).
  eapply reach_step; [now apply red_key|].
  eapply reach_shift with (a := 28); [exact E1|reflexivity|reflexivity|reflexivity|reflexivity|].
  eapply reach_trans; [exact R|]. eapply reach_step; [apply red_member; [assumption|reflexivity]|]. cbn [outer cur]. apply reach_refl.
Qed.
Lemma close_elems s v S t r w : tokens t [Rbrack] r -> In s [14; 22] ->
  (s = 22 -> exists v0 S', S = (14, v0) :: S') ->
  exists v' v1, reach (Pst ((s, v) :: S) None t w) (Pst ((26, v') :: (21, v1) :: (if s =? 14 then (14, v) :: S else S)) None r w).
Proof.
  intros H Hs HS. apply tokens_cons in H as (u & m & E & H). inversion H; subst. do 2 eexists.
  destruct Hs as [<-|[<-|[]]]; [|destruct HS as (v0 & S' & ->); [reflexivity|]].
  - eapply reach_look; [exact E|reflexivity|reflexivity|reflexivity|now right|reflexivity|reflexivity|].
    eapply reach_shift_la with (a := 26); [reflexivity|reflexivity|reflexivity|reflexivity|]. apply reach_refl.
  - eapply reach_look; [exact E|reflexivity|reflexivity|reflexivity|now right|reflexivity|reflexivity|].
    eapply reach_shift_la with (a := 26); [reflexivity|reflexivity|reflexivity|reflexivity|]. apply reach_refl.
Qed.
Lemma close_members s v S t r w : tokens t [Rcurly] r -> In s [13; 18] ->
  (s = 18 -> exists v0 S', S = (13, v0) :: S') ->
  exists v' v1, reach (Pst ((s, v) :: S) None t w) (Pst ((24, v') :: (17, v1) :: (if s =? 13 then (13, v) :: S else S)) None r w).
Proof.
  intros H Hs HS. apply tokens_cons in H as (u & m & E & H). inversion H; subst. do 2 eexists.
  destruct Hs as [<-|[<-|[]]]; [|destruct HS as (v0 & S' & ->); [reflexivity|]].
  - eapply reach_look; [exact E|reflexivity|reflexivity|reflexivity|now right|reflexivity|reflexivity|].
    eapply reach_shift_la with (a := 24); [reflexivity|reflexivity|reflexivity|reflexivity|]. apply reach_refl.
  - eapply reach_look; [exact E|reflexivity|reflexivity|reflexivity|now right|reflexivity|reflexivity|].
    eapply reach_shift_la with (a := 24); [reflexivity|reflexivity|reflexivity|reflexivity|]. apply reach_refl.
Qed.

Scheme value_mut := Minimality for value Sort Prop
  with elems_mut := Minimality for elems Sort Prop
  with members_mut := Minimality for members Sort Prop.
Combined Scheme value_ind3 from value_mut, elems_mut, members_mut.

Lemma open_outer w : exists c p, open_map w = Wrap c (p :: outer w).
Proof. unfold open_map. destruct (cur w); eauto. Qed.
Lemma grammar_ok : (forall ks, value ks -> value_ok ks) /\ (forall ks, elems ks -> elems_ok ks) /\ (forall ks, members ks -> members_ok ks).
Proof.
  apply value_ind3.
  - intros k Hk t r s v S w H Hs. apply tokens_cons in H as (u & m & E & H). inversion H; subst.
    assert (exists x, act s (kind k) = x /\ (0 <? x) = true /\ In x [3; 4; 5; 6; 7; 8]) as (x & Ex & Px & Hx).
    { eexists. split; [reflexivity|]. vst Hs; cbn [In] in Hk;
        repeat (destruct Hk as [<-|Hk]; [split; [reflexivity|vm_compute; tauto]|]); destruct Hk. }
    assert (exists c, action (tab yydefact x) u w = Some (Wrap c (outer w))) as (c & Ea).
    { cbn [In] in Hx. repeat (destruct Hx as [<-|Hx]; [eexists; reflexivity|]). destruct Hx. }
    exists u, c. eapply reach_shift; [exact E| | |exact Ex|exact Px|]; try (vst Hs; reflexivity).
    eapply reach_step; [|apply reach_refl]. now apply red_scalar.
  - intros t r s v S w H Hs. apply tokens_cons in H as (u & m & E & H).
    destruct (close_elems 14 u ((2, u) :: (s, v) :: S) m r (on_top (set_vector_sz 0) w) H) as (v1 & v2 & R); [cbn; auto|discriminate|].
    exists u, (cur (on_top (set_vector_sz 0) w)).
    eapply reach_shift with (a := 2); [exact E| | | |reflexivity|]; try (vst Hs; reflexivity).
    eapply reach_step; [apply red_open_vec|]. eapply reach_trans; [exact R|]. cbn [Z.eqb Pos.eqb].
    eapply reach_step; [now apply red_array|]. eapply reach_step; [apply red_group; [assumption|cbn; auto]|]. apply reach_refl.
  - intros ks _ IH t r s v S w H Hs. apply tokens_cons in H as (u & m & E & H). apply tokens_app in H as (m1 & H1 & H2).
    destruct (IH m m1 u ((2, u) :: (s, v) :: S) (on_top (set_vector_sz 0) w) H1) as (v' & c & R1).
    destruct (close_elems 22 v' ((14, u) :: (2, u) :: (s, v) :: S) m1 r (Wrap c (outer (on_top (set_vector_sz 0) w))) H2) as (v1 & v2 & R); [cbn; auto|eauto|].
    exists u, c. eapply reach_shift with (a := 2); [exact E| | | |reflexivity|]; try (vst Hs; reflexivity).
    eapply reach_step; [apply red_open_vec|]. eapply reach_trans; [exact R1|]. eapply reach_trans; [exact R|]. cbn [Z.eqb Pos.eqb].
    eapply reach_step; [now apply red_array|]. eapply reach_step; [apply red_group; [assumption|cbn; auto]|]. apply reach_refl.
  - intros t r s v S w H Hs. apply tokens_cons in H as (u & m & E & H). destruct (open_outer w) as (c & p & Eo).
    destruct (close_members 13 u ((1, u) :: (s, v) :: S) m r (open_map w) H) as (v1 & v2 & R); [cbn; auto|discriminate|]. rewrite Eo in R.
    exists u, (p c). eapply reach_shift with (a := 1); [exact E| | | |reflexivity|]; try (vst Hs; reflexivity).
    eapply reach_step; [apply red_open_map|]. rewrite Eo. eapply reach_trans; [exact R|]. cbn [Z.eqb Pos.eqb].
    eapply reach_step; [apply red_object; [assumption|reflexivity]|]. eapply reach_step; [apply red_group; [assumption|cbn; auto]|]. apply reach_refl.
  - intros ks _ IH t r s v S w H Hs. apply tokens_cons in H as (u & m & E & H). apply tokens_app in H as (m1 & H1 & H2). destruct (open_outer w) as (c0 & p & Eo).
    destruct (IH m m1 u ((1, u) :: (s, v) :: S) (open_map w) H1) as (v' & c & R1). rewrite Eo in R1. cbn [outer] in R1.
    destruct (close_members 18 v' ((13, u) :: (1, u) :: (s, v) :: S) m1 r (Wrap c (p :: outer w)) H2) as (v1 & v2 & R); [cbn; auto|eauto|].
    exists u, (p c). eapply reach_shift with (a := 1); [exact E| | | |reflexivity|]; try (vst Hs; reflexivity).
    eapply reach_step; [apply red_open_map|]. rewrite Eo. eapply reach_trans; [exact R1|]. eapply reach_trans; [exact R|]. cbn [Z.eqb Pos.eqb].
    eapply reach_step; [apply red_object; [assumption|reflexivity]|]. eapply reach_step; [apply red_group; [assumption|cbn; auto]|]. apply reach_refl.
  - intros ks _ IH t r v S w H. destruct (IH t r 14 v S w H) as (v' & c & R); [cbn; auto|]. exists v', c.
    eapply reach_trans; [exact R|]. eapply reach_step; [apply red_first_elem|]. apply reach_refl.
  - intros ks ls _ IH1 _ IH2 t r v S w H. apply tokens_app in H as (m & H1 & H). apply tokens_cons in H as (u & m1 & E & H2).
    destruct (IH1 t m v S w H1) as (v1 & c1 & R1).
    destruct (IH2 m1 r 27 u ((22, v1) :: (14, v) :: S) (Wrap c1 (outer w)) H2) as (v2 & c2 & R2); [cbn; auto|]. exists v1, c2.
    eapply reach_trans; [exact R1|]. eapply reach_shift with (a := 27); [exact E|reflexivity|reflexivity|reflexivity|reflexivity|].
    eapply reach_trans; [exact R2|]. eapply reach_step; [apply red_next_elem|]. apply reach_refl.
  - intros ks _ IH t r v S w H. destruct (member_ok ks IH t r 13 v S w H) as (v' & c & R); [cbn; auto|]. exists v', c.
    eapply reach_trans; [exact R|]. eapply reach_step; [apply red_first_member|]. apply reach_refl.
  - intros ks ls _ IH1 _ IH2 t r v S w H. apply tokens_app in H as (m & H1 & H). apply tokens_cons in H as (u & m1 & E & H2).
    destruct (IH1 t m v S w H1) as (v1 & c1 & R1).
    destruct (member_ok ls IH2 m1 r 25 u ((18, v1) :: (13, v) :: S) (Wrap c1 (outer w)) H2) as (v2 & c2 & R2); [cbn; auto|]. exists v1, c2.
    eapply reach_trans; [exact R1|]. eapply reach_shift with (a := 25); [exact E|reflexivity|reflexivity|reflexivity|reflexivity|].
    eapply reach_trans; [exact R2|]. eapply reach_step; [apply red_next_member|]. apply reach_refl.
Qed.
Lemma taken_parse t g : taken t -> fst (parse t g) = Ok tt.
Proof.
  intros (ks & r & H & He & Hk). apply ends_lex in He as (v & r' & El).
  destruct Hk as [->|Hk].
  - inversion H; subst. rewrite (parse_eq 4 r g (Ok tt) (Wrap g [])); [reflexivity| |discriminate].
    cbn [run]. unfold pstep at 1. cbn [stk la inp Z.eqb]. replace (tab yypact 0 =? -15) with false by reflexivity. rewrite El. reflexivity.
  - destruct (proj1 grammar_ok ks Hk t r 0 [] [] (Wrap g []) H) as (v' & c & n & R); [cbn; auto|].
    rewrite (parse_eq (n + 4) t g (Ok tt) (Wrap c [])); [reflexivity| |discriminate]. rewrite R. cbn [outer run].
    replace (pstep _) with (Run (Pst [(9, v'); (0, [])] None r (Wrap c []))) by reflexivity.
    unfold pstep at 1. cbn [stk]. cbn [Z.eqb Pos.eqb]. replace (tab yypact 9 =? -15) with false by reflexivity. cbn [la inp]. rewrite El. reflexivity.
Qed.

(** * Accepted texts are taken *)
(** The tokens that each state of the automaton stands for. *)
Definition lang (s : Z) (ks : list tk) : Prop :=
  match s with
  | 1 => ks = [Lcurly] | 2 => ks = [Lbrack] | 3 => ks = [KTrue] | 4 => ks = [KFalse] | 5 => ks = [KNull] | 6 => ks = [Str]
  | 7 => ks = [Real] | 8 => ks = [Int]
  | 9 => ks = [] \/ value ks
  | 10 | 11 | 12 | 20 | 30 | 31 => value ks
  | 13 | 14 | 15 | 23 => ks = []
  | 16 => ks = [Str]
  | 17 => ks = [] \/ members ks
  | 18 => members ks
  | 19 | 29 => exists ls, ks = Str :: Colon :: ls /\ value ls
  | 21 => ks = [] \/ elems ks
  | 22 => elems ks
  | 24 => ks = [Rcurly] | 25 => ks = [Comma] | 26 => ks = [Rbrack] | 27 => ks = [Comma] | 28 => ks = [Colon]
  | _ => False
  end.
Inductive spells : list Z -> list tk -> Prop :=
| sp_0 : spells [0] []
| sp_cons s l ks ls : spells l ks -> lang s ls -> spells (s :: l) (ks ++ ls).
Lemma spells_inv s l ks : spells (s :: l) ks -> l <> [] -> exists ks' ls, ks = ks' ++ ls /\ spells l ks' /\ lang s ls.
Proof. intros H N. inversion H; subst; [contradiction|]. eauto. Qed.
Lemma sp_nil s l ks : spells l ks -> lang s [] -> spells (s :: l) ks.
Proof. intros H L. rewrite <- (app_nil_r ks). now constructor. Qed.

Ltac stack_step' :=
  match goal with
  | H : chain (_ :: ?l) |- _ =>
      destruct l as [|?t ?l]; [cbn in H; try lia; try discriminate|];
      let A := fresh "A" in let B := fresh "B" in destruct H as (A & B & H); clear A; cbn in B;
      repeat (destruct B as [B|B]; [subst|]); try contradiction;
      match goal with Sp : spells _ _ |- _ =>
        let ks := fresh "ks" in let ls := fresh "ls" in let L := fresh "L" in
        apply spells_inv in Sp as (ks & ls & -> & Sp & L); [cbn [lang] in L|discriminate] end
  end.
Ltac lang_end :=
  match goal with
  | H : [] = [] \/ _ |- _ => idtac
  | H : _ \/ _ |- _ => destruct H; subst; cbn [app]; lang_end
  | H : exists _, _ |- _ => destruct H as (? & ? & ?); subst; cbn [app]; lang_end
  | _ => first [assumption | now left | now right | now constructor | eexists; split; [reflexivity|assumption] | now right; constructor
               | now apply e_more | now apply m_more | idtac]
  end.
Lemma reduce_spells p s l ks p' : chain (states p) -> spells (states p) ks -> states p = s :: l -> s <> 15 -> tab yydefact s <> 0 ->
  reduce (tab yydefact s) p = Run p' -> spells (states p') ks.
Proof.
  intros Hc Sp E Hn Hd R. rewrite E in Hc, Sp. pose proof (chain_range _ _ Hc) as Rg.
  destruct p as [st lk ip w]. unfold states in *. cbn [stk] in *.
  revert s Rg l Hc Sp E Hn Hd R. match goal with |- forall s, _ -> @?P s => apply (state_cases P) end.
  cbn [map seq Z.of_nat Pos.of_succ_nat Pos.succ].
  repeat match goal with |- Forall _ [] => constructor | |- Forall _ (_ :: _) => constructor end.
  all: intros l Hc Sp E Hn Hd R; vm_compute in Hd; try congruence; clear Hd Hn.
  all: match type of R with context [reduce (tab yydefact ?s)] =>
         let n := eval cbv in (Z.to_nat (tab yyr2 (tab yydefact s))) in
         match n with 0%nat => idtac | 1%nat => stack_step' | 3%nat => stack_step'; stack_step'; stack_step'
                 | 4%nat => stack_step'; stack_step'; stack_step'; stack_step' end
       end.
  all: repeat match goal with H : map fst ?st = _ :: _ |- _ =>
         let v := fresh "v" in let l := fresh "l" in apply stk_inv in H as (v & l & -> & H) end.
  all: unfold reduce in R; cbn [stk wr] in R;
       match type of R with context [action ?a ?b ?c] => destruct (action a b c); [|cbn in R; discriminate R] end.
  all: cbn in R; injection R as <-; cbn [stk map fst]; rewrite ?E.
  all: match goal with |- spells (goto ?a ?b :: _) _ =>
         let v := eval vm_compute in (goto a b) in replace (goto a b) with v by reflexivity end.
  all: rewrite ?app_nil_r; rewrite <- ?app_assoc; cbn [app].
  all: subst; cbn [app] in *.
  all: try (apply sp_nil; [assumption|cbn [lang]; first [reflexivity|now left]]; fail).
  all: apply sp_cons; [assumption|cbn [lang]].
  all: try assumption; try (now right); try (constructor; cbn [In]; tauto); try (constructor; assumption).
  all: lang_end.
Qed.

Definition symbols : list (Z * tk) :=
  [(1, Lcurly); (2, Lbrack); (3, KTrue); (4, KFalse); (5, KNull); (6, Str); (7, Real); (8, Int); (16, Str);
   (24, Rcurly); (25, Comma); (26, Rbrack); (27, Comma); (28, Colon)].
Lemma symbols_lang a k : In (a, k) symbols -> lang a [k].
Proof. intros H. cbn [symbols In] in H. repeat (destruct H as [H|H]; [injection H as <- <-; reflexivity|]). destruct H. Qed.
Definition shift_sym (s k : Z) : bool :=
  let i := tab yypact s + k in
  if (i <? 0) || (18 <? i) || negb (tab yycheck i =? k) then true
  else let a := tab yytable i in
       ((a =? 15) && (k =? 0)) || (negb (a =? 15) && existsb (fun x => (a =? fst x) && (k =? kind (snd x))) symbols).
Lemma shift_sym_all s k : 0 <= s <= 31 -> 0 <= k <= 15 -> shift_sym s k = true.
Proof.
  intros Hs Hk.
  assert (A : forallb (fun s => forallb (shift_sym s) (map Z.of_nat (seq 0 16))) (map Z.of_nat (seq 0 32)) = true) by (vm_compute; reflexivity).
  rewrite forallb_forall in A. specialize (A s). rewrite forallb_forall in A. apply A.
  - apply in_map_iff. exists (Z.to_nat s). split; [lia|apply in_seq; lia].
  - apply in_map_iff. exists (Z.to_nat k). split; [lia|apply in_seq; lia].
Qed.

(** What the machine has read of the text so far, and that its stack stands for it. *)
Definition heard (t : text) (p : pst) : Prop :=
  exists ks m, tokens t ks m /\ spells (states p) ks /\
  if hd 0 (states p) =? 15 then ends m
  else match la p with None => m = inp p | Some (k, _) => exists v, lex m = ((k, v), inp p) end.

Lemma reduce_not_end p s l p' : chain (states p) -> states p = s :: l -> s <> 15 -> tab yydefact s <> 0 ->
  reduce (tab yydefact s) p = Run p' -> hd 0 (states p') <> 15.
Proof.
  intros Hc E Hn Hd R. rewrite E in Hc. pose proof (chain_range _ _ Hc) as Rg. destruct p as [st lk ip w]. unfold states in *. cbn [stk] in *.
  unfold reduce in R. cbn [stk wr] in R. destruct st as [|[s0 v] st']; [discriminate E|]. set (st := (s0, v) :: st') in *.
  destruct (skipn _ st) as [|[s1 v1] l1] eqn:Es; [discriminate R|]. destruct (action _ _ _); [|discriminate R]. injection R as <-. cbn [stk map fst hd].
  assert (0 <= s1 <= 31) as R1.
  { assert (In (s1, v1) st) as Hi. { rewrite <- (firstn_skipn (Z.to_nat (tab yyr2 (tab yydefact s))) st), Es. apply in_app_iff. right. now left. }
    rewrite <- E in Hc. clearbody st. clear - Hc Hi. induction st as [|[s0 v0] st IH]; [destruct Hi|]. pose proof (chain_range _ _ Hc) as Rg.
    destruct Hi as [Hi|Hi]; [injection Hi as -> _; exact Rg|]. apply IH; [|exact Hi]. cbn [map fst] in Hc. destruct st; [destruct Hi|]. apply Hc. }
  assert (A : forallb (fun s => (tab yydefact s =? 0) || forallb (fun s1 => negb (goto s1 (tab yyr1 (tab yydefact s)) =? 15)) (map Z.of_nat (seq 0 32))) (map Z.of_nat (seq 0 32)) = true) by (vm_compute; reflexivity).
  rewrite forallb_forall in A. specialize (A s). rewrite orb_true_iff, forallb_forall in A. destruct A as [A|A].
  - apply in_map_iff. exists (Z.to_nat s). split; [lia|apply in_seq; lia].
  - apply Z.eqb_eq in A. contradiction.
  - assert (In s1 (map Z.of_nat (seq 0 32))) as I1 by (apply in_map_iff; exists (Z.to_nat s1); split; [lia|apply in_seq; lia]).
    specialize (A s1 I1). intros X. rewrite X in A. discriminate A.
Qed.

Lemma pstep_heard t p : good p -> heard t p -> match pstep p with Run p' => heard t p' | Stop r _ => r = Ok tt -> taken t end.
Proof.
  intros G (ks & m & Ht & Sp & Hm). pose proof G as (Hc & Ho & Hl). unfold pstep.
  destruct p as [st lk ip w]. unfold states in *. cbn [stk la inp wr] in *.
  destruct st as [|[s v] st]; [destruct Hc|]. cbn [map fst hd] in Hc, Sp, Hm.
  destruct (Z.eqb_spec s 15) as [->|Hn].
  { intros _. exists ks, m. split; [assumption|]. split; [assumption|].
    destruct st as [|[s1 v1] st]; [cbn in Hc; discriminate|]. cbn [map fst] in *. destruct Hc as (_ & B & Hc). cbn in B. destruct B as [<-|[]].
    destruct st as [|[s2 v2] st]; [cbn in Hc; discriminate|]. cbn [map fst] in *. destruct Hc as (_ & B & Hc). cbn in B. destruct B as [<-|[]].
    apply spells_inv in Sp as (ks1 & l1 & -> & Sp & L1); [|discriminate]. apply spells_inv in Sp as (ks2 & l2 & -> & Sp & L2); [|discriminate].
    cbn [lang] in L1, L2. subst l1. rewrite app_nil_r. inversion Sp; subst; [exact L2|]. cbn [lang] in *. contradiction. }
  pose proof (chain_range _ _ Hc) as R.
  assert (D : forall lk' ip', match lk' with Some (k, _) => 0 <= k <= 15 | None => True end ->
    match lk' with None => m = ip' | Some (k, _) => exists v, lex m = ((k, v), ip') end ->
    match default s (Pst ((s, v) :: st) lk' ip' w) with
    | Run p' => heard t p'
    | Stop r _ => r = Ok tt -> taken t
    end).
  { intros lk' ip' Hk Hm'. unfold default. destruct (Z.eqb_spec (tab yydefact s) 0) as [_|Hd]; [discriminate|].
    destruct (reduce_good (Pst ((s, v) :: st) lk' ip' w) s (map fst st)) as (p' & E & Gp & E1 & E2 & Er); try assumption; [|reflexivity|].
    { split; [exact Hc|]. split; [exact Ho|exact Hk]. }
    rewrite E. exists ks, m. split; [assumption|]. split; [now apply (reduce_spells (Pst ((s, v) :: st) lk' ip' w) s (map fst st) ks p' Hc Sp)|].
    destruct (Z.eqb_spec (hd 0 (states p')) 15) as [E15|_]; [|rewrite E1, E2; exact Hm'].
    exfalso. now apply (reduce_not_end (Pst ((s, v) :: st) lk' ip' w) s (map fst st) p' Hc eq_refl Hn Hd E). }
  destruct (tab yypact s =? -15); [exact (D lk ip Hl Hm)|].
  assert (X : forall k u r, 0 <= k <= 15 -> (exists v, lex m = ((k, v), r)) ->
    match (let i := tab yypact s + k in
          if (i <? 0) || (18 <? i) || negb (tab yycheck i =? k) then default s (Pst ((s, v) :: st) (Some (k, u)) r w)
          else let a := tab yytable i in
               if 0 <? a then Run (Pst ((a, u) :: (s, v) :: st) None r w)
               else if a =? -1 then Stop Throw w else reduce (- a) (Pst ((s, v) :: st) (Some (k, u)) r w)) with
    | Run p' => heard t p'
    | Stop r _ => r = Ok tt -> taken t
    end).
  { intros k u r Hk (v0 & El). pose proof (shift_sym_all s k R Hk) as F. pose proof (shift_fine_all s k R Hk) as F'. unfold shift_sym in F. unfold shift_fine in F'. cbv zeta in F, F' |- *.
    destruct (_ || _ || _) eqn:Ei; [exact (D (Some (k, u)) r Hk (ex_intro _ v0 El))|].
    do 5 apply andb_true_iff in F' as [F' _]. rewrite F'. clear F'. set (a := tab yytable _) in *.
    unfold heard, states. cbn [stk map fst hd la inp].
    apply orb_true_iff in F as [F|F]; apply andb_true_iff in F as [F1 F2].
    - rewrite F1. apply Z.eqb_eq in F1, F2. exists ks, m. split; [assumption|]. split; [apply sp_nil; [assumption|rewrite F1; reflexivity]|].
      apply ends_lex. subst k. eauto.
    - apply negb_true_iff in F1. rewrite F1. apply existsb_exists in F2 as ((b & x) & Hx & Ex). cbn [fst snd] in Ex.
      apply andb_true_iff in Ex as [Ea Ek]. apply Z.eqb_eq in Ea, Ek. rewrite Ea.
      exists (ks ++ [x]), r. split; [|split; [apply sp_cons; [assumption|now apply symbols_lang]|reflexivity]].
      pose proof (kind_range x) as Kr. destruct (lex_cases _ _ _ _ El) as [(w0 & y & u0 & E0 & Hw & Hy & Hk')|[Hk'|[Hk' _]]].
      + rewrite Ek in Hk'. apply kind_inj in Hk' as <-. now apply (tokens_snoc t ks m Ht w0 u0).
      + unfold S_EOF in Hk'. lia.
      + unfold S_ERROR in Hk'. lia. }
  destruct lk as [[k u]|].
  - exact (X k u ip Hl Hm).
  - subst m. pose proof (lex_len ip) as L. destruct (lex ip) as [[k u] r] eqn:El. destruct L as [L1 L2].
    apply (X k u r L1). eauto.
Qed.
Lemma run_heard t : forall n p, good p -> heard t p -> fst (run n p) = Ok tt -> taken t.
Proof.
  induction n as [|n IH]; intros p G H; [discriminate|]. cbn [run]. pose proof (pstep_good p G) as G'. pose proof (pstep_heard t p G H) as H'.
  destruct (pstep p) as [p'|r w']; [|exact H']. destruct G' as [G' _]. now apply IH.
Qed.
Theorem parse_taken t g : fst (parse t g) = Ok tt <-> taken t.
Proof.
  split; [|apply taken_parse]. unfold parse. intros H.
  apply (run_heard t (parse_fuel t) (Pst [(0, [])] None t (Wrap g []))).
  - apply start_good.
  - exists [], t. split; [constructor|]. split; [constructor|reflexivity].
  - destruct (run _ _) as [r w]. exact H.
Qed.
