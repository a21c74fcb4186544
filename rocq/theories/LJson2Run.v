(** The automaton of from_json2 on any text: it stops, and never pops an empty stack. *)
From Coq Require Import ZArith Bool Lia Ascii String List.
From Verif Require Import Base F64 StrMap Value MBasic MNum MText MJson MJson2.
Import ListNotations.
Local Open Scope Z_scope.

(** The states that can lie under a state of the automaton, and a bound on the number of
    reductions from it before the next token is consumed. *)
Definition vstates : list Z := [0; 14; 27; 28].
Definition below (s : Z) : list Z :=
  nth (Z.to_nat s)
    [ []; vstates; vstates; vstates; vstates; vstates; vstates; vstates; vstates; [0];
      [0]; vstates; vstates; [1]; [2]; [9]; [13; 25]; [13]; [13]; [13];
      [14]; [14]; [14]; [16]; [17]; [18]; [21]; [22]; [23]; [25];
      [27]; [28] ] [].
Definition rank (s : Z) : nat :=
  nth (Z.to_nat s)
    [ 2; 2; 2; 6; 6; 6; 6; 6; 6; 1; 2; 5; 5; 1; 1; 0; 1; 0; 1; 2; 2; 0; 1; 0; 6; 0; 6; 0; 0; 2; 2; 3 ]%nat 0%nat.

Fixpoint chain (l : list Z) : Prop :=
  match l with
  | [] => False
  | s :: r => match r with
              | [] => s = 0
              | t :: _ => 0 <= s <= 31 /\ In t (below s) /\ chain r
              end
  end.
(** The number of containers opened by the symbols on the stack. *)
Fixpoint opens (l : list Z) : nat :=
  match l with
  | [] => 0
  | s :: r => ((if (s =? 13)%Z || (s =? 23)%Z then 1 else 0) + opens r)%nat
  end.
Definition states (p : pst) : list Z := map fst (stk p).
Definition good (p : pst) : Prop :=
  chain (states p) /\ length (outer (wr p)) = opens (states p) /\
  match la p with Some (k, _) => 0 <= k <= 15 | None => True end.
Definition pend (l : option (Z * text)) : nat :=
  match l with Some (k, _) => if (k =? 0) || (k =? 15) then 0 else 1 | None => 0 end.
Definition meas (p : pst) : nat := (7 * (length (inp p) + pend (la p)) + rank (hd 0%Z (states p)))%nat.

(** * The lexer *)
Lemma lex_string_len : forall n t, (length t <= n)%nat -> forall s r, lex_string t = Some (s, r) -> (length r < length t)%nat.
Proof.
  induction n as [|n IH]; intros t Hn s r E.
  { destruct t; [discriminate|cbn in Hn; lia]. }
  destruct t as [|c t1]; [discriminate|]. cbn [lex_string] in E. cbn [length] in *.
  destruct (Ascii.eqb c quote). { injection E as <- <-. lia. }
  repeat match goal with
  | H : (if ?b then _ else _) = Some _ |- _ => destruct b
  | H : match lex_string ?u with _ => _ end = Some _ |- _ =>
      let L := fresh "L" in destruct (lex_string u) as [[? ?]|] eqn:L; [|discriminate];
      apply IH in L; [|cbn [length] in *; lia]; injection H as <- <-; cbn [length] in *; lia
  | H : match ?u with [] => None | _ => _ end = Some _ |- _ => destruct u; [discriminate|]; cbn [length] in *
  | H : None = Some _ |- _ => discriminate
  end.
Qed.
Lemma lex_number_len : forall t st k l r, lex_number st t = Some ((k, l), r) ->
  (length r <= length t)%nat /\ (k = S_INTEGER \/ k = S_FLOAT).
Proof.
  induction t as [|c t IH]; intros st k l r E; [discriminate|]. cbn [lex_number] in E.
  assert (G : forall st', match lex_number st' t with Some ((k, l), r) => Some ((k, c :: l), r) | None => None end = Some ((k, l), r) ->
    (length r <= length (c :: t))%nat /\ (k = S_INTEGER \/ k = S_FLOAT)).
  { intros st' E'. destruct (lex_number st' t) as [[[k' l'] r']|] eqn:L; [|discriminate].
    injection E' as <- <- <-. apply IH in L as [L1 L2]. cbn [length]. split; [lia|assumption]. }
  repeat match goal with H : (if ?b then _ else _) = Some _ |- _ => destruct b end; try discriminate; try (eapply G; eassumption).
  all: injection E as <- <- <-; auto.
Qed.
Lemma skip_space_len t : (length (skip_space t) <= length t)%nat.
Proof. induction t as [|c t IH]; cbn; [lia|]. destruct (is_space c); cbn; lia. Qed.
Lemma skip_prefix_len p : forall t r, skip_prefix p t = Some r -> length t = (length p + length r)%nat.
Proof.
  induction p as [|a p IH]; intros t r E; cbn in E. { now injection E as <-. }
  destruct t as [|b t]; [discriminate|]. destruct (Ascii.eqb a b); [|discriminate]. cbn. now rewrite (IH _ _ E).
Qed.
Lemma keyword_len p k t : (0 < k < 15) -> (0 < String.length p)%nat ->
  let '((k', _), r) := keyword p k t in 0 <= k' <= 15 /\ (length r + pend (Some (k', [])) <= length t)%nat.
Proof.
  intros Hk Hp. unfold keyword, S_EOF. destruct (skip_prefix (txt p) t) as [r|] eqn:E.
  - split; [lia|]. apply skip_prefix_len in E. cbn [pend].
    assert (length (txt p) = String.length p) by (unfold txt; clear; induction p; cbn; congruence).
    destruct (_ || _); lia.
  - cbn. lia.
Qed.
Lemma lex_len t : let '((k, _), r) := lex t in 0 <= k <= 15 /\ (length r + pend (Some (k, [])) <= length t)%nat.
Proof.
  unfold lex, S_EOF, S_ERROR, S_STRING, S_LCURLY, S_RCURLY, S_LBRACE, S_RBRACE, S_COMMA, S_COLON, S_TRUE, S_FALSE, S_NULL.
  pose proof (skip_space_len t) as Hs. destruct (skip_space t) as [|c r] eqn:Es; [cbn; lia|].
  cbn [length] in Hs.
  assert (K : forall p k u, (0 < k < 15) -> (0 < String.length p)%nat -> (length u <= length t)%nat ->
    let '((k', _), r) := keyword p k u in 0 <= k' <= 15 /\ (length r + pend (Some (k', [])) <= length t)%nat).
  { intros p k u Hk Hp Hu. pose proof (keyword_len p k u Hk Hp) as H. destruct (keyword p k u) as [[k' l'] r']. lia. }
  destruct (unicode_1 c); cbn [negb]; [|cbn; lia].
  destruct (Ascii.eqb c quote).
  { destruct (lex_string r) as [[s r']|] eqn:E; [|cbn; lia]. apply (lex_string_len _ _ (le_n _)) in E. cbn. lia. }
  destruct (is_sign c || isdig c)%bool.
  { destruct (lex_number _ r) as [[[k l] r']|] eqn:E; [|cbn; lia]. apply lex_number_len in E as [E1 E2].
    unfold S_INTEGER, S_FLOAT in E2. destruct E2; subst k; cbn; lia. }
  destruct c as [[] [] [] [] [] [] [] []]; cbn [pend];
    first [ apply K; [lia|cbn; lia|cbn [length]; lia] | cbn; cbn [length]; lia ].
Qed.

(** * The automaton *)
Lemma chain_range l s : chain (s :: l) -> 0 <= s <= 31.
Proof. destruct l; cbn; [lia|tauto]. Qed.
Lemma state_cases (P : Z -> Prop) : Forall P (map Z.of_nat (seq 0 32)) -> forall s, 0 <= s <= 31 -> P s.
Proof.
  intros H s Hs. rewrite Forall_forall in H. apply H. apply in_map_iff. exists (Z.to_nat s).
  split; [lia|]. apply in_seq. lia.
Qed.

Lemma stk_inv (l : list (Z * text)) s r : map fst l = s :: r -> exists v l', l = (s, v) :: l' /\ map fst l' = r.
Proof. destruct l as [|[a v] l']; cbn; [discriminate|]. intros E. injection E as <- <-. eauto. Qed.

Ltac stack_step :=
  match goal with
  | H : chain (_ :: ?l) |- _ =>
      destruct l as [|?t ?l]; [cbn in H; try lia; try discriminate|];
      let A := fresh "A" in let B := fresh "B" in destruct H as (A & B & H); clear A; cbn in B;
      repeat (destruct B as [B|B]; [subst|]); try contradiction
  end.

(** A reduction by the default rule of the topmost state. *)
Lemma reduce_good p s l : good p -> states p = s :: l -> s <> 15 -> tab yydefact s <> 0 ->
  exists p', reduce (tab yydefact s) p = Run p' /\ good p' /\ la p' = la p /\ inp p' = inp p /\
    (rank (hd 0%Z (states p')) < rank s)%nat.
Proof.
  intros (Hc & Ho & Hl) E Hn Hd. rewrite E in Hc, Ho.
  pose proof (chain_range _ _ Hc) as R. destruct p as [st lk ip w]. unfold states, good in *. cbn [stk la inp wr] in *.
  revert s R l Hc Ho E Hn Hd. match goal with |- forall s, _ -> @?P s => apply (state_cases P) end.
  cbn [map seq Z.of_nat Pos.of_succ_nat Pos.succ].
  repeat match goal with |- Forall _ [] => constructor | |- Forall _ (_ :: _) => constructor end.
  all: intros l Hc Ho E Hn Hd; vm_compute in Hd; try congruence; clear Hd Hn.
  all: match goal with |- context [reduce (tab yydefact ?s)] =>
         let n := eval cbv in (Z.to_nat (tab yyr2 (tab yydefact s))) in
         match n with 0%nat => idtac | 1%nat => stack_step | 3%nat => stack_step; stack_step; stack_step
                 | 4%nat => stack_step; stack_step; stack_step; stack_step end
       end.
  all: repeat match goal with H : map fst ?st = _ :: _ |- _ =>
         let v := fresh "v" in let l := fresh "l" in apply stk_inv in H as (v & l & -> & H) end.
  all: try (cbn [opens Z.eqb Pos.eqb orb plus] in Ho; destruct w as [wc [|wp wo]]; [discriminate Ho|]).
  all: eexists; (split; [reflexivity|]); cbn [la inp wr].
  all: rewrite <- E in Hc, Ho; (split; [split; [refine (conj _ (conj _ Hc)); [vm_compute; split; discriminate|vm_compute; auto 10]|]
         |split; [reflexivity|split; [reflexivity|apply PeanoNat.Nat.ltb_lt; reflexivity]]]); (split; [|assumption]).
  all: unfold states; cbn [stk]; match goal with |- context [goto ?a ?b] =>
         let x := eval vm_compute in (goto a b) in replace (goto a b) with x by reflexivity end.
  all: match goal with |- context [skipn ?n] => let x := eval vm_compute in n in replace n with x by reflexivity end.
  all: cbn [skipn map fst opens Z.eqb Pos.eqb orb plus] in Ho |- *.
  all: try (cbn; cbn in Ho; lia).
  all: unfold open_map, set_key; destruct (cur w); cbn; lia.
Qed.

Definition shift_fine (s k : Z) : bool :=
  let i := tab yypact s + k in
  if (i <? 0) || (18 <? i) || negb (tab yycheck i =? k) then true
  else let a := tab yytable i in
       (0 <? a) && (a <=? 31) && existsb (Z.eqb s) (below a) && negb ((a =? 13) || (a =? 23)) &&
       (rank a <=? 6)%nat && (if (k =? 0) || (k =? 15) then (a =? 15) && (s =? 9) else true).
Lemma shift_fine_all s k : 0 <= s <= 31 -> 0 <= k <= 15 -> shift_fine s k = true.
Proof.
  intros Hs Hk.
  assert (A : forallb (fun s => forallb (shift_fine s) (map Z.of_nat (seq 0 16))) (map Z.of_nat (seq 0 32)) = true) by (vm_compute; reflexivity).
  rewrite forallb_forall in A. specialize (A s). rewrite forallb_forall in A. apply A.
  - apply in_map_iff. exists (Z.to_nat s). split; [lia|apply in_seq; lia].
  - apply in_map_iff. exists (Z.to_nat k). split; [lia|apply in_seq; lia].
Qed.

Lemma pstep_good p : good p ->
  match pstep p with
  | Run p' => good p' /\ (meas p' < meas p)%nat
  | Stop r _ => r = Ok tt \/ r = Throw
  end.
Proof.
  intros G. pose proof G as (Hc & Ho & Hl). unfold pstep.
  destruct p as [st lk ip w]. unfold states in *. cbn [stk la inp wr] in *.
  destruct st as [|[s v] st]; [destruct Hc|].
  destruct (Z.eqb_spec s 15) as [->|Hn]; [now left|].
  pose proof (chain_range _ _ Hc) as R.
  assert (D : forall lk' ip', match lk' with Some (k, _) => 0 <= k <= 15 | None => True end ->
    match default s (Pst ((s, v) :: st) lk' ip' w) with
    | Run p' => good p' /\ (meas p' < 7 * (length ip' + pend lk') + rank s)%nat
    | Stop r _ => r = Ok tt \/ r = Throw
    end).
  { intros lk' ip' Hk. unfold default. destruct (Z.eqb_spec (tab yydefact s) 0) as [_|Hd]; [now right|].
    destruct (reduce_good (Pst ((s, v) :: st) lk' ip' w) s (map fst st)) as (p' & -> & Gp & E1 & E2 & Er); try assumption.
    - split; [exact Hc|]. split; [exact Ho|exact Hk].
    - reflexivity.
    - split; [assumption|]. unfold meas. rewrite E1, E2. cbn [la inp]. lia. }
  destruct (tab yypact s =? -15); [exact (D lk ip Hl)|].
  assert (S : forall k u r, 0 <= k <= 15 ->
    match (let i := tab yypact s + k in
          if (i <? 0) || (18 <? i) || negb (tab yycheck i =? k) then default s (Pst ((s, v) :: st) (Some (k, u)) r w)
          else let a := tab yytable i in
               if 0 <? a then Run (Pst ((a, u) :: (s, v) :: st) None r w)
               else if a =? -1 then Stop Throw w else reduce (- a) (Pst ((s, v) :: st) (Some (k, u)) r w)) with
    | Run p' => good p' /\ (meas p' < 7 * (length r + pend (Some (k, u))) + rank s)%nat
    | Stop r _ => r = Ok tt \/ r = Throw
    end).
  { intros k u r Hk. pose proof (shift_fine_all s k R Hk) as F. unfold shift_fine in F. cbv zeta in F |- *.
    destruct (_ || _ || _) eqn:Ei; [exact (D (Some (k, u)) r Hk)|].
    apply andb_true_iff in F as [F F6]. apply andb_true_iff in F as [F F5]. apply andb_true_iff in F as [F F4].
    apply andb_true_iff in F as [F F3]. apply andb_true_iff in F as [F1 F2]. rewrite F1.
    apply Z.ltb_lt in F1. apply Z.leb_le in F2. apply PeanoNat.Nat.leb_le in F5.
    split.
    - split; [|split; [|exact I]].
      + refine (conj (conj (Z.lt_le_incl _ _ F1) F2) (conj _ Hc)). apply existsb_exists in F3 as (x & Hx & Ex). apply Z.eqb_eq in Ex. now subst x.
      + unfold states. cbn [stk map fst opens wr]. apply negb_true_iff in F4. rewrite F4. exact Ho.
    - unfold meas. cbn [inp la states stk map fst hd pend].
      destruct ((k =? 0) || (k =? 15)); [|lia].
      apply andb_true_iff in F6 as [F6 F7]. apply Z.eqb_eq in F6, F7. subst s. rewrite F6. assert (rank 15 < rank 9)%nat by (apply PeanoNat.Nat.ltb_lt; reflexivity). lia. }
  destruct lk as [[k u]|].
  - exact (S k u ip Hl).
  - pose proof (lex_len ip) as L. destruct (lex ip) as [[k u] r]. destruct L as [L1 L2].
    specialize (S k u r L1). cbv zeta in S |- *. unfold meas at 2. cbn [inp la states stk map fst hd pend].
    cbn [pend] in L2, S.
    match goal with |- match ?x with _ => _ end => destruct x as [p'|] end; [|assumption].
    destruct S as [S1 S2]. split; [assumption|]. lia.
Qed.

Lemma run_good : forall n p, (meas p < n)%nat -> good p -> fst (run n p) = Ok tt \/ fst (run n p) = Throw.
Proof.
  induction n as [|n IH]; intros p Hm G; [lia|]. cbn [run]. pose proof (pstep_good p G) as H.
  destruct (pstep p) as [p'|r w']; [|exact H]. destruct H as [G' M']. apply IH; [lia|assumption].
Qed.
Lemma start_good t g : good (Pst [(0, [])] None t (Wrap g [])).
Proof. split; [reflexivity|]. split; [reflexivity|exact I]. Qed.
Theorem parse_stops t g : fst (parse t g) = Ok tt \/ fst (parse t g) = Throw.
Proof.
  unfold parse. pose proof (run_good (parse_fuel t) (Pst [(0, [])] None t (Wrap g []))) as H.
  destruct (run _ _) as [r w]. apply H; [|apply start_good].
  unfold meas, parse_fuel. cbn. lia.
Qed.

(** More steps than needed change nothing. *)
Lemma run_more n m p r w : run n p = (r, w) -> r <> Diverge -> run (n + m) p = (r, w).
Proof.
  revert p. induction n as [|n IH]; intros p E Hr; cbn in E; [injection E as <- <-; congruence|].
  cbn [run plus]. destruct (pstep p); [now apply IH|assumption].
Qed.
Lemma parse_eq n t g r w : run n (Pst [(0, [])] None t (Wrap g [])) = (r, w) -> r <> Diverge ->
  parse t g = (r, plug w).
Proof.
  intros E Hr. unfold parse. pose proof (parse_stops t g) as H. unfold parse in H.
  destruct (run (parse_fuel t) _) as [r' w'] eqn:E'.
  assert (Hr' : r' <> Diverge) by (cbn in H; destruct H; subst; discriminate).
  pose proof (run_more _ (parse_fuel t) _ _ _ E Hr) as A. pose proof (run_more _ n _ _ _ E' Hr') as B.
  rewrite PeanoNat.Nat.add_comm in B. rewrite A in B. now injection B as <- <-.
Qed.
