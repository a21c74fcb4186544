(** Properties C90, C91: raw data pointers and info. *)
From Coq Require Import ZArith Bool Lia Ascii String List.
From Verif Require Import Base F64 StrMap Value WfDec MBasic MGet MMap MMat MNum LNum MText MToJson MRef MRaw Props_mat LToYaml SDump Props_dump.
Import ListNotations.
Local Open Scope Z_scope.

(** * C90: get_int_pointer, get_long_pointer, get_real_pointer, get_complex_pointer. *)

(** What a raw pointer to elements of type [A] is good for: [one], [vec], [mat] build the
    containers of that type.  A scalar is its element 0, element k of a vector is at k, entry
    (i,j) of a matrix with r rows at i+j*r.  Reading there gives the element; writing there
    gives the container in which exactly that element has changed.  Other containers throw. *)
Definition points_at {A} (f : gc -> out (window A)) (one : A -> gc) (vec : list A -> gc) (mt : mat A -> gc) : Prop :=
  (forall a, exists w, f (one a) = Ok w /\ wread w 0 = Ok a /\ forall x, wwrite w 0 x = Ok (one x)) /\
  (forall v, exists w, f (vec v) = Ok w /\
     forall k a, nth_error v k = Some a ->
       wread w (Z.of_nat k) = Ok a /\
       forall x, exists v', wwrite w (Z.of_nat k) x = Ok (vec v') /\ length v' = length v /\ nth_error v' k = Some x /\
         forall k', k' <> k -> nth_error v' k' = nth_error v k') /\
  (forall m, mat_ok m -> 0 < mrows m * mcols m -> exists w, f (mt m) = Ok w /\
     forall i j, 0 <= i < mrows m -> 0 <= j < mcols m ->
       wread w (i + j * mrows m) = mat_get m i j /\
       forall x, exists m', wwrite w (i + j * mrows m) x = Ok (mt m') /\
         mrows m' = mrows m /\ mcols m' = mcols m /\ mat_get m' i j = Ok x /\
         forall i' j', 0 <= i' < mrows m -> 0 <= j' < mcols m -> (i', j') <> (i, j) -> mat_get m' i' j' = mat_get m i' j') /\
  (forall g, (forall a, g <> one a) -> (forall v, g <> vec v) -> (forall m, g <> mt m) -> f g = Throw).

Lemma window_vec {A} (mk : list A -> gc) v k a : nth_error v k = Some a ->
  wread (Window v mk) (Z.of_nat k) = Ok a /\
  forall x, exists v', wwrite (Window v mk) (Z.of_nat k) x = Ok (mk v') /\ length v' = length v /\ nth_error v' k = Some x /\
    forall k', k' <> k -> nth_error v' k' = nth_error v k'.
Proof.
  intros E. assert (Z1 : znth (Z.of_nat k) v = Some a).
  { unfold znth. rewrite (proj2 (Z.ltb_ge _ _)) by lia. now rewrite Nat2Z.id. }
  unfold wread, wwrite. rewrite Z1. split; [reflexivity|]. intros x. rewrite Nat2Z.id. eexists. split; [reflexivity|].
  assert (k < length v)%nat by (apply nth_error_Some; congruence).
  split; [apply lset_length|]. split; [now apply lset_nth_same|]. intros k' Hk. apply lset_nth_other. congruence.
Qed.
Lemma window_mat {A} (mk : mat A -> gc) m : mat_ok m -> 0 < mrows m * mcols m ->
  exists w, mat_window m mk = Ok w /\
     forall i j, 0 <= i < mrows m -> 0 <= j < mcols m ->
       wread w (i + j * mrows m) = mat_get m i j /\
       forall x, exists m', wwrite w (i + j * mrows m) x = Ok (mk m') /\
         mrows m' = mrows m /\ mcols m' = mcols m /\ mat_get m' i j = Ok x /\
         forall i' j', 0 <= i' < mrows m -> 0 <= j' < mcols m -> (i', j') <> (i, j) -> mat_get m' i' j' = mat_get m i' j'.
Proof.
  intros Hm Hn. pose proof Hm as (H1 & H2 & H3 & H4). unfold mat_window.
  assert (N : mdata m <> []). { intros E. rewrite E in H4. cbn in H4. lia. }
  eexists. split; [destruct (mdata m) eqn:E; [contradiction|rewrite <- E; reflexivity]|].
  intros i j Hi Hj. pose proof (pos_in _ _ _ _ Hi Hj) as P. destruct (entry_in m i j Hm Hi Hj) as (a & E1 & E2).
  destruct (window_vec (fun l => mk (Mat (mrows m) (mcols m) l)) (mdata m) (Z.to_nat (i + j * mrows m)) a E1) as [R W].
  rewrite Z2Nat.id in R, W by lia. split.
  - rewrite R. unfold mat_get, vat. now rewrite E2.
  - intros x. destruct (W x) as (v' & Ew & Hl & Hx & Ho). exists (Mat (mrows m) (mcols m) v'). split; [exact Ew|]. split; [reflexivity|]. split; [reflexivity|].
    assert (Hm' : mat_ok (Mat (mrows m) (mcols m) v')).
    { split; [exact H1|]. split; [exact H2|]. split; [exact H3|]. cbn [mdata mrows mcols]. unfold zlen in *. rewrite Hl. exact H4. }
    split.
    + destruct (C30_read _ _ i j Hm' Hi Hj) as (b & Eb & Gb). unfold entry in Eb. cbn [mdata mrows] in Eb. rewrite Hx in Eb. injection Eb as <-. exact Gb.
    + intros i' j' Hi' Hj' D. destruct (C30_read _ _ i' j' Hm' Hi' Hj') as (b & Eb & ->). destruct (C30_read _ m i' j' Hm Hi' Hj') as (b' & Eb' & ->).
      unfold entry in Eb, Eb'. cbn [mdata mrows] in Eb. rewrite Ho in Eb; [congruence|]. pose proof (pos_in _ _ _ _ Hi' Hj') as P'.
      intros X. apply Z2Nat.inj in X; [|lia|lia]. destruct (pos_inj (mrows m) i' j' i j Hi' Hi X) as [-> ->]. now apply D.
Qed.
Ltac raw := split; [intros a; eexists; split; [reflexivity|]; split; [reflexivity|]; intros x; reflexivity|];
  split; [intros v; eexists; split; [reflexivity|]; intros k a; apply window_vec|];
  split; [intros m; apply window_mat|];
  intros g H1 H2 H3; destruct g; try reflexivity; exfalso; eauto.
Theorem C90_int : points_at get_int_pointer GInt GVInt GMInt. Proof. raw; [eapply H1|eapply H2|eapply H3]; reflexivity. Qed.
Theorem C90_long : points_at get_long_pointer GLong GVLong GMLong. Proof. raw; [eapply H1|eapply H2|eapply H3]; reflexivity. Qed.
Theorem C90_real : points_at get_real_pointer GReal GVReal GMReal. Proof. raw; [eapply H1|eapply H2|eapply H3]; reflexivity. Qed.
Theorem C90_complex : points_at get_complex_pointer GComplex GVComplex GMComplex. Proof. raw; [eapply H1|eapply H2|eapply H3]; reflexivity. Qed.
(** The word that get_ppvoid points at is the stored pointer. *)
Theorem C90_pointer : (forall p, exists w, get_ppvoid (GPtr p) = Ok w /\ wread w 0 = Ok p /\ forall x, wwrite w 0 x = Ok (GPtr x)) /\
  forall g, (forall p, g <> GPtr p) -> get_ppvoid g = Throw.
Proof.
  split; [intros p; eexists; split; [reflexivity|]; split; reflexivity|].
  intros g H. destruct g; try reflexivity. exfalso. eapply H. reflexivity.
Qed.
(** There is nothing to read or write outside. *)
Theorem C90_outside {A} (elems : list A) back i x : i < 0 \/ zlen elems <= i ->
  wread (Window elems back) i = Undef /\ wwrite (Window elems back) i x = Undef.
Proof.
  intros H. assert (E : znth i elems = None).
  { unfold znth. destruct (Z.ltb_spec i 0); [reflexivity|]. apply nth_error_None. unfold zlen in H. lia. }
  unfold wread, wwrite. now rewrite E.
Qed.
(** Entry (1,2) of a 2 by 3 matrix is the last element; and there is nothing to point at in a
    matrix without entries. *)
Definition m23 : mat Z := Mat 2 3 [1; 2; 3; 4; 5; 6].
Example C90_example : mat_ok m23 /\
  (do w <- get_int_pointer (GMInt m23) ; wread w (1 + 2 * 2)) = Ok 6 /\
  (do w <- get_int_pointer (GMInt m23) ; wwrite w (1 + 2 * 2) 9) = Ok (GMInt (Mat 2 3 [1; 2; 3; 4; 5; 9])) /\
  get_int_pointer (GVLong [1]) = Throw /\ get_int_pointer (GMInt (Mat 0 3 [])) = Undef.
Proof. split; [unfold mat_ok; cbn; lia|vmc]. Qed.

(** * C91: info. *)

(** The kinds of data that info tells apart: the types, all matrices being one. *)
Definition kind (g : gc) : tag := match tag_of g with TMLong | TMReal | TMComplex => TMInt | t => t end.
(** What info shows of sizes and integers. *)
Definition shown (g : gc) : list Z :=
  match g with
  | GBool b => [if b then 1 else 0] | GInt i => [i] | GLong l => [l]
  | GVPtr v => [zlen v] | GVBool v => [zlen v] | GVInt v => [zlen v] | GVLong v => [zlen v] | GVReal v => [zlen v]
  | GVComplex v => [zlen v] | GVStr v => [zlen v] | GVec v => [zlen v]
  | GMInt m => [mrows m; mcols m] | GMLong m => [mrows m; mcols m] | GMReal m => [mrows m; mcols m] | GMComplex m => [mrows m; mcols m]
  | _ => []
  end.
Lemma digit_inj a b : is_digit a -> is_digit b -> digit a = digit b -> a = b.
Proof.
  intros [A0 A9] [B0 B9] E.
  assert (forall x, 0 <= x < 10 -> x = 0 \/ x = 1 \/ x = 2 \/ x = 3 \/ x = 4 \/ x = 5 \/ x = 6 \/ x = 7 \/ x = 8 \/ x = 9) as C by (intros; lia).
  destruct (C a (conj A0 A9)) as [->|[->|[->|[->|[->|[->|[->|[->|[->| ->]]]]]]]]];
    destruct (C b (conj B0 B9)) as [->|[->|[->|[->|[->|[->|[->|[->|[->| ->]]]]]]]]]; try reflexivity; vm_compute in E; discriminate E.
Qed.
Lemma digits_inj l : Forall is_digit l -> forall l', Forall is_digit l' -> map digit l = map digit l' -> l = l'.
Proof.
  induction 1 as [|a l Ha _ IH]; intros [|b l'] H' E; try discriminate E; [reflexivity|]. inversion H' as [|? ? Hb Hl]; subst.
  cbn [map] in E. injection E as E1 E2. f_equal; [now apply digit_inj|now apply IH].
Qed.
Lemma print_nat_inj a b : 0 <= a -> 0 <= b -> print_nat a = print_nat b -> a = b.
Proof.
  intros A B E. destruct (print_nat_val a A) as (l & El & Fl & _ & Vl). destruct (print_nat_val b B) as (l' & El' & Fl' & _ & Vl').
  rewrite El, El' in E. apply digits_inj in E; [|assumption|assumption]. congruence.
Qed.
Definition digit_char (c : ascii) : Prop := exists d, is_digit d /\ c = digit d.
Lemma print_nat_chars a : 0 <= a -> Forall digit_char (print_nat a) /\ print_nat a <> [].
Proof.
  intros A. destruct (print_nat_val a A) as (l & -> & Fl & Nl & _). split; [|destruct l; [contradiction|discriminate]].
  apply Forall_forall. intros c Hc. apply in_map_iff in Hc as (d & <- & Hd). rewrite Forall_forall in Fl. exists d. auto.
Qed.
Lemma not_minus c : digit_char c -> c <> "-"%char.
Proof.
  intros (d & [D0 D9] & ->) E. assert (d = 0 \/ d = 1 \/ d = 2 \/ d = 3 \/ d = 4 \/ d = 5 \/ d = 6 \/ d = 7 \/ d = 8 \/ d = 9) as C by lia.
  destruct C as [->|[->|[->|[->|[->|[->|[->|[->|[->| ->]]]]]]]]]; vm_compute in E; discriminate E.
Qed.
Lemma not_blank c : digit_char c -> c <> " "%char.
Proof.
  intros (d & [D0 D9] & ->) E. assert (d = 0 \/ d = 1 \/ d = 2 \/ d = 3 \/ d = 4 \/ d = 5 \/ d = 6 \/ d = 7 \/ d = 8 \/ d = 9) as C by lia.
  destruct C as [->|[->|[->|[->|[->|[->|[->|[->|[->| ->]]]]]]]]]; vm_compute in E; discriminate E.
Qed.
Lemma print_int_inj a b : print_int a = print_int b -> a = b.
Proof.
  unfold print_int. destruct (Z.ltb_spec a 0) as [A|A], (Z.ltb_spec b 0) as [B|B]; intros E.
  - injection E as E. apply print_nat_inj in E; lia.
  - destruct (print_nat_chars b B) as [F N]. rewrite <- E in F. inversion F as [|? ? Hc _]; subst. now apply not_minus in Hc.
  - destruct (print_nat_chars a A) as [F N]. rewrite E in F. inversion F as [|? ? Hc _]; subst. now apply not_minus in Hc.
  - apply print_nat_inj in E; lia.
Qed.
Lemma print_int_blank a : Forall (fun c => c <> " "%char) (print_int a).
Proof.
  unfold print_int. destruct (Z.ltb_spec a 0) as [A|A]; [constructor; [discriminate|]|].
  - apply (Forall_impl _ not_blank). apply print_nat_chars. lia.
  - apply (Forall_impl _ not_blank). now apply print_nat_chars.
Qed.
Lemma split_blank u : Forall (fun c => c <> " "%char) u -> forall u' r r', Forall (fun c => c <> " "%char) u' ->
  u ++ " "%char :: r = u' ++ " "%char :: r' -> u = u' /\ r = r'.
Proof.
  induction 1 as [|c u Hc _ IH]; intros [|c' u'] r r' H' E; cbn [app] in E.
  - injection E as ->. now split.
  - injection E as <- _. inversion H'; subst. contradiction.
  - injection E as -> _. contradiction.
  - injection E as <- E. inversion H'; subst. destruct (IH u' r r') as [-> ->]; auto.
Qed.
Lemma strip_nl a b : a ++ [nl] = b ++ [nl] -> a = b.
Proof. intros E. now apply app_inj_tail in E. Qed.
Lemma put_bool_inj a b : put_bool a = put_bool b -> a = b.
Proof. destruct a, b; intros E; try reflexivity; vm_compute in E; discriminate E. Qed.
(** Containers with the same info have the same kind of data, the same sizes, and the same
    value when it is a boolean or an integer; whatever the precisions of the streams. *)
Theorem C91_tells : forall P SP g g', info P SP g = info P SP g' -> kind g = kind g' /\ shown g = shown g'.
Proof.
  intros P SP g g' E.
  destruct g, g'; unfold info, sized, mat_info in E; cbn in E; try discriminate E; (split; [reflexivity|]); try reflexivity;
    repeat (injection E as E); cbn [shown].
  all: try (apply strip_nl in E; apply print_int_inj in E; now rewrite E).
  all: try (apply strip_nl in E; apply put_bool_inj in E; now rewrite E).
  all: apply split_blank in E as [E1 E]; [|apply print_int_blank|apply print_int_blank]; repeat (injection E as E).
  all: apply strip_nl in E; apply print_int_inj in E, E1; now rewrite E, E1.
Qed.
(** The line names the kind and then tells the number of elements, the numbers of rows and
    columns, or the value. *)
Definition kind_name (t : tag) : string :=
  match t with
  | TNone => "GenericContainer: No data stored" | TPtr => "Generic pointer: " | TBool => "Boolean: " | TInt => "Integer: "
  | TLong => "Long: " | TReal => "Floating Point: " | TComplex => "Complex Floating Point: " | TStr => "String: "
  | TVPtr => "Vector of generic pointer of size " | TVBool => "Vector of boolean of size " | TVInt => "Vector of integer of size "
  | TVLong => "Vector of long integer of size " | TVReal => "Vector of floating point number of size "
  | TVComplex => "Vector of complex floating point number of size " | TVStr => "Vector of string of size "
  | TMInt | TMLong | TMReal | TMComplex => "Matrix of floating point number of size "
  | TVec => "Vector of generic data type of size " | TMap => "Map"
  end%string.
Definition told (P SP : nat) (g : gc) : text :=
  match g with
  | GNone | GMap _ => []
  | GPtr p => print_hex p
  | GBool b => if b then txt "true" else txt "false"
  | GReal r => print_g P r
  | GComplex c => cplx_text SP c
  | GStr s => txt (cstr s)
  | _ => match shown g with [n] => print_int n | [r; c] => print_int r ++ txt " x " ++ print_int c | _ => [] end
  end.
Theorem C91_line : forall P SP g, info P SP g = txt (kind_name (tag_of g)) ++ told P SP g ++ [nl].
Proof. intros P SP g. destruct g; cbn [info tag_of kind_name told shown]; unfold sized, mat_info; rewrite <- ?app_assoc; reflexivity. Qed.
Lemma hex_digit_line d : 0 <= d < 16 -> hex_digit d <> nl.
Proof.
  intros H E. assert (d = 0 \/ d = 1 \/ d = 2 \/ d = 3 \/ d = 4 \/ d = 5 \/ d = 6 \/ d = 7 \/ d = 8 \/ d = 9 \/ d = 10 \/ d = 11 \/ d = 12 \/ d = 13 \/ d = 14 \/ d = 15) as C by lia.
  repeat (destruct C as [->|C]; [vm_compute in E; discriminate E|]). subst. vm_compute in E. discriminate E.
Qed.
Lemma ot_hex p : one_line_text (print_hex p).
Proof.
  unfold print_hex. destruct (p =? 0); [one|]. apply ot_app. split; [one|]. generalize 16%nat. intros n. revert p.
  induction n as [|n IH]; intros p; cbn [hex_digits]; [intros []|]. apply ot_app. split.
  - destruct (p <? 16); [intros []|apply IH].
  - intros [E|[]]. revert E. apply hex_digit_line. apply Z.mod_pos_bound. lia.
Qed.
(** One line, unless the string it shows has several. *)
Theorem C91_one_line : forall P SP g, (forall s, g = GStr s -> one_line_text (txt (cstr s))) ->
  exists t, info P SP g = t ++ [nl] /\ one_line_text t.
Proof.
  intros P SP g Hs. rewrite C91_line, app_assoc. eexists. split; [reflexivity|]. apply ot_app. split.
  - destruct g; vm_compute; intuition discriminate.
  - destruct g; cbn [told shown]; try (intros []; fail); try apply ot_int; try apply ot_cplx; try apply one_real; try apply ot_hex;
      try (apply Hs; reflexivity); try (apply ot_app; split; [apply ot_int|apply ot_app; split; [one|apply ot_int]]).
    destruct b; one.
Qed.
Example C91_example :
  info 6 12 (GVec [GInt 1; GStr "x"%string]) = txt "Vector of generic data type of size 2" ++ [nl] /\
  info 6 12 (GMReal (Mat 2 3 [0; 0; 0; 0; 0; 0])) = txt "Matrix of floating point number of size 2 x 3" ++ [nl] /\
  info 6 12 (GInt (-7)) = txt "Integer: -7" ++ [nl].
Proof. vmc. Qed.

Print Assumptions C90_int.
Print Assumptions C90_long.
Print Assumptions C90_real.
Print Assumptions C90_complex.
Print Assumptions C90_pointer.
Print Assumptions C91_tells.
Print Assumptions C91_line.
Print Assumptions C91_one_line.
