(** C63, C64: what the setters and getters of the C interface do at the current position. *)
From Coq Require Import ZArith Bool Lia Ascii String List Sorted.
From Verif Require Import Base F64 StrMap Value MBasic MGet MMap MMat MPromote MRef MCapi SCapi LCapi LCapi2 LCapi3
  Props_mat.
Import ListNotations.
Local Open Scope Z_scope.

(** ** Positions *)

(** Neither of the two positions is inside the other. *)
Fixpoint apart (p q : list step) : Prop :=
  match p, q with
  | a :: p', b :: q' => a <> b \/ a = b /\ apart p' q'
  | _, _ => False
  end.

(** After the call: its result is [r], the position [p] holds [x], and every position that is
    neither inside [p] nor encloses it holds what it held before (if it exists).  The cursor
    has not moved. *)
Definition stores (k : call) (g : gc) (p : list step) (r : rv) (x : gc) : Prop :=
  exists g', sexec k (g, Some p) = (Ok r, (g', Some p)) /\ sub p g' = Some x /\
    forall q, apart p q -> sub q g' = sub q g.

Lemma sub_put p : forall g e x, sub p g = Some e -> sub p (put p x g) = Some x.
Proof.
  induction p as [|[k|n] p IH]; intros g e x.
  - cbn. destruct x; auto.
  - destruct g; cbn [sub put]; try discriminate. destruct (mfind k m) as [y|] eqn:E; [|discriminate]. intros S.
    cbn [sub]. destruct (mfind_split _ _ _ E) as (m1 & m2 & -> & N). rewrite mupd_app_mid, mfind_app_mid by assumption. eauto.
  - destruct g; cbn [sub put]; try discriminate. destruct (znth n v) as [y|] eqn:E; [|discriminate]. intros S.
    cbn [sub]. destruct (znth_split' _ _ _ E) as (l1 & l2 & -> & L & N). rewrite lset_app_mid, znth_app_mid by assumption. eauto.
Qed.
Lemma mfind_mupd_other k k' x m : k' <> k -> mfind k' (mupd k x m) = mfind k' m.
Proof.
  intros N. induction m as [|[a b] m IH]; cbn [mupd mfind]; [reflexivity|].
  destruct (String.eqb_spec k a) as [->|].
  - cbn [mfind]. destruct (String.compare k' a) eqn:E; try reflexivity. apply compare_eq_iff in E. contradiction.
  - cbn [mfind]. now rewrite IH.
Qed.
Lemma znth_lset_other {A} (i j : Z) (x : A) v : 0 <= j -> i <> j -> znth i (lset (Z.to_nat j) x v) = znth i v.
Proof.
  intros H N. unfold znth. destruct (i <? 0) eqn:L; [reflexivity|]. apply Z.ltb_ge in L.
  assert (Z.to_nat i <> Z.to_nat j) as K by lia. revert K. generalize (Z.to_nat i) (Z.to_nat j). clear.
  induction v as [|a v IH]; intros [|m] [|n] K; cbn [lset nth_error]; try reflexivity; try congruence. now apply IH; congruence.
Qed.
Lemma sub_put_apart p : forall g e x q, sub p g = Some e -> apart p q -> sub q (put p x g) = sub q g.
Proof.
  induction p as [|[k|n] p IH]; intros g e x [|b q] S D; cbn [apart] in D; try contradiction.
  - destruct g; cbn [sub] in S; try discriminate. cbn [put]. destruct (mfind k m) as [y|] eqn:E; [|discriminate].
    destruct b as [k'|i]; [|reflexivity]. cbn [sub]. destruct D as [D|[D1 D2]].
    + rewrite mfind_mupd_other by congruence. reflexivity.
    + injection D1 as <-. rewrite E. destruct (mfind_split _ _ _ E) as (m1 & m2 & -> & N).
      rewrite mupd_app_mid, mfind_app_mid by assumption. eauto.
  - destruct g; cbn [sub] in S; try discriminate. cbn [put]. destruct (znth n v) as [y|] eqn:E; [|discriminate].
    destruct b as [k'|i]; [reflexivity|]. cbn [sub]. destruct D as [D|[D1 D2]].
    + destruct (znth_split' _ _ _ E) as (l1 & l2 & -> & L & N). rewrite znth_lset_other by (congruence || lia). reflexivity.
    + injection D1 as <-. rewrite E. destruct (znth_split' _ _ _ E) as (l1 & l2 & -> & L & N).
      rewrite lset_app_mid, znth_app_mid by assumption. eauto.
Qed.

(** ** C63: setters *)

(** [n] elements can be read at the pointer. *)
Definition readable {A} (n : Z) (a : list A) : Prop := 0 <= n < 2 ^ 31 /\ n <= zlen a.
(** The value that a call is asked to store. *)
Inductive given : call -> gc -> Prop :=
| given_bool a : given (SetBool a) (GBool (negb (a =? 0)))
| given_int a : given (SetInt a) (GInt a)
| given_real a : given (SetReal a) (GReal a)
| given_complex a : given (SetComplex a) (GComplex a)
| given_string s : given (SetString s) (GStr (cstr s))
| given_vbool a n : readable n a -> given (SetVecBool a n) (GVBool (map (fun z => negb (z =? 0)) (firstn (Z.to_nat n) a)))
| given_vint a n : readable n a -> given (SetVecInt a n) (GVInt (firstn (Z.to_nat n) a))
| given_vreal a n : readable n a -> given (SetVecReal a n) (GVReal (firstn (Z.to_nat n) a))
| given_vcomplex re im n : readable n re -> readable n im ->
    given (SetVecComplex re im n) (GVComplex (firstn (Z.to_nat n) (combine re im)))
| given_vstr a n : readable n a -> given (SetVecString a n) (GVStr (map cstr (firstn (Z.to_nat n) a)))
| given_no_bool : given SetEmptyVecBool (GVBool [])
| given_no_int : given SetEmptyVecInt (GVInt [])
| given_no_real : given SetEmptyVecReal (GVReal [])
| given_no_complex : given SetEmptyVecComplex (GVComplex [])
| given_no_str : given SetEmptyVecString (GVStr [])
| given_none : given SetEmptyVector (GVec []).
(** The given value is a vector without elements, and there is already a vector of this type
    with elements. *)
Definition kept (x e : gc) : Prop :=
  match x, e with
  | GVBool [], GVBool (_ :: _) | GVInt [], GVInt (_ :: _) | GVReal [], GVReal (_ :: _)
  | GVComplex [], GVComplex (_ :: _) | GVStr [], GVStr (_ :: _) | GVec [], GVec (_ :: _) => True
  | _, _ => False
  end.

Lemma resize_fill {A} (d : A) n (old src : list A) : length src = n -> copy_into src (resize d n old) = Ok src.
Proof.
  intros <-. unfold copy_into. assert (length (resize d (length src) old) = length src) as L.
  { unfold resize. rewrite app_length, firstn_length, repeat_length. lia. }
  rewrite L, Nat.leb_refl. rewrite skipn_all2 by lia. now rewrite app_nil_r.
Qed.
Lemma u31 n : 0 <= n < 2 ^ 31 -> to_u32 n = n.
Proof. intros H. unfold to_u32. apply Z.mod_small. lia. Qed.
Lemma copy_n_fill {A B} (f : A -> B) (d : B) (a : list A) n old :
  readable n a -> (n = 0 -> old = []) ->
  copy_n f a n (valloc d (to_u32 n) old) = Ok (map f (firstn (Z.to_nat n) a)).
Proof.
  intros [H1 H2] K. rewrite (u31 n H1). unfold copy_n, valloc. destruct (zlen a <? n) eqn:L; [apply Z.ltb_lt in L; lia|].
  destruct (0 <? n) eqn:P.
  - apply resize_fill. rewrite map_length, firstn_length. unfold zlen in H2. lia.
  - apply Z.ltb_ge in P. assert (n = 0) as -> by lia. rewrite K by reflexivity. reflexivity.
Qed.
Lemma loop_n_fill {A B} (f : A -> B) (d : B) (a : list A) n old :
  readable n a -> (n = 0 -> old = []) ->
  loop_n f a n (valloc d (to_u32 n) old) = Ok (map f (firstn (Z.to_nat n) a)).
Proof. intros H K. unfold loop_n. rewrite <- (copy_n_fill f d a n old H K). destruct H as [H _]. now rewrite !(u31 n H). Qed.

Lemma zlen_combine {A B} (a : list A) (b : list B) : zlen (combine a b) = Z.min (zlen a) (zlen b).
Proof. unfold zlen. rewrite combine_length. lia. Qed.
Lemma stores_sets k g p e w r x : sub p g = Some e -> forall f, top_call k = Some (w, f) -> f e = (Ok r, Some x) ->
  stores k g p r x.
Proof.
  intros S f T F. exists (put p x g). split; [|split].
  - unfold sexec. rewrite T, S, F. destruct w; reflexivity.
  - eapply sub_put; eassumption.
  - intros q D. eapply sub_put_apart; eassumption.
Qed.
Lemma stores_keeps k g p e w r : sub p g = Some e -> forall f, top_call k = Some (w, f) -> f e = (Ok r, None) ->
  stores k g p r e.
Proof.
  intros S f T F. exists g. split; [|split]; [|assumption|reflexivity].
  unfold sexec. rewrite T, S, F. destruct w; reflexivity.
Qed.
Lemma firstn_none {A} n (a : list A) : readable n a -> firstn (Z.to_nat n) a = [] -> n = 0.
Proof.
  intros [H1 H2] E. apply (f_equal (@length A)) in E. rewrite firstn_length in E. cbn [length] in E. unfold zlen in H2. lia.
Qed.
Lemma map_none {A B} (f : A -> B) a : a = [] -> map f a = [].
Proof. now intros ->. Qed.

(** Every setter: the call reports success, the current position holds exactly the given
    value, and nothing else has changed; except for a vector without elements stored over a
    vector of the same type. *)
Theorem C63_setters_partial k x g p e : given k x -> sub p g = Some e -> ~ kept x e -> stores k g p c_ok x.
Proof.
  intros G S N. destruct G.
  1-5: eapply stores_sets; [exact S|cbn [top_call]; reflexivity|reflexivity].
  - eapply stores_sets; [exact S|cbn [top_call]; reflexivity|]. unfold alloc_vbool. cbv beta.
    rewrite loop_n_fill; [reflexivity|assumption|]. intros ->. destruct e; try reflexivity. cbn in *. destruct v; [reflexivity|tauto].
  - eapply stores_sets; [exact S|cbn [top_call]; reflexivity|]. unfold alloc_vint. cbv beta.
    rewrite copy_n_fill; [rewrite map_id; reflexivity|assumption|]. intros ->. destruct e; try reflexivity. cbn in *. destruct v; [reflexivity|tauto].
  - eapply stores_sets; [exact S|cbn [top_call]; reflexivity|]. unfold alloc_vreal. cbv beta.
    rewrite copy_n_fill; [rewrite map_id; reflexivity|assumption|]. intros ->. destruct e; try reflexivity. cbn in *. destruct v; [reflexivity|tauto].
  - eapply stores_sets; [exact S|cbn [top_call]; reflexivity|]. unfold alloc_vcomplex. cbv beta.
    destruct H as [A1 A2], H0 as [B1 B2]. rewrite (u31 n A1). destruct (zlen im <? n) eqn:L; [apply Z.ltb_lt in L; lia|].
    rewrite <- (u31 n A1) at 2. rewrite loop_n_fill; [rewrite map_id; reflexivity|split; [assumption|rewrite zlen_combine; lia]|].
    intros ->. destruct e; try reflexivity. cbn in *. destruct v; [reflexivity|tauto].
  - eapply stores_sets; [exact S|cbn [top_call]; reflexivity|]. unfold alloc_vstr. cbv beta.
    rewrite loop_n_fill; [reflexivity|assumption|]. intros ->. destruct e; try reflexivity. cbn in *. destruct v; [reflexivity|tauto].
  - eapply stores_sets; [exact S|cbn [top_call]; reflexivity|]. destruct e; try reflexivity. destruct v; [reflexivity|]. cbn in N. tauto.
  - eapply stores_sets; [exact S|cbn [top_call]; reflexivity|]. destruct e; try reflexivity. destruct v; [reflexivity|]. cbn in N. tauto.
  - eapply stores_sets; [exact S|cbn [top_call]; reflexivity|]. destruct e; try reflexivity. destruct v; [reflexivity|]. cbn in N. tauto.
  - eapply stores_sets; [exact S|cbn [top_call]; reflexivity|]. destruct e; try reflexivity. destruct v; [reflexivity|]. cbn in N. tauto.
  - eapply stores_sets; [exact S|cbn [top_call]; reflexivity|]. destruct e; try reflexivity. destruct v; [reflexivity|]. cbn in N. tauto.
  - destruct e; try (eapply stores_sets; [exact S|cbn [top_call]; reflexivity|reflexivity]).
    destruct v; [|cbn in N; tauto]. eapply stores_keeps; [exact S|cbn [top_call]; reflexivity|reflexivity].
Qed.
(** In the excepted case the old elements stay, although the call reports success. *)
Theorem C63_kept k x g p e : given k x -> sub p g = Some e -> kept x e ->
  stores k g p c_ok e.
Proof.
  intros G S N.
  destruct G; cbn in N; try contradiction; destruct e; try contradiction.
  all: try (destruct (map _ (firstn _ _)) eqn:E; [|contradiction]; apply map_eq_nil in E).
  all: try (destruct (firstn (Z.to_nat n) _) eqn:E; [|contradiction]).
  all: try match goal with
       | H : readable ?n ?a, E : firstn (Z.to_nat ?n) ?a = [] |- _ => pose proof (firstn_none _ _ H E); subst n
       | H : readable ?n ?a, H' : readable ?n ?b, E : firstn (Z.to_nat ?n) (combine ?a ?b) = [] |- _ =>
           assert (n = 0) by (apply (firstn_none n (combine a b)); [split; [apply H|rewrite zlen_combine; destruct H, H'; lia]|exact E]);
           subst n
       end; try contradiction.
  all: try solve [eapply stores_keeps; [exact S|cbn [top_call]; reflexivity|reflexivity]].
  all: eapply stores_sets; [exact S|cbn [top_call]; reflexivity|].
  - unfold loop_n, copy_n. change (to_u32 0) with 0. destruct (zlen a <? 0) eqn:L; [apply Z.ltb_lt in L; unfold zlen in L; lia|reflexivity].
  - unfold loop_n, copy_n. change (to_u32 0) with 0. destruct (zlen a <? 0) eqn:L; [apply Z.ltb_lt in L; unfold zlen in L; lia|reflexivity].
  - unfold loop_n, copy_n. change (to_u32 0) with 0. destruct (zlen a <? 0) eqn:L; [apply Z.ltb_lt in L; unfold zlen in L; lia|reflexivity].
  - cbv beta. change (to_u32 0) with 0. destruct (zlen im <? 0) eqn:L; [apply Z.ltb_lt in L; unfold zlen in L; lia|].
    unfold loop_n, copy_n. change (to_u32 0) with 0.
    destruct (zlen (combine re im) <? 0) eqn:L'; [apply Z.ltb_lt in L'; unfold zlen in L'; lia|reflexivity].
  - unfold loop_n, copy_n. change (to_u32 0) with 0. destruct (zlen a <? 0) eqn:L; [apply Z.ltb_lt in L; unfold zlen in L; lia|reflexivity].
  - reflexivity.
  - reflexivity.
  - reflexivity.
  - reflexivity.
  - reflexivity.
Qed.
Theorem C63_empty_refuted :
  ~ (forall k x g p e, given k x -> sub p g = Some e -> exists g', sexec k (g, Some p) = (Ok c_ok, (g', Some p)) /\ sub p g' = Some x).
Proof.
  intros H. destruct (H SetEmptyVecInt (GVInt []) (GVInt [1; 2]) [] (GVInt [1; 2]) given_no_int eq_refl) as (g' & E & S).
  vm_compute in E. injection E as <-. vm_compute in S. discriminate.
Qed.

(** GC_set_vector(n): n elements, those of an old vector of containers first. *)
Theorem C63_set_vector n g p e : 0 < n < 2 ^ 31 -> sub p g = Some e ->
  exists v, stores (SetVector n) g p c_ok (GVec v) /\ zlen v = n /\
    forall i, 0 <= i < n ->
      znth i v = Some (match e with GVec w => match znth i w with Some x => x | None => GNone end | _ => GNone end).
Proof.
  intros Hn S. exists (resize GNone (Z.to_nat n) (old_vec e)). split; [|split].
  - eapply stores_sets; [exact S|cbn [top_call]; reflexivity|]. unfold sets, set_vector_sz, alloc_vec, valloc.
    rewrite u31 by lia. destruct (0 <? n) eqn:L; [reflexivity|apply Z.ltb_ge in L; lia].
  - unfold zlen, resize. rewrite app_length, firstn_length, repeat_length. lia.
  - intros i Hi. unfold znth. destruct (i <? 0) eqn:L; [apply Z.ltb_lt in L; lia|].
    assert (nth_error (resize GNone (Z.to_nat n) (old_vec e)) (Z.to_nat i) =
            Some (nth (Z.to_nat i) (old_vec e) GNone)) as ->.
    { unfold resize. destruct (lt_dec (Z.to_nat i) (length (old_vec e))) as [K|K].
      - rewrite nth_error_app1 by (rewrite firstn_length; lia).
        assert (forall (l : list gc) a b, (a < b)%nat -> nth_error (firstn b l) a = nth_error l a) as F.
        { clear. induction l as [|x l IH]; intros [|a] [|b] H; cbn; try reflexivity; try lia. apply IH. lia. }
        rewrite F by lia. now apply nth_error_nth'.
      - rewrite nth_overflow by lia. rewrite nth_error_app2 by (rewrite firstn_length; lia).
        rewrite firstn_length. apply nth_error_repeat. lia. }
    f_equal. destruct e; try (destruct (Z.to_nat i); reflexivity). cbn [old_vec].
    destruct (nth_error v (Z.to_nat i)) eqn:E; [now apply nth_error_nth|].
    apply nth_error_None in E. now apply nth_overflow.
Qed.
(** GC_set_map: an old map stays. *)
Theorem C63_set_map g p e : sub p g = Some e ->
  stores SetMap g p c_ok (match e with GMap m => GMap m | _ => GMap [] end).
Proof.
  intros S. destruct e; try (eapply stores_sets; [exact S|cbn [top_call]; reflexivity|reflexivity]).
  eapply stores_keeps; [exact S|cbn [top_call]; reflexivity|reflexivity].
Qed.
(** The push functions on a vector of their own type append the value. *)
Inductive appends : call -> gc -> gc -> Prop :=
| app_bool a v : appends (PushBool a) (GVBool v) (GVBool (v ++ [negb (a =? 0)]))
| app_int a v : appends (PushInt a) (GVInt v) (GVInt (v ++ [a]))
| app_real a v : appends (PushReal a) (GVReal v) (GVReal (v ++ [a]))
| app_complex a v : appends (PushComplex a) (GVComplex v) (GVComplex (v ++ [a]))
| app_string s v : appends (PushString s) (GVStr v) (GVStr (v ++ [cstr s]))
| app_gbool a v : appends (PushBool a) (GVec v) (GVec (v ++ [GBool (negb (a =? 0))]))
| app_gint a v : appends (PushInt a) (GVec v) (GVec (v ++ [GInt a]))
| app_greal a v : appends (PushReal a) (GVec v) (GVec (v ++ [GReal a]))
| app_gcomplex a v : appends (PushComplex a) (GVec v) (GVec (v ++ [GComplex a]))
| app_gstring s v : appends (PushString s) (GVec v) (GVec (v ++ [GStr (cstr s)])).
Theorem C63_push k g p e x : appends k e x -> sub p g = Some e -> stores k g p c_ok x.
Proof.
  intros A S. destruct A; (eapply stores_sets; [exact S|cbn [top_call]; reflexivity|]); try reflexivity.
Qed.

(** ** C64: getters *)

Definition dbl (z : Z) : Z := f_of_Z z.
(** Element [i] of the vector; row [i] and column [j] of the matrix.  Indices are C ints. *)
Definition holds {A} (i : Z) (v : list A) (x : A) : Prop := i < 2 ^ 31 /\ znth i v = Some x.
Definition inside {A} (m : mat A) (i j : Z) (x : A) : Prop :=
  mat_ok m /\ 0 <= i < mrows m /\ 0 <= j < mcols m /\ i < 2 ^ 31 /\ j < 2 ^ 31 /\ entry m i j = Some x.
(** The answer that a getter owes to its caller for the container [e], with the index in
    range. *)
Inductive answer : call -> gc -> rv -> Prop :=
| ans_type e : answer GetType e (VInt (tag_num (tag_of e)))
| ans_name e : answer GetTypeName e (VStr (Some (type_name (tag_of e))))
| ans_bool b : answer GetBool (GBool b) (VInt (if b then 1 else 0))
| ans_int i : answer GetInt (GInt i) (VInt i)
| ans_long i : answer GetLong (GLong i) (VInt i)
| ans_real r : answer GetReal (GReal r) (VReal r)
| ans_complex c : answer GetComplex (GComplex c) (VCplx c)
| ans_re a b : answer GetComplexRe (GComplex (a, b)) (VReal a)
| ans_im a b : answer GetComplexIm (GComplex (a, b)) (VReal b)
| ans_str s : answer GetString (GStr s) (VStr (Some (cstr s)))
| ans_bool_at i v b : holds i v b -> answer (GetBoolAtPos i) (GVBool v) (VInt (if b then 1 else 0))
| ans_int_at i v x : holds i v x -> answer (GetIntAtPos i) (GVInt v) (VInt x)
| ans_real_at i v x : holds i v x -> answer (GetRealAtPos i) (GVReal v) (VReal x)
| ans_int_real_at i v x : holds i v x -> answer (GetRealAtPos i) (GVInt v) (VReal (dbl x))
| ans_long_real_at i v x : holds i v x -> answer (GetRealAtPos i) (GVLong v) (VReal (dbl x))
| ans_complex_at i v c : holds i v c -> answer (GetComplexAtPos i) (GVComplex v) (VCplx c)
| ans_real_complex_at i v x : holds i v x -> answer (GetComplexAtPos i) (GVReal v) (VCplx (x, f_zero))
| ans_re_at i (v : list cplx) a b : @holds cplx i v (a, b) -> answer (GetComplexRealAtPos i) (GVComplex v) (VReal a)
| ans_im_at i (v : list cplx) a b : @holds cplx i v (a, b) -> answer (GetComplexImagAtPos i) (GVComplex v) (VReal b)
| ans_str_at i v s : holds i v s -> answer (GetStringAtPos i) (GVStr v) (VStr (Some (cstr s)))
| ans_real_coor i j m x : inside m i j x -> answer (GetRealAtCoor i j) (GMReal m) (VReal x)
| ans_complex_coor i j m c : inside m i j c -> answer (GetComplexAtCoor i j) (GMComplex m) (VCplx c)
| ans_re_coor i j m a b : inside m i j (a, b) -> answer (GetComplexRealAtCoor i j) (GMComplex m) (VReal a)
| ans_im_coor i j m a b : inside m i j (a, b) -> answer (GetComplexImagAtCoor i j) (GMComplex m) (VReal b)
| ans_size_bool v : zlen v < 2 ^ 31 -> answer GetVectorSize (GVBool v) (VInt (zlen v))
| ans_size_int v : zlen v < 2 ^ 31 -> answer GetVectorSize (GVInt v) (VInt (zlen v))
| ans_size_long v : zlen v < 2 ^ 31 -> answer GetVectorSize (GVLong v) (VInt (zlen v))
| ans_size_real v : zlen v < 2 ^ 31 -> answer GetVectorSize (GVReal v) (VInt (zlen v))
| ans_size_complex v : zlen v < 2 ^ 31 -> answer GetVectorSize (GVComplex v) (VInt (zlen v))
| ans_size_str v : zlen v < 2 ^ 31 -> answer GetVectorSize (GVStr v) (VInt (zlen v))
| ans_size_vec v : zlen v < 2 ^ 31 -> answer GetVectorSize (GVec v) (VInt (zlen v))
| ans_rows_int m : 0 <= mrows m < 2 ^ 31 -> answer GetNumRows (GMInt m) (VInt (mrows m))
| ans_rows_long m : 0 <= mrows m < 2 ^ 31 -> answer GetNumRows (GMLong m) (VInt (mrows m))
| ans_rows_real m : 0 <= mrows m < 2 ^ 31 -> answer GetNumRows (GMReal m) (VInt (mrows m))
| ans_rows_complex m : 0 <= mrows m < 2 ^ 31 -> answer GetNumRows (GMComplex m) (VInt (mrows m))
| ans_cols_int m : 0 <= mcols m < 2 ^ 31 -> answer GetNumCols (GMInt m) (VInt (mcols m))
| ans_cols_long m : 0 <= mcols m < 2 ^ 31 -> answer GetNumCols (GMLong m) (VInt (mcols m))
| ans_cols_real m : 0 <= mcols m < 2 ^ 31 -> answer GetNumCols (GMReal m) (VInt (mcols m))
| ans_cols_complex m : 0 <= mcols m < 2 ^ 31 -> answer GetNumCols (GMComplex m) (VInt (mcols m)).

Lemma raw_holds {A} i (v : list A) x : holds i v x -> raw_at (to_u32 i) v = Ok x.
Proof.
  intros [H E]. assert (0 <= i) by (unfold znth in E; destruct (i <? 0) eqn:L; [discriminate|apply Z.ltb_ge in L; lia]).
  rewrite u31 by lia. unfold raw_at. now rewrite E.
Qed.
Lemma grow_holds {A} (mk : list A -> gc) d i v x : holds i v x -> rread (grow_ref mk d (to_u32 i) v) = (Ok x, mk v).
Proof.
  intros [H E]. assert (0 <= i < zlen v) as B.
  { unfold znth in E. destruct (i <? 0) eqn:L; [discriminate|]. apply Z.ltb_ge in L.
    assert (nth_error v (Z.to_nat i) <> None) as K by congruence. apply nth_error_Some in K. unfold zlen. lia. }
  rewrite u31 by lia. unfold grow_ref, check_resize. destruct (zlen v <=? i) eqn:L; [apply Z.leb_le in L; lia|].
  cbv zeta. rewrite E. cbn [rread]. f_equal. f_equal. apply lset_same. unfold znth in E.
  destruct (i <? 0); [discriminate|assumption].
Qed.
Lemma mat_inside {A} (mk : mat A -> gc) i j m x : inside m i j x -> rread (mat_ref mk (to_u32 i) (to_u32 j) m) = (Ok x, mk m).
Proof.
  intros (K & Hi & Hj & Li & Lj & E). rewrite !u31 by lia. destruct (entry_in m i j K Hi Hj) as (a & E1 & E2).
  rewrite E in E1. injection E1 as <-. unfold mat_ref. rewrite E2. cbn [rread]. f_equal. f_equal.
  destruct m as [nr nc d]. cbn [mrows mcols mdata] in *. f_equal. apply lset_same. unfold znth in E2.
  destruct (_ <? 0); [discriminate|assumption].
Qed.

(** Every getter on a container of its own type returns what is stored and changes nothing,
    neither the data nor the cursor. *)
Theorem C64_getters_partial k e r g p : answer k e r -> sub p g = Some e ->
  sexec k (g, Some p) = (Ok r, (g, Some p)).
Proof.
  intros A S.
  assert (forall w f, top_call k = Some (w, f) -> (f e = (Ok r, Some e) \/ f e = (Ok r, None)) -> sexec k (g, Some p) = (Ok r, (g, Some p))) as R.
  { intros w f T [F|F]; unfold sexec; rewrite T, S, F; [rewrite (put_same _ _ _ S)|]; destruct w; reflexivity. }
  destruct A; (eapply R; [cbn [top_call]; reflexivity|]); cbv beta.
  all: try (right; reflexivity). all: try (left; reflexivity).
  all: try (left; destruct b; reflexivity).
  all: try match goal with H : inside _ _ _ _ |- _ => left; unfold shows, ref_real_at2, ref_complex_at2, mreal_at, mcomplex_at;
         rewrite (mat_inside _ _ _ _ _ H); reflexivity end.
  all: try match goal with H : holds _ _ _ |- _ => right; unfold looks, get_number_at, get_complex_number_at;
         rewrite (raw_holds _ _ _ H); reflexivity end.
  all: try match goal with H : holds _ _ _ |- _ => left; unfold shows, ref_bool_at, ref_int_at, vint_at, ref_string_at;
         rewrite (grow_holds _ _ _ _ _ H); try destruct b; reflexivity end.
  all: right; cbn [num_elements num_rows num_cols]; do 2 f_equal; f_equal.
  all: try (rewrite to_i32_id; [reflexivity|unfold int32; lia]).
  all: assert (0 <= zlen v) by apply zlen_nonneg.
  all: rewrite ?(u31 (zlen v)) by lia; try (apply to_i32_id; unfold int32; lia).
Qed.
(** False for a getter on other containers: the C interface has no read-only access, so
    reading can change the data. *)
Theorem C64_changes_refuted :
  ~ (forall i e, snd (sexec (GetIntAtPos i) (e, Some [])) = (e, Some [])) /\
  ~ (forall i j e, snd (sexec (GetComplexAtCoor i j) (e, Some [])) = (e, Some [])) /\
  ~ (forall e, snd (sexec GetComplex (e, Some [])) = (e, Some [])).
Proof.
  split; [|split].
  - intros H. specialize (H 1 (GVec [GInt 1; GStr "a"])). vm_compute in H. discriminate.
  - intros H. specialize (H 0 0 (GMReal (Mat 1 1 [0]))). vm_compute in H. discriminate.
  - intros H. specialize (H GNone). vm_compute in H. discriminate.
Qed.

(** ** Cases *)
Definition tree : gc := GMap [("a"%string, GVec [GInt 1; GVInt [5; 6]]); ("b"%string, GMReal (Mat 2 1 [7; 8]))].
Example C63_case : stores (SetVecInt [1; 2; 3] 2) tree [SKey "a"; SIdx 0] c_ok (GVInt [1; 2]).
Proof.
  apply C63_setters_partial with (e := GInt 1); [|reflexivity|exact (fun H => H)].
  apply given_vint with (n := 2). split; [lia|]. cbv. discriminate.
Qed.
Example C63_case_apart : apart [SKey "a"; SIdx 0] [SKey "a"; SIdx 1].
Proof. right. split; [reflexivity|]. left. discriminate. Qed.
Example C63_case_kept : stores SetEmptyVecInt tree [SKey "a"; SIdx 1] c_ok (GVInt [5; 6]).
Proof. apply C63_kept with (x := GVInt []); [constructor|reflexivity|exact I]. Qed.
Example C63_case_push : stores (PushInt 9) tree [SKey "a"; SIdx 1] c_ok (GVInt [5; 6; 9]).
Proof. apply C63_push with (e := GVInt [5; 6]); [apply app_int with (v := [5; 6])|reflexivity]. Qed.
Example C63_case_vector : exists v, stores (SetVector 3) tree [SKey "a"] c_ok (GVec v) /\ zlen v = 3.
Proof. destruct (C63_set_vector 3 tree [SKey "a"] _ ltac:(lia) eq_refl) as (v & H & L & _). eauto. Qed.
Example C64_case : sexec (GetRealAtCoor 1 0) (tree, Some [SKey "b"]) = (Ok (VReal 8), (tree, Some [SKey "b"])).
Proof.
  apply C64_getters_partial with (e := GMReal (Mat 2 1 [7; 8])); [|reflexivity].
  constructor. unfold inside, mat_ok. cbn [mrows mcols mdata]. repeat (split; [cbv; intuition congruence|]). reflexivity.
Qed.
Example C64_case_at : sexec (GetIntAtPos 1) (tree, Some [SKey "a"; SIdx 1]) = (Ok (VInt 6), (tree, Some [SKey "a"; SIdx 1])).
Proof. apply C64_getters_partial with (e := GVInt [5; 6]); [|reflexivity]. constructor. split; [lia|reflexivity]. Qed.

Print Assumptions C63_setters_partial.
Print Assumptions C63_kept.
Print Assumptions C63_set_vector.
Print Assumptions C64_getters_partial.
