(** Properties C93, C94: assignment and merge between parts of one container. *)
From Coq Require Import ZArith Bool Lia Ascii String List.
From Verif Require Import Base F64 StrMap Value WfDec MBasic MMap MCopy SCopy LCopy SCapi LCapi LCapi3 LRuby Props_capi2 SCollapse MAlias LAlias LAlias2.
Import ListNotations.
Local Open Scope Z_scope.

(** The call with any sufficient amount of fuel has the outcome [r]. *)
Definition returns (f : nat -> out gc) (r : out gc) : Prop := exists N, forall n, (N <= n)%nat -> f n = r.
(** The root after the content at [p] became [x]: all parts that neither are inside [p] nor
    enclose it are as before. *)
Definition now_holds (p : list step) (x root root' : gc) : Prop :=
  sub p root' = Some x /\ forall q, apart p q -> sub q root' = sub q root.
Lemma put_holds p x root e : sub p root = Some e -> now_holds p x root (put p x root).
Proof. intros S. split; [exact (sub_put p root e x S)|]. intros q A. exact (sub_put_apart p root e x q S A). Qed.

(** * C93: root[p] = root[q]. *)

(** Parts outside each other: the assignment ends, the destination holds what assigning an
    independent copy would give (C03: [assigned]; [from_gc] is the assignment from another
    container), and the source and all else is as before. *)
Theorem C93_other_part_partial p q root d s : value_ok root -> apart p q -> sub p root = Some d -> sub q root = Some s ->
  exists r root', from_gc s d = Ok r /\ assigned d s r /\ now_holds p r root root' /\ sub q root' = Some s /\
    returns (fun n => assign_part n p q root) (Ok root').
Proof.
  intros Hok A Sp Sq. pose proof (sub_ok _ _ _ Hok Sq) as Hs. pose proof (wf_wfm _ (proj1 Hok)) as Hw.
  destruct (from_gc_assigned s Hs d (sub_wfm _ _ _ Hw Sp)) as (r & Er & Wr & As). exists r, (put p r root).
  split; [exact Er|]. split; [exact As|]. split; [exact (put_holds p r root d Sp)|]. split; [rewrite (sub_put_apart p root _ _ q Sp A); exact Sq|].
  exists (need s). intros n Hn. destruct (outside_ok s Hs n p q [] root d Sp Sq Hw A (Forall_nil _)) as (r' & Er' & _ & Hc). rewrite Er in Er'. apply Ok_inj in Er'. subst r'.
  destruct Hc as [[_ Hlt]|Hc]; [lia|exact Hc].
Qed.
Definition two_parts : gc := GMap [("a"%string, GVec [GInt 1; GMap [("k"%string, GStr "s"%string)]]); ("b"%string, GVec [GMap [("j"%string, GComplex (0, 0))]])].
Example C93_other_part_example : value_ok two_parts /\ apart [SKey "b"%string; SIdx 0] [SKey "a"%string; SIdx 1] /\
  assign_part 9 [SKey "b"%string; SIdx 0] [SKey "a"%string; SIdx 1] two_parts =
    Ok (GMap [("a"%string, GVec [GInt 1; GMap [("k"%string, GStr "s"%string)]]); ("b"%string, GVec [GMap [("j"%string, GComplex (0, 0)); ("k"%string, GStr "s"%string)]])]).
Proof.
  split; [|split; [left; discriminate|vm_compute; reflexivity]]. split; [wfd|]. split; [cbn; unfold no_nul; cbn; intuition discriminate|]. cbn. unfold few, zlen. cbn. lia.
Qed.

(** To itself: nothing changes, unless there is a complex number in it. *)
Theorem C93_self_partial p root s : value_ok root -> sub p root = Some s ->
  (everywhere (fun g => forall c, g <> GComplex c) s -> returns (fun n => assign_part n p p root) (Ok root)) /\
  (~ everywhere (fun g => forall c, g <> GComplex c) s -> returns (fun n => assign_part n p p root) Undef).
Proof.
  intros Hok S. split; intros H; exists (need s); intros n Hn; destruct (self_ok s (sub_ok _ _ _ Hok S) n p [] root S) as [[_ Hl]|[[E Hc]|[E Hc]]];
    try lia; try exact E; contradiction.
Qed.
(** Assigning a complex number to itself reads it after it was freed. *)
Theorem C93_self_refuted : exists g, value_ok g /\ returns (fun n => assign_part n [] [] g) Undef.
Proof.
  exists (GComplex (0, 0)). assert (V : value_ok (GComplex (0, 0))) by (split; [wfd|split; exact I]). split; [exact V|].
  apply (C93_self_partial [] (GComplex (0, 0)) _ V eq_refl). intros H. apply everywhere_here in H. now apply (H (0, 0)).
Qed.
Example C93_self_example : assign_part 9 [] [] (GVec [GMap [("k"%string, GVInt [1])]; GStr "s"%string]) = Ok (GVec [GMap [("k"%string, GVInt [1])]; GStr "s"%string]).
Proof. vm_compute. reflexivity. Qed.

(** Into itself: storing a container in a part of it never ends, whatever it holds. *)
Theorem C93_into_itself_refuted q st s root d : value_ok root -> sub (q ++ st :: s) root = Some d ->
  forall n, assign_part n (q ++ st :: s) q root = Diverge.
Proof. intros Hok S n. exact (inside_never_ends n q st s [] root d Hok S (Forall_nil _)). Qed.
Example C93_into_itself_example : value_ok two_parts /\ sub ([] ++ SKey "a"%string :: [SIdx 0]) two_parts = Some (GInt 1).
Proof. split; [exact (proj1 C93_other_part_example)|vm_compute; reflexivity]. Qed.

(** A part of a container to the container: fine if the part is a boolean, a number that is
    not complex, a pointer or empty. *)
Theorem C93_part_value_partial p st t root s : sub (p ++ st :: t) root = Some s ->
  (s = GNone \/ (exists b, s = GBool b) \/ (exists i, s = GInt i) \/ (exists l, s = GLong l) \/ (exists r, s = GReal r) \/ (exists x, s = GPtr x)) ->
  exists root', now_holds p s root root' /\ forall n, assign_part (S n) p (p ++ st :: t) root = Ok root'.
Proof.
  intros S H. assert (Hp : exists d, sub p root = Some d).
  { clear - S. revert root S. induction p as [|[k|i] p IH]; intros root S; cbn [app] in S; [exists root; now destruct root| |]; destruct root; cbn [sub] in *; try discriminate S.
    - destruct (mfind k m); [eauto|discriminate S].
    - destruct (znth i v); [eauto|discriminate S]. }
  destruct Hp as (d & Sp). exists (put p s root). split; [exact (put_holds p s root d Sp)|]. intros n. unfold assign_part. cbn [copy_at]. rewrite Sp, S.
  destruct H as [->|[(b & ->)|[(i & ->)|[(l & ->)|[(r & ->)|(x & ->)]]]]]; unfold cleared; cbn [existsb]; rewrite andb_false_r; reflexivity.
Qed.
(** If it is a complex number, a string, or a vector or matrix of one type, it is read after it was freed. *)
Definition by_reference (s : gc) : Prop :=
  (exists c, s = GComplex c) \/ (exists t, s = GStr t) \/ (exists v, s = GVPtr v) \/ (exists v, s = GVBool v) \/ (exists v, s = GVInt v) \/
  (exists v, s = GVLong v) \/ (exists v, s = GVReal v) \/ (exists v, s = GVComplex v) \/ (exists v, s = GVStr v) \/
  (exists m, s = GMInt m) \/ (exists m, s = GMLong m) \/ (exists m, s = GMReal m) \/ (exists m, s = GMComplex m).
Lemma enclosing p st t root s : sub (p ++ st :: t) root = Some s ->
  exists d, sub p root = Some d /\ (forall k, st = SKey k -> exists m y, d = GMap m /\ mfind k m = Some y) /\ (forall i, st = SIdx i -> exists v y, d = GVec v /\ znth i v = Some y).
Proof.
  revert root. induction p as [|[k|i] p IH]; intros root S; cbn [app] in S.
  - exists root. split; [now destruct root|]. split.
    + intros k ->. destruct root; cbn [sub] in S; try discriminate S. destruct (mfind k m) as [y|] eqn:E; [eauto|discriminate S].
    + intros i ->. destruct root; cbn [sub] in S; try discriminate S. destruct (znth i v) as [y|] eqn:E; [eauto|discriminate S].
  - destruct root; cbn [sub] in *; try discriminate S. destruct (mfind k m); [auto|discriminate S].
  - destruct root; cbn [sub] in *; try discriminate S. destruct (znth i v); [auto|discriminate S].
Qed.
Lemma cleared_part p st t : cleared p [p ++ st :: t] = true.
Proof. unfold cleared. cbn [existsb]. now rewrite below_app. Qed.
Theorem C93_part_refuted p st t root s : sub (p ++ st :: t) root = Some s -> by_reference s ->
  forall n, assign_part (S n) p (p ++ st :: t) root = Undef.
Proof.
  intros S H n. destruct (enclosing p st t root s S) as (d & Sp & K & I). unfold assign_part. cbn [copy_at]. rewrite Sp, S.
  assert (P : has_parts d = true).
  { destruct st as [k|i]; [destruct (K k eq_refl) as (m & y & -> & _)|destruct (I i eq_refl) as (v & y & -> & _)]; reflexivity. }
  rewrite P, cleared_part. unfold by_reference in H.
  repeat (destruct H as [(x & ->)|H]; [reflexivity|]). destruct H as (x & ->). reflexivity.
Qed.
(** Also if it is a vector of containers in a map, or a map in a vector. *)
Theorem C93_part_kind_refuted p st t root s : sub (p ++ st :: t) root = Some s ->
  (forall v k, s = GVec v -> st = SKey k -> forall n, assign_part (S n) p (p ++ st :: t) root = Undef) /\
  (forall m i, s = GMap m -> st = SIdx i -> forall n, assign_part (S n) p (p ++ st :: t) root = Undef).
Proof.
  intros S. destruct (enclosing p st t root s S) as (d & Sp & K & I). split.
  - intros v k -> -> n. destruct (K k eq_refl) as (m & y & -> & _). unfold assign_part. cbn [copy_at]. rewrite Sp, S, cleared_part. reflexivity.
  - intros m i -> -> n. destruct (I i eq_refl) as (v & y & -> & _). unfold assign_part. cbn [copy_at]. rewrite Sp, S, cleared_part. reflexivity.
Qed.
(** A vector in a vector, element [i] of it or inside that: nothing happens if it is empty (as
    from a copy, C02), but it is destroyed before it is copied if it has more elements than the
    vector around it, or so few that the resize drops element [i]. *)
Theorem C93_part_vector_refuted p i t root v w : value_ok root -> sub p root = Some (GVec w) -> sub (p ++ SIdx i :: t) root = Some (GVec v) ->
  (v = [] -> forall n, assign_part (S (S n)) p (p ++ SIdx i :: t) root = Ok root) /\
  (zlen w < zlen v -> forall n, assign_part (S n) p (p ++ SIdx i :: t) root = Undef) /\
  (0 < zlen v <= i -> forall n, assign_part (S n) p (p ++ SIdx i :: t) root = Undef).
Proof.
  intros Hok Sp Sq. destruct (value_ok_vec _ (sub_ok _ _ _ Hok Sq)) as [Hf _]. unfold few in Hf. pose proof (zlen_nonneg v).
  assert (Hi : 0 <= i < zlen w).
  { destruct (enclosing p _ t root _ Sq) as (d & Sd & _ & I). destruct (I i eq_refl) as (w' & y & -> & E). rewrite Sp in Sd. apply Some_inj in Sd. injection Sd as <-.
    unfold znth in E. destruct (Z.ltb_spec i 0); [discriminate E|]. assert (Z.to_nat i < length w)%nat by (apply nth_error_Some; congruence). unfold zlen. lia. }
  assert (G : forall n, assign_part (S n) p (p ++ SIdx i :: t) root =
    if (zlen w <? zlen v) && true then Undef else if (0 <? zlen v) && (zlen v <? zlen w) && (zlen v <=? i) then Undef
    else vec_loop (copy_at n) p (p ++ SIdx i :: t) [] n 0 (put p (GVec (alloc_vec (zlen v) (GVec w))) root)).
  { intros n. unfold assign_part. cbn [copy_at]. rewrite Sp, Sq. cbv zeta. cbn [has_parts tag_of old_vec]. rewrite to_u32_id by (unfold uint32; lia).
    replace (negb (tag_eqb TVec TVec)) with false by reflexivity. cbn [andb].
    assert (M : moved p [p ++ SIdx i :: t] = true) by (unfold moved; cbn [existsb]; now rewrite below_app).
    assert (C : cut (zlen v) p [p ++ SIdx i :: t] = (zlen v <=? i)) by (unfold cut; cbn [existsb]; rewrite below_app; apply orb_false_r).
    now rewrite M, C. }
  split; [|split].
  - intros -> n. rewrite G. change (zlen (@nil gc)) with 0. rewrite (proj2 (Z.ltb_ge _ _)) by lia. rewrite Z.ltb_irrefl. cbn [andb]. unfold alloc_vec, valloc. rewrite Z.ltb_irrefl. cbn [old_vec].
    rewrite (put_same _ _ _ Sp). cbn [vec_loop]. rewrite Sq, Sp. change (zlen (@nil gc)) with 0. now rewrite Z.ltb_irrefl.
  - intros L n. rewrite G, (proj2 (Z.ltb_lt _ _) L). reflexivity.
  - intros [L1 L2] n. rewrite G. rewrite (proj2 (Z.ltb_ge _ _)) by lia. cbn [andb]. rewrite (proj2 (Z.ltb_lt _ _)) by lia. rewrite (proj2 (Z.ltb_lt _ _)) by lia. rewrite (proj2 (Z.leb_le _ _)) by lia. reflexivity.
Qed.
Example C93_part_vector_example : value_ok (GVec [GInt 1; GVec [GInt 2]]) /\ assign_part 9 [] [SIdx 1] (GVec [GInt 1; GVec [GInt 2]]) = Undef /\
  assign_part 9 [] [SIdx 1] (GVec [GInt 1; GVec []]) = Ok (GVec [GInt 1; GVec []]).
Proof. split; [split; [wfd|]; split; [cbn; tauto|cbn; unfold few, zlen; cbn; lia]|vm_compute; auto]. Qed.
(** A key with a NUL byte: assigning a map to itself adds a key. *)
Theorem C93_key_refuted : exists g g', wf g /\ g' <> g /\ returns (fun n => assign_part n [] [] g) (Ok g').
Proof.
  exists (GMap [(String "a" (String "000" "b"), GInt 1)]), (GMap [("a"%string, GInt 1); (String "a" (String "000" "b"), GInt 1)]).
  split; [wfd|]. split; [discriminate|]. exists 4%nat. intros n Hn. do 4 (destruct n as [|n]; [lia|]). vm_compute. reflexivity.
Qed.
(** A map in a map, when it has no key that leads back to itself: as from an independent copy. *)
Theorem C93_part_map_partial p x t root sm : value_ok root -> sub (p ++ SKey x :: t) root = Some (GMap sm) -> mfind x sm = None ->
  exists d r root', sub p root = Some d /\ from_gc (GMap sm) d = Ok r /\ assigned d (GMap sm) r /\ now_holds p r root root' /\
    returns (fun n => assign_part n p (p ++ SKey x :: t) root) (Ok root').
Proof.
  intros Hok Sq Fx. destruct (enclosing p _ t root _ Sq) as (d & Sp & K & _). destruct (K x eq_refl) as (dm & y & -> & _).
  pose proof (wf_wfm _ (proj1 Hok)) as Hw. pose proof (sub_ok _ _ _ Hok Sq) as Hs.
  destruct (from_gc_assigned _ Hs (GMap dm) (sub_wfm _ _ _ Hw Sp)) as (r & Er & Wr & As).
  exists (GMap dm), r, (put p r root). split; [exact Sp|]. split; [exact Er|]. split; [exact As|]. split; [exact (put_holds p r root _ Sp)|].
  destruct (value_ok_map _ Hs) as (Ss & Sn & Sall).
  assert (Hcw : Forall (fun kv => copies_well (snd kv)) sm) by (rewrite Forall_forall in *; intros kv Hin; apply outside_ok; exact (Sall kv Hin)).
  exists (need (GMap sm)). intros n Hn. rewrite need_map in Hn. destruct n as [|n]; [lia|]. unfold assign_part. cbn [copy_at]. rewrite Sp, Sq. cbn [has_parts tag_of old_map].
  replace (negb (tag_eqb TMap TMap)) with false by reflexivity. cbn [andb]. rewrite (put_same _ _ _ Sp).
  destruct (map_loop_ok n sm Hcw Sn p (p ++ SKey x :: t) [] [] None dm root n Sq Sp Ss (placed_start sm) Hw) as (r' & Ea & _ & Hr).
  { intros k Hk. split; [|constructor]. apply apart_prefix. intros E. injection E as ->. apply in_map_iff in Hk as ((k', a) & E & Hin). cbn [fst] in E. subst k'.
    apply (in_mfind _ _ _ Ss) in Hin. congruence. }
  rewrite from_gc_map in Er. cbn [old_map] in Er. rewrite Ea in Er. cbn [bind] in Er. apply Ok_inj in Er. subst r.
  destruct Hr as [[_ Hl]|Hr]; [|exact Hr]. pose proof (needs_length (map snd sm)). rewrite map_length in *. lia.
Qed.
Definition nested : gc := GMap [("m"%string, GMap [("a"%string, GStr "new"%string); ("z"%string, GInt 1)]); ("z"%string, GInt 0)].
Example C93_part_example : value_ok nested /\
  assign_part 9 [] [SKey "m"%string] nested =
    Ok (GMap [("a"%string, GStr "new"%string); ("m"%string, GMap [("a"%string, GStr "new"%string); ("z"%string, GInt 1)]); ("z"%string, GInt 1)]) /\
  assign_part 9 [] [SKey "m"%string; SKey "a"%string] nested = Undef /\ by_reference (GStr "new"%string) /\
  assign_part 9 [] [SKey "m"%string; SKey "z"%string] nested = Ok (GInt 1).
Proof.
  split; [split; [wfd|]; split; [cbn; unfold no_nul; cbn; intuition discriminate|cbn; tauto]|].
  split; [vm_compute; reflexivity|]. split; [vm_compute; reflexivity|]. split; [unfold by_reference; eauto 10|vm_compute; reflexivity].
Qed.

(** * C94: root[p].merge( root[q] ). *)

(** Parts outside each other, or a map in a map without a key that leads back to it: the same
    as merging an independent copy ([merge] is the merge of another container, C04). *)
Theorem C94_merge_partial p q root d sm : value_ok root -> sub p root = Some d -> sub q root = Some (GMap sm) -> (d = GNone \/ exists dm, d = GMap dm) ->
  apart p q \/ (exists x t, q = p ++ SKey x :: t /\ mfind x sm = None) ->
  exists r root', merge (GMap sm) d = (Ok tt, r) /\ now_holds p r root root' /\ returns (fun n => merge_part n p q root) (Ok root').
Proof.
  intros Hok Sp Sq Hd Hpq. pose proof (wf_wfm _ (proj1 Hok)) as Hw. pose proof (sub_ok _ _ _ Hok Sq) as Hs. destruct (value_ok_map _ Hs) as (Ss & Sn & Sall).
  assert (Hcw : Forall (fun kv => copies_well (snd kv)) sm) by (rewrite Forall_forall in *; intros kv Hin; apply outside_ok; exact (Sall kv Hin)).
  assert (E1 : exists dm root1, root1 = put p (GMap dm) root /\ sub p root1 = Some (GMap dm) /\ sub q root1 = Some (GMap sm) /\ wfm root1 /\
     (forall n, merge_part n p q root = map_loop (copy_at n) p q [] n None root1) /\
     merge (GMap sm) d = match assign_map sm dm with Ok r => (Ok tt, GMap r) | Throw => (Throw, GMap dm) | Undef => (Undef, GMap dm) | Diverge => (Diverge, GMap dm) end).
  { destruct Hd as [->|(dm & ->)].
    - exists [], (put p (GMap []) root). split; [reflexivity|]. split; [exact (sub_put p root _ _ Sp)|]. split; [|split; [|split]].
      + destruct Hpq as [A|(x & t & -> & _)]; [rewrite (sub_put_apart p root _ _ q Sp A); exact Sq|].
        rewrite (sub_app p _ root _ Sp) in Sq. discriminate Sq.
      + apply (put_wfm p root _ _ Hw Sp). apply wfm_map. split; constructor.
      + intros n. unfold merge_part. rewrite Sp, Sq. reflexivity.
      + reflexivity.
    - exists dm, root. split; [symmetry; exact (put_same _ _ _ Sp)|]. split; [exact Sp|]. split; [exact Sq|]. split; [exact Hw|]. split; [|reflexivity].
      intros n. unfold merge_part. rewrite Sp, Sq. reflexivity. }
  destruct E1 as (dm & root1 & Er1 & Sp1 & Sq1 & Hw1 & Em & Ed).
  assert (A : forall k, In k (map fst sm) -> apart (p ++ [SKey k]) q /\ clear_of (p ++ [SKey k]) []).
  { intros k Hk. split; [|constructor]. destruct Hpq as [A|(x & t & -> & Fx)]; [now apply apart_l|]. apply apart_prefix. intros E. injection E as ->.
    apply in_map_iff in Hk as ((k', a) & E & Hin). cbn [fst] in E. subst k'. apply (in_mfind _ _ _ Ss) in Hin. congruence. }
  destruct (map_loop_ok 0 sm Hcw Sn p q [] [] None dm root1 0 Sq1 Sp1 Ss (placed_start sm) Hw1 A) as (r & Ea & _ & _).
  exists (GMap r), (put p (GMap r) root). rewrite Ed, Ea. split; [reflexivity|]. split; [exact (put_holds p _ root d Sp)|].
  exists (need (GMap sm)). intros n Hn. rewrite need_map in Hn. rewrite Em.
  destruct (map_loop_ok n sm Hcw Sn p q [] [] None dm root1 n Sq1 Sp1 Ss (placed_start sm) Hw1 A) as (r' & Ea' & _ & Hr). rewrite Ea in Ea'. apply Ok_inj in Ea'. subst r'.
  destruct Hr as [[_ Hl]|Hr]; [pose proof (needs_length (map snd sm)); rewrite map_length in *; lia|]. rewrite Hr, Er1. f_equal. exact (put_put p root _ _ _ Sp).
Qed.
(** With itself: nothing changes, unless there is a complex number in it. *)
Theorem C94_self_partial p root m : value_ok root -> sub p root = Some (GMap m) ->
  (everywhere (fun g => forall c, g <> GComplex c) (GMap m) -> returns (fun n => merge_part n p p root) (Ok root)) /\
  (~ everywhere (fun g => forall c, g <> GComplex c) (GMap m) -> returns (fun n => merge_part n p p root) Undef).
Proof.
  intros Hok S. destruct (value_ok_map _ (sub_ok _ _ _ Hok S)) as (Ss & Sn & Sall).
  assert (Hsf : Forall (fun kv => selfs (snd kv)) m) by (rewrite Forall_forall in *; intros kv Hin; apply self_ok; exact (Sall kv Hin)).
  assert (G : forall n, (need (GMap m) <= n)%nat -> merge_part n p p root = Ok root /\ Forall (fun kv => real_only (snd kv)) m \/
    merge_part n p p root = Undef /\ ~ Forall (fun kv => real_only (snd kv)) m).
  { intros n Hn. rewrite need_map in Hn. unfold merge_part. rewrite S.
    destruct (map_loop_self n m Hsf Sn p [] [] None root n S Ss (placed_start m)) as [[_ Hl]|H]; [|exact H].
    pose proof (needs_length (map snd m)). rewrite map_length in *. lia. }
  rewrite everywhere_map. split; intros H; exists (need (GMap m)); intros n Hn; destruct (G n Hn) as [[E F]|[E F]]; try exact E; exfalso.
  - apply F. exact (proj2 H).
  - apply H. split; [discriminate|exact F].
Qed.
(** A map merged into a map (or an empty container) inside it: never ends. *)
Theorem C94_into_itself_refuted q k s root d sm : value_ok root -> sub q root = Some (GMap sm) -> sub (q ++ SKey k :: s) root = Some d ->
  (d = GNone \/ exists dm, d = GMap dm) -> forall n, merge_part n (q ++ SKey k :: s) q root = Diverge.
Proof.
  intros Hok Sq Sp Hd n. unfold merge_part. rewrite Sp, Sq. pose proof (put_below_map q k s) as B.
  destruct Hd as [->|(dm & ->)].
  - destruct (B (GMap []) root sm _ Sq Sp) as (m' & S' & y' & F').
    assert (W : value_ok (GMap [])) by (apply ok_map; constructor).
    refine (map_loop_inside n (inside_never_ends n) k s q [] n None _ m' y' [] (put_ok _ _ _ _ Hok Sp W) (Forall_nil _) S' (sub_put _ _ _ _ Sp) F' _). discriminate.
  - pose proof Sp as Sp'. rewrite (sub_app q _ root _ Sq) in Sp'. cbn [sub] in Sp'. destruct (mfind k sm) as [y|] eqn:F; [|discriminate Sp'].
    refine (map_loop_inside n (inside_never_ends n) k s q [] n None root sm y dm Hok (Forall_nil _) Sq Sp F _). discriminate.
Qed.
(** A map in a map under a key that it has itself: the key's value is lost while it is copied. *)
Theorem C94_part_refuted : exists root, value_ok root /\ (exists sm, sub [SKey "x"%string] root = Some (GMap sm)) /\
  returns (fun n => merge_part n [] [SKey "x"%string] root) Undef.
Proof.
  exists (GMap [("x"%string, GMap [("x"%string, GInt 1)])]). split; [split; [wfd|]; split; [cbn; unfold no_nul; cbn; intuition discriminate|cbn; tauto]|].
  split; [eexists; reflexivity|]. exists 2%nat. intros n Hn. do 2 (destruct n as [|n]; [lia|]). vm_compute. reflexivity.
Qed.
(** Errors: nothing is done. *)
Theorem C94_errors p q root d s : sub p root = Some d -> sub q root = Some s ->
  (s = GNone -> forall n, merge_part n p q root = Ok root) /\
  (tag_of s <> TNone -> tag_of s <> TMap \/ (tag_of d <> TNone /\ tag_of d <> TMap) -> forall n, merge_part n p q root = Throw).
Proof.
  intros Sp Sq. split.
  - intros -> n. unfold merge_part. now rewrite Sp, Sq.
  - intros H1 H2 n. unfold merge_part. rewrite Sp, Sq. destruct s; try reflexivity; [now contradiction H1|].
    destruct H2 as [H2|[H2 H3]]; [now contradiction H2|]. destruct d; try reflexivity; [now contradiction H2|now contradiction H3].
Qed.
Example C94_example : value_ok nested /\ (exists sm, sub [SKey "m"%string] nested = Some (GMap sm) /\ mfind "m"%string sm = None) /\
  merge_part 9 [] [SKey "m"%string] nested =
    Ok (GMap [("a"%string, GStr "new"%string); ("m"%string, GMap [("a"%string, GStr "new"%string); ("z"%string, GInt 1)]); ("z"%string, GInt 1)]) /\
  merge_part 9 [SKey "z"%string] [SKey "m"%string] nested = Throw.
Proof. split; [exact (proj1 C93_part_example)|]. split; [eexists; split; reflexivity|]. split; vm_compute; reflexivity. Qed.

Print Assumptions C93_other_part_partial.
Print Assumptions C93_self_partial.
Print Assumptions C93_into_itself_refuted.
Print Assumptions C93_part_map_partial.
Print Assumptions C93_part_vector_refuted.
Print Assumptions C94_merge_partial.
Print Assumptions C94_into_itself_refuted.
