(** C119: lists of numbers, tables of integers and lists of strings in JSON and YAML. *)
From Coq Require Import ZArith Bool Lia Ascii String List.
From Verif Require Import Base F64 StrMap Value MBasic MCopy SCopy LCopy MGet SGet MMat MPromote MCollapse LCollapse
  STight MNum MText MJson SJson LJson SJsonText MRapid SRapid LRapid MYaml MToml SDocs LDocs.
From Verif Require Props_tight Props_rapid.
Import ListNotations.
Local Open Scope Z_scope.
Local Open Scope string_scope.

(** ** Decoding into a container without elements *)
Lemma decode_fresh l g : fresh g -> decode_json (JArr l) g = GVec (map (fun x => decode_json x GNone) l).
Proof.
  intros F. rewrite decode_arr, (alloc_fresh _ _ F) by apply zlen_nonneg. f_equal.
  unfold zlen. rewrite Nat2Z.id. clear. induction l as [|x l IH]; [reflexivity|]. cbn [length repeat decode_all map]. now rewrite IH.
Qed.
Lemma decode_i32 z : int32 z -> decode_int z GNone = GInt z.
Proof.
  intros H. unfold decode_int. unfold int32 in H.
  destruct (Z.leb_spec (- 2^31) z); [|lia]. destruct (Z.ltb_spec z (2^31)); [|lia]. reflexivity.
Qed.
Lemma decode_ints c : Forall int32 c -> map (fun x => decode_json x GNone) (map JInt c) = map GInt c.
Proof. induction 1 as [|z c H _ IH]; [reflexivity|]. cbn [map decode_json]. now rewrite (decode_i32 z H), IH. Qed.

Lemma yaml_fresh l g w : fresh g -> zlen l < 2^32 -> Forall2 (fun y e => YAML_to_GC y GNone = (Ok tt, e)) l w ->
  YAML_to_GC (YSeq l) g = (Ok tt, GVec w).
Proof.
  intros F L H. pose proof (zlen_nonneg l). rewrite yaml_seq, to_u32_id by (unfold uint32; lia). rewrite (alloc_fresh _ _ F) by assumption.
  unfold zlen. rewrite Nat2Z.id.
  replace (yaml_all l (repeat GNone (length l))) with (Ok tt : out unit, w); [reflexivity|].
  clear -H. induction H as [|y e l w E _ IH]; [reflexivity|]. cbn [length repeat yaml_all]. now rewrite E, <- IH.
Qed.
Lemma yaml_i32 z : int32 z -> YAML_to_GC (YInt z) GNone = (Ok tt, GInt z).
Proof.
  intros H. cbn [YAML_to_GC]. unfold decode_int64. unfold int32 in H. f_equal.
  destruct (Z.leb_spec (- 2^31) z); [|lia]. destruct (Z.leb_spec z (2^31 - 1)); [|lia].
  reflexivity.
Qed.
Lemma F2_map {A B} (f : A -> B) l (R : A -> B -> Prop) : (forall a, In a l -> R a (f a)) -> Forall2 R l (map f l).
Proof. induction l as [|a l IH]; intros H; [constructor|]. cbn [map]. constructor; [apply H; now left|]. apply IH. intros x Hx. apply H. now right. Qed.
Lemma F2_maps {A B C} (f : A -> B) (h : A -> C) l (R : B -> C -> Prop) : (forall a, In a l -> R (f a) (h a)) -> Forall2 R (map f l) (map h l).
Proof. induction l as [|a l IH]; intros H; [constructor|]. cbn [map]. constructor; [apply H; now left|]. apply IH. intros x Hx. apply H. now right. Qed.

(** A vector of integers is collapsed to a typed vector. *)
Lemma ints_collapse c : c <> [] -> zlen c < 2^31 -> Forall int32 c -> collapse (GVec (map GInt c)) = (Ok tt, GVInt c).
Proof.
  intros N L H. destruct (Props_tight.C118_numbers_partial (map GInt c) TInt) as (g' & E & V).
  - intros X. destruct c; [congruence|discriminate].
  - now rewrite zlen_map.
  - apply Forall_forall. intros e He. apply in_map_iff in He as (x & <- & Ix). rewrite Forall_forall in H. exact (H x Ix).
  - apply Forall_forall. intros e He. apply in_map_iff in He as (x & <- & _). exact I.
  - split; [|apply Forall_forall; intros e He; apply in_map_iff in He as (x & <- & _); cbn; lia].
    destruct c as [|x c]; [congruence|]. exists (GInt x). split; [now left|reflexivity].
  - discriminate.
  - rewrite E. f_equal. inversion V as [|r R| | |]; subst. f_equal. clear -R. revert r R.
    induction c as [|x c IH]; intros r R; inversion R as [|? ? ? ? D R']; subst; [reflexivity|]. cbn in D. subst. f_equal. now apply IH.
Qed.

(** ** JSON *)
Theorem C119_json_integers : forall t c g, gtext (jstring true) plain t (JArr (map JInt c)) -> fresh g ->
  c <> [] -> zlen c < 2^31 -> Forall int32 c -> from_json_text t g = (Ok true, GVInt c).
Proof.
  intros t c g T F N L H. rewrite (proj2 (Props_rapid.C98_exact_partial t _ g T)). cbn [from_json].
  rewrite (decode_fresh _ _ F), (decode_ints c H). unfold MJson.finish. now rewrite (ints_collapse c N L H).
Qed.
Theorem C119_json_table : forall t cs n g, gtext (jstring true) plain t (JArr (map (fun c => JArr (map JInt c)) cs)) -> fresh g ->
  cs <> [] -> 0 < n -> n < 2^31 -> zlen cs < 2^31 -> n * zlen cs < 2^32 ->
  Forall (fun c => zlen c = n /\ Forall int32 c) cs ->
  from_json_text t g = (Ok true, GMInt (Mat n (zlen cs) (concat cs))).
Proof.
  intros t cs n g T F N P Ln Lc Lm H. rewrite (proj2 (Props_rapid.C98_exact_partial t _ g T)). cbn [from_json].
  rewrite (decode_fresh _ _ F), map_map.
  rewrite (map_ext_in _ (fun c => GVec (map GInt c))).
  - unfold MJson.finish. now rewrite (Props_tight.C118_table cs n N P Ln Lc Lm H).
  - intros c Ic. rewrite Forall_forall in H. rewrite decode_fresh by (split; discriminate). now rewrite (decode_ints c (proj2 (H c Ic))).
Qed.
Theorem C119_json_strings : forall t l g, gtext (jstring true) plain t (JArr (map JStr l)) -> fresh g ->
  l <> [] -> zlen l < 2^31 -> Forall (fun s => cstr s = s) l -> from_json_text t g = (Ok true, GVStr l).
Proof.
  intros t l g T F N L H. rewrite (proj2 (Props_rapid.C98_exact_partial t _ g T)). cbn [from_json].
  rewrite (decode_fresh _ _ F), map_map.
  rewrite (map_ext_in _ GStr).
  - unfold MJson.finish. now rewrite (Props_tight.C118_strings l N L).
  - intros s Is. rewrite Forall_forall in H. cbn [decode_json]. rewrite (H s Is). reflexivity.
Qed.

(** ** YAML *)
Lemma yaml_ints c g : fresh g -> zlen c < 2^31 -> Forall int32 c -> YAML_to_GC (YSeq (map YInt c)) g = (Ok tt, GVec (map GInt c)).
Proof.
  intros F L H. apply yaml_fresh; [exact F|rewrite zlen_map; lia|]. apply F2_maps. intros z Iz. rewrite Forall_forall in H. apply yaml_i32. now apply H.
Qed.
Theorem C119_yaml_integers : forall c g, fresh g -> c <> [] -> zlen c < 2^31 -> Forall int32 c ->
  from_yaml (Some (YSeq (map YInt c))) g = (Ok true, GVInt c).
Proof.
  intros c g F N L H. cbn [from_yaml]. rewrite (yaml_ints c g F L H). unfold then_collapse. rewrite (ints_collapse c N L H). reflexivity.
Qed.
Theorem C119_yaml_table : forall cs n g, fresh g ->
  cs <> [] -> 0 < n -> n < 2^31 -> zlen cs < 2^31 -> n * zlen cs < 2^32 ->
  Forall (fun c => zlen c = n /\ Forall int32 c) cs ->
  from_yaml (Some (YSeq (map (fun c => YSeq (map YInt c)) cs))) g = (Ok true, GMInt (Mat n (zlen cs) (concat cs))).
Proof.
  intros cs n g F N P Ln Lc Lm H. cbn [from_yaml].
  rewrite (yaml_fresh _ g (map (fun c => GVec (map GInt c)) cs) F).
  - unfold then_collapse. rewrite (Props_tight.C118_table cs n N P Ln Lc Lm H). reflexivity.
  - rewrite zlen_map. lia.
  - apply F2_maps. intros c Ic. rewrite Forall_forall in H. destruct (H c Ic) as [E I32]. apply yaml_ints; [split; discriminate|lia|exact I32].
Qed.
Theorem C119_yaml_strings : forall l g, fresh g -> l <> [] -> zlen l < 2^31 ->
  from_yaml (Some (YSeq (map YStr l))) g = (Ok true, GVStr l).
Proof.
  intros l g F N L. cbn [from_yaml]. rewrite (yaml_fresh _ g (map GStr l) F).
  - unfold then_collapse. rewrite (Props_tight.C118_strings l N L). reflexivity.
  - rewrite zlen_map. lia.
  - apply F2_maps. reflexivity.
Qed.

(** ** The entries of a table: row i of column j is the i-th number of the j-th list. *)
Lemma concat_nth {A} n (cs : list (list A)) : Forall (fun c => length c = n) cs -> forall i j c x,
  nth_error cs j = Some c -> nth_error c i = Some x -> nth_error (concat cs) (i + j * n) = Some x.
Proof.
  induction 1 as [|c0 cs L _ IH]; intros i j c x J X; [destruct j; discriminate J|].
  destruct j as [|j]; cbn [nth_error] in J; cbn [concat].
  - injection J as ->. rewrite Nat.mul_0_l, Nat.add_0_r, nth_error_app1; [exact X|]. apply nth_error_Some. congruence.
  - rewrite nth_error_app2 by (cbn; lia). replace (i + S j * n - length c0)%nat with (i + j * n)%nat by (cbn; lia). exact (IH i j c x J X).
Qed.
Theorem C119_entry : forall cs n i j c x, 0 < n -> n * zlen cs < 2^32 -> Forall (fun c => zlen c = n /\ Forall int32 c) cs ->
  nth_error cs (Z.to_nat j) = Some c -> nth_error c (Z.to_nat i) = Some x -> 0 <= i -> 0 <= j ->
  get_int_at2 i j (GMInt (Mat n (zlen cs) (concat cs))) = Ok x.
Proof.
  intros cs n i j c x P Lm F J X Hi Hj.
  assert (Ic : In c cs) by (eapply nth_error_In; exact J). rewrite Forall_forall in F. destruct (F c Ic) as [Lc _].
  assert (Bi : i < n).
  { assert (Z.to_nat i < length c)%nat by (apply nth_error_Some; congruence). unfold zlen in Lc. lia. }
  assert (Bj : j < zlen cs).
  { assert (Z.to_nat j < length cs)%nat by (apply nth_error_Some; congruence). unfold zlen. lia. }
  cbn [get_int_at2]. unfold mat_at_checked. cbn [mrows mcols].
  destruct (Z.ltb_spec i n); [|lia]. destruct (Z.ltb_spec j (zlen cs)); [|lia]. cbn [andb gc_assert].
  unfold mat_get, vat, mpos. cbn [mrows mdata]. rewrite to_u32_id by (unfold uint32; nia).
  assert (E : nth_error (concat cs) (Z.to_nat (i + j * n)) = Some x).
  { replace (Z.to_nat (i + j * n)) with (Z.to_nat i + Z.to_nat j * Z.to_nat n)%nat by (rewrite Z2Nat.inj_add, Z2Nat.inj_mul; nia).
    apply (concat_nth (Z.to_nat n) cs) with (c := c); [|exact J|exact X].
    apply Forall_forall. intros d Id. destruct (F d Id) as [Ld _]. unfold zlen in Ld. lia. }
  unfold znth. destruct (Z.ltb_spec (i + j * n) 0); [nia|]. now rewrite E.
Qed.

(** ** Larger integers and reals *)
Definition kept (z : Z) : gc := if (- 2^31 <=? z)%Z && (z <=? 2^31 - 1)%Z then GInt z else GLong z.
Lemma kept_cases z : (int32 z /\ kept z = GInt z) \/ (~ int32 z /\ kept z = GLong z).
Proof.
  unfold kept, int32. destruct (Z.leb_spec (- 2^31) z), (Z.leb_spec z (2^31 - 1)); cbn [andb]; [left|right|right|right]; (split; [lia|reflexivity]).
Qed.
(** The integers that decode_json stores as they are: those above the range of int but within that
    of unsigned int, and those of 2^63 and more, are not. *)
Definition kept_by_json (z : Z) : Prop := int64 z /\ ~ (2^31 <= z < 2^32).
Lemma decode_kept z : kept_by_json z -> decode_int z GNone = kept z.
Proof.
  intros [H1 H2]. unfold int64 in H1. unfold decode_int, kept.
  destruct (Z.leb_spec (- 2^31) z); cbn [andb].
  - destruct (Z.ltb_spec z (2^31)); cbn [andb].
    + destruct (Z.leb_spec z (2^31 - 1)); [reflexivity|lia].
    + destruct (Z.leb_spec z (2^31 - 1)); [lia|]. destruct (Z.leb_spec 0 z); [|lia]. destruct (Z.ltb_spec z (2^32)); [lia|]. cbn [andb].
      destruct (Z.leb_spec (- 2^63) z); [|lia]. destruct (Z.ltb_spec z (2^63)); [reflexivity|lia].
  - destruct (Z.leb_spec 0 z); [lia|]. cbn [andb]. destruct (Z.leb_spec (- 2^63) z); [|lia]. destruct (Z.ltb_spec z (2^63)); [reflexivity|lia].
Qed.
Lemma fis_nearest x n : fis x n -> fnearest x n.
Proof. intros H. exists (n * fone). split; [exact H|]. intros y w _ _. rewrite Z.sub_diag. apply Z.abs_nonneg. Qed.

Lemma longs_collapse c : c <> [] -> zlen c < 2^31 -> Forall int64 c -> Exists (fun z => ~ int32 z) c ->
  collapse (GVec (map kept c)) = (Ok tt, GVLong c).
Proof.
  intros N L H X. destruct (Props_tight.C118_numbers_partial (map kept c) TLong) as (g' & E & V).
  - intros Y. destruct c; [congruence|discriminate].
  - now rewrite zlen_map.
  - apply Forall_forall. intros e He. apply in_map_iff in He as (x & <- & Ix). rewrite Forall_forall in H. destruct (kept_cases x) as [[K ->]|[_ ->]]; [exact K|exact (H x Ix)].
  - apply Forall_forall. intros e He. apply in_map_iff in He as (x & <- & _). destruct (kept_cases x) as [[_ ->]|[_ ->]]; exact I.
  - split.
    + apply Exists_exists in X as (z & Iz & Z). exists (kept z). split; [now apply in_map|]. destruct (kept_cases z) as [[K _]|[_ ->]]; [now destruct Z|reflexivity].
    + apply Forall_forall. intros e He. apply in_map_iff in He as (x & <- & _). destruct (kept_cases x) as [[_ ->]|[_ ->]]; cbn; lia.
  - discriminate.
  - rewrite E. f_equal. inversion V as [| |r R| |]; subst. f_equal. clear -R. revert r R.
    induction c as [|x c IH]; intros r R; inversion R as [|? ? ? ? D R']; subst; [reflexivity|]. destruct (kept_cases x) as [[_ K]|[_ K]]; rewrite K in D; cbn in D; subst; f_equal; now apply IH.
Qed.
Theorem C119_json_longs : forall t c g, gtext (jstring true) plain t (JArr (map JInt c)) -> fresh g ->
  c <> [] -> zlen c < 2^31 -> Forall kept_by_json c -> Exists (fun z => ~ int32 z) c -> from_json_text t g = (Ok true, GVLong c).
Proof.
  intros t c g T F N L H X. rewrite (proj2 (Props_rapid.C98_exact_partial t _ g T)). cbn [from_json].
  rewrite (decode_fresh _ _ F), map_map. rewrite (map_ext_in _ kept).
  - unfold MJson.finish. rewrite (longs_collapse c N L); [reflexivity| |exact X]. revert H. apply Forall_impl. now intros z [K _].
  - intros z Iz. rewrite Forall_forall in H. cbn [decode_json]. now apply decode_kept, H.
Qed.
Theorem C119_yaml_longs : forall c g, fresh g -> c <> [] -> zlen c < 2^31 -> Forall int64 c -> Exists (fun z => ~ int32 z) c ->
  from_yaml (Some (YSeq (map YInt c))) g = (Ok true, GVLong c).
Proof.
  intros c g F N L H X. cbn [from_yaml]. rewrite (yaml_fresh _ g (map kept c) F).
  - unfold then_collapse. rewrite (longs_collapse c N L H X). reflexivity.
  - rewrite zlen_map. lia.
  - apply F2_maps. intros z _. reflexivity.
Qed.

(** Lists of integers and reals. *)
Definition real_value (x : Z) (z : Z + Z) : Prop := match z with inl n => fnearest x n | inr r => x = r end.
Definition kept_num (z : Z + Z) : gc := match z with inl n => kept n | inr r => GReal r end.
Lemma reals_collapse l : zlen l < 2^31 -> Forall (fun z => match z with inl n => int64 n | inr r => f64 r end) l -> (exists r, In (inr r) l) ->
  exists xs, collapse (GVec (map kept_num l)) = (Ok tt, GVReal xs) /\ Forall2 real_value xs l.
Proof.
  intros L H [r0 I0]. rewrite Forall_forall in H.
  assert (K : forall z, In z l -> wf (kept_num z) /\ numeric (kept_num z) /\ tag_num (tag_of (kept_num z)) <= tag_num TReal).
  { intros [n|r] Iz; specialize (H _ Iz); cbn [kept_num].
    - destruct (kept_cases n) as [[K ->]|[_ ->]]; (split; [|split; [exact I|cbn; lia]]); [exact K|exact H].
    - split; [exact H|]. split; [exact I|cbn; lia]. }
  destruct (Props_tight.C118_numbers_partial (map kept_num l) TReal) as (g' & E & V).
  - intros Y. destruct l; [destruct I0|discriminate].
  - now rewrite zlen_map.
  - apply Forall_forall. intros e He. apply in_map_iff in He as (x & <- & Ix). now apply K.
  - apply Forall_forall. intros e He. apply in_map_iff in He as (x & <- & Ix). now apply K.
  - split; [exists (GReal r0); split; [exact (in_map kept_num l (inr r0) I0)|reflexivity]|].
    apply Forall_forall. intros e He. apply in_map_iff in He as (x & <- & Ix). now apply K.
  - discriminate.
  - inversion V as [| | |xs R|]; subst. exists xs. split; [exact E|]. clear -R. revert xs R.
    induction l as [|z l IH]; intros xs R; inversion R as [|? x ? ? D R']; subst; constructor; [|now apply IH].
    destruct z as [n|r]; cbn [kept_num real_value] in *; [|exact D]. destruct (kept_cases n) as [[_ K]|[_ K]]; rewrite K in D; cbn [real_of] in D; [now apply fis_nearest|exact D].
Qed.
Theorem C119_json_reals : forall t l g, gtext (jstring true) plain t (JArr (map (fun z => match z with inl n => JInt n | inr r => JDbl r end) l)) -> fresh g ->
  zlen l < 2^31 -> Forall (fun z => match z with inl n => kept_by_json n | inr r => f64 r end) l -> (exists r, In (inr r) l) ->
  exists xs, from_json_text t g = (Ok true, GVReal xs) /\ Forall2 real_value xs l.
Proof.
  intros t l g T F L H X. rewrite (proj2 (Props_rapid.C98_exact_partial t _ g T)). cbn [from_json].
  rewrite (decode_fresh _ _ F), map_map. rewrite (map_ext_in _ kept_num).
  - destruct (reals_collapse l L) as (xs & E & R); [|exact X|].
    + revert H. apply Forall_impl. intros [n|r]; [now intros [K _]|auto].
    + exists xs. unfold MJson.finish. rewrite E. split; [reflexivity|exact R].
  - intros [n|r] Iz; rewrite Forall_forall in H; specialize (H _ Iz); cbn [decode_json]; [now apply decode_kept|reflexivity].
Qed.
Theorem C119_yaml_reals : forall l g, fresh g ->
  zlen l < 2^31 -> Forall (fun z => match z with inl n => int64 n | inr r => f64 r end) l -> (exists r, In (inr r) l) ->
  exists xs, from_yaml (Some (YSeq (map (fun z => match z with inl n => YInt n | inr r => YFlt r end) l))) g = (Ok true, GVReal xs) /\ Forall2 real_value xs l.
Proof.
  intros l g F L H X. cbn [from_yaml]. rewrite (yaml_fresh _ g (map kept_num l) F).
  - destruct (reals_collapse l L H X) as (xs & E & R). exists xs. unfold then_collapse. rewrite E. split; [reflexivity|exact R].
  - rewrite zlen_map. lia.
  - apply F2_maps. intros [n|r] _; reflexivity.
Qed.

(** ** Concrete cases: the text [[1, 1],[1,1]] is a table, and the rows of the text are the columns
    of the matrix. *)
Definition row : text := ("["%char :: ([] ++ txt "1" ++ [] ++ ","%char :: ([" "%char] ++ txt "1" ++ [])) ++ ["]"%char])%list.
Definition t119 : text := ("["%char :: ([] ++ row ++ [] ++ ","%char :: ([] ++ row ++ [])) ++ ["]"%char])%list.
Example C119_example : t119 = quoted "[[1, 1],[1, 1]]" /\
  gtext (jstring true) plain t119 (JArr (map (fun c => JArr (map JInt c)) [[1; 1]; [1; 1]])) /\
  Forall (fun c => zlen c = 2 /\ Forall int32 c) [[1; 1]; [1; 1]] /\
  from_json_text t119 GNone = (Ok true, GMInt (Mat 2 2 [1; 1; 1; 1])).
Proof.
  assert (B : ws [" "%char]) by (constructor; [cbn; auto|constructor]). assert (N : ws []) by constructor.
  assert (T : gtext (jstring true) plain t119 (JArr (map (fun c => JArr (map JInt c)) [[1; 1]; [1; 1]]))).
  { destruct Props_rapid.plain_ex as (P1 & _). assert (R : gval (jstring true) plain row (JArr (map JInt [1; 1]))).
    { apply gv_arr. apply ge_more; [assumption|now apply gv_number|assumption|]. apply ge_one; [assumption|now apply gv_number|assumption]. }
    exists [], t119, []. split; [reflexivity|]. split; [assumption|]. split; [|assumption].
    apply gv_arr. apply ge_more; [assumption|exact R|assumption|]. apply ge_one; [assumption|exact R|assumption]. }
  assert (I2 : Forall (fun c => zlen c = 2 /\ Forall int32 c) [[1; 1]; [1; 1]]) by (repeat constructor; unfold int32; lia).
  split; [reflexivity|]. split; [exact T|]. split; [exact I2|].
  apply (C119_json_table t119 [[1; 1]; [1; 1]] 2 GNone T); try exact I2; try reflexivity; try discriminate. split; discriminate.
Qed.
Example C119_example_columns :
  from_json_text (txt "[[1,2,3],[4,5,6]]") GNone = (Ok true, GMInt (Mat 3 2 [1; 2; 3; 4; 5; 6])) /\
  from_json_text (txt "[1,2,3]") (GInt 5) = (Ok true, GVInt [1; 2; 3]) /\
  from_json_text (quoted "['a','b']") GNone = (Ok true, GVStr ["a"; "b"]) /\
  from_json_text (txt "[1,5000000000]") GNone = (Ok true, GVLong [1; 5000000000]) /\
  from_json_text (txt "[1,0.5]") GNone = (Ok true, GVReal [f_of_Z 1; f_of_Q 1 2]) /\
  from_yaml (Some (YSeq [YInt 3000000000; YInt 2])) GNone = (Ok true, GVLong [3000000000; 2]) /\
  from_json_text (txt "[3000000000,2]") GNone = (Ok true, GVInt [3000000000 - 2^32; 2]) /\
  from_yaml (Some (YSeq [YSeq [YInt 1; YInt 2]; YSeq [YInt 3; YInt 4]])) GNone = (Ok true, GMInt (Mat 2 2 [1; 2; 3; 4])).
Proof. vmc. Qed.

Example C119_example_entry : Forall (fun c => zlen c = 3 /\ Forall int32 c) [[1; 2; 3]; [4; 5; 6]] /\
  get_int_at2 2 1 (GMInt (Mat 3 2 [1; 2; 3; 4; 5; 6])) = Ok 6.
Proof.
  assert (F : Forall (fun c => zlen c = 3 /\ Forall int32 c) [[1; 2; 3]; [4; 5; 6]]) by (repeat constructor; unfold int32; lia).
  split; [exact F|]. apply (C119_entry [[1; 2; 3]; [4; 5; 6]] 3 2 1 [4; 5; 6] 6); try exact F; try reflexivity; lia.
Qed.

Print Assumptions C119_json_integers.
Print Assumptions C119_json_table.
Print Assumptions C119_json_strings.
Print Assumptions C119_yaml_integers.
Print Assumptions C119_yaml_table.
Print Assumptions C119_yaml_strings.
Print Assumptions C119_entry.
Print Assumptions C119_json_longs.
Print Assumptions C119_yaml_longs.
Print Assumptions C119_json_reals.
Print Assumptions C119_yaml_reals.
