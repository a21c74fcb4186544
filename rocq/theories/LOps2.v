(** The readers of the other formats keep containers valid ([wf]). *)
From Coq Require Import ZArith Bool Lia Ascii String List.
From Verif Require Import Base F64 StrMap Value MBasic MGet MMap MMat MPromote MRef MCopy MCollapse MNum MText MJson SJson MYaml MToml SDocs MRapid MLua SLua MMatlab SMatlab MOps SOps.
From Verif Require Import LNum LCopy LCapi3 LJson2Doc LBuild LOps LRapidDoc LMatlab.
Import ListNotations.
Local Open Scope Z_scope.

(** * JSON *)
Lemma set_vec_alloc n g : wf g -> Forall wf (alloc_vec n g).
Proof. intros H. apply valloc_all; [exact I | now apply old_vec_ok]. Qed.
Lemma decode_int_ok z g : wf (decode_int z g).
Proof.
  unfold decode_int. destruct ((- 2^31 <=? z) && (z <? 2^31)) eqn:A; [|destruct ((0 <=? z) && (z <? 2^32)); [|destruct ((- 2^63 <=? z) && (z <? 2^63)) eqn:B]].
  - apply andb_true_iff in A as [A1 A2]. apply Z.leb_le in A1. apply Z.ltb_lt in A2. exact (conj A1 A2).
  - apply to_i32_range.
  - apply andb_true_iff in B as [A1 A2]. apply Z.leb_le in A1. apply Z.ltb_lt in A2. exact (conj A1 A2).
  - apply to_i64_range.
Qed.
Definition reals_fit (j : json) : Prop := match j with JDbl x => f64 x | _ => True end.
Lemma decode_ok j : jall reals_fit j -> forall g, wf g -> wf (decode_json j g).
Proof.
  induction j as [j Ha Ho | l IH | m IH] using json_nest_ind; intros J g Hg.
  - destruct j; try exact I; [apply decode_int_ok | exact (proj1 J) | now contradiction (Ha l) | now contradiction (Ho m)].
  - apply jall_arr in J as [_ J]. rewrite decode_arr. apply wf_vec. pose proof (set_vec_alloc (zlen l) g Hg) as V.
    generalize dependent (alloc_vec (zlen l) g). induction IH as [|x l Ex _ IHl]; intros v V; [destruct v; exact V|].
    destruct v as [|e v]; [exact V|]. cbn [decode_all]. inversion J; subst. inversion V; subst. constructor; [now apply Ex | now apply IHl].
  - apply jall_obj in J as [_ J]. rewrite decode_obj. destruct (LJson2Doc.old_map_wf g Hg) as [S F].
    generalize dependent (old_map g). induction IH as [|[k x] m Ex _ IHl]; intros acc S F; cbn [decode_members]; [now apply wf_map|].
    inversion J; subst. cbn [snd] in *.
    pose proof (mset_wf (cstr k) _ acc S F (Ex ltac:(assumption) _ (find_or_ok (cstr k) acc F))) as W. apply wf_map in W as [W1 W2].
    apply IHl; assumption.
Qed.
Lemma finish_ok g : wf g -> wf (snd (MJson.finish g)).
Proof. intros H. unfold MJson.finish. pose proof (collapse_wf g H) as C. destruct (collapse g) as [r g']. exact C. Qed.
Lemma from_json_ok d g : match d with Some j => jall reals_fit j | None => True end -> wf g -> wf (snd (from_json d g)).
Proof.
  intros D H. destruct d as [j|]; [|exact H]. cbn [from_json]. apply finish_ok. now apply decode_ok.
Qed.
Lemma fneg_f64 x : 0 <= x < inf -> f64 (fneg x).
Proof.
  unfold inf, f64, fneg. intros H. assert (2047 * 2^52 < 2^63) as K by (vm_compute; reflexivity). destruct (fsign x) eqn:E; [|lia].
  exfalso. unfold fsign in E. apply Z.leb_le in E. lia.
Qed.
Lemma number_fits t j r : parse_number t = Some (j, r) -> jall reals_fit j.
Proof.
  unfold parse_number. destruct (parse_int t) as [[[[[[neg i] sd] big] x] r1]|]; [|discriminate].
  destruct (parse_frac i sd big x r1) as [[[[dbl x1] ef] r2]|]; [|discriminate].
  destruct (parse_exp i dbl x1 ef r2) as [[[[dbl' x2] e] r3]|]; [|discriminate].
  destruct dbl'; [|intros H; apply Some_inj in H; apply (f_equal fst) in H; cbn [fst] in H; rewrite <- H; split; exact I].
  cbv zeta. pose proof (strtod_nonneg x2 (e + ef)) as N. generalize dependent (strtod_normal x2 (e + ef)). intros y N.
  destruct (inf <=? y) eqn:L; [discriminate|]. apply Z.leb_gt in L. intros H; apply Some_inj in H; apply (f_equal fst) in H; cbn [fst] in H; rewrite <- H.
  split; [|exact I]. cbn [reals_fit]. destruct neg; [apply fneg_f64; lia|].
  unfold f64, inf in *. assert (2047 * 2^52 < 2^63) as K by (vm_compute; reflexivity). lia.
Qed.
Lemma value_fits n :
  (forall t j r, parse_value n t = Some (j, r) -> jall reals_fit j) /\
  (forall t l r, parse_elems n t = Some (l, r) -> Forall (jall reals_fit) l) /\
  (forall t m r, parse_members n t = Some (m, r) -> Forall (fun kv => jall reals_fit (snd kv)) m).
Proof.
  induction n as [|n (IV & IE & IM)]; [repeat split; intros; discriminate|]. repeat split.
  - intros t j r. destruct t as [|c t]; [discriminate|]. cbn [parse_value].
    destruct (Ascii.eqb c "n"). { destruct (consume_all _ _); [|discriminate]. intros H. inversion H. split; exact I. }
    destruct (Ascii.eqb c "t"). { destruct (consume_all _ _); [|discriminate]. intros H. inversion H. split; exact I. }
    destruct (Ascii.eqb c "f"). { destruct (consume_all _ _); [|discriminate]. intros H. inversion H. split; exact I. }
    destruct (Ascii.eqb c (ascii_of_N 34)). { destruct (parse_string _) as [[s r1]|]; [|discriminate]. intros H. inversion H. split; exact I. }
    destruct (Ascii.eqb c "{").
    { cbv zeta. destruct (consume "}" _); [intros H; inversion H; split; exact I|]. destruct (parse_members n _) as [[m r1]|] eqn:E; [|discriminate].
      intros H. inversion H; subst. apply jall_obj. split; [exact I | exact (IM _ _ _ E)]. }
    destruct (Ascii.eqb c "[").
    { cbv zeta. destruct (consume "]" _); [intros H; inversion H; split; exact I|]. destruct (parse_elems n _) as [[m r1]|] eqn:E; [|discriminate].
      intros H. inversion H; subst. apply jall_arr. split; [exact I | exact (IE _ _ _ E)]. }
    apply number_fits.
  - intros t l r. cbn [parse_elems]. destruct (parse_value n t) as [[j r1]|] eqn:E; [|discriminate]. apply IV in E. cbv zeta.
    destruct (consume "," _).
    + destruct (parse_elems n _) as [[l' r2]|] eqn:E2; [|discriminate]. apply IE in E2. intros H. inversion H; subst. now constructor.
    + destruct (consume "]" _); [|discriminate]. intros H. inversion H; subst. constructor; [exact E | constructor].
  - intros t l r. cbn [parse_members]. destruct (parse_string t) as [[k r0]|]; [|discriminate]. destruct (consume ":" _); [|discriminate].
    destruct (parse_value n _) as [[j r1]|] eqn:E; [|discriminate]. apply IV in E. cbv zeta.
    destruct (consume "," _).
    + destruct (parse_members n _) as [[l' r2]|] eqn:E2; [|discriminate]. apply IM in E2. intros H. inversion H; subst. now constructor.
    + destruct (consume "}" _); [|discriminate]. intros H. inversion H; subst. constructor; [exact E | constructor].
Qed.
Lemma json_text_ok t g : wf g -> wf (snd (from_json_text t g)).
Proof.
  intros H. apply from_json_ok; [|exact H]. destruct (rapidjson t) as [j|] eqn:E; [|exact I]. unfold rapidjson in E. cbv zeta in E.
  destruct (at_end _); [discriminate|]. destruct (parse_value _ _) as [[j' r]|] eqn:V; [|discriminate]. apply (proj1 (value_fits _)) in V.
  destruct (at_end _); [|discriminate]. apply Some_inj in E. now subst.
Qed.

(** * YAML *)
Lemma decode_int64_ok z g : int64 z -> wf (decode_int64 z g).
Proof.
  unfold decode_int64. intros H. destruct (_ && _) eqn:A; [|exact H]. apply andb_true_iff in A as [A B]. apply Z.leb_le in A, B. cbn [set_int wf].
  unfold int32. lia.
Qed.
Lemma yaml_ok y : jall tree_fits (yaml_doc y) -> forall g, wf g -> wf (snd (YAML_to_GC y g)).
Proof.
  induction y as [y Ha Ho | l IH | m IH] using yaml_nest_ind; intros J g Hg.
  - destruct y; try exact I; [exact (decode_int64_ok z g (proj1 J)) | exact (proj1 J) | now contradiction (Ha l) | now contradiction (Ho m)].
  - cbn [yaml_doc] in J. apply jall_arr in J as [_ J]. rewrite yaml_seq. pose proof (set_vec_alloc (to_u32 (zlen l)) g Hg) as V.
    enough (forall v, Forall wf v -> Forall wf (snd (yaml_all l v))) as Q.
    { specialize (Q _ V). destruct (yaml_all l _) as [r v]. cbn [snd] in *. now apply wf_vec. }
    clear V. induction IH as [|x l Ex _ IHl]; intros v V; [destruct v; exact V|]. inversion J; subst. specialize (IHl ltac:(assumption)).
    destruct v as [|e v]; [exact V|]. cbn [yaml_all]. inversion V; subst. pose proof (Ex ltac:(assumption) e ltac:(assumption)) as W.
    destruct (YAML_to_GC x e) as [[u| | |] e']; cbn [snd] in *; try (constructor; assumption).
    specialize (IHl v ltac:(assumption)). destruct (yaml_all l v) as [r w]. cbn [snd] in *. now constructor.
  - cbn [yaml_doc] in J. apply jall_obj in J as [_ J]. rewrite yaml_map. pose proof (LJson2Doc.old_map_wf g Hg) as V.
    enough (forall acc, wf (GMap acc) -> wf (GMap (snd (yaml_members m acc)))) as Q.
    { apply wf_map in V. specialize (Q _ V). destruct (yaml_members m _) as [r v]. exact Q. }
    clear V. induction IH as [|[k x] m Ex _ IHl]; intros acc V; [exact V|]. inversion J; subst. specialize (IHl ltac:(assumption)). cbn [fst snd] in *.
    cbn [yaml_members]. destruct (key_text k) as [s| | |]; try exact V. apply wf_map in V as [S F].
    pose proof (Ex ltac:(assumption) _ (find_or_ok s acc F)) as W.
    destruct (YAML_to_GC x _) as [[u| | |] e']; cbn [snd] in *; try (now apply mset_wf). apply IHl. now apply mset_wf.
Qed.
Lemma caught_ok rg : wf (snd rg) -> wf (snd (caught rg)).
Proof. destruct rg as [[u| | |] g]; exact (fun H => H). Qed.
Lemma then_collapse_ok rg : wf (snd rg) -> wf (snd (then_collapse rg)).
Proof. destruct rg as [[u| | |] g]; try exact (fun H => H). exact (collapse_wf g). Qed.
Lemma from_yaml_ok d g : match d with Some y => jall tree_fits (yaml_doc y) | None => True end -> wf g -> wf (snd (from_yaml d g)).
Proof. intros D H. destruct d as [y|]; [|exact H]. cbn [from_yaml]. apply caught_ok, then_collapse_ok. now apply yaml_ok. Qed.

(** * TOML *)
Lemma toml_ok t : jall tree_fits (toml_doc t) -> forall g, wf g -> wf (snd (TOML_to_GC t g)).
Proof.
  induction t as [t Ha Ho | l IH | m IH] using toml_nest_ind; intros J g Hg.
  - destruct t; try exact I; [exact (decode_int64_ok z g (proj1 J)) | exact (proj1 J) | | | | now contradiction (Ho m) | now contradiction (Ha l)];
      (apply with_key_ok; [intros; exact I | exact Hg]).
  - cbn [toml_doc] in J. apply jall_arr in J as [_ J]. rewrite toml_arr.
    assert (forall i g, wf g -> wf (snd (toml_items l i g))) as Q.
    { clear g Hg. induction IH as [|x l Ex _ IHl]; intros i g Hg; [exact Hg|]. inversion J; subst. specialize (IHl ltac:(assumption)). cbn [toml_items].
      pose proof (with_idx_ok (to_u32 i) (TOML_to_GC x) g (Ex ltac:(assumption)) Hg) as W.
      destruct (with_idx _ _ _) as [[u| | |] g']; cbn [snd] in *; try exact W. now apply IHl. }
    assert (wf (set_vector_sz 0 g)) as W0 by (apply wf_vec; now apply set_vec_alloc).
    destruct (tables_only l); [now apply Q|]. destruct (forallb is_string l); [exact I|].
    destruct (forallb is_integer l). { apply k_vint. apply Forall_app. split; [apply valloc_all; [exact zero_i32 | now apply old_vint_ok]|].
      rewrite Forall_forall. intros x Hx. apply in_map_iff in Hx as (y & <- & _). apply to_i32_range. }
    destruct (forallb is_float l) eqn:E; [|now apply Q]. apply k_vreal. apply Forall_app. split; [apply valloc_all; [exact f_zero_ok | now apply old_vreal_ok]|].
    rewrite Forall_forall in *. intros x Hx. apply in_map_iff in Hx as (y & <- & Hy). rewrite forallb_forall in E. pose proof (E y Hy) as F.
    destruct y; try discriminate. exact (proj1 (J _ (in_map toml_doc _ _ Hy))).
  - cbn [toml_doc] in J. apply jall_obj in J as [_ J]. rewrite toml_tbl. pose proof (LJson2Doc.old_map_wf g Hg) as V.
    enough (forall acc, wf (GMap acc) -> wf (GMap (snd (toml_members m acc)))) as Q.
    { apply wf_map in V. specialize (Q _ V). destruct (toml_members m _) as [r v]. exact Q. }
    clear V. induction IH as [|[k x] m Ex _ IHl]; intros acc V; [exact V|]. inversion J; subst. specialize (IHl ltac:(assumption)). cbn [fst snd] in *.
    cbn [toml_members]. apply wf_map in V as [S F]. pose proof (Ex ltac:(assumption) _ (find_or_ok k acc F)) as W.
    destruct (TOML_to_GC x _) as [[u| | |] e']; cbn [snd] in *; try (now apply mset_wf). apply IHl. now apply mset_wf.
Qed.
Lemma from_toml_ok d g : match d with Some m => jall tree_fits (toml_doc (TTbl m)) | None => True end -> wf g -> wf (snd (from_toml d g)).
Proof. intros D H. destruct d as [m|]; [|exact H]. cbn [from_toml]. apply caught_ok, then_collapse_ok. now apply toml_ok. Qed.

(** * Lua *)
Lemma int64_number x z : is_integer64 x = Ok z -> int64 (long_of x).
Proof.
  unfold is_integer64, long_of. destruct (fscaled x) as [v|]; [|discriminate]. generalize (v / fone). intros q. destruct (_ && _) eqn:E; [|discriminate].
  intros _. apply andb_true_iff in E as [A B]. apply Z.leb_le in A. apply Z.ltb_lt in B. exact (conj A B).
Qed.
Lemma tonumber_ok v : lua_fits v -> f64 (tonumber v).
Proof. destruct v; intros H; try exact f_zero_ok; [now apply f_of_i64 | exact H]. Qed.
Lemma put_number_ok x g : f64 x -> wf g -> wf (snd (put_number x g)).
Proof. intros X H. unfold put_number. destruct (is_integer64 x) as [[]| | |] eqn:E; try exact H; [exact (int64_number x _ E) | exact X]. Qed.
Lemma put_bool_ok i b g : wf g -> wf (snd (put_bool_at i b g)).
Proof.
  intros H. unfold put_bool_at. pose proof (rread_ok any (ref_bool_at i g) (ref_bool_at_ok i g H)) as W. destruct (rread _) as [[u| | |] g']; cbn [snd] in *; try exact W.
  assert (rok any (ref_vec_bool g')) as R by (destruct g'; first [exact W | (split; [exact I | intros; exact I])]).
  destruct (ref_vec_bool g') as [v put|o g2]; [|exact R]. destruct (znth i v); exact (proj2 R _ I).
Qed.
Lemma put_number_at_ok i x g : f64 x -> wf g -> wf (snd (put_number_at i x g)).
Proof.
  intros X H. unfold put_number_at.
  assert (wf (snd (rwrite x (ref_real_at i g)))) as A by (apply (rwrite_ok f64); [now apply ref_real_at_ok | exact X]).
  assert (wf (snd (match is_integer64 x with Ok true => rwrite (long_of x) (ref_long_at i g) | Ok false => rwrite x (ref_real_at i g)
                   | Throw => (Throw, g) | Undef => (Undef, g) | Diverge => (Diverge, g) end))) as B.
  { destruct (is_integer64 x) as [[]| | |] eqn:E; try exact H; [|exact A]. apply (rwrite_ok int64); [now apply ref_long_at_ok | exact (int64_number x _ E)]. }
  destruct g; assumption.
Qed.
Lemma lua_table_ok v : lall lua_fits v -> forall cap used g, wf g -> wf (snd (lua_table_to_GC cap used v g)).
Proof.
  induction v as [v Hn | t IH] using lua_nest_ind; intros L cap used g Hg; [destruct v; try exact Hg; now contradiction (Hn t)|].
  apply lall_tab in L as [_ L]. rewrite lua_table. destruct (used <? cap); [|exact Hg]. revert g Hg.
  induction IH as [|[k x] t Ex _ IHt]; intros g Hg; [exact Hg|]. inversion L; subst. specialize (IHt ltac:(assumption)). cbn [table_entries].
  destruct (used + 1 <? cap); [|exact Hg]. cbn [snd] in *. fold (table_entries cap used).
  assert (wf (snd (table_entry cap used k x g))) as W.
  { pose proof (lall_here _ _ ltac:(eassumption) : lua_fits x) as X. pose proof (Ex ltac:(assumption) cap (used + 2)) as Sub.
    assert (forall k, wf (snd (push_vec_element (lua_table_to_GC cap (used + 2) x) k x g))) as V.
    { intros k'. unfold push_vec_element. cbv zeta. destruct x; try exact Hg.
      - now apply put_bool_ok.
      - apply put_number_at_ok; [now apply tonumber_ok | exact Hg].
      - apply put_number_at_ok; [now apply tonumber_ok | exact Hg].
      - apply (rwrite_ok any); [now apply ref_string_at_ok | exact I].
      - now apply with_idx_ok. }
    assert (forall s, wf (snd (push_hash_element (lua_table_to_GC cap (used + 2) x) s x g))) as Hh.
    { intros s. unfold push_hash_element. destruct x; try exact Hg.
      - now apply with_key_ok.
      - destruct (is_integer64 _); try exact Hg. apply with_key_ok; [intros; apply put_number_ok; [now apply tonumber_ok | assumption] | exact Hg].
      - destruct (is_integer64 _); try exact Hg. apply with_key_ok; [intros; apply put_number_ok; [now apply tonumber_ok | assumption] | exact Hg].
      - now apply with_key_ok.
      - now apply with_key_ok. }
    destruct k; try exact Hg; [apply V | apply V | apply Hh]. }
  destruct (table_entry cap used k x g) as [[u| | |] g']; cbn [snd] in *; try exact W. now apply IHt.
Qed.
Lemma lua_to_GC_ok cap v st g : lall lua_fits v -> wf (snd (fst (lua_to_GC cap v st g))).
Proof.
  intros L. pose proof (lall_here _ _ L) as X. unfold lua_to_GC. destruct v; try exact I.
  - apply put_number_ok; [now apply tonumber_ok | exact I].
  - apply put_number_ok; [now apply tonumber_ok | exact I].
  - pose proof (lua_table_ok (LTab t) L cap (1 + zlen st) (clear g) I) as W. destruct (lua_table_to_GC _ _ _ _) as [[u| | |] g']; exact W.
Qed.
Lemma lua_global_ok cap v st g : lall lua_fits v -> wf g -> wf (snd (fst (Lua_global_to_GC cap v st g))).
Proof.
  intros L H. unfold Lua_global_to_GC. destruct (push cap v st); try exact H. pose proof (lua_to_GC_ok cap v st g L) as W.
  destruct v; first [exact W | exact H | exact I].
Qed.
Lemma lua_call_ok cap f fn args st res : (forall a v, f a = Some v -> lall lua_fits v) -> wf res -> wf (snd (fst (lua_call cap f fn args st res))).
Proof.
  intros F H. unfold lua_call. destruct (do st1 <- push cap fn st ; GC_to_lua cap args st1) as [l| | |]; try exact H.
  destruct l as [|a [|fn' st2]]; try exact H. destruct fn'; try exact H. destruct (f a) as [v|] eqn:E; [|exact H]. apply lua_to_GC_ok. exact (F a v E).
Qed.
Lemma interpreter_call_ok cap global run io st res : (forall n a v, run n a = Some v -> lall lua_fits v) -> wf res ->
  wf (snd (fst (interpreter_call cap global run io st res))).
Proof. intros F H. unfold interpreter_call. destruct (bind _ _) as [[name args]| | |]; try exact H. apply lua_call_ok; [exact (F (cstr name)) | exact H]. Qed.

(** * MATLAB *)
Lemma put_all_ok {A} (P : A -> Prop) (mk : list A -> gc) v d : (forall l, Forall P l -> zlen l = zlen v -> wf (mk l)) -> Forall P v -> Forall P d ->
  wf (snd (put_all mk v d)).
Proof.
  intros K V D. unfold put_all. destruct (copy_into d v) as [w| | |] eqn:E; try (apply K; [exact V | reflexivity]).
  apply K; [exact (copy_into_all P d v w E D V) | exact (copy_into_len d v w E)].
Qed.
Lemma put_entries_wf {A} (P : A -> Prop) ij : forall d (m : mat A), Forall P d -> wf_mat P m -> wf_mat P (snd (put_entries m ij d)).
Proof.
  induction ij as [|[i j] ij IH]; intros d m D M; [exact M|]. cbn [put_entries]. destruct d as [|x d]; [exact M|]. inversion D; subst.
  unfold mat_set. destruct (znth _ _); [|exact M]. apply IH; [assumption|]. now apply mat_set_ok.
Qed.
Lemma by_shape_wf {A} (P : A -> Prop) one vec mtx dims d : (forall x, P x -> wf (one x)) -> (forall d, Forall P d -> wf (snd (vec d))) ->
  (forall nr nc d, Forall P d -> wf (snd (mtx nr nc d))) -> Forall P d -> wf (snd (@by_shape A one vec mtx dims d)).
Proof.
  intros O V M D. unfold by_shape.
  assert (wf (snd (match dims with [_] => vec d | [nr; nc] => if nr =? 1 then vec d else mtx nr nc d | _ => (Ok tt, GNone) end))) as W.
  { destruct dims as [|a [|b [|c l]]]; try exact I; [now apply V | destruct (a =? 1); [now apply V | now apply M]]. }
  destruct d as [|x [|y d]]; try exact W. inversion D; subst. now apply O.
Qed.
Lemma u32_ok z : uint32 (to_u32 z).
Proof. unfold uint32, to_u32. apply Z.mod_pos_bound. lia. Qed.
Lemma mx_bool_ok d : wf (snd (mx_to_vec_bool d)).
Proof.
  unfold mx_to_vec_bool.
  assert (wf (snd (put_all GVec (alloc_vec (to_u32 (zlen d)) GNone) (map GBool d)))) as W.
  { apply (put_all_ok wf); [intros l Hl _; now apply wf_vec | now apply set_vec_alloc |]. rewrite Forall_forall. intros x Hx.
    apply in_map_iff in Hx as (y & <- & _). exact I. }
  destruct d as [|x [|y d]]; try exact W. exact I.
Qed.
Lemma map_all {A B} (P : B -> Prop) (f : A -> B) l : (forall a, P (f a)) -> Forall P (map f l).
Proof. intros H. induction l; constructor; auto. Qed.
Lemma mx_int_ok dims d : wf (snd (mx_to_vec_int dims d)).
Proof.
  apply (by_shape_wf int32); [exact (fun x H => H) | | | apply map_all, to_i32_range].
  - intros l Hl. apply (put_all_ok int32); [intros w Hw _; exact Hw | apply valloc_all; [exact zero_i32 | constructor] | exact Hl].
  - intros nr nc l Hl. pose proof (put_entries_wf int32 (entries nr nc) l _ Hl (mat0_ok int32 0 (to_u32 nr) (to_u32 nc) zero_i32 (u32_ok nr) (u32_ok nc))) as W.
    unfold alloc_mint. cbn [old_mint]. destruct (put_entries _ _ _) as [r m]. exact W.
Qed.
Lemma mx_long_ok dims d : wf (snd (mx_to_vec_long dims d)).
Proof.
  apply (by_shape_wf int64); [exact (fun x H => H) | | | apply map_all, to_i64_range].
  - intros l Hl. apply (put_all_ok int64); [intros w Hw _; exact Hw | apply valloc_all; [exact zero_i64 | constructor] | exact Hl].
  - intros nr nc l Hl. pose proof (put_entries_wf int64 (entries nr nc) l _ Hl (mat0_ok int64 0 (to_u32 nr) (to_u32 nc) zero_i64 (u32_ok nr) (u32_ok nc))) as W.
    unfold alloc_mlong. cbn [old_mlong]. destruct (put_entries _ _ _) as [r m]. exact W.
Qed.
Lemma mx_real_ok dims d : Forall f64 d -> wf (snd (mx_to_vec_real dims d)).
Proof.
  apply (by_shape_wf f64); [exact (fun x H => H) | |].
  - intros l Hl. apply (put_all_ok f64); [intros w Hw _; exact Hw | apply valloc_all; [exact f_zero_ok | constructor] | exact Hl].
  - intros nr nc l Hl. destruct (mat0_ok f64 f_zero (to_u32 nr) (to_u32 nc) f_zero_ok (u32_ok nr) (u32_ok nc)) as (A & B & C & D).
    apply (put_all_ok f64); [|exact D | exact Hl]. intros w Hw L. split; [exact A|]. split; [exact B|]. split; [|exact Hw].
    cbn [mdata mrows mcols]. rewrite L. exact C.
Qed.
Lemma mx_complex_ok dims d : Forall fc d -> wf (snd (mx_to_vec_complex dims d)).
Proof.
  apply (by_shape_wf fc); [exact (fun x H => H) | |].
  - intros l Hl. apply (put_all_ok fc); [intros w Hw _; exact Hw | apply valloc_all; [exact c_zero_ok | constructor] | exact Hl].
  - intros nr nc l Hl. destruct (mat0_ok fc c_zero (to_u32 nr) (to_u32 nc) c_zero_ok (u32_ok nr) (u32_ok nc)) as (A & B & C & D).
    apply (put_all_ok fc); [|exact D | exact Hl]. intros w Hw L. split; [exact A|]. split; [exact B|]. split; [|exact Hw].
    cbn [mdata mrows mcols]. rewrite L. exact C.
Qed.
Lemma sparse_wf nc ir jc vals g : (forall e, wf e -> wf (snd (vals e))) -> wf g -> wf (snd (sparse_to_GC nc ir jc vals g)).
Proof.
  intros V Hg. unfold sparse_to_GC. destruct (_ && _); [|exact Hg]. cbv zeta.
  assert (forall n e, wf e -> wf (set_vint_sz n e)) as Sz by (intros n e He; apply k_vint, valloc_all; [exact zero_i32 | now apply old_vint_ok]).
  assert (forall l e, wf e -> wf (snd (put_all GVInt (old_vint e) (map to_i32 l)))) as Pt.
  { intros l e He. apply (put_all_ok int32); [intros w Hw _; exact Hw | now apply old_vint_ok | apply map_all, to_i32_range]. }
  assert (wf (snd (with_key "jc" (fun e => (Ok tt, set_vint_sz (nc + 1) e)) g))) as W1 by (apply with_key_ok; [intros e He; exact (Sz _ e He) | exact Hg]).
  set (g1 := snd (with_key "jc" _ g)) in *.
  assert (wf (snd (with_key "ir" (fun e => (Ok tt, set_vint_sz (zlen ir) e)) g1))) as W2 by (apply with_key_ok; [intros e He; exact (Sz _ e He) | exact W1]).
  set (g2 := snd (with_key "ir" _ g1)) in *.
  pose proof (with_key_ok "jc" (fun e => put_all GVInt (old_vint e) (map to_i32 jc)) g2 (Pt jc) W2) as W3.
  destruct (with_key "jc" _ g2) as [[u| | |] g3]; cbn [snd] in *; try exact W3.
  pose proof (with_key_ok "ir" (fun e => put_all GVInt (old_vint e) (map to_i32 ir)) g3 (Pt ir) W3) as W4.
  destruct (with_key "ir" _ g3) as [[u'| | |] g4]; cbn [snd] in *; try exact W4. now apply with_key_ok.
Qed.
Lemma mx_wf a : mx_all mx_ok a -> forall g, wf (snd (mx_to_GC a g)).
Proof.
  induction a as [a Hc Hs | s l IH | s f IH] using mx_nest_ind; intros O g.
  - pose proof (mx_all_here _ _ O) as X. destruct a; try exact I; cbn [mx_ok] in X.
    + apply mx_bool_ok.
    + cbn [mx_to_GC]. destruct c; first [apply mx_int_ok | apply mx_long_ok].
    + apply mx_complex_ok. destruct X as [_ X]. rewrite Forall_forall in *. intros x Hx. apply in_map_iff in Hx as (y & <- & Hy).
      destruct (X y Hy) as [A B]. split; apply f_of_Z_range; destruct c; cbn [class_range] in A, B; lia.
    + apply mx_real_ok, X.
    + apply mx_complex_ok, X.
    + now contradiction (Hc dims d).
    + now contradiction (Hs dims f).
    + apply sparse_wf; [|exact I]. intros e He. apply (put_all_ok f64); [intros w Hw _; exact Hw | apply valloc_all; [exact f_zero_ok | now apply old_vreal_ok] | apply X].
    + apply sparse_wf; [|exact I]. intros e He. apply (put_all_ok fc); [intros w Hw _; exact Hw | apply valloc_all; [exact c_zero_ok | now apply old_vcomplex_ok] | apply X].
    + apply sparse_wf; [|exact I]. intros e He. apply k_vreal, valloc_all; [exact f_zero_ok | now apply old_vreal_ok].
  - apply mx_all_cell in O as [_ O]. rewrite mx_cell.
    enough (forall n, Forall wf (snd (mx_cells l n))) as Q by (specialize (Q (to_u32 (zlen l))); destruct (mx_cells _ _); now apply wf_vec).
    induction IH as [|a l Ea _ IHl]; intros n; cbn [mx_cells snd]; [apply Forall_forall; intros x Hx; apply repeat_spec in Hx as ->; exact I|].
    inversion O; subst. destruct (n <=? 0); [constructor|]. specialize (Ea ltac:(assumption) GNone). specialize (IHl ltac:(assumption) (n - 1)).
    assert (Forall wf (repeat GNone (Z.to_nat (n - 1)))) as R by (apply Forall_forall; intros x Hx; apply repeat_spec in Hx as ->; exact I).
    destruct (mx_to_GC a GNone) as [[u| | |] e]; cbn [snd] in *; try (now constructor). destruct (mx_cells l (n - 1)) as [r w]. cbn [snd] in *. now constructor.
  - apply mx_all_struct in O as [_ O]. rewrite mx_struct. generalize (to_u32 (mx_m s)) (to_u32 (mx_n s)). intros nr nc.
    enough (forall acc, wf (GMap acc) -> wf (GMap (snd (mx_fields nr nc f acc)))) as Q.
    { assert (wf (GMap [])) as W0 by (apply wf_map; split; constructor). specialize (Q [] W0). destruct (mx_fields nr nc f []). exact Q. }
    induction IH as [|[k l] f Ef _ IHf]; intros acc W; [exact W|]. inversion O; subst. specialize (IHf ltac:(assumption)). cbn [mx_fields snd] in *.
    fold (mx_fields nr nc).
    assert (forall n, Forall wf (snd (mx_cells l n))) as Q.
    { assert (Forall (mx_all mx_ok) l) as Ol by assumption. clear - Ef Ol. induction Ef as [|a l Ea _ IHl]; intros n; cbn [mx_cells snd]; [apply Forall_forall; intros x Hx; apply repeat_spec in Hx as ->; exact I|].
      inversion Ol; subst. destruct (n <=? 0); [constructor|]. specialize (Ea ltac:(assumption) GNone). specialize (IHl ltac:(assumption) (n - 1)).
      assert (Forall wf (repeat GNone (Z.to_nat (n - 1)))) as R by (apply Forall_forall; intros x Hx; apply repeat_spec in Hx as ->; exact I).
      destruct (mx_to_GC a GNone) as [[u| | |] e]; cbn [snd] in *; try (now constructor). destruct (mx_cells l (n - 1)) as [r w]. cbn [snd] in *. now constructor. }
    assert (wf (snd (mx_field nr nc l))) as Wf.
    { unfold mx_field. destruct (_ && _).
      - destruct l as [|a l]; [exact I|]. inversion Ef; subst. match goal with H : Forall (mx_all mx_ok) (a :: l) |- _ => inversion H; subst end. auto.
      - specialize (Q (to_u32 (nr * nc))). destruct (mx_cells l _). now apply wf_vec. }
    apply wf_map in W as [S F]. destruct (mx_field nr nc l) as [[u| | |] e]; cbn [snd] in *; try (now apply mset_wf). apply IHf. now apply mset_wf.
Qed.

(** * read_formatted_data2 *)
Definition wf_opt (p : option gc) : Prop := match p with Some g => wf g | None => True end.
Lemma read_param_ok line p q : read_param line p = Ok q -> wf_opt p -> wf_opt q.
Proof.
  unfold read_param. intros H W. destruct p as [p|]; [|apply Ok_inj in H; now subst].
  destruct line as [|a [|c [|d l]]]; try (apply Ok_inj in H; now subst). destruct (Ascii.eqb c "!"); [|apply Ok_inj in H; now subst].
  apply bind_ok in H as (ts & _ & H). destruct ts as [|x [|y ts]]; apply Ok_inj in H; subst q; try exact W. cbn [wf_opt] in *.
  apply with_key_ok; [|exact W]. intros e _. cbn [snd]. destruct (strtod (trim y)) eqn:E; [exact (strtod_f64 _ _ E) | exact I].
Qed.
Lemma get_line2_ok n cc : forall line k p st m l s q, get_line2 n cc line k p st = Ok (m, l, s, q) -> wf_opt p -> wf_opt q.
Proof.
  induction n as [|n IH]; intros line k p st m l s q; cbn [get_line2]; [discriminate|]. destruct (s_fail st).
  { intros H. apply Ok_inj in H. inversion H; subst. exact (fun W => W). }
  destruct (getline line st) as [line' st']. destruct (_ || _).
  - intros H W. apply bind_ok in H as (p' & R & H). apply (IH _ _ _ _ _ _ _ _ H). exact (read_param_ok _ _ _ R W).
  - intros H. apply Ok_inj in H. inversion H; subst. exact (fun W => W).
Qed.
Lemma push_cols_ok hs : forall ts d, wf d -> wf (push_cols hs ts d).
Proof.
  induction hs as [|h hs IH]; intros [|t ts] d W; cbn [push_cols]; try exact W. apply IH. apply with_key_ok; [|exact W].
  intros e He. cbn [snd]. destruct e; try exact He. apply k_vreal, snoc; [exact He | apply atof_f64].
Qed.
Lemma rows2_ok n cc dl : forall line hs st p d,
  (wf d -> wf (snd (fst (read_rows2 n cc dl line hs st p d)))) /\ (wf_opt p -> wf_opt (snd (read_rows2 n cc dl line hs st p d))).
Proof.
  induction n as [|n IH]; intros line hs st p d; cbn [read_rows2]; [split; auto|].
  destruct (get_line2 _ _ _ _ _ _) as [[[[k l] s] q]| | |] eqn:E; try (split; auto; fail). pose proof (get_line2_ok _ _ _ _ _ _ _ _ _ _ E) as Wq.
  destruct (k =? 0); [split; auto|]. destruct (tokenize l dl) as [[|t ts]| | |]; try (split; auto; fail).
  destruct (zlen (t :: ts) =? zlen hs); [|split; auto]. destruct (IH l hs s q (push_cols hs (t :: ts) d)) as [I1 I2].
  split; intros W; [apply I1; now apply push_cols_ok | apply I2, Wq, W].
Qed.
Lemma table2_ok cc dl st p g :
  (wf g -> wf (snd (fst (read_formatted_data2 cc dl st p g)))) /\ (wf_opt p -> wf_opt (snd (read_formatted_data2 cc dl st p g))).
Proof.
  unfold read_formatted_data2. cbv zeta. cbn [set_map0 old_map].
  assert (wf g -> wf (GMap (old_map g))) as W0 by (intros Hg; apply wf_map; now apply LJson2Doc.old_map_wf).
  destruct (get_line2 _ _ _ _ _ _) as [[[[k l] s] q]| | |] eqn:E; try (split; assumption || exact (fun H => H)).
  pose proof (get_line2_ok _ _ _ _ _ _ _ _ _ _ E) as Wq.
  destruct (tokenize l dl) as [ts| | |]; try (split; assumption). set (hs := map untxt ts).
  assert (forall hs d, wf d -> wf (fold_left (fun d h => add_col h d) hs d)) as FC.
  { clear. induction hs as [|h hs IH]; intros d W; cbn [fold_left]; [exact W|]. apply IH. apply with_key_ok; [|exact W].
    intros e He. apply k_vreal, valloc_all; [exact f_zero_ok | now apply old_vreal_ok]. }
  match goal with |- context [read_rows2 ?n ?a ?b ?c ?d ?e ?f ?h] => pose proof (rows2_ok n a b c d e f h) as [R1 R2]; destruct (read_rows2 n a b c d e f h) as [[r d'] q2] end.
  cbn [fst snd] in *. split; [intros Hg | intros Wp; exact (R2 (Wq Wp))]. apply W0, wf_map in Hg as [S F].
  pose proof (mset_wf k_headers (GVStr hs) (old_map g) S F I) as W1. apply wf_map in W1 as [S1 F1].
  apply mset_wf; [exact S1 | exact F1 |]. apply R1, FC. now apply find_or_ok.
Qed.
