(** Proofs about reading Lua values. *)
From Coq Require Import ZArith Bool Lia Ascii String List.
From Verif Require Import Base F64 StrMap Value MBasic MGet MMap MPromote LPromote LCopyto MRef SPromote SCollapse LCollapse SJson LJson MLua SLua LLua.
Import ListNotations.
Local Open Scope Z_scope.

(** Numbers. *)
Definition in_range (x : Z) : Prop := f64 x /\ exists w, fscaled x = Some w /\ - 2^63 * fone <= w < 2^63 * fone.
Lemma representable_fis n : int64 n -> representable n -> f64 (f_of_Z n) /\ fis (f_of_Z n) n.
Proof.
  unfold int64. intros H R. split; [apply f_of_Z_range; lia|]. apply nearest_exact; [|exact R]. apply f_of_Z_nearest. lia.
Qed.
Lemma fis_data x n : fis x n -> d_real x = d_int n.
Proof. unfold fis, d_real, d_int, num_of_f, num_of_Z. now intros ->. Qed.
Lemma number_ok v : readable_node v -> (exists z, v = LInt z) \/ (exists x, v = LNum x) ->
  in_range (tonumber v) /\ lua_data v = d_real (tonumber v).
Proof.
  intros H [[z ->]|[x ->]]; cbn [readable_node tonumber lua_data] in *.
  - destruct H as [H R]. destruct (representable_fis z H R) as [F E]. rewrite (fis_data _ _ E). split; [|reflexivity].
    split; [exact F|]. exists (z * fone). split; [exact E|]. pose proof fone_pos. unfold int64 in H. split.
    + apply Z.mul_le_mono_nonneg_r; lia.
    + apply Z.mul_lt_mono_pos_r; lia.
  - split; [exact H|reflexivity].
Qed.
Lemma kind x : in_range x ->
  (is_integer64 x = Ok true /\ fis x (long_of x) /\ int64 (long_of x) /\ representable (long_of x)) \/ is_integer64 x = Ok false.
Proof.
  intros (F & w & E & R). unfold is_integer64, long_of, fis. rewrite E.
  assert (B : - 2^63 <= w / fone < 2^63).
  { pose proof fone_pos. split; [apply Z.div_le_lower_bound; lia|apply Z.div_lt_upper_bound; lia]. }
  destruct (Z.leb_spec (-2^63) (w / fone)); [|lia]. destruct (Z.ltb_spec (w / fone) (2^63)); [|lia]. cbn [andb].
  destruct (Z.eqb_spec (w mod fone) 0) as [D|D]; [left|now right].
  assert (E' : w = w / fone * fone) by (pose proof fone_pos; rewrite Z.mul_comm; apply Z_div_exact_full_2; lia).
  split; [reflexivity|]. split; [rewrite <- E'; reflexivity|]. split; [unfold int64; lia|].
  exists x. split; [exact F|]. unfold fis. rewrite E. now rewrite <- E'.
Qed.
Lemma put_number_ok x g : in_range x -> exists e, put_number x g = (Ok tt, e) /\ wf e /\ data_of e = d_real x.
Proof.
  intros H. unfold put_number. destruct (kind x H) as [(-> & E & I & _)| ->].
  - exists (GLong (long_of x)). repeat split; try apply I. cbn [data_of]. now rewrite (fis_data _ _ E).
  - exists (GReal x). repeat split; apply H.
Qed.
Lemma integer64_ok x : in_range x -> exists b, is_integer64 x = Ok b.
Proof. intros H. destruct (kind x H) as [(-> & _)| ->]; eauto. Qed.

(** Storing at the end of a vector. *)
Lemma check_resize_end {A} (d : A) v : zlen v + 1 < 2^32 -> check_resize d (zlen v) v = v ++ [d].
Proof.
  intros H. pose proof (zlen_nonneg v). unfold check_resize. rewrite Z.leb_refl, to_u32_id by (unfold uint32; lia).
  unfold resize. replace (Z.to_nat (zlen v + 1)) with (S (length v)) by (unfold zlen; lia).
  rewrite firstn_all2 by lia. replace (S (length v) - length v)%nat with 1%nat by lia. reflexivity.
Qed.
Lemma znth_end {A} (d : A) v : znth (zlen v) (v ++ [d]) = Some d.
Proof.
  unfold znth. pose proof (zlen_nonneg v). destruct (Z.ltb_spec (zlen v) 0); [lia|].
  unfold zlen. rewrite Nat2Z.id, nth_error_app2, Nat.sub_diag by lia. reflexivity.
Qed.
Lemma lset_end {A} (x d : A) v : lset (Z.to_nat (zlen v)) x (v ++ [d]) = v ++ [x].
Proof. unfold zlen. rewrite Nat2Z.id. apply lset_app. Qed.
Lemma grow_end {A} mk (d x : A) v : zlen v + 1 < 2^32 -> rwrite x (grow_ref mk d (zlen v) v) = (Ok tt, mk (v ++ [x])).
Proof. intros H. unfold grow_ref. rewrite check_resize_end by assumption. rewrite znth_end. cbn [rwrite]. now rewrite lset_end. Qed.
Lemma vslot_end {A} (k : A -> gc) d x g w : match g with GVec _ => (Ok tt, g) | _ => promote_to_vector g end = (Ok tt, GVec w) ->
  zlen w + 1 < 2^32 -> rwrite x (vslot k d (zlen w) g) = (Ok tt, GVec (w ++ [k x])).
Proof.
  intros E H. unfold vslot. rewrite E. cbn [after]. rewrite check_resize_end by assumption. rewrite znth_end. cbn [rwrite].
  now rewrite lset_end.
Qed.
Lemma with_idx_end (f : gc -> out unit * gc) g e : zlen (old_vec g) + 1 < 2^32 -> f GNone = (Ok tt, e) ->
  with_idx (zlen (old_vec g)) f g = (Ok tt, GVec (old_vec g ++ [e])).
Proof. intros H E. unfold with_idx. rewrite check_resize_end by assumption. rewrite znth_end, E. now rewrite lset_end. Qed.
Lemma put_bool_end b v : zlen v + 1 < 2^32 -> put_bool_at (zlen v) b (GVBool v) = (Ok tt, GVBool (v ++ [b])).
Proof.
  intros H. unfold put_bool_at, ref_bool_at, grow_ref. rewrite check_resize_end by assumption. rewrite znth_end.
  cbn [rread ref_vec_bool]. rewrite lset_end, znth_end. now rewrite lset_end.
Qed.
Lemma put_bool_first b : put_bool_at 0 b GNone = (Ok tt, GVBool [b]).
Proof. reflexivity. Qed.

(** What the container is while the values [done] have been read. *)
Definition plain_num (v : lua) : Prop := ~ is_str v /\ ~ is_tab v.
Definition has_other (l : list lua) : Prop := Exists (fun v => ~ is_bool v) l.
Definition state (done : list lua) (g : gc) : Prop :=
  match g with
  | GNone => done = []
  | GVBool v => v <> [] /\ done = map LBool v
  | GVLong v => Forall int64 v /\ Forall representable v /\ Forall plain_num done /\ has_other done /\ map d_int v = map lua_data done
  | GVReal v => Forall f64 v /\ Forall plain_num done /\ has_other done /\ map d_real v = map lua_data done
  | GVStr v => v <> [] /\ done = map LStr v
  | GVec v => Forall wf v /\ has_other done /\ map data_of v = map lua_data done
  | _ => False
  end.
Lemma state_ok done g : state done g -> done <> [] -> named (entries 1 done) = false ->
  wf g /\ data_of g = DList (map lua_data done).
Proof.
  intros H N _. destruct g; cbn [state] in H; try contradiction; cbn [wf data_of].
  - destruct H as [_ ->]. rewrite map_map. split; [exact I|reflexivity].
  - destruct H as (H1 & _ & _ & _ & H2). rewrite H2. split; [assumption|reflexivity].
  - destruct H as (H1 & _ & _ & H2). rewrite H2. split; [assumption|reflexivity].
  - destruct H as [_ ->]. rewrite map_map. split; [exact I|reflexivity].
  - destruct H as (H1 & _ & H2). rewrite H2. split; [now apply wf_vec|reflexivity].
Qed.
Lemma zlen_eq {A B C} (f : A -> C) (g : B -> C) l l' : map f l = map g l' -> zlen l = zlen l'.
Proof. intros H. apply (f_equal (@length C)) in H. rewrite !map_length in H. unfold zlen. now rewrite H. Qed.

Lemma has_app l v : has_other l -> has_other (l ++ [v]).
Proof. intros H. apply Exists_app. now left. Qed.
Lemma has_end l v : ~ is_bool v -> has_other (l ++ [v]).
Proof. intros H. apply Exists_app. right. now constructor. Qed.
Lemma forall_end {A} (P : A -> Prop) l a : Forall P l -> P a -> Forall P (l ++ [a]).
Proof. intros. apply Forall_app. split; [assumption|]. now constructor. Qed.
Lemma map_end {A B C} (f : A -> C) (g : B -> C) l l' a b : map f l = map g l' -> f a = g b -> map f (l ++ [a]) = map g (l' ++ [b]).
Proof. intros H E. rewrite !map_app, H. cbn. now rewrite E. Qed.
Lemma not_all_bool l : Forall is_bool l -> has_other l -> False.
Proof. intros H E. apply Exists_exists in E as (v & I & N). rewrite Forall_forall in H. auto. Qed.
Lemma bools_data v : map lua_data (map LBool v) = map d_int (map b2z v).
Proof. rewrite !map_map. apply List.map_ext. intros []; reflexivity. Qed.
Lemma bool_int64 v : Forall int64 (map b2z v) /\ Forall representable (map b2z v).
Proof.
  split; apply Forall_map; apply Forall_forall; intros b _.
  - destruct b; cbn; unfold int64; lia.
  - exists (f_of_Z (b2z b)). apply f_of_Z_exact. destruct b; cbn; lia.
Qed.
Lemma bool_plain v : Forall plain_num (map LBool v).
Proof. apply Forall_map, Forall_forall. intros b _. split; intros [? ?]; discriminate. Qed.
Lemma reals_data v : Forall int64 v -> Forall representable v -> map d_real (map f_of_Z v) = map d_int v /\ Forall f64 (map f_of_Z v).
Proof.
  intros H R. rewrite map_map. split.
  - apply List.map_ext_in. intros n I. rewrite Forall_forall in H, R. apply fis_data. apply representable_fis; auto.
  - apply Forall_map. apply Forall_forall. intros n I. rewrite Forall_forall in H, R. apply representable_fis; auto.
Qed.

(** The vector of containers that a state turns into. *)
Lemma to_vec done g : state done g -> g <> GNone -> zlen done < 2^32 ->
  exists w, match g with GVec _ => (Ok tt, g) | _ => promote_to_vector g end = (Ok tt, GVec w) /\
    Forall wf w /\ map data_of w = map lua_data done.
Proof.
  intros H N L. destruct g; cbn [state] in H; try contradiction.
  - destruct H as [_ ->]. exists (map GBool v). cbn [promote_to_vector]. rewrite promote_elems_ok by (unfold zlen in *; now rewrite map_length in L).
    split; [reflexivity|]. split; [apply Forall_map, Forall_forall; intros; exact I|]. rewrite !map_map. reflexivity.
  - destruct H as (H1 & _ & _ & _ & H2). pose proof (zlen_eq _ _ _ _ H2). exists (map GLong v). cbn [promote_to_vector].
    rewrite promote_elems_ok by lia. split; [reflexivity|]. split; [now apply Forall_map|]. rewrite <- H2, map_map. reflexivity.
  - destruct H as (H1 & _ & _ & H2). pose proof (zlen_eq _ _ _ _ H2). exists (map GReal v). cbn [promote_to_vector].
    rewrite promote_elems_ok by lia. split; [reflexivity|]. split; [now apply Forall_map|]. rewrite <- H2, map_map. reflexivity.
  - destruct H as [_ ->]. exists (map GStr v). cbn [promote_to_vector]. rewrite promote_elems_ok by (unfold zlen in *; now rewrite map_length in L).
    split; [reflexivity|]. split; [apply Forall_map, Forall_forall; intros; exact I|]. rewrite !map_map. reflexivity.
  - destruct H as (H1 & _ & H2). exists v. auto.
Qed.
Lemma vslot_state {A} (k : A -> gc) d x done g v : state done g -> g <> GNone -> zlen done + 1 < 2^32 ->
  wf (k x) -> data_of (k x) = lua_data v -> ~ is_bool v ->
  exists g', rwrite x (vslot k d (zlen done) g) = (Ok tt, g') /\ state (done ++ [v]) g'.
Proof.
  intros H N L W D B. destruct (to_vec done g H N ltac:(lia)) as (w & E & F & M).
  pose proof (zlen_eq _ _ _ _ M) as Z. rewrite <- Z in *. exists (GVec (w ++ [k x])). rewrite (vslot_end _ _ _ _ w) by assumption.
  split; [reflexivity|]. cbn [state]. split; [now apply forall_end|]. split; [now apply has_end|]. now apply map_end.
Qed.

Lemma at_real done g x v : state done g -> zlen done + 1 < 2^32 -> f64 x -> lua_data v = d_real x -> plain_num v -> ~ is_bool v ->
  exists g', rwrite x (ref_real_at (zlen done) g) = (Ok tt, g') /\ state (done ++ [v]) g'.
Proof.
  intros H L F D P B. pose proof (zlen_nonneg done).
  destruct g; cbn [state] in H; try contradiction; cbn [ref_real_at].
  - subst. exists (GVReal [x]). split; [reflexivity|]. cbn [state app map]. rewrite D.
    split; [now constructor|]. split; [now constructor|]. split; [now constructor|reflexivity].
  - (* VEC_BOOL *)
    destruct H as [_ ->]. rewrite zlen_map in *. cbn [promote_to_vec_real]. rewrite promote_elems_ok by lia. cbn [after vreal_at].
    rewrite <- (zlen_map f_of_bool v0) in *. rewrite grow_end by assumption. eexists. split; [reflexivity|]. cbn [state].
    split; [apply forall_end; [|assumption]; apply Forall_map, Forall_forall; intros []; intros; apply f_of_Z_exact; lia|].
    split; [apply forall_end; [apply bool_plain|assumption]|]. split; [now apply has_end|]. apply map_end; [|now symmetry].
    rewrite bools_data, !map_map. apply List.map_ext. intros b. apply fis_data. destruct b; apply f_of_Z_exact; cbn; lia.
  - (* VEC_LONG *)
    destruct H as (H1 & H2 & H3 & H4 & H5). pose proof (zlen_eq _ _ _ _ H5) as Z. cbn [promote_to_vec_real]. rewrite promote_elems_ok by lia.
    cbn [after vreal_at]. rewrite <- Z, <- (zlen_map f_of_Z v0) in *. rewrite grow_end by assumption. eexists. split; [reflexivity|]. cbn [state].
    destruct (reals_data v0 H1 H2) as [R1 R2]. split; [now apply forall_end|]. split; [now apply forall_end|]. split; [now apply has_app|].
    apply map_end; [congruence|now symmetry].
  - destruct H as (H1 & H2 & H3 & H4). pose proof (zlen_eq _ _ _ _ H4) as Z. cbn [vreal_at]. rewrite <- Z in *. rewrite grow_end by assumption.
    eexists. split; [reflexivity|]. cbn [state]. split; [now apply forall_end|]. split; [now apply forall_end|]. split; [now apply has_app|].
    apply map_end; [assumption|now symmetry].
  - cbn [vreal_at]. apply vslot_state; auto. discriminate.
  - cbn [vreal_at]. apply vslot_state; auto. discriminate.
Qed.
Lemma at_long done g n v : state done g -> (forall w, g <> GVReal w) -> zlen done + 1 < 2^32 -> int64 n -> representable n ->
  lua_data v = d_int n -> plain_num v -> ~ is_bool v ->
  exists g', rwrite n (ref_long_at (zlen done) g) = (Ok tt, g') /\ state (done ++ [v]) g'.
Proof.
  intros H NR L F R D P B. pose proof (zlen_nonneg done).
  destruct g; cbn [state] in H; try contradiction; cbn [ref_long_at].
  - subst. exists (GVLong [n]). split; [reflexivity|]. cbn [state app map]. rewrite D.
    repeat (split; [now constructor|]). reflexivity.
  - destruct H as [_ ->]. rewrite zlen_map in *. cbn [promote_to_vec_long]. rewrite promote_elems_ok by lia. cbn [after vlong_at].
    rewrite <- (zlen_map b2z v0) in *. rewrite grow_end by assumption. eexists. split; [reflexivity|]. cbn [state].
    destruct (bool_int64 v0) as [B1 B2].
    split; [now apply forall_end|]. split; [now apply forall_end|].
    split; [apply forall_end; [apply bool_plain|assumption]|]. split; [now apply has_end|]. apply map_end; [|now symmetry].
    now rewrite bools_data.
  - destruct H as (H1 & H2 & H3 & H4 & H5). pose proof (zlen_eq _ _ _ _ H5) as Z. cbn [vlong_at]. rewrite <- Z in *.
    rewrite grow_end by assumption. eexists. split; [reflexivity|]. cbn [state].
    split; [now apply forall_end|]. split; [now apply forall_end|]. split; [now apply forall_end|]. split; [now apply has_app|].
    apply map_end; [assumption|now symmetry].
  - now contradiction (NR v0).
  - cbn [vlong_at]. apply vslot_state; auto. discriminate.
  - cbn [vlong_at]. apply vslot_state; auto. discriminate.
Qed.
Lemma at_number done g x v : state done g -> zlen done + 1 < 2^32 -> in_range x -> lua_data v = d_real x -> plain_num v -> ~ is_bool v ->
  exists g', put_number_at (zlen done) x g = (Ok tt, g') /\ state (done ++ [v]) g'.
Proof.
  intros H L R D P B.
  assert (G : (forall w, g <> GVReal w) ->
    exists g', match is_integer64 x with
      | Ok true => rwrite (long_of x) (ref_long_at (zlen done) g)
      | Ok false => rwrite x (ref_real_at (zlen done) g)
      | Throw => (Throw, g) | Undef => (Undef, g) | Diverge => (Diverge, g)
      end = (Ok tt, g') /\ state (done ++ [v]) g').
  { intros NR. destruct (kind x R) as [(-> & E & I & Q)| ->].
    - apply at_long; auto. rewrite D. now apply fis_data.
    - apply at_real; auto. apply R. }
  unfold put_number_at. destruct g; try (apply G; discriminate); try (destruct H; fail).
  apply at_real; auto. apply R.
Qed.
Lemma at_string done g s : state done g -> zlen done + 1 < 2^32 ->
  exists g', rwrite s (ref_string_at (zlen done) g) = (Ok tt, g') /\ state (done ++ [LStr s]) g'.
Proof.
  intros H L. assert (B : ~ is_bool (LStr s)) by (intros [? ?]; discriminate).
  destruct g; cbn [state] in H; try contradiction; cbn [ref_string_at]; try (apply vslot_state; auto; (exact I || reflexivity || discriminate)).
  - subst. exists (GVStr [s]). split; [reflexivity|]. split; [discriminate|reflexivity].
  - destruct H as [N ->]. rewrite zlen_map in *. rewrite grow_end by assumption. eexists. split; [reflexivity|]. cbn [state].
    rewrite map_app. split; [|reflexivity]. destruct v; discriminate.
Qed.
Lemma at_bool done g b : state done g -> Forall is_bool done -> zlen done + 1 < 2^32 ->
  exists g', put_bool_at (zlen done) b g = (Ok tt, g') /\ state (done ++ [LBool b]) g'.
Proof.
  intros H F L. destruct g; cbn [state] in H; try contradiction.
  - subst. exists (GVBool [b]). split; [reflexivity|]. split; [discriminate|reflexivity].
  - destruct H as [_ ->]. rewrite zlen_map in *. rewrite put_bool_end by assumption. eexists. split; [reflexivity|]. cbn [state].
    rewrite map_app. split; [|reflexivity]. destruct v; discriminate.
  - destruct (not_all_bool done F). apply H.
  - destruct (not_all_bool done F). apply H.
  - destruct H as [N ->]. destruct v as [|s v]; [easy|]. inversion F as [|? ? [? ?]]. discriminate.
  - destruct (not_all_bool done F). apply H.
Qed.
Lemma plain_not_tab done : Forall plain_num done -> has_other done ->
  ~ (done = [] \/ Exists is_tab done \/ (Exists is_str done /\ Exists (fun u => ~ is_str u) done)).
Proof.
  intros P O [K|[K|[K _]]].
  - subst. inversion O.
  - apply Exists_exists in K as (u & I & K). rewrite Forall_forall in P. destruct (P u I); contradiction.
  - apply Exists_exists in K as (u & I & K). rewrite Forall_forall in P. destruct (P u I); contradiction.
Qed.
Lemma at_table done g v f e : state done g -> is_tab v -> fits_after done v -> zlen done + 1 < 2^32 ->
  f GNone = (Ok tt, e) -> wf e -> data_of e = lua_data v ->
  exists g', with_idx (zlen done) f g = (Ok tt, g') /\ state (done ++ [v]) g'.
Proof.
  intros H [t ->] K L E W D. cbn [fits_after] in K.
  assert (B : ~ is_bool (LTab t)) by (intros [? ?]; discriminate).
  assert (V : g = GNone /\ done = [] \/ exists v, g = GVec v /\ Forall wf v /\ map data_of v = map lua_data done).
  { destruct g; cbn [state] in H; try contradiction.
    - left. now split.
    - exfalso. destruct H as [N ->]. destruct K as [K|[K|[K _]]].
      + destruct v; [easy|discriminate].
      + apply Exists_exists in K as (u & I & [? ->]). apply in_map_iff in I as (? & ? & _). discriminate.
      + apply Exists_exists in K as (u & I & [? ->]). apply in_map_iff in I as (? & ? & _). discriminate.
    - exfalso. destruct H as (_ & _ & P & O & _). apply (plain_not_tab _ P O K).
    - exfalso. destruct H as (_ & P & O & _). apply (plain_not_tab _ P O K).
    - exfalso. destruct H as [N ->]. destruct K as [K|[K|[_ K]]].
      + destruct v; [easy|discriminate].
      + apply Exists_exists in K as (u & I & [? ->]). apply in_map_iff in I as (? & ? & _). discriminate.
      + apply Exists_exists in K as (u & I & NS). apply in_map_iff in I as (s & <- & _). apply NS. now exists s.
    - right. exists v. split; [reflexivity|]. split; apply H. }
  assert (S : forall w, map data_of w = map lua_data done -> Forall wf w -> state (done ++ [LTab t]) (GVec (w ++ [e]))).
  { intros w M F. cbn [state]. split; [now apply forall_end|]. split; [now apply has_end|]. now apply map_end. }
  destruct V as [(-> & ->)|(v & -> & F & M)].
  - exists (GVec [e]). split; [|now apply (S [])]. apply (with_idx_end f GNone e); [reflexivity|exact E].
  - exists (GVec (v ++ [e])). split; [|now apply S]. pose proof (zlen_eq _ _ _ _ M) as Z. rewrite <- Z in *.
    apply (with_idx_end f (GVec v) e); [exact L|exact E].
Qed.

(** The loop over a list. *)
Lemma readable_plain v : (exists z, v = LInt z) \/ (exists x, v = LNum x) -> plain_num v /\ ~ is_bool v.
Proof. intros [[z ->]|[x ->]]; repeat split; intros [? ?]; discriminate. Qed.
Definition reads (cap used : Z) (v : lua) : Prop :=
  exists e, lua_table_to_GC cap used v GNone = (Ok tt, e) /\ wf e /\ data_of e = lua_data v.
Lemma list_loop cap used l : forall done g, Forall readable_node l -> list_ok (done ++ l) -> zlen (done ++ l) < 2^32 ->
  Forall (fun v => is_tab v -> reads cap (used + 2) v) l -> state done g -> l <> [] -> used + 2 <= cap ->
  exists g', table_entries cap used (entries (zlen done + 1) l) g = (Ok tt, g') /\ state (done ++ l) g'.
Proof.
  induction l as [|v l IH]; intros done g R O L T S N C; [easy|].
  inversion R as [|? ? R1 R2]; subst. inversion T as [|? ? T1 T2]; subst. pose proof (zlen_nonneg done). pose proof (zlen_nonneg l).
  assert (L' : zlen done + 1 + zlen l < 2^32).
  { unfold zlen in *. rewrite app_length in L. cbn [length] in L. lia. }
  assert (K : fits_after done v) by (eapply O; reflexivity).
  assert (step : exists g', table_entry cap used (LInt (zlen done + 1)) v g = (Ok tt, g') /\ state (done ++ [v]) g').
  { cbn [table_entry]. unfold push_vec_element. cbn [tointeger].
    replace (to_u32 (zlen done + 1 - 1)) with (zlen done)
      by (symmetry; replace (zlen done + 1 - 1) with (zlen done) by lia; apply to_u32_id; unfold uint32; lia).
    destruct v as [|b|z|x|s|t|]; try (destruct R1; fail).
    - apply at_bool; auto; lia.
    - destruct (number_ok (LInt z) R1 ltac:(eauto)) as [I D]. destruct (readable_plain (LInt z) ltac:(eauto)).
      apply at_number; auto; lia.
    - destruct (number_ok (LNum x) R1 ltac:(eauto)) as [I D]. destruct (readable_plain (LNum x) ltac:(eauto)).
      apply at_number; auto; lia.
    - rewrite cstr_id by exact R1. apply at_string; auto; lia.
    - destruct (T1 ltac:(now exists t)) as (e & E & W & D). apply (at_table done g (LTab t) _ e); auto; [now exists t|lia]. }
  destruct step as (g1 & E1 & S1). cbn [entries table_entries].
  destruct (Z.ltb_spec (used + 1) cap); [|lia]. rewrite E1. destruct l as [|u l].
  - exists g1. split; [reflexivity|assumption].
  - destruct (IH (done ++ [v]) g1) as (g2 & E2 & S2); try assumption; try discriminate.
    + now rewrite <- app_assoc.
    + now rewrite <- app_assoc.
    + exists g2. rewrite <- app_assoc in S2. split; [|exact S2].
      replace (zlen (done ++ [v])) with (zlen done + 1) in E2 by (unfold zlen; rewrite app_length; cbn [length]; lia). exact E2.
Qed.

(** The loop over a table with string keys. *)
Definition mstate (done : list (string * lua)) (g : gc) : Prop :=
  (g = GNone /\ done = [] \/ exists m, g = GMap m) /\
  msorted (old_map g) /\ Forall (fun kv => wf (snd kv)) (old_map g) /\
  vmap data_of (old_map g) = by_key (vmap lua_data done).
Lemma by_key_keys {A} (m : list (string * A)) k : In k (map fst (by_key m)) <-> In k (map fst m).
Proof.
  unfold by_key. assert (G : forall acc : list (string * A), In k (map fst (fold_left (fun acc kv => mset (fst kv) (snd kv) acc) m acc)) <->
    In k (map fst acc) \/ In k (map fst m)).
  { induction m as [|(k', x) m IH]; intros acc; [cbn; tauto|]. cbn [fold_left fst snd map]. rewrite IH, mset_keys. cbn. intuition congruence. }
  rewrite G. cbn. tauto.
Qed.
Lemma by_key_end {A} (m : list (string * A)) k x : by_key (m ++ [(k, x)]) = mset k x (by_key m).
Proof. unfold by_key. now rewrite fold_left_app. Qed.
Lemma key_step done g k v (f : gc -> out unit * gc) e : mstate done g -> no_nul k -> ~ In k (map fst done) ->
  f GNone = (Ok tt, e) -> wf e -> data_of e = lua_data v ->
  exists g', with_key (cstr k) f g = (Ok tt, g') /\ mstate (done ++ [(k, v)]) g'.
Proof.
  intros (G & S & W & D) K N E We De. rewrite (cstr_id k K). unfold with_key. rewrite (cstr_id k K).
  rewrite mfind_none_key.
  - rewrite E. eexists. split; [reflexivity|]. split; [right; eauto|]. cbn [old_map]. split; [now apply mset_sorted|].
    split; [now apply mset_forall|]. rewrite vmap_mset, D, De. unfold vmap at 2. rewrite map_app. cbn [map fst snd].
    now rewrite by_key_end.
  - rewrite <- (vmap_keys data_of), D, by_key_keys, vmap_keys. exact N.
Qed.
Lemma map_loop cap used m : forall done g, Forall (fun kv => readable_node (snd kv)) m -> NoDup (map fst (done ++ m)) ->
  Forall no_nul (map fst m) -> Forall (fun kv => is_tab (snd kv) -> reads cap (used + 2) (snd kv)) m ->
  mstate done g -> m <> [] -> used + 2 <= cap ->
  exists g', table_entries cap used (named_entries m) g = (Ok tt, g') /\ mstate (done ++ m) g'.
Proof.
  induction m as [|(k, v) m IH]; intros done g R D K T S N C; [easy|].
  inversion R as [|? ? R1 R2]; subst. inversion T as [|? ? T1 T2]; subst. inversion K as [|? ? K1 K2]; subst.
  cbn [fst snd] in *.
  assert (NI : ~ In k (map fst done)).
  { rewrite map_app in D. cbn [map fst] in D. apply NoDup_remove_2 in D. intros I. apply D. apply in_or_app. now left. }
  assert (step : exists g', table_entry cap used (LStr k) v g = (Ok tt, g') /\ mstate (done ++ [(k, v)]) g').
  { cbn [table_entry]. unfold push_hash_element. destruct v as [|b|z|x|s|t|]; try (destruct R1; fail).
    - now apply (key_step done g k (LBool b) _ (GBool b)).
    - destruct (number_ok (LInt z) R1 ltac:(eauto)) as [I E]. destruct (integer64_ok _ I) as (b & ->).
      destruct (put_number_ok _ GNone I) as (e & Pe & We & De). apply (key_step done g k (LInt z) _ e); auto; congruence.
    - destruct (number_ok (LNum x) R1 ltac:(eauto)) as [I E]. destruct (integer64_ok _ I) as (b & ->).
      destruct (put_number_ok _ GNone I) as (e & Pe & We & De). apply (key_step done g k (LNum x) _ e); auto; congruence.
    - rewrite (cstr_id s R1). now apply (key_step done g k (LStr s) _ (GStr s)).
    - destruct (T1 ltac:(now exists t)) as (e & E & W & De). now apply (key_step done g k (LTab t) _ e). }
  destruct step as (g1 & E1 & S1). cbn [named_entries map fst snd table_entries].
  destruct (Z.ltb_spec (used + 1) cap); [|lia]. rewrite E1. destruct m as [|kv m].
  - exists g1. split; [reflexivity|assumption].
  - destruct (IH (done ++ [(k, v)]) g1) as (g2 & E2 & S2); try assumption; try discriminate.
    + now rewrite <- app_assoc.
    + exists g2. rewrite <- app_assoc in S2. split; [exact E2|exact S2].
Qed.

(** Whole values. *)
Definition most_tab := fix most (t : list (lua * lua)) : Z := match t with [] => 0 | (_, x) :: t' => Z.max (lslots x) (most t') end.
Lemma lslots_tab t : t <> [] -> lslots (LTab t) = 2 + most_tab t.
Proof. destruct t; [easy|reflexivity]. Qed.
Lemma most_tab_in t kv : In kv t -> lslots (snd kv) <= most_tab t.
Proof.
  induction t as [|(k, x) t IH]; [easy|]. cbn [most_tab]. fold most_tab. intros [<-|I]; [cbn; lia|]. specialize (IH I). lia.
Qed.
Lemma most_tab_nonneg t : 0 <= most_tab t.
Proof. induction t as [|(k, x) t IH]; [reflexivity|]. cbn [most_tab]. fold most_tab. lia. Qed.
Lemma entries_values i l : map snd (entries i l) = l.
Proof. revert i. induction l as [|v l IH]; intros i; [reflexivity|]. cbn. now rewrite IH. Qed.
Lemma read_table v : lall readable_node v -> is_tab v -> forall cap used, used + lslots v <= cap -> reads cap used v.
Proof.
  induction v as [v Hf | t IH] using lua_nest_ind; intros Ha Ht cap used C; [destruct Ht as [t ->]; now contradiction (Hf t)|]. clear Ht.
  apply lall_tab in Ha as [Hn Ha]. cbn [readable_node] in Hn.
  assert (Hr : Forall (fun kv => readable_node (snd kv)) t) by (eapply Forall_impl; [|exact Ha]; intros kv; apply lall_here).
  assert (Hne : t <> []) by (destruct Hn as [(m & N & -> & _)|(l & N & -> & _)]; [destruct m|destruct l]; easy).
  rewrite lslots_tab in C by assumption. pose proof (most_tab_nonneg t).
  assert (Hsub : Forall (fun kv => is_tab (snd kv) -> reads cap (used + 2) (snd kv)) t).
  { apply Forall_forall. intros kv I Hkv. rewrite Forall_forall in IH, Ha. apply IH; auto. pose proof (most_tab_in t kv I). lia. }
  clear IH Ha. unfold reads. rewrite lua_table. destruct (Z.ltb_spec used cap); [|lia].
  destruct Hn as [(m & N & -> & D & K)|(l & N & -> & L & O)].
  - destruct (map_loop cap used m [] GNone) as (g & E & S); try assumption; try lia.
    + unfold named_entries in Hr. rewrite Forall_map in Hr. exact Hr.
    + unfold named_entries in Hsub. rewrite Forall_map in Hsub. exact Hsub.
    + split; [now left|]. cbn. split; [constructor|]. split; [constructor|reflexivity].
    + exists g. split; [exact E|]. destruct S as ([[-> E2]|[m' ->]] & S & W & V); [contradiction|]. cbn [old_map app] in *.
      split; [apply wf_map; auto|]. cbn [data_of lua_data].
      assert (A : named (named_entries m) = true).
      { unfold named, named_entries. apply forallb_forall. intros kv I. apply in_map_iff in I as (? & <- & _). reflexivity. }
      rewrite A. unfold named_entries. rewrite map_map. cbn [fst snd name_of]. unfold vmap in V. now rewrite V.
  - destruct (list_loop cap used l [] GNone) as (g & E & S); try assumption; try lia.
    + rewrite <- (entries_values 1 l). now apply Forall_map.
    + rewrite <- (entries_values 1 l). now apply Forall_map.
    + reflexivity.
    + exists g. split; [exact E|]. cbn [app] in S.
      assert (A : named (entries 1 l) = false) by (destruct l; [easy|reflexivity]).
      destruct (state_ok l g S N A) as [W D]. split; [exact W|]. cbn [lua_data]. rewrite A, D.
      rewrite <- (entries_values 1 l) at 1. now rewrite map_map.
Qed.
