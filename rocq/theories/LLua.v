(** Lemmas about the exchange of values with Lua. *)
From Coq Require Import ZArith Bool Lia Ascii String List.
From Verif Require Import Base F64 StrMap Value MBasic SCollapse LCollapse SJson MMap MRef MLua SLua.
Import ListNotations.
Local Open Scope Z_scope.

(** * Tables *)
Lemma key_eqb_eq a b : key_eqb a b = true -> a = b.
Proof.
  destruct a, b; cbn; try discriminate; intros H.
  - apply Bool.eqb_prop in H. congruence.
  - apply Z.eqb_eq in H. congruence.
  - apply Z.eqb_eq in H. congruence.
  - apply String.eqb_eq in H. congruence.
Qed.
Definition is_key (k : lua) : Prop := key_eqb k k = true.
Lemma key_int i : is_key (LInt i).
Proof. apply Z.eqb_refl. Qed.
Lemma key_str s : is_key (LStr s).
Proof. apply String.eqb_refl. Qed.
Lemma key_eqb_false a b : is_key a -> key_eqb a b = false -> a <> b.
Proof. unfold is_key. intros H H' <-. congruence. Qed.
Definition full (t : list (lua * lua)) : Prop := Forall (fun kv => snd kv <> LNil) t.
Lemma is_nil_spec v : is_nil v = true <-> v = LNil.
Proof. destruct v; cbn; split; congruence. Qed.
Lemma tset_fresh k v t : full t -> is_key k -> tget k t = LNil -> tset k v t = if is_nil v then t else t ++ [(k, v)].
Proof.
  intros F K. induction F as [|(k', v') t Hv _ IH]; cbn [tget tset]; intros H; [destruct (is_nil v); reflexivity|].
  cbn [snd] in Hv. destruct (key_eqb k k') eqn:E; [contradiction|]. rewrite (IH H). destruct (is_nil v); reflexivity.
Qed.
Lemma tget_app k t t' : full t -> tget k (t ++ t') = if is_nil (tget k t) then tget k t' else tget k t.
Proof.
  induction 1 as [|(k', v') t Hv _ IH]; [reflexivity|]. cbn [app tget]. destruct (key_eqb k k') eqn:E; [|apply IH].
  cbn [snd] in Hv. destruct v'; cbn; congruence.
Qed.
Lemma tset_full k v t : full t -> is_key k -> tget k t = LNil -> full (tset k v t).
Proof.
  intros F K H. rewrite tset_fresh by assumption. destruct (is_nil v) eqn:E; [assumption|].
  apply Forall_app. split; [assumption|]. constructor; [|constructor]. cbn. intros ->. discriminate.
Qed.
Lemma tget_tset_same k v t : full t -> is_key k -> tget k t = LNil -> tget k (tset k v t) = v.
Proof.
  intros F K H. rewrite tset_fresh by assumption. destruct (is_nil v) eqn:E; [apply is_nil_spec in E; congruence|].
  rewrite tget_app, H by assumption. cbn [is_nil tget]. unfold is_key in K. now rewrite K.
Qed.
Lemma tget_tset_other j k v t : full t -> is_key k -> tget k t = LNil -> j <> k -> tget j (tset k v t) = tget j t.
Proof.
  intros F K H N. rewrite tset_fresh by assumption. destruct (is_nil v) eqn:E; [reflexivity|].
  rewrite tget_app by assumption. destruct (is_nil (tget j t)) eqn:E'; [|reflexivity]. apply is_nil_spec in E'. rewrite E'.
  cbn [tget]. destruct (key_eqb j k) eqn:E2; [|reflexivity]. apply key_eqb_eq in E2. contradiction.
Qed.

(** * From containers to Lua *)
(** The tables the loops build. *)
Fixpoint nums (i : Z) (l : list lua) (t : list (lua * lua)) : list (lua * lua) :=
  match l with [] => t | v :: l' => nums (i + 1) l' (tset (LInt (to_i32 (i + 1))) v t) end.
Fixpoint names (m : list (string * lua)) (t : list (lua * lua)) : list (lua * lua) :=
  match m with [] => t | (k, v) :: m' => names m' (tset (LStr k) v t) end.
Fixpoint show (g : gc) : lua :=
  match g with
  | GBool b => LBool b
  | GInt n | GLong n => LNum (f_of_Z n)
  | GReal x => LNum x
  | GStr s => LStr (cstr s)
  | GVBool v => LTab (nums 0 (map LBool v) [])
  | GVInt v | GVLong v => LTab (nums 0 (map (fun i => LNum (f_of_Z i)) v) [])
  | GVReal v => LTab (nums 0 (map LNum v) [])
  | GVStr v => LTab (nums 0 (map (fun s => LStr (cstr s)) v) [])
  | GVec v => LTab (nums 0 (map show v) [])
  | GMap m => LTab (names (map (fun kv => (cstr (fst kv), show (snd kv))) m) [])
  | _ => LNil
  end.

Lemma push_spec cap v st : push cap v st = if zlen st + 1 <=? cap then Ok (v :: st) else Undef.
Proof. unfold push. destruct (Z.ltb_spec (zlen st) cap), (Z.leb_spec (zlen st + 1) cap); (reflexivity || lia). Qed.
Lemma fill_spec cap l : forall i t st, l <> [] ->
  fill cap l i (LTab t :: st) = if zlen st + 2 <=? cap then Ok (LTab (nums i l t) :: st) else Undef.
Proof.
  induction l as [|v l IH]; intros i t st H; [easy|]. cbn [fill]. rewrite push_spec, zlen_cons.
  replace (zlen st + 1 + 1) with (zlen st + 2) by lia. destruct (Z.leb_spec (zlen st + 2) cap) as [C|C]; [|reflexivity].
  cbn [bind rawseti nums]. destruct l as [|v' l]; [reflexivity|]. rewrite IH by discriminate.
  destruct (Z.leb_spec (zlen st + 2) cap); [reflexivity|lia].
Qed.
Lemma table_of_spec cap l st : zlen l < 2^32 ->
  table_of cap l st = if zlen st + list_slots l <=? cap then Ok (LTab (nums 0 l []) :: st) else Undef.
Proof.
  intros H. unfold table_of. destruct (Z.leb_spec (2^32) (zlen l)); [lia|]. rewrite push_spec.
  destruct l as [|v l].
  - cbn [list_slots fill nums]. destruct (_ <=? _); reflexivity.
  - cbn [list_slots]. destruct (Z.leb_spec (zlen st + 1) cap) as [C|C]; cbn [bind].
    + now rewrite fill_spec by discriminate.
    + destruct (Z.leb_spec (zlen st + 2) cap); [lia|reflexivity].
Qed.
Lemma slots_pos g : 1 <= slots g.
Proof.
  destruct g as [| | | | | | | | |v|v|v|v|v|v| | | | |v|m]; cbn [slots]; try lia; try (destruct v; cbn; lia).
  - enough (0 <= (fix most (l : list gc) : Z := match l with [] => 0 | e :: l' => Z.max (slots e) (most l') end) v) by lia.
    induction v as [|e v IH]; [lia|]. lia.
  - enough (0 <= (fix most (m : list (string * gc)) : Z := match m with [] => 0 | (_, e) :: m' => Z.max (1 + slots e) (most m') end) m) by lia.
    induction m as [|[k e] v IH]; [lia|]. lia.
Qed.
Definition most_vec := fix most (l : list gc) : Z := match l with [] => 0 | e :: l' => Z.max (slots e) (most l') end.
Definition most_map := fix most (m : list (string * gc)) : Z :=
  match m with [] => 0 | (_, e) :: m' => Z.max (1 + slots e) (most m') end.
Lemma slots_vec v : slots (GVec v) = 1 + most_vec v.
Proof. reflexivity. Qed.
Lemma slots_map m : slots (GMap m) = 1 + most_map m.
Proof. reflexivity. Qed.
Lemma most_vec_nonneg v : 0 <= most_vec v.
Proof. induction v as [|e v IH]; cbn [most_vec]; [lia|]. fold most_vec. lia. Qed.
Lemma most_map_nonneg m : 0 <= most_map m.
Proof. induction m as [|[k e] v IH]; cbn [most_map]; [lia|]. fold most_map. lia. Qed.

(** Containers without VEC_BOOL push exactly one value, if there is room. *)
Lemma show_ok cap g : everywhere ends_node g -> forall st,
  GC_to_lua cap g st = if zlen st + slots g <=? cap then Ok (show g :: st) else Undef.
Proof.
  induction g as [g Hv Hm | v IH | m IH] using gc_nest_ind; intros He st.
  - apply everywhere_here in He.
    destruct g; cbn [GC_to_lua show slots]; try apply push_spec; try (now contradiction (Hv v)); try (now contradiction (Hm m));
      cbn [ends_node] in He; try contradiction; rewrite table_of_spec by (unfold zlen in *; now rewrite map_length);
      f_equal; f_equal; f_equal; destruct v; reflexivity.
  - apply everywhere_vec in He as [Hn He]. cbn [ends_node] in Hn. rewrite lua_vec.
    destruct (Z.leb_spec (2^32) (zlen v)); [lia|]. rewrite push_spec, slots_vec. cbn [show]. clear Hn H.
    assert (G : forall i t, (v = [] -> zlen st + 1 <= cap) -> vec_items cap v i (LTab t :: st) =
      if zlen st + (1 + most_vec v) <=? cap then Ok (LTab (nums i (map show v) t) :: st) else Undef).
    { induction v as [|e v IHv]; intros i t Hc.
      - cbn. destruct (Z.leb_spec (zlen st + 1) cap); [reflexivity|]. specialize (Hc eq_refl). lia.
      - inversion IH; inversion He; subst. cbn [vec_items most_vec map nums]. fold (vec_items cap). fold most_vec.
        rewrite H1 by assumption. rewrite zlen_cons. pose proof (slots_pos e). pose proof (most_vec_nonneg v).
        destruct (Z.leb_spec (zlen st + 1 + slots e) cap) as [C|C]; cbn [bind rawseti].
        + rewrite IHv by (try assumption; intros _; lia).
          destruct (Z.leb_spec (zlen st + (1 + most_vec v)) cap), (Z.leb_spec (zlen st + (1 + Z.max (slots e) (most_vec v))) cap); (reflexivity || lia).
        + destruct (Z.leb_spec (zlen st + (1 + Z.max (slots e) (most_vec v))) cap); [lia|reflexivity]. }
    destruct (Z.leb_spec (zlen st + 1) cap) as [C|C]; cbn [bind]; [apply G; auto|].
    pose proof (most_vec_nonneg v). destruct (Z.leb_spec (zlen st + (1 + most_vec v)) cap); [lia|reflexivity].
  - apply everywhere_map in He as [_ He]. rewrite lua_map, push_spec, slots_map. cbn [show].
    assert (G : forall t, (m = [] -> zlen st + 1 <= cap) -> map_items cap m (LTab t :: st) =
      if zlen st + (1 + most_map m) <=? cap then Ok (LTab (names (map (fun kv => (cstr (fst kv), show (snd kv))) m) t) :: st) else Undef).
    { induction m as [|[k e] m IHm]; intros t Hc.
      - cbn. destruct (Z.leb_spec (zlen st + 1) cap); [reflexivity|]. specialize (Hc eq_refl). lia.
      - inversion IH; inversion He; subst. cbn [snd] in *. cbn [map_items most_map map names fst snd]. fold (map_items cap). fold most_map.
        rewrite push_spec, zlen_cons. pose proof (slots_pos e). pose proof (most_map_nonneg m).
        destruct (Z.leb_spec (zlen st + 1 + 1) cap) as [C|C]; cbn [bind].
        + rewrite H1, !zlen_cons by assumption.
          destruct (Z.leb_spec (zlen st + 1 + 1 + slots e) cap) as [C'|C']; cbn [bind settable].
          * rewrite IHm by (try assumption; intros _; lia).
            destruct (Z.leb_spec (zlen st + (1 + most_map m)) cap), (Z.leb_spec (zlen st + (1 + Z.max (1 + slots e) (most_map m))) cap); (reflexivity || lia).
          * destruct (Z.leb_spec (zlen st + (1 + Z.max (1 + slots e) (most_map m))) cap); [lia|reflexivity].
        + destruct (Z.leb_spec (zlen st + (1 + Z.max (1 + slots e) (most_map m))) cap); [lia|reflexivity]. }
    destruct (Z.leb_spec (zlen st + 1) cap) as [C|C]; cbn [bind]; [apply G; auto|].
    pose proof (most_map_nonneg m). destruct (Z.leb_spec (zlen st + (1 + most_map m)) cap); [lia|reflexivity].
Qed.

(** What the tables contain. *)
Lemma nums_spec l : forall i t, 0 <= i -> i + zlen l < 2^31 -> full t -> only_keys (upto i) t ->
  full (nums i l t) /\ only_keys (upto (i + zlen l)) (nums i l t) /\
  (forall k, 1 <= k <= i -> tget (LInt k) (nums i l t) = tget (LInt k) t) /\
  (forall k v, znth k l = Some v -> tget (LInt (i + k + 1)) (nums i l t) = v).
Proof.
  induction l as [|v l IH]; intros i t Hi Hl F O.
  - cbn [nums]. rewrite zlen_nil, Z.add_0_r. repeat split; auto. intros k v H. exfalso. unfold znth in H.
    destruct (k <? 0); [discriminate|]. destruct (Z.to_nat k); discriminate.
  - rewrite zlen_cons in Hl. pose proof (zlen_nonneg l). cbn [nums]. rewrite to_i32_id by (unfold int32; lia).
    assert (N : tget (LInt (i + 1)) t = LNil).
    { destruct (is_nil (tget (LInt (i + 1)) t)) eqn:E; [now apply is_nil_spec|]. destruct (O (LInt (i + 1))) as (j & Ej & B).
      - intros E'. rewrite E' in E. discriminate.
      - injection Ej as <-. lia. }
    destruct (IH (i + 1) (tset (LInt (i + 1)) v t)) as (I1 & I2 & I3 & I4); try lia.
    + apply tset_full; auto. apply key_int.
    + intros k Hk.
      assert (D : k = LInt (i + 1) \/ k <> LInt (i + 1)).
      { destruct k as [| |z| | | |]; try (right; discriminate). destruct (Z.eq_dec z (i + 1)); [left|right]; congruence. }
      destruct D as [->|D]; [exists (i + 1); split; [reflexivity|lia]|].
      rewrite tget_tset_other in Hk by (auto using key_int). destruct (O k Hk) as (j & -> & B). exists j. split; [reflexivity|lia].
    + replace (i + zlen (v :: l)) with (i + 1 + zlen l) by (rewrite zlen_cons; lia). split; [assumption|]. split; [assumption|]. split.
      * intros k Hk. rewrite I3 by lia. apply tget_tset_other; auto using key_int. intros E. injection E as ->. lia.
      * intros k w Hw. unfold znth in Hw. destruct (Z.ltb_spec k 0); [discriminate|].
        destruct (Z.to_nat k) as [|n] eqn:En.
        -- cbn in Hw. injection Hw as <-. replace (i + k + 1) with (i + 1) by lia. rewrite I3 by lia. apply tget_tset_same; auto using key_int.
        -- cbn in Hw. replace (i + k + 1) with (i + 1 + (k - 1) + 1) by lia. apply I4. unfold znth.
           destruct (Z.ltb_spec (k - 1) 0); [lia|]. replace (Z.to_nat (k - 1)) with n by lia. exact Hw.
Qed.
Lemma nums_shows {A} (S : A -> lua -> Prop) (f : A -> lua) l : zlen l < 2^31 -> (forall a, In a l -> S a (f a)) ->
  shows_list S l (LTab (nums 0 (map f l) [])).
Proof.
  intros Hl HS. assert (E : zlen (map f l) = zlen l) by (unfold zlen; now rewrite map_length).
  destruct (nums_spec (map f l) 0 []) as (_ & O & _ & G); try lia; try constructor.
  { intros k H. now contradiction H. }
  exists (nums 0 (map f l) []). split; [reflexivity|]. rewrite E in O. split; [exact O|].
  intros i a H. specialize (G i (f a)). rewrite Z.add_0_l in G. rewrite G.
  - apply HS. unfold znth in H. destruct (i <? 0); [discriminate|]. now apply nth_error_In in H.
  - unfold znth in *. destruct (i <? 0); [discriminate|]. now apply map_nth_error.
Qed.
Lemma names_spec m : forall t, NoDup (map fst m) -> full t -> (forall k, In k (map fst m) -> tget (LStr k) t = LNil) ->
  full (names m t) /\
  (forall k, tget k (names m t) <> LNil -> tget k t <> LNil \/ exists s, k = LStr s /\ In s (map fst m)) /\
  (forall k, ~ (exists s, k = LStr s /\ In s (map fst m)) -> tget k (names m t) = tget k t) /\
  (forall k v, In (k, v) m -> tget (LStr k) (names m t) = v).
Proof.
  induction m as [|[s v] m IH]; intros t Hd F N.
  - cbn [names]. repeat split; auto. intros k v [].
  - cbn [map fst] in Hd. inversion Hd; subst. cbn [names].
    assert (Ns : tget (LStr s) t = LNil) by (apply N; now left).
    destruct (IH (tset (LStr s) v t)) as (I1 & I2 & I3 & I4); auto.
    + apply tset_full; auto using key_str.
    + intros k Hk. rewrite tget_tset_other; auto using key_str; [apply N; now right|]. intros E. injection E as ->. contradiction.
    + split; [assumption|]. split; [|split].
      * intros k Hk. apply I2 in Hk as [Hk|(s' & -> & Hs)]; [|right; exists s'; split; [reflexivity|now right]].
        assert (D : k = LStr s \/ k <> LStr s).
        { destruct k as [| | | |z| |]; try (right; discriminate). destruct (string_dec z s); [left|right]; congruence. }
        destruct D as [->|D]; [right; exists s; split; [reflexivity|now left]|].
        left. now rewrite tget_tset_other in Hk by (auto using key_str).
      * intros k Hk. rewrite I3; [apply tget_tset_other; auto using key_str|].
        -- intros ->. apply Hk. exists s. split; [reflexivity|now left].
        -- intros (s' & -> & Hs). apply Hk. exists s'. split; [reflexivity|now right].
      * intros k w [E|Hk]; [|now apply I4]. injection E as <- <-. rewrite I3; [apply tget_tset_same; auto using key_str|].
        intros (s' & E & Hs). injection E as <-. contradiction.
Qed.

Lemma show_shows g : wf g -> everywhere showable_node g -> shows g (show g).
Proof.
  induction g as [g Hv Hm | v IH | m IH] using gc_nest_ind; intros Hw Hs.
  - apply everywhere_here in Hs. destruct g; cbn [showable_node] in Hs; try contradiction; cbn [shows show]; try reflexivity;
      try (now contradiction (Hv v)); try (now contradiction (Hm m)).
    + eexists. split; [reflexivity|]. apply int32_exact. exact Hw.
    + eexists. split; [reflexivity|]. apply nearest_exact; [|assumption]. apply f_of_Z_nearest. cbn in Hw. unfold int64 in Hw. lia.
    + now rewrite cstr_id.
    + apply nums_shows; [assumption|]. intros a Ha. eexists. split; [reflexivity|]. apply int32_exact. cbn in Hw.
      rewrite Forall_forall in Hw. now apply Hw.
    + destruct Hs as [Hs Hr]. apply nums_shows; [assumption|]. intros a Ha. eexists. split; [reflexivity|].
      cbn in Hw. rewrite Forall_forall in Hw, Hr. apply nearest_exact; [|now apply Hr]. apply f_of_Z_nearest.
      specialize (Hw a Ha). unfold int64 in Hw. lia.
    + now apply nums_shows.
    + destruct Hs as [Hs Hr]. apply nums_shows; [assumption|]. intros a Ha. rewrite Forall_forall in Hr. now rewrite cstr_id by auto.
  - apply wf_vec in Hw. apply everywhere_vec in Hs as [Hn Hs]. cbn [showable_node] in Hn. cbn [shows show].
    destruct (nums_shows (fun e x => shows e x) show v Hn) as (t & Et & O & G).
    { intros a Ha. rewrite Forall_forall in IH, Hw, Hs. auto. }
    injection Et as Et. exists t. split; [now rewrite Et|]. split; [assumption|].
    assert (G' : forall i a, znth i v = Some a -> shows a (tget (LInt (1 + i)) t)).
    { intros i a Ha. replace (1 + i) with (i + 1) by lia. now apply G. }
    revert G'. clear. assert (H : forall l i0, (forall i a, znth i l = Some a -> shows a (tget (LInt (i0 + i)) t)) ->
      (fix all (l : list gc) (i : Z) : Prop :=
         match l with [] => True | e :: l' => shows e (tget (LInt i) t) /\ all l' (i + 1) end) l i0); [|apply H].
    induction l as [|e l IH]; intros i0 G; [exact I|]. split.
    + specialize (G 0 e eq_refl). now rewrite Z.add_0_r in G.
    + apply IH. intros i a Ha. replace (i0 + 1 + i) with (i0 + (i + 1)) by lia. apply G. unfold znth in *.
      destruct (Z.ltb_spec i 0); [discriminate|]. destruct (Z.ltb_spec (i + 1) 0); [lia|].
      replace (Z.to_nat (i + 1)) with (S (Z.to_nat i)) by lia. exact Ha.
  - apply wf_map in Hw as [Hso Hw]. apply everywhere_map in Hs as [Hn Hs]. cbn [showable_node] in Hn. cbn [shows show].
    assert (E : map (fun kv => (cstr (fst kv), show (snd kv))) m = map (fun kv => (fst kv, show (snd kv))) m).
    { apply List.map_ext_in. intros kv Hkv. rewrite cstr_id; [reflexivity|]. rewrite Forall_forall in Hn. apply Hn. now apply in_map. }
    rewrite E. assert (Ek : map fst (map (fun kv => (fst kv, show (snd kv))) m) = map fst m) by (rewrite map_map; reflexivity).
    destruct (names_spec (map (fun kv => (fst kv, show (snd kv))) m) []) as (_ & O & _ & G).
    { rewrite Ek. now apply msorted_nodup. }
    { constructor. }
    { intros; reflexivity. }
    rewrite Ek in O. eexists. split; [reflexivity|]. split.
    { intros k Hk. apply O in Hk as [Hk|Hk]; [now contradiction Hk|exact Hk]. }
    revert G. generalize (names (map (fun kv => (fst kv, show (snd kv))) m) []) as t. intros t G.
    assert (G' : forall kv, In kv m -> tget (LStr (fst kv)) t = show (snd kv)).
    { intros kv Hkv. apply G. apply in_map_iff. now exists kv. }
    clear -IH Hw Hs G'. induction m as [|[k e] m IHm]; [exact I|]. inversion IH; inversion Hw; inversion Hs; subst. cbn [snd] in *.
    split; [|apply IHm; try assumption; intros kv Hkv; apply G'; now right].
    specialize (G' (k, e) (or_introl eq_refl)). cbn in G'. rewrite G'. auto.
Qed.
