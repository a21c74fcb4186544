(** Lemmas about map lookups, indexing and nested paths. *)
From Coq Require Import ZArith Bool Lia Ascii String List Sorted.
From Verif Require Import Base F64 StrMap Value MBasic MGet SGet LGet MMap SMap.
Import ListNotations.
Local Open Scope Z_scope.

Lemma wfm_sorted m : wfm (GMap m) -> msorted m.
Proof. rewrite wfm_map. tauto. Qed.

Lemma has_entry_map k e m : msorted m -> has_entry k e (GMap m) <-> mfind k m = Some e.
Proof.
  intros Hs. unfold has_entry. split.
  - intros (m' & [= <-] & H). now apply in_mfind.
  - intros H. exists m. split; [reflexivity|]. now apply mfind_in.
Qed.

Lemma has_key_map k m : msorted m -> has_key k (GMap m) <-> mhas k m = true.
Proof.
  intros Hs. unfold has_key, mhas. split.
  - intros [e H]. apply has_entry_map in H; [|assumption]. now rewrite H.
  - destruct (mfind k m) as [e|] eqn:E; [|discriminate]. intros _. exists e.
    now apply has_entry_map.
Qed.

Lemma has_key_not_map k g : (forall m, g <> GMap m) -> ~ has_key k g.
Proof. intros H (e & m & E & _). now apply (H m). Qed.

Lemma has_entry_fun k e e' g : wfm g -> has_entry k e g -> has_entry k e' g -> e = e'.
Proof.
  intros Hw (m & -> & H) (m' & [= <-] & H'). apply wfm_sorted in Hw.
  apply in_mfind in H; [|assumption]. apply in_mfind in H'; [|assumption]. congruence.
Qed.

Lemma get_keys_in k g : In k (get_keys g) <-> has_key k g.
Proof.
  unfold has_key, has_entry. destruct g as [ | | | | | | | | | | | | | | | | | | | v | m]; cbn [get_keys];
    try (split; [easy | intros (e & m' & E & _); discriminate]).
  rewrite in_map_iff. split.
  - intros ([k' e] & E & H). cbn in E. subst. eauto.
  - intros (e & m' & [= <-] & H). exists (k, e). auto.
Qed.

Lemma call_key_spec k g : wfm g -> no_nul k ->
  (forall e, call_key k g = Ok e <-> has_entry k e g) /\
  (~ has_key k g -> call_key k g = Throw).
Proof.
  intros Hw Hk. split.
  - intros e. destruct g as [ | | | | | | | | | | | | | | | | | | | v | m]; cbn [call_key];
      try (split; [discriminate | intros (m' & E & _); discriminate]).
    rewrite has_entry_map by now apply wfm_sorted. rewrite cstr_id by assumption.
    destruct (mfind k m); split; congruence.
  - intros H. destruct g as [ | | | | | | | | | | | | | | | | | | | v | m]; try reflexivity.
    cbn [call_key]. rewrite cstr_id by assumption.
    rewrite has_key_map in H by now apply wfm_sorted. unfold mhas in H.
    destruct (mfind k m); [now contradiction H|reflexivity].
Qed.

(** *** with_key *)
Lemma with_key_spec {A} k (f : gc -> out A * gc) m : msorted m -> no_nul k ->
  let e := match mfind k m with Some e => e | None => GNone end in
  with_key k f (GMap m) = (fst (f e), GMap (mset k (snd (f e)) m)).
Proof.
  intros Hs Hk. unfold with_key. cbn [old_map]. rewrite cstr_id by assumption. cbv zeta.
  destruct (f _); reflexivity.
Qed.

Lemma mset_keys_iff k v (m : list (string * gc)) x :
  In x (map fst (mset k v m)) <-> x = k \/ In x (map fst m).
Proof.
  rewrite <- !mfind_key_in. destruct (string_dec x k) as [->|N].
  - split; [auto|]. intros _. exists v. apply mfind_mset_same.
  - rewrite mfind_mset_other by assumption. intuition.
Qed.

(** *** with_idx *)
Lemma check_resize_grow {A} (d : A) i v : 0 <= i < 2^32 - 1 ->
  check_resize d i v = v ++ repeat d (Z.to_nat (i + 1) - length v) /\
  zlen (check_resize d i v) = Z.max (zlen v) (i + 1).
Proof.
  intros Hi. unfold check_resize. rewrite to_u32_id by (unfold uint32; lia).
  destruct (Z.leb_spec (zlen v) i) as [L|L].
  - rewrite resize_grow by (unfold zlen in L; lia). split; [reflexivity|].
    rewrite zlen_app, zlen_repeat. unfold zlen in *. lia.
  - replace (Z.to_nat (i + 1) - length v)%nat with O by (unfold zlen in L; lia).
    cbn [repeat]. rewrite app_nil_r. split; [reflexivity|]. lia.
Qed.

Lemma check_resize_nth {A} (d : A) i v n : 0 <= i < 2^32 - 1 ->
  nth_error (check_resize d i v) n =
  if (n <? length v)%nat then nth_error v n
  else if (n <=? Z.to_nat i)%nat then Some d else None.
Proof.
  intros Hi. destruct (check_resize_grow d i v Hi) as [-> _].
  destruct (Nat.ltb_spec n (length v)) as [L|L].
  - now apply nth_error_app1.
  - rewrite nth_error_app2 by assumption.
    destruct (Nat.leb_spec n (Z.to_nat i)) as [K|K].
    + rewrite nth_error_repeat; [reflexivity|lia].
    + apply nth_error_None. rewrite repeat_length. lia.
Qed.

Lemma znth_nth {A} i (v : list A) : 0 <= i -> znth i v = nth_error v (Z.to_nat i).
Proof. intros. unfold znth. rewrite (proj2 (Z.ltb_ge _ _)) by lia. reflexivity. Qed.

(** The element operator[](i) refers to. *)
Definition slot (i : Z) (v : list gc) : gc :=
  match nth_error v (Z.to_nat i) with Some e => e | None => GNone end.

Lemma check_resize_slot i v : 0 <= i < 2^32 - 1 ->
  znth i (check_resize GNone i v) = Some (slot i v).
Proof.
  intros Hi. rewrite znth_nth by lia. rewrite check_resize_nth by assumption.
  unfold slot. destruct (Nat.ltb_spec (Z.to_nat i) (length v)) as [L|L].
  - destruct (nth_error v (Z.to_nat i)) eqn:E; [reflexivity|].
    apply nth_error_None in E. lia.
  - rewrite (proj2 (nth_error_None _ _)) by assumption.
    now rewrite Nat.leb_refl.
Qed.

Lemma with_idx_spec {A} i (f : gc -> out A * gc) g : 0 <= i < 2^32 - 1 ->
  with_idx i f g = (fst (f (slot i (old_vec g))),
    GVec (lset (Z.to_nat i) (snd (f (slot i (old_vec g)))) (check_resize GNone i (old_vec g)))).
Proof.
  intros Hi. unfold with_idx. rewrite check_resize_slot by assumption.
  destruct (f _); reflexivity.
Qed.

Lemma call_idx_spec i g : 0 <= i ->
  (forall e, call_idx i g = Ok e <-> exists v, g = GVec v /\ nth_error v (Z.to_nat i) = Some e) /\
  ((~ exists v e, g = GVec v /\ nth_error v (Z.to_nat i) = Some e) -> call_idx i g = Throw).
Proof.
  intros Hi. assert (K : forall v : list gc, (i <? zlen v) = (Z.to_nat i <? length v)%nat).
  { intros v. destruct (Z.ltb_spec i (zlen v)), (Nat.ltb_spec (Z.to_nat i) (@length gc v));
      unfold zlen in *; lia. }
  split.
  - intros e. destruct g as [ | | | | | | | | | | | | | | | | | | | v | m]; cbn [call_idx];
      try (split; [discriminate | intros (v' & E & _); discriminate]).
    rewrite K. unfold raw_at. rewrite znth_nth by assumption.
    destruct (Nat.ltb_spec (Z.to_nat i) (length v)) as [L|L]; cbn [gc_assert].
    + destruct (nth_error v (Z.to_nat i)) eqn:E; [|apply nth_error_None in E; lia].
      split; [intros [= <-]; eauto | intros (v' & [= <-] & E'); congruence].
    + split; [discriminate|]. intros (v' & [= <-] & E).
      rewrite (proj2 (nth_error_None _ _)) in E by assumption. discriminate.
  - intros H. destruct g as [ | | | | | | | | | | | | | | | | | | | v | m]; try reflexivity.
    cbn [call_idx]. rewrite K. destruct (Nat.ltb_spec (Z.to_nat i) (length v)) as [L|L]; [|reflexivity].
    exfalso. apply H. apply nth_error_Some in L.
    destruct (nth_error v (Z.to_nat i)) eqn:E; [eauto|congruence].
Qed.

Lemma call_idx_at i v e : 0 <= i -> nth_error v (Z.to_nat i) = Some e -> call_idx i (GVec v) = Ok e.
Proof. intros Hi H. apply (proj1 (call_idx_spec i (GVec v) Hi)). eauto. Qed.

(** *** first_key *)
Lemma first_key_some ks m k e : first_key ks m = Some (k, e) <->
  exists pre post, ks = pre ++ k :: post /\ (forall x, In x pre -> mfind x m = None) /\
                   mfind k m = Some e.
Proof.
  split.
  - induction ks as [|a ks IH]; cbn [first_key]; [discriminate|].
    destruct (mfind a m) as [e'|] eqn:E.
    + intros [= <- <-]. exists [], ks. repeat split; auto. intros x [].
    + intros H. destruct (IH H) as (pre & post & -> & Hp & He). exists (a :: pre), post.
      repeat split; auto. intros x [<-|Hx]; auto.
  - intros (pre & post & -> & Hp & He). induction pre as [|a pre IH]; cbn [first_key app].
    + now rewrite He.
    + rewrite (Hp a) by (now left). apply IH. intros x Hx. apply Hp. now right.
Qed.

Lemma first_key_none ks m : first_key ks m = None <-> forall k, In k ks -> mfind k m = None.
Proof.
  induction ks as [|a ks IH]; cbn [first_key]; [split; [intros _ k [] | reflexivity]|].
  destruct (mfind a m) as [e|] eqn:E.
  - split; [discriminate|]. intros H. rewrite (H a) in E by (now left). discriminate.
  - rewrite IH. split; [intros H k [<-|Hk]; auto | intros H k Hk; apply H; now right].
Qed.

(** *** get_if_exists is the conversion getter on the entry *)
Definition as_opt {A} (x : out A) : out (option A) :=
  match x with Ok a => Ok (Some a) | Throw => Ok None | Undef => Undef | Diverge => Diverge end.

Lemma fcast_not_throw lo hi x : fcast lo hi x <> Throw.
Proof. unfold fcast. destruct (fscaled x); [destruct (_ && _)|]; discriminate. Qed.

Lemma if_num_assert {A} c (x : out A) : x <> Throw -> if_num c x = as_opt (gc_assert c x).
Proof. intros H. destruct c; [|reflexivity]. unfold if_num, gc_assert, as_opt, omap, bind. now destruct x. Qed.

Lemma if_map_spec {A} k g (f : gc -> out (option A)) : wfm g -> no_nul k ->
  (forall e, has_entry k e g -> if_map k g f = f e) /\ (~ has_key k g -> if_map k g f = Ok None).
Proof.
  intros Hw Hk. unfold if_map. split.
  - intros e (m & -> & H). rewrite cstr_id by assumption.
    rewrite (in_mfind k e m); auto. now apply wfm_sorted.
  - intros H. destruct g as [ | | | | | | | | | | | | | | | | | | | v | m]; try reflexivity.
    rewrite cstr_id by assumption. rewrite has_key_map in H by now apply wfm_sorted.
    unfold mhas in H. destruct (mfind k m); [now contradiction H|reflexivity].
Qed.

Lemma gie_int_as k e g : wfm g -> no_nul k -> has_entry k e g -> gie_int k g = as_opt (get_as_int e).
Proof.
  intros Hw Hk He. unfold gie_int. rewrite (proj1 (if_map_spec k g _ Hw Hk) e He).
  destruct e as [| |b|i|l|r|[re im]| | | | | | | | | | | | | |]; try reflexivity; cbn [get_as_int].
  - apply if_num_assert, fcast_not_throw.
  - rewrite andb_comm. apply if_num_assert, fcast_not_throw.
Qed.
Lemma gie_long_as k e g : wfm g -> no_nul k -> has_entry k e g -> gie_long k g = as_opt (get_as_long e).
Proof.
  intros Hw Hk He. unfold gie_long. rewrite (proj1 (if_map_spec k g _ Hw Hk) e He).
  destruct e as [| |b|i|l|r|[re im]| | | | | | | | | | | | | |]; try reflexivity; cbn [get_as_long].
  - apply if_num_assert, fcast_not_throw.
  - rewrite andb_comm. apply if_num_assert, fcast_not_throw.
Qed.
Lemma ltb_leb_assert {A} i (x : A) : (if i <? 0 then Ok None else Ok (Some x)) = as_opt (gc_assert (0 <=? i) (Ok x)).
Proof. destruct (Z.ltb_spec i 0), (Z.leb_spec 0 i); try reflexivity; lia. Qed.
Lemma unsigned_ge r : fge0 r && is_unsigned r = is_unsigned r.
Proof. unfold is_unsigned. destruct (is_integer r), (fge0 r); reflexivity. Qed.
Lemma gie_uint_as k e g : wfm g -> no_nul k -> has_entry k e g -> gie_uint k g = as_opt (get_as_uint e).
Proof.
  intros Hw Hk He. unfold gie_uint. rewrite (proj1 (if_map_spec k g _ Hw Hk) e He).
  destruct e as [| |b|i|l|r|[re im]| | | | | | | | | | | | | |]; try reflexivity; cbn [get_as_uint].
  - apply ltb_leb_assert.
  - apply ltb_leb_assert.
  - rewrite unsigned_ge. apply if_num_assert, fcast_not_throw.
  - rewrite andb_comm. apply if_num_assert, fcast_not_throw.
Qed.
Lemma gie_ulong_as k e g : wfm g -> no_nul k -> has_entry k e g -> gie_ulong k g = as_opt (get_as_ulong e).
Proof.
  intros Hw Hk He. unfold gie_ulong. rewrite (proj1 (if_map_spec k g _ Hw Hk) e He).
  destruct e as [| |b|i|l|r|[re im]| | | | | | | | | | | | | |]; try reflexivity; cbn [get_as_ulong].
  - apply ltb_leb_assert.
  - apply ltb_leb_assert.
  - rewrite unsigned_ge. apply if_num_assert, fcast_not_throw.
  - rewrite andb_comm. apply if_num_assert, fcast_not_throw.
Qed.

Lemma has_entry_wf k e g : wf g -> has_entry k e g -> wf e.
Proof.
  intros Hw (m & -> & H). apply wf_map in Hw as [_ Hw]. rewrite Forall_forall in Hw.
  now apply (Hw (k, e)).
Qed.

Lemma gie_real_cases k e g : wf g -> no_nul k -> no_tiny e -> has_entry k e g ->
  (exists x, gie_real k g = Ok (Some x) /\ real_conv e x) \/
  (gie_real k g = Ok None /\ forall x, ~ real_conv e x).
Proof.
  intros Hw Hk Ht He. pose proof (has_entry_wf k e g Hw He) as Hwe. unfold gie_real.
  rewrite (proj1 (if_map_spec k g _ (wf_wfm g Hw) Hk) e He).
  unfold real_conv.
  destruct e as [| |b|i|l|r|[re im]| | | | | | | | | | | | | |]; cbn [real_of no_tiny wf] in *;
    try (right; split; [reflexivity|]; intros x [H|(? & H & _)]; [exact H|discriminate]).
  - left. eexists; split; [reflexivity|]. left. apply f_of_bool_is.
  - left. eexists; split; [reflexivity|]. left. now apply int32_exact.
  - left. eexists; split; [reflexivity|]. left. apply f_of_Z_nearest. now apply int64_abs.
  - left. eexists; split; [reflexivity|]. now left.
  - destruct Hwe as [_ Hwe], Ht as [_ Ht]. cbn [snd] in Hwe.
    destruct (zero0_or im Hwe Ht) as [[Hz ->]|[Hz ->]].
    + left. exists re. split; [reflexivity|]. right. eauto.
    + right. split; [reflexivity|]. intros x [H|(im' & [= <- <-] & H)]; [exact H|now apply Hz].
Qed.

Lemma gie_complex_cases k e g : wf g -> no_nul k -> has_entry k e g ->
  (exists c, gie_complex k g = Ok (Some c) /\ cplx_of e c) \/
  (gie_complex k g = Ok None /\ forall c, ~ cplx_of e c).
Proof.
  intros Hw Hk He. pose proof (has_entry_wf k e g Hw He) as Hwe. unfold gie_complex.
  rewrite (proj1 (if_map_spec k g _ (wf_wfm g Hw) Hk) e He).
  destruct e; cbn [cplx_of real_of wf] in *; try (right; split; [reflexivity | tauto]);
    left; eexists; (split; [reflexivity|]); cbn [fst snd]; try (split; [|reflexivity]); try reflexivity.
  - apply f_of_bool_is.
  - now apply int32_exact.
  - apply f_of_Z_nearest. now apply int64_abs.
Qed.

(** *** multi-key get_if_exists *)
Lemma gie_list_spec {A} (get : string -> gc -> out (option A)) ks g :
  (forall v, gie_list get ks g = Ok (Some v) <->
     exists pre k post, ks = pre ++ k :: post /\ (forall x, In x pre -> get x g = Ok None) /\
                        get k g = Ok (Some v)) /\
  (gie_list get ks g = Ok None <-> forall k, In k ks -> get k g = Ok None).
Proof.
  induction ks as [|a ks [IH1 IH2]].
  - split.
    + intros v. split; [discriminate|]. intros (pre & k & post & E & _). now destruct pre.
    + split; [intros _ k []|reflexivity].
  - split.
    + intros v. cbn [gie_list]. split.
      * intros H. apply bind_ok in H as (r & Hr & H). destruct r as [w|].
        -- exists [], a, ks. split; [reflexivity|]. split; [intros x []|]. congruence.
        -- apply IH1 in H as (pre & k & post & -> & Hp & He). exists (a :: pre), k, post.
           split; [reflexivity|]. split; [|assumption]. intros x [<-|Hx]; auto.
      * intros (pre & k & post & E & Hp & He). destruct pre as [|b pre].
        -- injection E as <- <-. rewrite He. reflexivity.
        -- injection E as <- ->. rewrite (Hp a) by (now left). cbn [bind].
           apply IH1. exists pre, k, post. split; [reflexivity|]. split; [|assumption].
           intros x Hx. apply Hp. now right.
    + cbn [gie_list]. split.
      * intros H. apply bind_ok in H as (r & Hr & H). destruct r as [w|]; [discriminate|].
        intros k [<-|Hk]; [assumption|]. now apply IH2.
      * intros H. rewrite (H a) by (now left). cbn [bind]. apply IH2. intros k Hk. apply H. now right.
Qed.

Lemma gie_bool_list_never ks g b : gie_bool_list ks g <> Ok (Some b).
Proof.
  destruct g as [ | | | | | | | | | | | | | | | | | | | v | m]; cbn [gie_bool_list]; try discriminate.
  induction ks as [|k ks IH]; cbn [gie_bool_list_m]; [discriminate|].
  destruct (mfind k m) as [e|]; [|assumption]. destruct e; try discriminate. assumption.
Qed.

(** *** paths *)
Lemma slot_lset i x v : 0 <= i < 2^32 - 1 ->
  nth_error (lset (Z.to_nat i) x (check_resize GNone i v)) (Z.to_nat i) = Some x.
Proof.
  intros Hi. apply lset_nth_same. destruct (check_resize_grow GNone i v Hi) as [_ H].
  unfold zlen in H. lia.
Qed.

Lemma path_write_read {A} p (f : gc -> out A * gc) v g :
  Forall step_ok p -> (forall e, snd (f e) = v) ->
  read_path p (snd (with_path p f g)) = Ok v.
Proof.
  intros Hp Hf. revert g. induction p as [|s p IH]; intros g.
  - cbn. now rewrite Hf.
  - inversion Hp as [|? ? Hs Hp']; subst. specialize (IH Hp'). destruct s as [k|i].
    + cbn [with_path read_path]. unfold with_key. destruct (with_path p f _) as [r e] eqn:E.
      cbn [snd call_key]. rewrite mfind_mset_same. cbn [bind].
      specialize (IH (match mfind (cstr k) (old_map g) with Some e => e | None => GNone end)).
      rewrite E in IH. exact IH.
    + cbn [step_ok] in Hs. cbn [with_path read_path]. rewrite with_idx_spec by assumption. cbn [snd].
      erewrite call_idx_at; [|lia|now apply slot_lset]. cbn [bind]. apply IH.
Qed.

Definition wfm_slot i v : wfm (GVec v) -> wfm (slot i v).
Proof.
  rewrite wfm_vec. intros H. unfold slot. destruct (nth_error v (Z.to_nat i)) eqn:E; [|exact I].
  apply nth_error_In in E. rewrite Forall_forall in H. auto.
Qed.

Lemma compatible_none p : compatible p GNone.
Proof. destruct p as [|[|]]; cbn; auto. Qed.

(** A path that diverges keeps reading what it read; a read that failed still fails, except
    that it may now find an empty filler element. *)
Lemma path_frame {A} p q (f : gc -> out A * gc) g :
  wfm g -> Forall step_ok p -> Forall step_ok q -> diverge p q -> compatible p g ->
  (forall e, read_path q g = Ok e -> read_path q (snd (with_path p f g)) = Ok e) /\
  (read_path q g = Throw -> read_path q (snd (with_path p f g)) = Throw \/
                            read_path q (snd (with_path p f g)) = Ok GNone).
Proof.
  intros Hw Hp Hq Hd. revert g Hw. induction Hd as [k k' p q N|i i' p q N|s p q Hd IH]; intros g Hw Hc.
  - inversion Hp as [|? ? Hk _]; subst. inversion Hq as [|? ? Hk' _]; subst. cbn [step_ok] in *.
    cbn [compatible] in Hc. destruct Hc as [->|(m & -> & _)].
    + split; [discriminate|]. intros _. left. cbn [with_path]. unfold with_key. cbn [old_map mfind].
      destruct (with_path p f GNone) as [r e]. cbn [snd read_path call_key].
      rewrite !cstr_id by assumption. rewrite mfind_mset_other by auto. reflexivity.
    + apply wfm_sorted in Hw. cbn [with_path]. rewrite with_key_spec by assumption. cbn [snd read_path call_key].
      rewrite !cstr_id by assumption. rewrite mfind_mset_other by auto. tauto.
  - inversion Hp as [|? ? Hi _]; subst. inversion Hq as [|? ? Hi' _]; subst. cbn [step_ok] in *.
    cbn [with_path]. rewrite with_idx_spec by assumption. cbn [snd].
    set (x := snd (with_path p f (slot i (old_vec g)))).
    assert (HN : forall n, nth_error (lset (Z.to_nat i) x (check_resize GNone i (old_vec g))) (Z.to_nat i') = n ->
                 n = if (Z.to_nat i' <? length (old_vec g))%nat then nth_error (old_vec g) (Z.to_nat i')
                     else if (Z.to_nat i' <=? Z.to_nat i)%nat then Some GNone else None).
    { intros n <-. rewrite lset_nth_other by lia. now apply check_resize_nth. }
    cbn [read_path]. set (w := lset _ x _) in *.
    cbn [compatible] in Hc. split.
    + intros e He. apply bind_ok in He as (a & Ha & He).
      apply (proj1 (call_idx_spec i' g ltac:(lia))) in Ha as (v & -> & Ha). cbn [old_vec] in *.
      rewrite (call_idx_at i' w a); [exact He|lia|]. rewrite (HN _ eq_refl).
      rewrite (proj2 (Nat.ltb_lt _ _)); [assumption|]. apply nth_error_Some. congruence.
    + intros He. destruct (nth_error w (Z.to_nat i')) as [a|] eqn:Ew.
      * rewrite (call_idx_at i' w a) by (assumption || lia). cbn [bind]. pose proof (HN _ eq_refl) as Ew2. clear Ew. rename Ew2 into Ew.
        destruct (Nat.ltb_spec (Z.to_nat i') (length (old_vec g))) as [L|L].
        -- left. destruct Hc as [->|(v & -> & _)]; [cbn in L; lia|]. cbn [old_vec] in *.
           rewrite (call_idx_at i' v a) in He by (auto; lia). exact He.
        -- destruct (Nat.leb_spec (Z.to_nat i') (Z.to_nat i)); [|discriminate].
           apply Some_inj in Ew. subst a. destruct q as [|[k|j] q]; auto.
      * left. rewrite (proj2 (call_idx_spec i' (GVec w) ltac:(lia))); [reflexivity|].
        intros (v & e & [= <-] & C). rewrite Ew in C. discriminate.
  - inversion Hp as [|? ? Hs Hp']; subst. inversion Hq as [|? ? _ Hq']; subst.
    specialize (IH Hp' Hq'). destruct s as [k|i]; cbn [step_ok] in Hs.
    + cbn [compatible] in Hc. destruct Hc as [->|(m & -> & Hc)].
      * split; [discriminate|]. intros _. cbn [with_path]. unfold with_key. cbn [old_map mfind].
        destruct (with_path p f GNone) as [r e] eqn:E. cbn [snd read_path call_key].
        rewrite mfind_mset_same. cbn [bind].
        destruct (IH GNone I (compatible_none p)) as [_ H]. rewrite E in H. apply H.
        clear -Hd. inversion Hd; reflexivity || (destruct s; reflexivity).
      * pose proof (wfm_sorted m Hw) as Hs'. cbn [with_path]. rewrite with_key_spec by assumption.
        cbn [snd read_path call_key]. rewrite !cstr_id by assumption. rewrite mfind_mset_same. cbn [bind].
        destruct (mfind k m) as [e|] eqn:E.
        -- cbn [bind]. apply IH; [|apply Hc; now apply mfind_in].
           apply wfm_map in Hw as [_ Hw]. rewrite Forall_forall in Hw.
           apply (Hw (k, e)). now apply mfind_in.
        -- split; [discriminate|]. intros _. apply IH; [exact I|apply compatible_none|].
           clear -Hd. inversion Hd; reflexivity || (destruct s; reflexivity).
    + cbn [with_path]. rewrite with_idx_spec by assumption. cbn [snd read_path].
      erewrite call_idx_at; [|lia|now apply slot_lset]. cbn [bind].
      assert (Hsl : wfm (slot i (old_vec g)) /\ compatible p (slot i (old_vec g)) /\
                    (read_path (SIdx i :: q) g = read_path q (slot i (old_vec g)) \/
                     slot i (old_vec g) = GNone /\ read_path (SIdx i :: q) g = Throw)).
      { destruct Hc as [->|(v & -> & Hc)].
        - unfold slot. cbn [old_vec]. destruct (Z.to_nat i); cbn; auto using compatible_none.
        - cbn [old_vec]. split; [now apply wfm_slot|]. unfold slot in *.
          destruct (nth_error v (Z.to_nat i)) as [e|] eqn:E.
          + split; [auto|]. left. cbn [read_path].
            rewrite (call_idx_at i v e) by (assumption || lia). reflexivity.
          + split; [apply compatible_none|]. right. split; [reflexivity|]. cbn [read_path].
            rewrite (proj2 (call_idx_spec i (GVec v) ltac:(lia))); [reflexivity|].
            intros (v' & e & [= <-] & C). congruence. }
      destruct Hsl as (H1 & H2 & H3). specialize (IH _ H1 H2) as [I1 I2].
      cbn [read_path] in H3. destruct H3 as [H3|[H3 H4]].
      * rewrite H3. auto.
      * rewrite H4. split; [discriminate|]. intros _. apply I2. rewrite H3.
        clear -Hd. inversion Hd; reflexivity || (destruct s; reflexivity).
Qed.
