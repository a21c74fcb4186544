(** Property C100: keys given as string views. *)
From Coq Require Import ZArith Bool Lia Ascii String List Sorted.
From Verif Require Import Base F64 StrMap Value MBasic MGet SGet LGet MMap SMap LMap MView Props_map.
Import ListNotations.
Local Open Scope Z_scope.

(** The C string that starts where the view starts. *)
Definition c_name (v : view) (k : string) : Prop :=
  no_nul k /\ ((seen v ++ behind v)%string = k \/ exists r, (seen v ++ behind v)%string = (k ++ String Ascii.zero r)%string).
(** The view is all of a C string: no NUL in it and one behind it. *)
Definition whole (v : view) : Prop := no_nul (seen v) /\ (behind v = EmptyString \/ exists r, behind v = String Ascii.zero r).

Lemma cstr_app k r : no_nul k -> cstr (k ++ String Ascii.zero r)%string = k.
Proof.
  unfold no_nul. induction k as [|c k IH]; intros H; [reflexivity|]. cbn in *.
  destruct (Ascii.eqb_spec c Ascii.zero) as [->|]; [exfalso; auto|]. now rewrite IH by auto.
Qed.
Lemma c_name_cstr v k : c_name v k -> cstr (buffer v) = k.
Proof. unfold buffer. intros [H [->|[r ->]]]; [now apply cstr_id|now apply cstr_app]. Qed.
Lemma whole_name v : whole v -> c_name v (seen v).
Proof.
  intros [H [E|[r E]]]; split; try assumption; rewrite E; [left|right; now exists r].
  clear. induction (seen v) as [|c s IH]; [reflexivity|]. cbn. now rewrite IH.
Qed.
Lemma no_nul_cstr s : no_nul (cstr s).
Proof.
  unfold no_nul. induction s as [|c s IH]; cbn; [tauto|]. destruct (Ascii.eqb_spec c Ascii.zero); cbn; [tauto|]. intuition.
Qed.
Lemma cstr_split s : s = cstr s \/ exists r, s = (cstr s ++ String Ascii.zero r)%string.
Proof.
  induction s as [|c s IH]; [now left|]. cbn. destruct (Ascii.eqb_spec c Ascii.zero) as [->|]; [right; now exists s|].
  destruct IH as [E|[r E]]; [left; now rewrite <- E|right; exists r; cbn; now rewrite <- E].
Qed.
Lemma c_name_some v : exists k, c_name v k.
Proof. exists (cstr (buffer v)). split; [apply no_nul_cstr|]. destruct (cstr_split (buffer v)) as [E|[r E]]; [left; exact E|right; exists r; exact E]. Qed.

Lemma cstr_twice s : cstr (cstr s) = cstr s.
Proof. apply cstr_id, no_nul_cstr. Qed.

(** For every view: the functions other than get_map_bool and erase act on the member whose name is
    the C string that starts where the view starts. *)
Theorem C100_exact_partial : forall v g, wf g -> exists k, c_name v k /\
  (v_exists v g = true <-> has_key k g) /\
  (forall e, has_entry k e g ->
     v_call v g = Ok e /\ v_const_key v g = (Ok e, g) /\ (forall A (get : gc -> out A), v_get_map_c get v g = get e)) /\
  (~ has_key k g -> v_call v g = Throw /\ (forall A (get : gc -> out A), v_get_map_c get v g = Throw)) /\
  (forall A (f : gc -> out A * gc), v_key v f g = with_key k f g /\ v_call_with v f g = call_key_with k f g) /\ v_const_key v g = const_idx_key k g /\
  v_if gie_bool v g = gie_bool k g /\ v_if gie_int v g = gie_int k g /\ v_if gie_uint v g = gie_uint k g /\
  v_if gie_long v g = gie_long k g /\ v_if gie_ulong v g = gie_ulong k g /\ v_if gie_real v g = gie_real k g /\
  v_if gie_complex v g = gie_complex k g /\ v_if gie_string v g = gie_string k g.
Proof.
  intros v g Hw. destruct (c_name_some v) as [k Hk]. exists k. split; [exact Hk|]. pose proof (proj1 Hk) as Hn. apply c_name_cstr in Hk.
  unfold v_exists, v_call, v_const_key, v_get_map_c, get_map_c, v_key, v_call_with, v_if, gie_bool, gie_int, gie_uint, gie_long, gie_ulong, gie_real, gie_complex, gie_string, if_map, with_key, call_key_with, v_exists.
  rewrite Hk, !(cstr_id k Hn).
  destruct g as [ | | | | | | | | | | | | | | | | | | | w | m];
    try (split; [split; [discriminate|intros (e & ? & E & _); discriminate]|]; split; [intros e (? & E & _); discriminate|]; repeat split; fail).
  apply wf_map in Hw as [Hs _]. cbn [exists_key call_key const_idx_key map_at]. rewrite !Hk, ?(cstr_id k Hn). unfold mhas.
  split; [rewrite has_key_map by assumption; unfold mhas; destruct (mfind k m); tauto|].
  split; [intros e He; apply has_entry_map in He; [|assumption]; rewrite He; repeat split|].
  split; [|repeat split]. intros H. rewrite has_key_map in H by assumption. unfold mhas in H. destruct (mfind k m); [now contradiction H|]. split; reflexivity.
Qed.

(** A view that is all of a C string: every function acts on the member with that name. *)
Theorem C100_whole_partial : forall v g, wf g -> whole v ->
  (v_exists v g = true <-> has_key (seen v) g) /\
  (forall e, has_entry (seen v) e g ->
     v_call v g = Ok e /\ v_get_map_bool v g = get_bool e /\ (forall A (get : gc -> out A), v_get_map_c get v g = get e)) /\
  (~ has_key (seen v) g -> v_call v g = Throw /\ v_get_map_bool v g = Throw /\ (forall A (get : gc -> out A), v_get_map_c get v g = Throw)) /\
  (forall A (f : gc -> out A * gc), v_key v f g = with_key (seen v) f g /\ v_call_with v f g = call_key_with (seen v) f g) /\
  (v_exists v (snd (v_erase v g)) = false).
Proof.
  intros v g Hw Hv. destruct (C100_exact_partial v g Hw) as (k & Hk & A & B & C & D & _).
  assert (k = seen v) as -> by (rewrite <- (c_name_cstr v k Hk); now apply c_name_cstr, whole_name).
  split; [exact A|]. split; [|split; [|split; [exact D|]]].
  - intros e He. destruct (B e He) as (B1 & _ & B2). split; [exact B1|]. split; [|exact B2].
    unfold v_get_map_bool. rewrite (proj2 A) by now exists e. destruct He as (m & -> & Hm). apply wf_map in Hw as [Hs _].
    cbn [gc_assert map_at bind]. assert (mfind (seen v) m = Some e) as -> by (apply has_entry_map; [assumption|]; now exists m). reflexivity.
  - intros H. destruct (C H) as [C1 C2]. split; [exact C1|]. split; [|exact C2].
    unfold v_get_map_bool. destruct (v_exists v g) eqn:E; [exfalso; tauto|reflexivity].
  - unfold v_erase, v_exists. destruct g; try reflexivity. apply wf_map in Hw as [Hs _]. cbn [erase snd exists_key].
    rewrite (c_name_cstr v (seen v) Hk). unfold mhas. now rewrite mfind_merase_same.
Qed.

(** A view of the first part of a longer text: the member it names is not found, although erase finds
    it, and operator[] adds another member. *)
Theorem C100_refuted : forall s c r x, no_nul s -> c <> Ascii.zero ->
  let v := View s (String c r) in
  let g := GMap [(s, x)] in
  v_exists v g = false /\ v_call v g = Throw /\ v_get_map_bool v g = Throw /\
  (forall A (get : gc -> out A), v_get_map_c get v g = Throw) /\ v_if gie_real v g = Ok None /\
  (forall A (f : gc -> out A * gc), exists k, k <> s /\ forall k', has_key k' (snd (v_key v f g)) <-> k' = s \/ k' = k) /\
  v_erase v g = (Ok tt, GMap []).
Proof.
  intros s c r x Hs Hc v g.
  assert (E : exists r', cstr (buffer v) = (s ++ String c r')%string).
  { exists (cstr r). unfold buffer, v. cbn [seen behind]. clear g v x. unfold no_nul in Hs. induction s as [|d s IH]; cbn in *.
    - destruct (Ascii.eqb_spec c Ascii.zero); [contradiction|reflexivity].
    - destruct (Ascii.eqb_spec d Ascii.zero) as [->|]; [exfalso; auto|]. now rewrite IH by auto. }
  destruct E as [r' E]. assert (N : (s ++ String c r')%string <> s).
  { clear. induction s as [|d s IH]; [discriminate|]. cbn. intros H. injection H as H. contradiction. }
  assert (W : msorted [(s, x)]) by (repeat constructor).
  assert (F : mfind (s ++ String c r')%string [(s, x)] = None).
  { destruct (mfind (s ++ String c r')%string [(s, x)]) as [e|] eqn:G; [|reflexivity]. exfalso. apply N.
    assert (H : has_entry (s ++ String c r')%string e (GMap [(s, x)])) by (apply has_entry_map; assumption).
    destruct H as (m & M & I). injection M as <-. destruct I as [I|[]]. now injection I as <- _. }
  unfold v_get_map_bool, v_get_map_c, get_map_c, v_exists, v_call, v_if, gie_real, v_key, g. cbn [exists_key call_key if_map].
  rewrite E. unfold mhas. rewrite F. split; [reflexivity|]. split; [reflexivity|]. split; [reflexivity|]. split; [reflexivity|]. split; [reflexivity|]. split.
  - intros A f. exists (s ++ String c r')%string. split; [exact N|]. intros k'. unfold with_key. cbn [old_map]. rewrite E, F.
    destruct (f GNone) as [o e]. cbn [snd]. rewrite has_key_map by now apply mset_sorted.
    unfold mhas. destruct (string_dec k' (s ++ String c r')%string) as [->|D].
    + rewrite mfind_mset_same. tauto.
    + rewrite mfind_mset_other by auto. change (match mfind k' [(s, x)] with Some _ => true | None => false end) with (mhas k' [(s, x)]).
      rewrite <- has_key_map by assumption. split.
      * intros (y & m & M & I). injection M as <-. destruct I as [I|[]]. injection I as <- _. now left.
      * intros [->|?]; [|contradiction]. exists x. exists [(s, x)]. split; [reflexivity|now left].
  - unfold v_erase, v. cbn [seen erase]. f_equal. f_equal.
    cbn [merase]. now rewrite compare_refl.
Qed.
(** The longer name is there: exists(view) holds and get_map_bool(view) throws. *)
Theorem C100_bool_refuted : exists v g, wf g /\ v_exists v g = true /\ v_get_map_bool v g = Throw.
Proof.
  exists (View "a" "b"), (GMap [("ab"%string, GBool true)]). split; [|vm_compute; auto].
  apply wf_map. split; repeat constructor.
Qed.
Example C100_example :
  whole (View "a" (String Ascii.zero "zz")) /\ wf smap1 /\ has_entry "a" (GInt 1) smap1 /\
  no_nul "a" /\ v_call (View "a" "bc") (GMap [("a"%string, GInt 1); ("abc"%string, GInt 2)]) = Ok (GInt 2).
Proof.
  split; [split; [exact no_nul_a|right; now exists "zz"%string]|]. split; [exact smap1_wf|].
  split; [eexists; split; [reflexivity|now left]|]. split; [exact no_nul_a|reflexivity].
Qed.

Print Assumptions C100_exact_partial.
Print Assumptions C100_whole_partial.
Print Assumptions C100_refuted.
Print Assumptions C100_bool_refuted.
