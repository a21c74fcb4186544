(** Every function that changes a container keeps it valid ([wf]). *)
From Coq Require Import ZArith Bool Lia Ascii String List.
From Verif Require Import Base F64 StrMap Value MBasic MGet MMap MMat MPromote MRef MCopy MCollapse MNum MText MJson MJson2 MSerialize MOps SOps.
From Verif Require Import LNum LCopy LCapi3 LJson2Doc.
Import ListNotations.
Local Open Scope Z_scope.

(** * Ranges *)
Lemma b2z_i32 b : int32 (b2z b).
Proof. unfold int32. destruct b; cbn [b2z]; lia. Qed.
Lemma i32_i64 z : int32 z -> int64 z.
Proof. unfold int32, int64. lia. Qed.
Lemma b2z_i64 b : int64 (b2z b).
Proof. apply i32_i64, b2z_i32. Qed.
Lemma zero_i32 : int32 0. Proof. unfold int32. lia. Qed.
Lemma zero_i64 : int64 0. Proof. unfold int64. lia. Qed.
Lemma zero_u64 : uint64 0. Proof. unfold uint64. lia. Qed.
Lemma f_zero_ok : f64 f_zero. Proof. unfold f64, f_zero. lia. Qed.
Lemma c_zero_ok : fc c_zero. Proof. split; exact f_zero_ok. Qed.
Lemma f_of_i64 z : int64 z -> f64 (f_of_Z z).
Proof. intros H. apply f_of_Z_range. unfold int64 in H. lia. Qed.
Lemma f_of_i32 z : int32 z -> f64 (f_of_Z z).
Proof. intros H. apply f_of_i64, i32_i64, H. Qed.
Lemma f_of_bool_ok b : f64 (f_of_bool b).
Proof. unfold f_of_bool. destruct b; apply f_of_i32; unfold int32; lia. Qed.
Lemma c_of_bool_ok b : fc (c_of_bool b).
Proof. split; [apply f_of_bool_ok | exact f_zero_ok]. Qed.
Lemma c_of_i64 z : int64 z -> fc (c_of_Z z).
Proof. intros H. split; [apply f_of_i64, H | exact f_zero_ok]. Qed.
Lemma c_of_i32 z : int32 z -> fc (c_of_Z z).
Proof. intros H. apply c_of_i64, i32_i64, H. Qed.
Lemma c_of_real_ok x : f64 x -> fc (c_of_real x).
Proof. intros H. split; [exact H | exact f_zero_ok]. Qed.
Lemma fcast_range lo hi x z : fcast lo hi x = Ok z -> lo <= z <= hi.
Proof.
  unfold fcast. destruct (fscaled x) as [v|]; [|discriminate]. generalize (Z.quot v fone). intros t. cbn zeta.
  destruct (lo <=? t) eqn:E1; [|discriminate]. destruct (t <=? hi) eqn:E2; [|discriminate].
  cbn [andb]. intros E. apply Ok_inj in E. subst z. split; [apply Z.leb_le, E1 | apply Z.leb_le, E2].
Qed.
Lemma f_to_i32_range x z : f_to_i32 x = Ok z -> int32 z.
Proof. intros H. apply fcast_range in H. unfold int32. lia. Qed.
Lemma f_to_i64_range x z : f_to_i64 x = Ok z -> int64 z.
Proof. intros H. apply fcast_range in H. unfold int64. lia. Qed.

(** * Lists and matrices *)
Lemma resize_all {A} (P : A -> Prop) d n l : P d -> Forall P l -> Forall P (resize d n l).
Proof.
  intros Hd H. unfold resize. apply Forall_app. split.
  - rewrite <- (firstn_skipn n l) in H. now apply Forall_app in H.
  - apply Forall_forall. intros x Hx. apply repeat_spec in Hx. now subst.
Qed.
Lemma valloc_all {A} (P : A -> Prop) d n l : P d -> Forall P l -> Forall P (valloc d n l).
Proof. intros Hd H. unfold valloc. destruct (0 <? n); [now apply resize_all | exact H]. Qed.
Lemma check_resize_all {A} (P : A -> Prop) d i l : P d -> Forall P l -> Forall P (check_resize d i l).
Proof. intros Hd H. unfold check_resize. destruct (_ <=? _); [now apply resize_all | exact H]. Qed.
Lemma znth_all {A} (P : A -> Prop) l i a : Forall P l -> znth i l = Some a -> P a.
Proof. intros H E. unfold znth in E. destruct (i <? 0); [discriminate|]. exact (nth_error_Forall P l _ a H E). Qed.
Lemma lset_len {A} i (a : A) l : length (lset i a l) = length l.
Proof. revert i. induction l; intros [|i]; cbn; auto. Qed.
Lemma mat_of_dims {A} (P : A -> Prop) nr nc (l : list A) : uint32 nr -> uint32 nc -> zlen l = to_u32 (nr * nc) -> Forall P l -> wf_mat P (Mat nr nc l).
Proof. intros. unfold wf_mat. cbn [mrows mcols mdata]. auto. Qed.
Lemma zlen_resize {A} (d : A) z l : 0 <= z -> zlen (resize d (Z.to_nat z) l) = z.
Proof. intros H. unfold zlen. rewrite resize_length. apply Z2Nat.id, H. Qed.
Lemma to_u32_nonneg z : 0 <= to_u32 z.
Proof. pose proof (to_u32_range z) as H. unfold uint32 in H. lia. Qed.
Lemma mresize_ok {A} (P : A -> Prop) d nr nc old : P d -> Forall P old -> uint32 nr -> uint32 nc -> wf_mat P (mresize d nr nc old).
Proof.
  intros Hd H R C. unfold mresize. apply mat_of_dims; auto; [apply zlen_resize, to_u32_nonneg | now apply resize_all].
Qed.
Lemma copy_into_len {A} (a b r : list A) : copy_into a b = Ok r -> zlen r = zlen b.
Proof.
  unfold copy_into. destruct (length a <=? length b)%nat eqn:E; [|discriminate]. apply Nat.leb_le in E. intros H. apply Ok_inj in H. subst r.
  unfold zlen. rewrite app_length, skipn_length. lia.
Qed.
Lemma mcopy_ok {A} (P : A -> Prop) d m old n : P d -> Forall P old -> wf_mat P m -> mcopy d m old = Ok n -> wf_mat P n.
Proof.
  intros Hd Ho (R & C & L & F) E. unfold mcopy in E. apply bind_ok in E as (w & E1 & E2). apply Ok_inj in E2. subst n.
  pose proof (mresize_ok P d (mrows m) (mcols m) old Hd Ho R C) as (_ & _ & L2 & F2).
  apply mat_of_dims; auto; [rewrite (copy_into_len _ _ _ E1); exact L2 | exact (copy_into_all P _ _ _ E1 F F2)].
Qed.
Lemma mat11_ok {A} (P : A -> Prop) x : P x -> wf_mat P (mat11 x).
Proof. intros H. apply mat_of_dims; [unfold uint32; lia | unfold uint32; lia | reflexivity | constructor; auto]. Qed.
Lemma mat_set_ok {A} (P : A -> Prop) m p (x : A) : P x -> wf_mat P m -> wf_mat P (Mat (mrows m) (mcols m) (lset p x (mdata m))).
Proof.
  intros Hx (R & C & L & F). apply mat_of_dims; auto; [unfold zlen; rewrite lset_len; exact L | now apply Forall_lset].
Qed.

(** * Setters *)
Lemma old_vptr_ok g : wf g -> Forall uint64 (old_vptr g). Proof. intros H. destruct g; try constructor. exact H. Qed.
Lemma old_vint_ok g : wf g -> Forall int32 (old_vint g). Proof. intros H. destruct g; try constructor. exact H. Qed.
Lemma old_vlong_ok g : wf g -> Forall int64 (old_vlong g). Proof. intros H. destruct g; try constructor. exact H. Qed.
Lemma old_vreal_ok g : wf g -> Forall f64 (old_vreal g). Proof. intros H. destruct g; try constructor. exact H. Qed.
Lemma old_vcomplex_ok g : wf g -> Forall fc (old_vcomplex g). Proof. intros H. destruct g; try constructor. exact H. Qed.
Lemma old_vec_ok g : wf g -> Forall wf (old_vec g). Proof. intros H. destruct g; try constructor. now apply wf_vec. Qed.
Lemma old_mint_ok g : wf g -> Forall int32 (old_mint g). Proof. intros H. destruct g; try constructor. exact (proj2 (proj2 (proj2 H))). Qed.
Lemma old_mlong_ok g : wf g -> Forall int64 (old_mlong g). Proof. intros H. destruct g; try constructor. exact (proj2 (proj2 (proj2 H))). Qed.
Lemma old_mreal_ok g : wf g -> Forall f64 (old_mreal g). Proof. intros H. destruct g; try constructor. exact (proj2 (proj2 (proj2 H))). Qed.
Lemma old_mcomplex_ok g : wf g -> Forall fc (old_mcomplex g). Proof. intros H. destruct g; try constructor. exact (proj2 (proj2 (proj2 H))). Qed.

Lemma put_list_ok {A} (P : A -> Prop) (k : list A -> gc) v w r : (forall l, Forall P l -> wf (k l)) ->
  Forall P v -> Forall P w -> (do x <- copy_into v w ; Ok (k x)) = Ok r -> wf r.
Proof. intros K Hv Hw E. apply bind_ok in E as (x & E1 & E2). apply Ok_inj in E2. subst r. apply K. exact (copy_into_all P _ _ _ E1 Hv Hw). Qed.
Lemma put_mat_ok {A} (P : A -> Prop) (k : mat A -> gc) d m old r : (forall l, wf_mat P l -> wf (k l)) ->
  P d -> Forall P old -> wf_mat P m -> omap k (mcopy d m old) = Ok r -> wf r.
Proof.
  intros K Hd Ho Hm E. destruct (mcopy d m old) as [n| | |] eqn:E1; try discriminate. apply Ok_inj in E. subst r. apply K.
  exact (mcopy_ok P d m old n Hd Ho Hm E1).
Qed.
Definition any {A} (a : A) : Prop := True.
Lemma any_all {A} (l : list A) : Forall any l.
Proof. apply Forall_forall. intros. exact I. Qed.
Lemma set_vptr_ok v g r : Forall uint64 v -> wf g -> set_vptr v g = Ok r -> wf r.
Proof. intros Hv Hg. apply (put_list_ok uint64 GVPtr); auto. apply valloc_all; [exact zero_u64 | now apply old_vptr_ok]. Qed.
Lemma set_vbool_ok v g r : set_vbool v g = Ok r -> wf r.
Proof. apply (put_list_ok any GVBool); auto using any_all. intros; exact I. Qed.
Lemma set_vint_ok v g r : Forall int32 v -> wf g -> set_vint v g = Ok r -> wf r.
Proof. intros Hv Hg. apply (put_list_ok int32 GVInt); auto. apply valloc_all; [exact zero_i32 | now apply old_vint_ok]. Qed.
Lemma set_vlong_ok v g r : Forall int64 v -> wf g -> set_vlong v g = Ok r -> wf r.
Proof. intros Hv Hg. apply (put_list_ok int64 GVLong); auto. apply valloc_all; [exact zero_i64 | now apply old_vlong_ok]. Qed.
Lemma set_vreal_ok v g r : Forall f64 v -> wf g -> set_vreal v g = Ok r -> wf r.
Proof. intros Hv Hg. apply (put_list_ok f64 GVReal); auto. apply valloc_all; [exact f_zero_ok | now apply old_vreal_ok]. Qed.
Lemma set_vcomplex_ok v g r : Forall fc v -> wf g -> set_vcomplex v g = Ok r -> wf r.
Proof. intros Hv Hg. apply (put_list_ok fc GVComplex); auto. apply valloc_all; [exact c_zero_ok | now apply old_vcomplex_ok]. Qed.
Lemma set_vstr_ok v g r : set_vstr v g = Ok r -> wf r.
Proof. apply (put_list_ok any GVStr); auto using any_all. intros; exact I. Qed.
Lemma set_mint_ok m g r : wf_mat int32 m -> wf g -> set_mint m g = Ok r -> wf r.
Proof. intros Hm Hg. apply (put_mat_ok int32 GMInt); auto; [exact zero_i32 | now apply old_mint_ok]. Qed.
Lemma set_mlong_ok m g r : wf_mat int64 m -> wf g -> set_mlong m g = Ok r -> wf r.
Proof. intros Hm Hg. apply (put_mat_ok int64 GMLong); auto; [exact zero_i64 | now apply old_mlong_ok]. Qed.
Lemma set_mreal_ok m g r : wf_mat f64 m -> wf g -> set_mreal m g = Ok r -> wf r.
Proof. intros Hm Hg. apply (put_mat_ok f64 GMReal); auto; [exact f_zero_ok | now apply old_mreal_ok]. Qed.
Lemma set_mcomplex_ok m g r : wf_mat fc m -> wf g -> set_mcomplex m g = Ok r -> wf r.
Proof. intros Hm Hg. apply (put_mat_ok fc GMComplex); auto; [exact c_zero_ok | now apply old_mcomplex_ok]. Qed.
Lemma overwrite_ok r g : wf g -> (forall g', r = Ok g' -> wf g') -> wf (snd (overwrite r g)).
Proof. intros Hg H. destruct r as [g'| | |]; cbn [overwrite snd]; auto. Qed.

(** * Promotions *)
Lemma Forall_map_ok {A B} (P : A -> Prop) (Q : B -> Prop) (f : A -> B) l : (forall a, P a -> Q (f a)) -> Forall P l -> Forall Q (map f l).
Proof. intros F H. apply Forall_map. eapply Forall_impl; [|exact H]. exact F. Qed.
Lemma promote_elems_ok {A B} (P : A -> Prop) (Q : B -> Prop) k d (f : A -> B) v : (forall l, Forall Q l -> wf (k l)) -> Q d ->
  (forall a, P a -> Q (f a)) -> Forall P v -> wf (snd (promote_elems k d f v)).
Proof.
  intros K Hd F H. unfold promote_elems. destruct (copy_into _ _) as [w| | |] eqn:E; cbn [snd]; try exact I. apply K.
  eapply (copy_into_all Q); [exact E | exact (Forall_map_ok P Q f v F H) | apply valloc_all; [exact Hd | constructor]].
Qed.
Lemma firstn_all_of {A} (P : A -> Prop) n l : Forall P l -> Forall P (firstn n l).
Proof. intros H. rewrite <- (firstn_skipn n l) in H. now apply Forall_app in H. Qed.
Lemma promote_col_ok {A B} (P : A -> Prop) (Q : B -> Prop) k (f : A -> B) v : (forall m, wf_mat Q m -> wf (k m)) ->
  (forall a, P a -> Q (f a)) -> Forall P v -> wf (snd (promote_col k f v)).
Proof.
  intros K F H. unfold promote_col. cbv zeta. cbn [snd]. apply K. pose proof (to_u32_range (zlen v)) as U. apply mat_of_dims.
  - exact U.
  - unfold uint32. lia.
  - rewrite Z.mul_1_r. rewrite (to_u32_id _ U). unfold zlen at 1. rewrite map_length, firstn_length.
    assert (to_u32 (zlen v) <= zlen v) as LE by (unfold to_u32, zlen; apply Z.mod_le; lia).
    unfold uint32 in U. unfold zlen in *. lia.
  - apply (Forall_map_ok P Q); [exact F | now apply firstn_all_of].
Qed.
Lemma promote_col_wrong_ok {A B} (Q : B -> Prop) (k : mat B -> gc) (v : list A) : (forall m, wf_mat Q m -> wf (k m)) -> wf (snd (promote_col_wrong k v)).
Proof.
  intros K. unfold promote_col_wrong. destruct v; cbn [snd]; [|exact I]. apply K. apply mat_of_dims; try (unfold uint32; lia); [reflexivity | constructor].
Qed.
Lemma promote_mat_wf {A B} (P : A -> Prop) (Q : B -> Prop) k d (f : A -> B) m : (forall m, wf_mat Q m -> wf (k m)) -> Q d ->
  (forall a, P a -> Q (f a)) -> wf_mat P m -> wf (snd (promote_mat k d f m)).
Proof.
  intros K Hd F (R & C & L & H). unfold promote_mat. destruct (copy_into _ _) as [w| | |] eqn:E; cbn [snd]; try exact I. apply K.
  apply mat_of_dims; auto.
  - rewrite (copy_into_len _ _ _ E). apply zlen_resize, to_u32_nonneg.
  - eapply (copy_into_all Q); [exact E | exact (Forall_map_ok P Q f _ F H) | apply resize_all; [exact Hd | constructor]].
Qed.
Lemma one {A} (P : A -> Prop) x : P x -> Forall P [x].
Proof. intros; constructor; auto. Qed.
Lemma wf_vec_of l : Forall wf l -> wf (GVec l). Proof. apply wf_vec. Qed.
Lemma bools_any (v : list bool) : Forall any v. Proof. apply any_all. Qed.

Ltac rng := first [ exact zero_i32 | exact zero_i64 | exact zero_u64 | exact f_zero_ok | exact c_zero_ok | apply b2z_i32 | apply b2z_i64
  | apply f_of_bool_ok | apply c_of_bool_ok
  | assumption | (apply i32_i64; assumption) | (apply f_of_i32; assumption) | (apply f_of_i64; assumption)
  | (apply c_of_i32; assumption) | (apply c_of_i64; assumption) | (apply c_of_real_ok; assumption) | exact I ].
Lemma k_vptr l : Forall uint64 l -> wf (GVPtr l). Proof. exact (fun H => H). Qed.
Lemma k_vint l : Forall int32 l -> wf (GVInt l). Proof. exact (fun H => H). Qed.
Lemma k_vlong l : Forall int64 l -> wf (GVLong l). Proof. exact (fun H => H). Qed.
Lemma k_vreal l : Forall f64 l -> wf (GVReal l). Proof. exact (fun H => H). Qed.
Lemma k_vcomplex l : Forall fc l -> wf (GVComplex l). Proof. exact (fun H => H). Qed.
Lemma k_mint m : wf_mat int32 m -> wf (GMInt m). Proof. exact (fun H => H). Qed.
Lemma k_mlong m : wf_mat int64 m -> wf (GMLong m). Proof. exact (fun H => H). Qed.
Lemma k_mreal m : wf_mat f64 m -> wf (GMReal m). Proof. exact (fun H => H). Qed.
Lemma k_mcomplex m : wf_mat fc m -> wf (GMComplex m). Proof. exact (fun H => H). Qed.
Ltac kk := first [ exact k_vptr | exact k_vint | exact k_vlong | exact k_vreal | exact k_vcomplex | exact k_mint | exact k_mlong | exact k_mreal | exact k_mcomplex | exact wf_vec_of ].
Ltac prom := first
  [ assumption | exact I | rng
  | (apply one; rng)
  | (apply mat11_ok; rng)
  | (eapply promote_col_wrong_ok; kk)
  | (eapply promote_elems_ok; [kk | rng | | eassumption]; intros; rng)
  | (eapply promote_elems_ok; [kk | rng | | apply any_all]; intros; rng)
  | (eapply promote_mat_wf; [kk | rng | | eassumption]; intros; rng)
  | (eapply promote_col_ok; [kk | | eassumption]; intros; rng)
  | (eapply promote_col_ok; [kk | | apply any_all]; intros; rng) ].
Ltac unfold_prom := cbv beta iota delta [promote promote_to_int promote_to_long promote_to_real promote_to_complex promote_to_vec_int promote_to_vec_long promote_to_vec_real
  promote_to_vec_complex promote_to_mat_int promote_to_mat_long promote_to_mat_real promote_to_mat_complex promote_to_vector]; cbn [snd].
Lemma promote_wf t g : wf g -> wf (snd (promote t g)).
Proof.
  intros Hg. destruct t; destruct g; unfold_prom; cbn [wf] in Hg |- *.
  all: try solve [prom]. auto.
Qed.
Lemma pvi_ok g : wf g -> wf (snd (promote_to_vec_int g)). Proof. exact (promote_wf ToVInt g). Qed.
Lemma pvl_ok g : wf g -> wf (snd (promote_to_vec_long g)). Proof. exact (promote_wf ToVLong g). Qed.
Lemma pvr_ok g : wf g -> wf (snd (promote_to_vec_real g)). Proof. exact (promote_wf ToVReal g). Qed.
Lemma pvc_ok g : wf g -> wf (snd (promote_to_vec_complex g)). Proof. exact (promote_wf ToVComplex g). Qed.
Lemma pmi_ok g : wf g -> wf (snd (promote_to_mat_int g)). Proof. exact (promote_wf ToMInt g). Qed.
Lemma pml_ok g : wf g -> wf (snd (promote_to_mat_long g)). Proof. exact (promote_wf ToMLong g). Qed.
Lemma pmr_ok g : wf g -> wf (snd (promote_to_mat_real g)). Proof. exact (promote_wf ToMReal g). Qed.
Lemma pmc_ok g : wf g -> wf (snd (promote_to_mat_complex g)). Proof. exact (promote_wf ToMComplex g). Qed.
Lemma pv_ok g : wf g -> wf (snd (promote_to_vector g)). Proof. exact (promote_wf ToVec g). Qed.

(** * push_T *)
Lemma snoc {A} (P : A -> Prop) v x : Forall P v -> P x -> Forall P (v ++ [x]).
Proof. intros. apply Forall_app. split; [assumption | now apply one]. Qed.
Lemma snoc_vec v x : wf (GVec v) -> wf x -> wf (GVec (v ++ [x])).
Proof. rewrite !wf_vec. apply snoc. Qed.
Ltac snocs := first [ (apply (snoc_vec _ (GBool _)); [assumption | exact I]) | (apply snoc_vec; [assumption | rng]) | (apply snoc; [assumption | rng]) | assumption | exact I ].
Ltac pushv L := intros Hx Hg; match goal with |- wf (snd (_ _ ?g)) => pose proof (L g Hg) as P end;
  cbv beta iota delta [push_int push_long push_real push_complex push_string];
  match goal with |- context [match ?q with (_, _) => _ end] => destruct q as [[] ?] end; cbn [snd] in *;
  repeat match goal with |- context [match ?x with _ => _ end] => is_var x; destruct x end; cbn [snd];
  solve [snocs].
Lemma push_bool_ok b g : wf g -> wf (snd (push_bool b g)).
Proof. intros Hg. destruct g; cbn [push_bool snd]; snocs. Qed.
Lemma push_int_ok x g : int32 x -> wf g -> wf (snd (push_int x g)). Proof. pushv pvi_ok. Qed.
Lemma push_long_ok x g : int64 x -> wf g -> wf (snd (push_long x g)). Proof. pushv pvl_ok. Qed.
Lemma push_real_ok x g : f64 x -> wf g -> wf (snd (push_real x g)). Proof. pushv pvr_ok. Qed.
Lemma push_complex_ok x g : fc x -> wf g -> wf (snd (push_complex x g)). Proof. pushv pvc_ok. Qed.
Lemma push_string_ok x g : any x -> wf g -> wf (snd (push_string x g)). Proof. pushv pv_ok. Qed.

(** * References *)
Definition rok {A} (P : A -> Prop) (r : refr A) : Prop :=
  match r with Ref a put => P a /\ forall x, P x -> wf (put x) | Bad _ g => wf g end.
Definition sok {A} (P : A -> Prop) (r : sref A) : Prop := match r with Shown r => rok P r | Fresh put => forall x, P x -> wf (put x) end.
Lemma rwrite_ok {A} (P : A -> Prop) x (r : refr A) : rok P r -> P x -> wf (snd (rwrite x r)).
Proof. destruct r; cbn [rok rwrite snd]; [intros [_ H]; exact (H x) | auto]. Qed.
Lemma rread_ok {A} (P : A -> Prop) (r : refr A) : rok P r -> wf (snd (rread r)).
Proof. destruct r; cbn [rok rread snd]; [intros [H1 H]; exact (H _ H1) | auto]. Qed.
Lemma swrite_ok {A} (P : A -> Prop) x (r : sref A) : sok P r -> P x -> wf (snd (swrite x r)).
Proof. destruct r; cbn [sok swrite snd]; [apply rwrite_ok | auto]. Qed.
Lemma after_ok {A} (P : A -> Prop) p (k : gc -> refr A) : wf (snd p) -> (forall g, wf g -> rok P (k g)) -> rok P (after p k).
Proof. destruct p as [[] g]; cbn [after snd rok]; auto. Qed.
Lemma grow_ok {A} (P : A -> Prop) (mk : list A -> gc) d i v : (forall l, Forall P l -> wf (mk l)) -> P d -> Forall P v -> rok P (grow_ref mk d i v).
Proof.
  intros K Hd H. unfold grow_ref. pose proof (check_resize_all P d i v Hd H) as W. destruct (znth i (check_resize d i v)) as [a|] eqn:E; cbn [rok].
  - split; [exact (znth_all P _ _ _ W E)|]. intros x Hx. apply K. now apply Forall_lset.
  - now apply K.
Qed.
Lemma vslot_ok {A} (P : A -> Prop) (k : A -> gc) d i g : (forall a, P a -> wf (k a)) -> P d -> wf g -> rok P (vslot k d i g).
Proof.
  intros K Hd Hg. unfold vslot. apply after_ok.
  - destruct g; cbn [snd]; auto; apply pv_ok; exact Hg.
  - intros g' Hg'. destruct g'; try exact Hg'. pose proof (check_resize_all wf GNone i v I (proj1 (wf_vec v) Hg')) as W.
    destruct (znth _ _); cbn [rok]; [|now apply wf_vec]. split; [exact Hd|]. intros x Hx. apply wf_vec, Forall_lset; auto.
Qed.
Lemma mat_ref_ok {A} (P : A -> Prop) (mk : mat A -> gc) i j m : (forall l, wf_mat P l -> wf (mk l)) -> wf_mat P m -> rok P (mat_ref mk i j m).
Proof.
  intros K H. unfold mat_ref. destruct (znth _ _) as [a|] eqn:E; cbn [rok]; [|now apply K]. split.
  - exact (znth_all P _ _ _ (proj2 (proj2 (proj2 H))) E).
  - intros x Hx. apply K. now apply mat_set_ok.
Qed.
Lemma nil_ok {A} (P : A -> Prop) : Forall P []. Proof. constructor. Qed.
Lemma mat0_ok {A} (P : A -> Prop) d nr nc : P d -> uint32 nr -> uint32 nc -> wf_mat P (mresize d nr nc []).
Proof. intros. apply mresize_ok; auto. Qed.
Lemma u32_0 : uint32 0. Proof. unfold uint32. lia. Qed.
Ltac asw Hg := match goal with |- rok _ (_ ?g) => destruct g end; first [ exact Hg | (split; [exact Hg | intros ? ?; assumption]) ].
Lemma as_vint_ok g : wf g -> rok (Forall int32) (as_vint g). Proof. intros Hg. asw Hg. Qed.
Lemma as_vlong_ok g : wf g -> rok (Forall int64) (as_vlong g). Proof. intros Hg. asw Hg. Qed.
Lemma as_vreal_ok g : wf g -> rok (Forall f64) (as_vreal g). Proof. intros Hg. asw Hg. Qed.
Lemma as_vcomplex_ok g : wf g -> rok (Forall fc) (as_vcomplex g). Proof. intros Hg. asw Hg. Qed.
Lemma as_mint_ok g : wf g -> rok (wf_mat int32) (as_mint g). Proof. intros Hg. asw Hg. Qed.
Lemma as_mlong_ok g : wf g -> rok (wf_mat int64) (as_mlong g). Proof. intros Hg. asw Hg. Qed.
Lemma as_mreal_ok g : wf g -> rok (wf_mat f64) (as_mreal g). Proof. intros Hg. asw Hg. Qed.
Lemma as_mcomplex_ok g : wf g -> rok (wf_mat fc) (as_mcomplex g). Proof. intros Hg. asw Hg. Qed.
Ltac reft D P Q := intros Hg;
  match goal with |- rok _ (_ ?g) => destruct g end; cbv beta iota delta [D];
  first [ (apply Q; exact Hg) | (apply after_ok; [apply P; exact Hg | exact Q]) | (apply Q; apply nil_ok) | (apply Q; apply mat0_ok; [rng | exact u32_0 | exact u32_0]) ].
Lemma ref_vec_int_ok g : wf g -> rok (Forall int32) (ref_vec_int g). Proof. reft ref_vec_int pvi_ok as_vint_ok. Qed.
Lemma ref_vec_long_ok g : wf g -> rok (Forall int64) (ref_vec_long g). Proof. reft ref_vec_long pvl_ok as_vlong_ok. Qed.
Lemma ref_vec_real_ok g : wf g -> rok (Forall f64) (ref_vec_real g). Proof. reft ref_vec_real pvr_ok as_vreal_ok. Qed.
Lemma ref_vec_complex_ok g : wf g -> rok (Forall fc) (ref_vec_complex g). Proof. reft ref_vec_complex pvc_ok as_vcomplex_ok. Qed.
Lemma ref_mat_int_ok g : wf g -> rok (wf_mat int32) (ref_mat_int g). Proof. reft ref_mat_int pmi_ok as_mint_ok. Qed.
Lemma ref_mat_long_ok g : wf g -> rok (wf_mat int64) (ref_mat_long g). Proof. reft ref_mat_long pml_ok as_mlong_ok. Qed.
Lemma ref_mat_real_ok g : wf g -> rok (wf_mat f64) (ref_mat_real g). Proof. reft ref_mat_real pmr_ok as_mreal_ok. Qed.
Lemma ref_mat_complex_ok g : wf g -> rok (wf_mat fc) (ref_mat_complex g). Proof. reft ref_mat_complex pmc_ok as_mcomplex_ok. Qed.
Ltac atx D := intros Hg; match goal with |- rok _ (_ _ ?g) => destruct g end; cbv beta iota delta [D];
  first [ (eapply grow_ok; [kk | rng | first [exact Hg | apply nil_ok]]) | (apply vslot_ok; [intros; assumption | rng | exact Hg]) ].
Lemma vint_at_ok i g : wf g -> rok int32 (vint_at i g). Proof. atx vint_at. Qed.
Lemma vlong_at_ok i g : wf g -> rok int64 (vlong_at i g). Proof. atx vlong_at. Qed.
Lemma vreal_at_ok i g : wf g -> rok f64 (vreal_at i g). Proof. atx vreal_at. Qed.
Lemma vcomplex_at_ok i g : wf g -> rok fc (vcomplex_at i g). Proof. atx vcomplex_at. Qed.
Lemma ref_bool_at_ok i g : wf g -> rok any (ref_bool_at i g).
Proof. intros Hg. destruct g; cbv beta iota delta [ref_bool_at];
  first [ (apply grow_ok; [intros; exact I | exact I | apply any_all]) | (apply vslot_ok; [intros; exact I | exact I | exact Hg]) ]. Qed.
Lemma ref_string_at_ok i g : wf g -> rok any (ref_string_at i g).
Proof. intros Hg. destruct g; cbv beta iota delta [ref_string_at];
  first [ (apply grow_ok; [intros; exact I | exact I | apply any_all]) | (apply vslot_ok; [intros; exact I | exact I | exact Hg]) ]. Qed.
Ltac refat D P Q := intros Hg;
  match goal with |- rok _ (_ ?i ?g) => destruct g end; cbv beta iota delta [D];
  first [ (apply Q; exact Hg) | (apply after_ok; [apply P; exact Hg | intros ? ?; apply Q; assumption]) | (apply Q; apply nil_ok) ].
Lemma ref_int_at_ok i g : wf g -> rok int32 (ref_int_at i g). Proof. refat ref_int_at pvi_ok vint_at_ok. Qed.
Lemma ref_long_at_ok i g : wf g -> rok int64 (ref_long_at i g). Proof. refat ref_long_at pvl_ok vlong_at_ok. Qed.
Lemma ref_real_at_ok i g : wf g -> rok f64 (ref_real_at i g). Proof. refat ref_real_at pvr_ok vreal_at_ok. Qed.
Lemma ref_complex_at_ok i g : wf g -> rok fc (ref_complex_at i g). Proof. refat ref_complex_at pvc_ok vcomplex_at_ok. Qed.
Ltac matx D := intros Hg; match goal with |- rok _ (_ _ _ ?g) => destruct g end; cbv beta iota delta [D];
  first [ exact Hg | (eapply mat_ref_ok; [kk | exact Hg]) ].
Lemma mint_at_ok i j g : wf g -> rok int32 (mint_at i j g). Proof. matx mint_at. Qed.
Lemma mlong_at_ok i j g : wf g -> rok int64 (mlong_at i j g). Proof. matx mlong_at. Qed.
Lemma mreal_at_ok i j g : wf g -> rok f64 (mreal_at i j g). Proof. matx mreal_at. Qed.
Lemma mcomplex_at_ok i j g : wf g -> rok fc (mcomplex_at i j g). Proof. matx mcomplex_at. Qed.
Ltac refat2 D P Q := intros Hi Hj Hg;
  match goal with |- rok _ (_ ?i ?j ?g) => destruct g end; cbv beta iota delta [D];
  first [ (apply Q; exact Hg) | (apply after_ok; [apply P; exact Hg | intros ? ?; apply Q; assumption]) | (apply Q; apply mat0_ok; [rng | exact Hi | exact Hj]) ].
Lemma ref_int_at2_ok i j g : uint32 i -> uint32 j -> wf g -> rok int32 (ref_int_at2 i j g). Proof. refat2 ref_int_at2 pmi_ok mint_at_ok. Qed.
Lemma ref_long_at2_ok i j g : uint32 i -> uint32 j -> wf g -> rok int64 (ref_long_at2 i j g). Proof. refat2 ref_long_at2 pml_ok mlong_at_ok. Qed.
Lemma ref_real_at2_ok i j g : uint32 i -> uint32 j -> wf g -> rok f64 (ref_real_at2 i j g). Proof. refat2 ref_real_at2 pmr_ok mreal_at_ok. Qed.
Lemma ref_complex_at2_ok i j g : uint32 i -> uint32 j -> wf g -> rok fc (ref_complex_at2 i j g). Proof. refat2 ref_complex_at2 pmc_ok mcomplex_at_ok. Qed.

(** * Copies *)
Lemma from_gc_wf : forall src dst r, wf src -> wf dst -> from_gc src dst = Ok r -> wf r.
Proof.
  induction src as [g Hv Hm | v IH | m IH] using gc_nest_ind.
  - intros dst r Hs Hd. destruct g; try (exfalso; now apply (Hv v)); try (exfalso; now apply (Hm m)); cbn [from_gc]; cbn [wf] in Hs.
    1-8: intros E; apply Ok_inj in E; subst r; exact Hs.
    + now apply set_vptr_ok.
    + apply set_vbool_ok.
    + now apply set_vint_ok.
    + now apply set_vlong_ok.
    + now apply set_vreal_ok.
    + now apply set_vcomplex_ok.
    + apply set_vstr_ok.
    + now apply set_mint_ok.
    + now apply set_mlong_ok.
    + now apply set_mreal_ok.
    + now apply set_mcomplex_ok.
  - intros dst r Hs Hd E. rewrite from_gc_vec in E. apply bind_ok in E as (w & E1 & E2). apply Ok_inj in E2. subst r.
    apply wf_vec in Hs. apply wf_vec. pose proof (valloc_all wf GNone (to_u32 (zlen v)) _ I (old_vec_ok dst Hd)) as W. fold (alloc_vec (to_u32 (zlen v)) dst) in W.
    revert w E1 W. generalize (alloc_vec (to_u32 (zlen v)) dst). clear dst Hd. induction IH as [|a v Ha _ IHv]; intros l w E W.
    + cbn [assign_vec] in E. apply Ok_inj in E. now subst w.
    + destruct l as [|b l]; cbn [assign_vec] in E; [discriminate|]. inversion W; subst. inversion Hs; subst.
      apply bind_ok in E as (b' & Eb & E). apply bind_ok in E as (t & Et & E). apply Ok_inj in E. subst w.
      constructor; [eapply Ha; [| | exact Eb]; assumption | eapply IHv; eassumption].
  - intros dst r Hs Hd E. rewrite from_gc_map in E. apply bind_ok in E as (w & E1 & E2). apply Ok_inj in E2. subst r.
    apply wf_map in Hs as [_ Hs]. apply wf_map. pose proof (LJson2Doc.old_map_wf dst Hd) as W.
    revert w E1 W. generalize (old_map dst). clear dst Hd. induction IH as [|[k a] m Ha _ IHm]; intros l w E W.
    + cbn [assign_map] in E. apply Ok_inj in E. now subst w.
    + cbn [assign_map] in E. apply bind_ok in E as (b & Eb & E). inversion Hs; subst. cbn [snd] in *.
      eapply IHm; [assumption | exact E |]. apply wf_map. apply mset_wf; try apply W. eapply Ha; [assumption | | exact Eb].
      destruct (mfind (cstr k) l) as [e|] eqn:F; [|exact I]. apply mfind_in in F. destruct W as [_ W]. rewrite Forall_forall in W. exact (W _ F).
Qed.
Lemma to_gc_from src dst : to_gc src dst = from_gc src dst.
Proof. reflexivity. Qed.
Lemma merge_ok src dst : wf src -> wf dst -> wf (snd (merge src dst)).
Proof.
  intros Hs Hd. unfold merge. destruct src; try exact Hd.
  assert (forall acc, wf (GMap acc) -> wf (snd (match assign_map m acc with Ok r => (Ok tt, GMap r) | Throw => (Throw, GMap acc) | Undef => (Undef, GMap acc) | Diverge => (Diverge, GMap acc) end))) as A.
  { intros acc Ha. destruct (assign_map m acc) as [r| | |] eqn:E; cbn [snd]; auto.
    apply (from_gc_wf (GMap m) (GMap acc)); auto. rewrite from_gc_map. cbn [old_map]. now rewrite E. }
  destruct dst; try exact Hd.
  - cbn [set_map0 old_map]. apply A. split; constructor.
  - apply A, Hd.
Qed.

(** * collapse *)
Lemma push_all_good {A B} (P : A -> Prop) (Q : B -> Prop) (cv : A -> out B) l : (forall a b, P a -> cv a = Ok b -> Q b) -> Forall P l ->
  forall acc, Forall Q acc -> Forall Q (snd (push_all cv l acc)).
Proof.
  intros C H. induction H as [|a l Ha _ IH]; intros acc Hacc; cbn [push_all]; [exact Hacc|].
  destruct (cv a) as [b| | |] eqn:E; cbn [snd]; auto. apply IH. apply snoc; [assumption|]. exact (C a b Ha E).
Qed.
Lemma visit_all {A} (P : A -> Prop) v : Forall P v -> Forall P (visit v). Proof. apply firstn_all_of. Qed.
Lemma gc_assert_ok {A} c (x : out A) a : gc_assert c x = Ok a -> x = Ok a.
Proof. unfold gc_assert. now destruct c. Qed.
Lemma get_as_int_range g z : wf g -> get_as_int g = Ok z -> int32 z.
Proof.
  intros Hg E. destruct g; cbn [get_as_int] in E; try discriminate; try (apply Ok_inj in E; subst z).
  - apply b2z_i32. - exact Hg. - apply to_i32_range.
  - apply gc_assert_ok in E. exact (f_to_i32_range _ _ E).
  - destruct c. apply gc_assert_ok in E. exact (f_to_i32_range _ _ E).
Qed.
Lemma get_as_long_range g z : wf g -> get_as_long g = Ok z -> int64 z.
Proof.
  intros Hg E. destruct g; cbn [get_as_long] in E; try discriminate; try (apply Ok_inj in E; subst z).
  - apply b2z_i64. - apply i32_i64, Hg. - exact Hg.
  - apply gc_assert_ok in E. exact (f_to_i64_range _ _ E).
  - destruct c. apply gc_assert_ok in E. exact (f_to_i64_range _ _ E).
Qed.
Lemma get_number_range g z : wf g -> get_number g = Ok z -> f64 z.
Proof.
  intros Hg E. destruct g; cbn [get_number] in E; try discriminate; apply Ok_inj in E; subst z.
  - apply f_of_bool_ok. - apply f_of_i32, Hg. - apply f_of_i64, Hg. - exact Hg.
Qed.
Lemma get_complex_range g z : wf g -> get_complex g = Ok z -> fc z.
Proof. intros Hg E. destruct g; cbn [get_complex] in E; try discriminate; apply Ok_inj in E; subst z. exact Hg. Qed.
Lemma bad_elems_all {B} (Q : B -> Prop) g : Forall Q (snd (bad_elems g)).
Proof. unfold bad_elems. destruct (_ <? _); constructor. Qed.
Ltac mats H := destruct H as (_ & _ & _ & H).
Ltac conv1 := intros ? ? ?Hc ?E; first
  [ (apply Ok_inj in E; subst; rng)
  | (unfold cl_int, cr_int, cc_int, cr_long, cc_long, cc_real in E; apply gc_assert_ok in E;
     first [ (apply Ok_inj in E; subst; first [apply to_i32_range | exact (proj1 Hc)]) | exact (f_to_i32_range _ _ E) | exact (f_to_i64_range _ _ E) ])
  | (eapply get_as_int_range; eassumption) | (eapply get_as_long_range; eassumption) | (eapply get_number_range; eassumption) | (eapply get_complex_range; eassumption) ].
Ltac cpy D Hg := destruct D; cbv beta iota delta [copyto_vec_int copyto_vec_long copyto_vec_real copyto_vec_complex];
  first [ apply bad_elems_all
        | (apply (push_all_good any); [conv1 | apply any_all | apply nil_ok])
        | (eapply push_all_good; [| apply one; exact Hg | apply nil_ok]; conv1)
        | (eapply push_all_good; [| apply visit_all; exact Hg | apply nil_ok]; conv1)
        | (eapply push_all_good; [| apply visit_all; exact (proj2 (proj2 (proj2 Hg))) | apply nil_ok]; conv1)
        | (eapply push_all_good; [| apply visit_all; exact (proj1 (wf_vec _) Hg) | apply nil_ok]; conv1) ].
Lemma copyto_int_ok g old : wf g -> Forall int32 (snd (copyto_vec_int g old)). Proof. intros Hg. cpy g Hg. Qed.
Lemma copyto_long_ok g old : wf g -> Forall int64 (snd (copyto_vec_long g old)). Proof. intros Hg. cpy g Hg. Qed.
Lemma copyto_real_ok g old : wf g -> Forall f64 (snd (copyto_vec_real g old)). Proof. intros Hg. cpy g Hg. Qed.
Lemma copyto_complex_ok g old : wf g -> Forall fc (snd (copyto_vec_complex g old)). Proof. intros Hg. cpy g Hg. Qed.
Lemma fill_col_ok {A} (P : A -> Prop) j vj is : Forall P vj -> forall m n, wf_mat P m -> fill_col j vj is m = Ok n -> wf_mat P n.
Proof.
  intros Hv. induction is as [|i is IH]; intros m n Hm E; cbn [fill_col] in E.
  - apply Ok_inj in E. now subst n.
  - apply bind_ok in E as (x & Ex & E). unfold raw_at in Ex. destruct (znth i vj) as [y|] eqn:Ey; [|discriminate]. apply Ok_inj in Ex. subst y.
    pose proof (znth_all P _ _ _ Hv Ey) as Px. unfold mat_set in E. destruct (znth (mpos m i j) (mdata m)); [|discriminate].
    eapply IH; [|exact E]. now apply mat_set_ok.
Qed.
Lemma fill_cols_ok {A} (P : A -> Prop) (cv : gc -> list A -> out unit * list A) nr cols : (forall g old, wf g -> Forall P (snd (cv g old))) -> Forall wf cols ->
  forall j m n, wf_mat P m -> fill_cols cv nr cols j m = Ok n -> wf_mat P n.
Proof.
  intros C H. induction H as [|c cols Hc _ IH]; intros j m n Hm E; cbn [fill_cols] in E.
  - apply Ok_inj in E. now subst n.
  - pose proof (C c [] Hc) as V. destruct (cv c []) as [[] vj]; try discriminate. cbn [snd] in V. apply bind_ok in E as (m' & E1 & E2).
    eapply IH; [|exact E2]. eapply fill_col_ok; eassumption.
Qed.
Lemma mat_of_ok {A} (P : A -> Prop) d (cv : gc -> list A -> out unit * list A) ne v n : (forall g old, wf g -> Forall P (snd (cv g old))) -> P d -> Forall wf v ->
  mat_of d cv ne v = Ok n -> wf_mat P n.
Proof.
  intros C Hd H E. unfold mat_of in E. eapply fill_cols_ok; [exact C | apply visit_all; exact H | | exact E].
  apply mat0_ok; [exact Hd | apply to_u32_range | apply to_u32_range].
Qed.
Lemma copied_ok {A} (P : A -> Prop) (r : out unit * list A) l : Forall P (snd r) -> copied r = Ok l -> Forall P l.
Proof. destruct r as [[] t]; cbn [copied snd]; try discriminate. intros H E. apply Ok_inj in E. now subst. Qed.
Lemma collapse_vec_wf v : Forall wf v -> wf (snd (collapse_vec v)).
Proof.
  intros H. pose proof (wf_vec_of _ H) as Hg. unfold collapse_vec. cbv zeta. destruct (negb _); [exact Hg|].
  destruct (all_string _); [|destruct (max_sub _); try exact Hg]; apply overwrite_ok; try exact Hg; intros g' E; apply bind_ok in E as (t & E1 & E2).
  - exact (set_vstr_ok _ _ _ E2).
  - exact (set_vbool_ok _ _ _ E2).
  - refine (set_vint_ok _ _ _ _ Hg E2). refine (copied_ok _ _ _ _ E1). now apply copyto_int_ok.
  - refine (set_vlong_ok _ _ _ _ Hg E2). refine (copied_ok _ _ _ _ E1). now apply copyto_long_ok.
  - refine (set_vreal_ok _ _ _ _ Hg E2). refine (copied_ok _ _ _ _ E1). now apply copyto_real_ok.
  - refine (set_vcomplex_ok _ _ _ _ Hg E2). refine (copied_ok _ _ _ _ E1). now apply copyto_complex_ok.
  - refine (set_mint_ok _ _ _ _ Hg E2). exact (mat_of_ok int32 _ _ _ _ _ copyto_int_ok zero_i32 H E1).
  - refine (set_mlong_ok _ _ _ _ Hg E2). exact (mat_of_ok int64 _ _ _ _ _ copyto_long_ok zero_i64 H E1).
  - refine (set_mreal_ok _ _ _ _ Hg E2). exact (mat_of_ok f64 _ _ _ _ _ copyto_real_ok f_zero_ok H E1).
  - refine (set_mcomplex_ok _ _ _ _ Hg E2). exact (mat_of_ok fc _ _ _ _ _ copyto_complex_ok c_zero_ok H E1).
Qed.
Lemma collapse_wf : forall g, wf g -> wf (snd (collapse g)).
Proof.
  induction g as [g Hv Hm | v IH | m IH] using gc_nest_ind; intros H.
  - destruct g; try exact H; [exfalso; now apply (Hv v) | exfalso; now apply (Hm m)].
  - destruct v as [|e v]; [exact I|]. rewrite collapse_vec_eq. apply wf_vec in H.
    assert (Forall wf (snd (collapse_all (e :: v)))) as A.
    { generalize dependent (e :: v). clear e v. intros l IH H. induction IH as [|a l Ha _ IHl]; cbn [collapse_all]; [constructor|]. inversion H; subst.
      specialize (Ha H2). specialize (IHl H3). destruct (collapse a) as [[] a']; cbn [snd] in *; try (constructor; assumption).
      destruct (collapse_all l) as [r l']. cbn [snd] in *. now constructor. }
    destruct (collapse_all (e :: v)) as [[] v']; cbn [snd] in *; try (now apply wf_vec). now apply collapse_vec_wf.
  - rewrite collapse_map_eq. apply wf_map in H as [S H].
    assert (Forall (fun kv => wf (snd kv)) (snd (collapse_entries m)) /\ map fst (snd (collapse_entries m)) = map fst m) as [A B].
    { clear S. induction IH as [|[k a] l Ha _ IHl]; cbn [collapse_entries]; [split; constructor|]. inversion H; subst. cbn [snd] in *.
      specialize (Ha H2). destruct (IHl H3) as [I1 I2]. destruct (collapse a) as [[] a']; cbn [snd] in *; try (split; [constructor; assumption | reflexivity]).
      destruct (collapse_entries l) as [r l']. cbn [snd map fst] in *. split; [now constructor | now f_equal]. }
    destruct (collapse_entries m) as [r m']. cbn [snd] in *. apply wf_map. split; [|exact A]. unfold msorted in *. now rewrite B.
Qed.

(** * Statements on parts *)
Lemma find_or_ok k m : Forall (fun kv => wf (snd kv)) m -> wf (match mfind k m with Some e => e | None => GNone end).
Proof. intros H. destruct (mfind k m) as [e|] eqn:E; [|exact I]. apply mfind_in in E. rewrite Forall_forall in H. exact (H _ E). Qed.
Lemma with_key_ok {A} k (f : gc -> out A * gc) g : (forall e, wf e -> wf (snd (f e))) -> wf g -> wf (snd (with_key k f g)).
Proof.
  intros F Hg. unfold with_key. destruct (LJson2Doc.old_map_wf g Hg) as [S H]. pose proof (F _ (find_or_ok (cstr k) _ H)) as W.
  destruct (f _) as [r e]. cbn [snd] in *. now apply mset_wf.
Qed.
Lemma with_idx_ok {A} i (f : gc -> out A * gc) g : (forall e, wf e -> wf (snd (f e))) -> wf g -> wf (snd (with_idx i f g)).
Proof.
  intros F Hg. unfold with_idx. cbv zeta. pose proof (check_resize_all wf GNone i _ I (old_vec_ok g Hg)) as W.
  destruct (znth i _) as [e|] eqn:E; [|now apply wf_vec]. pose proof (F e (znth_all wf _ _ _ W E)) as We. destruct (f e) as [r e']. cbn [snd] in *.
  now apply wf_vec, Forall_lset.
Qed.
Lemma call_key_ok {A} k (f : gc -> out A * gc) g : (forall e, wf e -> wf (snd (f e))) -> wf g -> wf (snd (call_key_with k f g)).
Proof.
  intros F Hg. unfold call_key_with. destruct g; try exact Hg. apply wf_map in Hg as [S H].
  pose proof (find_or_ok (cstr k) m H) as W. destruct (mfind (cstr k) m) as [e|]; [|now apply wf_map]. specialize (F e W).
  destruct (f e) as [r e']. cbn [snd] in *. now apply mset_wf.
Qed.
Lemma call_idx_ok {A} i (f : gc -> out A * gc) g : (forall e, wf e -> wf (snd (f e))) -> wf g -> wf (snd (call_idx_with i f g)).
Proof.
  intros F Hg. unfold call_idx_with. destruct g; try exact Hg. destruct (_ <? _); [|exact Hg].
  destruct (znth i v) as [e|] eqn:E; [|exact Hg]. apply wf_vec in Hg. pose proof (F e (znth_all wf _ _ _ Hg E)) as We. destruct (f e) as [r e']. cbn [snd] in *.
  now apply wf_vec, Forall_lset.
Qed.
Lemma rev_all {A} (P : A -> Prop) l : Forall P l -> Forall P (rev l).
Proof. intros H. apply Forall_forall. intros x Hx. apply in_rev in Hx. rewrite Forall_forall in H. auto. Qed.
Lemma with_back_ok f v : (forall e, wf e -> wf (snd (f e))) -> Forall wf v -> wf (snd (with_back f v)).
Proof.
  intros F Hv. unfold with_back. pose proof (rev_all _ _ Hv) as R. destruct (rev v) as [|e r]; [now apply wf_vec|]. inversion R; subst.
  specialize (F e H1). destruct (f e) as [o e']. cbn [snd] in *. apply wf_vec, snoc; [now apply rev_all | exact F].
Qed.
Lemma removelast_all {A} (P : A -> Prop) l : Forall P l -> Forall P (removelast l).
Proof. intros H. induction H as [|a l Ha Hl IH]; [constructor|]. cbn [removelast]. destruct l; [constructor | constructor; auto]. Qed.

(** * Tables *)
Lemma strtod_f64 t x : strtod t = Some x -> f64 x.
Proof.
  unfold strtod. destruct (read_sign (skip_space t)) as [neg t0]. cbv zeta.
  destruct (starts _ t0). { intros H. apply Some_inj in H. rewrite <- H. apply signed_f64. lia. }
  destruct (starts _ t0). { intros H. apply Some_inj in H. rewrite <- H. unfold f64. assert (2047 * 2^52 + 2^51 < 2^63) by (vm_compute; reflexivity). destruct neg; lia. }
  pose proof (read_digits_digits t0) as D1. destruct (read_digits t0) as [li t1]. cbn [fst] in D1.
  assert (D2 : Forall is_digit (fst (read_frac t1))).
  { unfold read_frac. destruct t1 as [|c t1]; [constructor|]. destruct c as [[] [] [] [] [] [] [] []]; try constructor. apply read_digits_digits. }
  destruct (read_frac t1) as [lf t2]. cbn [fst] in D2. assert (D : 0 <= dval (li ++ lf)) by (apply dval_nonneg; apply Forall_app; now split).
  destruct (li ++ lf) as [|d l] eqn:E; [discriminate|]. destruct (read_exp t2) as [e r].
  intros H. apply Some_inj in H. rewrite <- H. apply signed_f64. now apply scale_range.
Qed.
Lemma atof_f64 t : f64 (atof t).
Proof. unfold atof. destruct (strtod t) as [x|] eqn:E; [exact (strtod_f64 t x E) | exact f_zero_ok]. Qed.
Lemma push_cells_ok ts : forall cols, Forall wf cols -> Forall wf (push_cells ts cols).
Proof.
  induction ts as [|t ts IH]; intros [|c cols] H; cbn [push_cells]; try assumption. inversion H; subst. constructor; [|now apply IH].
  destruct c; try assumption. apply k_vreal, snoc; [assumption | apply atof_f64].
Qed.
Lemma read_rows_ok n cc dl : forall line nc st cols, Forall wf cols -> Forall wf (snd (read_rows n cc dl line nc st cols)).
Proof.
  induction n as [|n IH]; intros line nc st cols H; cbn [read_rows]; [exact H|].
  destruct (get_line_and_skip_comments cc line st) as [[[k line'] st']| | |]; try exact H. destruct (k =? 0); [exact H|].
  destruct (tokenize line' dl) as [[|t ts]| | |]; try exact H. destruct (_ =? _); [|exact H]. apply IH. now apply push_cells_ok.
Qed.
Lemma real_cols_ok n : forall cols, Forall wf cols -> Forall wf (real_cols n cols).
Proof.
  induction n as [|n IH]; intros [|c cols] H; cbn [real_cols]; try assumption. inversion H; subst. constructor; [|now apply IH].
  apply k_vreal. apply valloc_all; [exact f_zero_ok | now apply old_vreal_ok].
Qed.
Lemma read_table_ok cc dl st g : wf g -> wf (snd (read_formatted_data cc dl st g)).
Proof.
  intros Hg. unfold read_formatted_data. cbv zeta. cbn [set_map0 old_map]. pose proof (LJson2Doc.old_map_wf g Hg) as W.
  assert (wf (GMap (old_map g))) as W0 by (now apply wf_map).
  destruct (get_line_and_skip_comments cc [] st) as [[[k line] st']| | |]; try exact W0. destruct (tokenize line dl) as [hs| | |]; try exact W0.
  assert (wf (GMap (mset k_headers (GVStr (map untxt hs)) (old_map g)))) as W1 by (apply mset_wf; [apply W | apply W | exact I]).
  apply wf_map in W1 as [S1 F1]. set (m1 := mset k_headers _ _) in *. 
  pose proof (valloc_all wf GNone (zlen hs) _ I (old_vec_ok _ (find_or_ok k_data m1 F1))) as V.
  pose proof (read_rows_ok (fuel_of st) cc dl line (zlen hs) st' _ (real_cols_ok (Z.to_nat (zlen hs)) _ V)) as R. unfold alloc_vec.
  destruct (read_rows _ _ _ _ _ _ _) as [r cols]. cbn [snd] in *. apply mset_wf; [exact S1 | exact F1 | now apply wf_vec].
Qed.
Lemma json2_ok t g : wf g -> wf (snd (from_json2 t g)).
Proof.
  intros Hg. unfold from_json2. pose proof (parse_wf t g Hg) as W. destruct (parse t g) as [[] g']; cbn [snd] in *; auto.
  unfold MJson.finish. pose proof (collapse_wf g' W) as C. destruct (collapse g') as [r g'']. exact C.
Qed.

(** * de_serialize *)

Lemma rd8_range buf p b : Forall byte buf -> rd8 buf p = Ok b -> byte b.
Proof. intros H. unfold rd8. destruct (znth p buf) as [x|] eqn:E; [|discriminate]. intros R. apply Ok_inj in R. subst x. exact (znth_all byte _ _ _ H E). Qed.
Lemma lor_bound a b n : 0 < n -> 0 <= a < 2^n -> 0 <= b < 2^n -> 0 <= Z.lor a b < 2^n.
Proof.
  intros Hn Ha Hb. split; [apply Z.lor_nonneg; lia|].
  destruct (Z.eq_dec (Z.lor a b) 0) as [->|N]; [apply Z.pow_pos_nonneg; lia|].
  apply Z.log2_lt_pow2; [assert (0 <= Z.lor a b) by (apply Z.lor_nonneg; lia); lia|].
  rewrite Z.log2_lor by lia. apply Z.max_lub_lt.
  - destruct (Z.eq_dec a 0) as [->|]; [cbn [Z.log2]; lia | apply Z.log2_lt_pow2; lia].
  - destruct (Z.eq_dec b 0) as [->|]; [cbn [Z.log2]; lia | apply Z.log2_lt_pow2; lia].
Qed.
Lemma shl_bound b s n : byte b -> 0 <= s -> s + 8 <= n -> 0 <= Z.shiftl b s < 2^n.
Proof.
  intros Hb Hs Hn. unfold byte in Hb. rewrite Z.shiftl_mul_pow2 by assumption. pose proof (Z.pow_pos_nonneg 2 s ltac:(lia) Hs) as P. split; [nia|].
  apply Z.lt_le_trans with (2^(s+8)); [rewrite Z.pow_add_r by lia; change (2^8) with 256; nia | apply Z.pow_le_mono_r; lia].
Qed.
Lemma rd_u64_range buf p z : Forall byte buf -> rd_u64 buf p = Ok z -> 0 <= z < 2^64.
Proof.
  intros H E. unfold rd_u64 in E.
  repeat (apply bind_ok in E; let b := fresh "b" in let Eb := fresh "Eb" in destruct E as (b & Eb & E); apply (rd8_range buf _ _ H) in Eb).
  apply Ok_inj in E. rewrite <- E. repeat (apply lor_bound; [lia | | ]).
  all: first [ (apply shl_bound; [assumption | lia | lia]) | idtac ].
  unfold byte in *. lia.
Qed.
Lemma step_ok {A} (P : A -> Prop) (rd : list Z -> Z -> out A) w buf base nb r : (forall p a, rd buf p = Ok a -> P a) -> step rd w buf base nb = Ok r -> P (fst r).
Proof. intros F E. unfold step in E. apply bind_ok in E as (a & E1 & E). apply bind_ok in E as (n & E2 & E). apply Ok_inj in E. subst r. exact (F _ _ E1). Qed.
Lemma steps_ok {A} (P : A -> Prop) (st : Z -> out (A * Z)) n : (forall nb r, st nb = Ok r -> P (fst r)) -> forall nb r, steps st n nb = Ok r -> Forall P (fst r) /\ length (fst r) = n.
Proof.
  intros F. induction n as [|n IH]; intros nb r E; cbn [steps] in E.
  - apply Ok_inj in E. subst r. split; constructor.
  - apply bind_ok in E as ((a & nb1) & E1 & E). apply bind_ok in E as ((l & nb2) & E2 & E). apply Ok_inj in E. subst r. cbn [fst].
    destruct (IH _ _ E2) as [I1 I2]. cbn [fst] in *. split; [constructor; [exact (F _ _ E1) | exact I1] | cbn [length]; now f_equal].
Qed.
Lemma step_vec_ok {A} (P : A -> Prop) (st : Z -> out (A * Z)) buf base nb r : (forall nb r, st nb = Ok r -> P (fst r)) -> step_vec st buf base nb = Ok r -> Forall P (fst r).
Proof. intros F E. unfold step_vec in E. apply bind_ok in E as ((n & nb1) & E1 & E). exact (proj1 (steps_ok P st _ F _ _ E)). Qed.
Lemma step_mat_ok {A} (P : A -> Prop) (st : Z -> out (A * Z)) buf base nb r : (forall nb r, st nb = Ok r -> P (fst r)) -> step_mat st buf base nb = Ok r -> wf_mat P (fst r).
Proof.
  intros F E. unfold step_mat in E. apply bind_ok in E as ((nr & nb1) & E1 & E). apply bind_ok in E as ((nc & nb2) & E2 & E). apply bind_ok in E as ((l & nb3) & E3 & E).
  apply Ok_inj in E. subst r. cbn [fst]. destruct (steps_ok P st _ F _ _ E3) as [I1 I2]. cbn [fst] in *.
  apply mat_of_dims; [apply to_u32_range | apply to_u32_range | | exact I1]. unfold zlen. rewrite I2. apply Z2Nat.id, to_u32_nonneg.
Qed.
Lemma done_ok {A} (mk : A -> gc) x : (forall r, x = Ok r -> wf (mk (fst r))) -> wf (snd (done mk x)).
Proof. intros F. destruct x as [[x1 nb]| | |]; cbn [done snd]; try exact I. exact (F _ eq_refl). Qed.
Lemma de_vec_ok rec dim base n : (forall d p, wf (snd (rec d p))) -> forall nb, Forall wf (snd (de_vec rec dim base n nb)).
Proof.
  intros F. assert (forall k, Forall wf (repeat GNone k)) as N by (intros k; apply Forall_forall; intros x Hx; apply repeat_spec in Hx; subst; exact I).
  induction n as [|n IH]; intros nb; cbn [de_vec]; [constructor|]. destruct (chk32 _) as [d| | |]; try exact (N (S n)).
  specialize (F d (base + nb)). destruct (rec d (base + nb)) as [[] g]; cbn [snd] in *; try (constructor; [exact F | apply N]).
  destruct (chk32 _) as [nb'| | |]; try (constructor; [exact F | apply N]).
  specialize (IH nb'). destruct (de_vec rec dim base n nb') as [r l]. cbn [snd] in *. now constructor.
Qed.
Lemma de_map_ok rec buf dim base n : (forall d p, wf (snd (rec d p))) -> forall nb m, wf (GMap m) -> wf (GMap (snd (de_map rec buf dim base n nb m))).
Proof.
  intros F. assert (forall k e m, wf (GMap m) -> wf e -> wf (GMap (mset k e m))) as M by (intros k e m H He; apply wf_map in H; apply mset_wf; [apply H | apply H | exact He]).
  induction n as [|n IH]; intros nb m H; cbn [de_map]; [exact H|]. destruct (step_str buf base nb) as [[key nb0]| | |]; try exact H.
  destruct (chk32 _) as [d| | |]; try exact H. specialize (F d (base + nb0)). destruct (rec d (base + nb0)) as [[] g]; cbn [snd] in *; try (apply M; assumption).
  destruct (chk32 _); cbn [snd]; try (apply M; assumption). apply IH. now apply M.
Qed.
Lemma de_body_ok rec buf dim base tag nb : Forall byte buf -> (forall d p, wf (snd (rec d p))) -> wf (snd (de_body rec buf dim base tag nb)).
Proof.
  intros Hb F.
  assert (I32 : forall p z, rd_i32 buf p = Ok z -> int32 z) by (intros p z E; unfold rd_i32 in E; destruct (rd_u32 buf p); try discriminate; apply Ok_inj in E; subst z; apply to_i32_range).
  assert (I64 : forall p z, rd_i64 buf p = Ok z -> int64 z) by (intros p z E; unfold rd_i64 in E; destruct (rd_u64 buf p); try discriminate; apply Ok_inj in E; subst z; apply to_i64_range).
  assert (F64 : forall p z, rd_f64 buf p = Ok z -> f64 z) by (intros p z E; exact (rd_u64_range buf p z Hb E)).
  assert (CC : forall p z, rd_cplx buf p = Ok z -> fc z).
  { intros p z E. unfold rd_cplx in E. apply bind_ok in E as (re & E1 & E). apply bind_ok in E as (im & E2 & E). apply Ok_inj in E. subst z. split; [exact (F64 _ _ E1) | exact (F64 _ _ E2)]. }
  pose proof (fun w nb r => step_ok int32 rd_i32 w buf base nb r I32) as S32.
  pose proof (fun w nb r => step_ok int64 rd_i64 w buf base nb r I64) as S64.
  pose proof (fun w nb r => step_ok f64 rd_f64 w buf base nb r F64) as SF.
  pose proof (fun w nb r => step_ok fc rd_cplx w buf base nb r CC) as SC.
  assert (D : forall x, wf (snd (done GVStr x))) by (intros x; apply done_ok; intros; exact I).
  unfold de_body. destruct tag as [|p|p]; try exact I. repeat match goal with p : positive |- _ => destruct p as [p|p|]; try exact I end.
  all: first [ apply D
    | (apply done_ok; intros r E; first [ exact I | exact (S32 _ _ _ E) | exact (S64 _ _ _ E) | exact (SF _ _ _ E) | exact (SC _ _ _ E)
         | exact (step_vec_ok int32 _ _ _ _ _ (S32 4) E) | exact (step_vec_ok int64 _ _ _ _ _ (S64 8) E)
         | exact (step_vec_ok f64 _ _ _ _ _ (SF 8) E) | exact (step_vec_ok fc _ _ _ _ _ (SC 16) E)
         | exact (step_mat_ok int32 _ _ _ _ _ (S32 4) E) | exact (step_mat_ok int64 _ _ _ _ _ (S64 8) E)
         | exact (step_mat_ok f64 _ _ _ _ _ (SF 8) E) | exact (step_mat_ok fc _ _ _ _ _ (SC 16) E) ])
    | idtac ].
  all: try solve [ destruct (step rd_i32 4 buf base nb) as [[n nb1]| | |]; try exact I; pose proof (de_vec_ok rec dim base (Z.to_nat (to_u32 n)) F nb1) as V;
    destruct (de_vec _ _ _ _ _) as [r v]; cbn [snd] in *; now apply wf_vec ].
  all: try solve [ destruct (step rd_i32 4 buf base nb) as [[n nb1]| | |]; try exact I;
    assert (wf (GMap [])) as W0 by (split; [constructor | exact I]); pose proof (de_map_ok rec buf dim base (Z.to_nat n) F nb1 [] W0) as V;
    destruct (de_map _ _ _ _ _ _ _) as [r v]; exact V ].
  all: try solve [ destruct (step rd_i32 4 buf base nb) as [[n nb1]| | |]; try exact I; destruct (n <? 0); [exact I | apply done_ok; intros; exact I] ].
  all: try solve [ destruct (step_mat _ buf base nb) as [[n nb1]| | |]; try exact I; apply D ].
Qed.
Lemma de_ser_ok n buf : Forall byte buf -> forall dim base, wf (snd (de_ser n buf dim base)).
Proof.
  intros Hb. induction n as [|n IH]; intros dim base; cbn [de_ser]; [exact I|]. destruct (rd_i32 buf base) as [tag| | |]; try exact I.
  pose proof (de_body_ok (de_ser n buf) buf dim base tag 4 Hb IH) as W. unfold check_end. destruct (de_body _ _ _ _ _ _) as [[] g]; exact W.
Qed.
