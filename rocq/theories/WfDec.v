(** A computable check of [wf], used to show that concrete examples satisfy it. *)
From Coq Require Import ZArith Bool Lia Ascii String Sorted List.
From Verif Require Import Base F64 StrMap Value.
Import ListNotations.
Local Open Scope Z_scope.

Definition inb (lo hi z : Z) : bool := (lo <=? z) && (z <? hi).
Definition matb {A} (P : A -> bool) (m : mat A) : bool :=
  inb 0 (2^32) (mrows m) && inb 0 (2^32) (mcols m) &&
  (zlen (mdata m) =? to_u32 (mrows m * mcols m)) && forallb P (mdata m).
Definition sortedb (ks : list string) : bool :=
  (fix go l := match l with
   | [] => true
   | a :: t => forallb (fun b => match String.compare a b with Lt => true | _ => false end) t && go t
   end) ks.
Definition i32b := inb (-2^31) (2^31).
Definition i64b := inb (-2^63) (2^63).
Definition u64b := inb 0 (2^64).
Definition cb (c : cplx) := u64b (fst c) && u64b (snd c).
Fixpoint wfb (g : gc) : bool :=
  match g with
  | GPtr p => u64b p
  | GInt i => i32b i
  | GLong l => i64b l
  | GReal r => u64b r
  | GComplex c => cb c
  | GVPtr v => forallb u64b v
  | GVInt v => forallb i32b v
  | GVLong v => forallb i64b v
  | GVReal v => forallb u64b v
  | GVComplex v => forallb cb v
  | GMInt m => matb i32b m
  | GMLong m => matb i64b m
  | GMReal m => matb u64b m
  | GMComplex m => matb cb m
  | GVec v => forallb wfb v
  | GMap m => sortedb (map fst m) && forallb (fun kv => wfb (snd kv)) m
  | _ => true
  end.

Lemma inb_ok lo hi z : inb lo hi z = true -> lo <= z < hi.
Proof. unfold inb. intros H. apply andb_true_iff in H as [H1 H2]. lia. Qed.
Lemma forallb_ok {A} f (P : A -> Prop) l : (forall a, f a = true -> P a) -> forallb f l = true -> Forall P l.
Proof. intros H E. rewrite forallb_forall in E. apply Forall_forall. auto. Qed.
Lemma cb_ok c : cb c = true -> fc c.
Proof. unfold cb. intros H. apply andb_true_iff in H as [H1 H2]. split; now apply inb_ok. Qed.
Lemma matb_ok {A} f (P : A -> Prop) m : (forall a, f a = true -> P a) -> matb f m = true -> wf_mat P m.
Proof.
  intros H E. unfold matb in E. apply andb_true_iff in E as [E E4]. apply andb_true_iff in E as [E E3].
  apply andb_true_iff in E as [E1 E2]. unfold wf_mat, uint32. apply inb_ok in E1. apply inb_ok in E2.
  repeat (split; [first [assumption|lia]|]). eapply forallb_ok; eauto.
Qed.
Lemma sortedb_ok l : sortedb l = true -> StronglySorted slt l.
Proof.
  induction l as [|a l IH]; intros E; [constructor|]. cbn [sortedb] in E. apply andb_true_iff in E as [E1 E2].
  constructor; [now apply IH|]. eapply forallb_ok; [|exact E1]. intros b Hb. cbv beta in Hb. unfold slt. destruct (String.compare a b) eqn:E; first [reflexivity|discriminate Hb].
Qed.
Theorem wfb_ok g : wfb g = true -> wf g.
Proof.
  induction g as [g Hv Hm | v IH | m IH] using gc_nest_ind; intros E.
  - destruct g; try nested_contra Hv Hm; cbn [wfb wf] in *; auto; unfold int32, int64, uint64, f64;
      try (now apply inb_ok); try (now apply cb_ok);
      try (eapply forallb_ok; [|exact E]; intros a Ha; first [now apply inb_ok|now apply cb_ok]);
      (eapply matb_ok; [|exact E]; intros a Ha; first [now apply inb_ok|now apply cb_ok]).
  - apply wf_vec. cbn [wfb] in E. rewrite forallb_forall in E. rewrite Forall_forall in IH. apply Forall_forall. auto.
  - apply wf_map. cbn [wfb] in E. apply andb_true_iff in E as [E1 E2]. split; [now apply sortedb_ok|].
    rewrite forallb_forall in E2. rewrite Forall_forall in IH. apply Forall_forall. auto.
Qed.
Ltac wfd := apply wfb_ok; vm_compute; reflexivity.
