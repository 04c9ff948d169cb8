(** Computable checks that a concrete binary64 curve is well formed, used for
    witnesses. *)
From Coq Require Import Reals ZArith QArith List Lra Lia Bool SpecFloat.
From Flocq Require Import IEEE754.BinarySingleNaN.
From Verif Require Import Outcome Num ModelCore ModelCurve SpecCore SpecCurve
  ThOutcome ThReal ThKnots ThB64 ThCoreWit ThCurveWit.
Import ListNotations.
Open Scope Z_scope.

(** the double nearest to a rational *)
Definition dq (q : Q) : b64 := b64_of_Q q.
Definition pt (x y z w : Q) : vec4 b64 := Vec4 (dq x) (dq y) (dq z) (dq w).

Definition finb (x : b64) : bool := valid_binary 53 1024 x && is_finite_SF x.
Lemma finb_spec x : finb x = true <-> finite64 x.
Proof. unfold finb, finite64, double. apply andb_true_iff. Qed.
Definition zn (l : list b64) (i : Z) : b64 := nth (Z.to_nat i) l dz.
Lemma at_vals l i : at_ (vals l) i = val (zn l i).
Proof. unfold at_, vals, zn. change 0%R with (val dz). apply map_nth. Qed.
Definition clampedb (p : Z) (l : list b64) : bool :=
  (0 <=? p) && (2 * (p + 1) <=? len l) && forallb finb l && ValidateKnots l &&
  forallb (fun i => SFeqb (zn l i) dz) (zrange 0 (p + 1)) && SFltb dz (zn l (p + 1)) &&
  SFltb (zn l (len l - p - 2)) done_ && forallb (fun i => SFeqb (zn l i) done_) (zrange (len l - p - 1) (len l)).
Lemma clampedb_ok p l : clampedb p l = true -> clamped p (vals l).
Proof.
  unfold clampedb. rewrite !andb_true_iff, !forallb_forall. intros [[[[[[[A B] F] V] Z0] Fi] La] One].
  apply Z.leb_le in A. apply Z.leb_le in B.
  assert (all_finite l) as Af by (apply Forall_forall; intros x Hx; apply finb_spec; apply F; exact Hx).
  assert (forall i, 0 <= i < len l -> finite64 (zn l i)) as Fz.
  { intros i Hi. apply finb_spec. apply F. apply (znth_In dz). exact Hi. }
  rewrite ValidateKnots_b64 in V by exact Af. apply ValidateKnots_R in V. destruct V as [_ [Nd _]].
  constructor.
  - exact A.
  - rewrite len_vals. exact B.
  - exact Nd.
  - intros i Hi. rewrite at_vals. specialize (Z0 i). rewrite In_zrange, SFeqb_val in Z0 by (try apply finite_dz; apply Fz; lia).
    change 0%R with (val dz). apply Reqb_true. apply Z0. lia.
  - rewrite at_vals. rewrite SFltb_val in Fi by (try apply finite_dz; apply Fz; lia). apply Rltb_true in Fi. exact Fi.
  - rewrite at_vals, len_vals. rewrite SFltb_val in La by (try apply finite_done; apply Fz; lia). apply Rltb_true in La. rewrite val_done in La. exact La.
  - rewrite len_vals. intros i Hi. rewrite at_vals. specialize (One i). rewrite In_zrange, SFeqb_val in One by (try apply finite_done; apply Fz; lia).
    rewrite <- val_done. apply Reqb_true. apply One. lia.
Qed.
Definition weightsb (l : list (vec4 b64)) : bool := forallb (fun q => finb (w4 q) && SFltb dz (w4 q)) l.
Lemma weightsb_ok l : weightsb l = true -> positive_weights (map val4 l).
Proof.
  unfold weightsb. rewrite forallb_forall. intros H. apply Forall_forall. intros h Hh. apply in_map_iff in Hh.
  destruct Hh as [q [<- Hq]]. specialize (H q Hq). apply andb_true_iff in H. destruct H as [F L]. apply finb_spec in F.
  rewrite SFltb_val in L by (assumption || apply finite_dz). apply Rltb_true in L. exact L.
Qed.
Definition wf64 (c : curve b64) : bool :=
  clampedb (Degree c) (Knots c) && (len (ControlPoints c) =? len (Knots c) - Degree c - 1) && weightsb (ControlPoints c).
Lemma wf64_ok c : wf64 c = true -> wf_curve (curve_val c).
Proof.
  unfold wf64. rewrite !andb_true_iff. intros [[A B] D]. constructor; unfold curve_val; cbn [Degree Knots ControlPoints].
  - apply clampedb_ok. exact A.
  - apply Z.eqb_eq in B. rewrite len_map, len_vals. exact B.
  - apply weightsb_ok. exact D.
Qed.
Lemma not_weights l : existsb (fun q => finb (w4 q) && SFleb (w4 q) dz) l = true -> ~ positive_weights (map val4 l).
Proof.
  rewrite existsb_exists. intros [q [Hq H]] P. unfold positive_weights in P. rewrite Forall_forall in P.
  specialize (P (val4 q) (in_map val4 _ _ Hq)). apply andb_true_iff in H. destruct H as [F L]. apply finb_spec in F.
  rewrite SFleb_val in L by (assumption || apply finite_dz). apply Rleb_true in L. cbn [w4 val4] in P. rewrite val_dz in L. lra.
Qed.
(** [x] is in the open unit interval *)
Definition innerb (x : b64) : bool := finb x && SFltb dz x && SFltb x done_.
Lemma innerb_ok x : innerb x = true -> (0 < val x < 1)%R.
Proof.
  unfold innerb. rewrite !andb_true_iff. intros [[F A] B]. apply finb_spec in F.
  rewrite SFltb_val in A by (assumption || apply finite_dz). rewrite SFltb_val in B by (assumption || apply finite_done).
  apply Rltb_true in A. apply Rltb_true in B. rewrite val_done in B. rewrite val_dz in A. lra.
Qed.
(** [x] occurs in no knot *)
Definition absentb (x : b64) (l : list b64) : bool := finb x && forallb finb l && forallb (fun k => negb (SFeqb k x)) l.
Lemma absentb_ok x l : absentb x l = true -> ~ In (val x) (vals l).
Proof.
  unfold absentb. rewrite !andb_true_iff, !forallb_forall. intros [[F Fl] N] H. apply in_map_iff in H. destruct H as [k [E Hk]].
  specialize (N k Hk). apply negb_true_iff in N. apply finb_spec in F. specialize (Fl k Hk). apply finb_spec in Fl.
  rewrite SFeqb_val in N by assumption. apply Reqb_false in N. contradiction.
Qed.
