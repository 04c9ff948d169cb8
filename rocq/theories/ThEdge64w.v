(** Concrete cases for C118. *)
From Coq Require Import Reals QArith ZArith List Lra Lia Bool Floats.SpecFloat.
From Flocq Require Import Core IEEE754.BinarySingleNaN.
From Verif Require Import Outcome Num ModelCore ModelCurve ModelSurface SpecCore SpecBasis SpecErr SpecEnd64 SpecCorner64 SpecEdge64
  ThReal ThB64 ThRound ThCoreWit ThCurveWit ThDecide ThErrWit ThBBoxWit ThEnd64w ThCorner64w.
Import ListNotations.
Open Scope R_scope.

Lemma edge_ends : end_of 1 (KnotsV err_surface) done_ 1 1 /\ undone 1 /\ end_of 2 (KnotsU err_surface) dz 0 (1 / 2) /\ undone (1 / 2).
Proof.
  split; [exact (proj1 (proj2 corner_ends))|]. split; [exact (proj2 (proj2 corner_ends))|]. split.
  - split; [apply finb_spec; vm_compute; reflexivity|]. left. split; [apply val_dz|]. split; [reflexivity|]. split; [change (1 / 2 = val dhalf); rewrite val_dhalf; reflexivity|].
    replace (1 / 2) with (/ 2) by lra. apply Rinv_le; [lra|]. rewrite <- (pow_1 2) at 1. apply Rle_pow; [lra|lia].
  - pose proof (C116_power_lemma 1 ltac:(lia)) as H. replace (1 / 2) with (/ 2 ^ 1) by lra. exact H.
Qed.
Lemma third_unit : finite64 (dq (1 # 3)) /\ 0 <= val (dq (1 # 3)) <= 1.
Proof. destruct third_inner as [[F H] _]. split; [exact F|]. lra. Qed.

(** [err_surface] with a first V span of 49/64 *)
Definition gap_surface : surface b64 := Surface 2 1 err_knots gap_knots
  (Grid 4 3 [pt 1 0 0 1; pt 1 1 0 (1 # 2); pt (-1) 1 (1 # 3) (3 # 4); pt (-1) 0 0 1;
             pt 1 0 1 1; pt 1 1 1 (1 # 2); pt (-1) 1 1 (3 # 4); pt (-1) 0 1 1;
             pt 1 0 1 1; pt 1 1 1 (1 # 2); pt (-1) 1 1 (3 # 4); pt (-1) 0 1 1]).
Lemma seventh_unit : finite64 (dq (1 # 7)) /\ 0 <= val (dq (1 # 7)) <= 1.
Proof.
  assert (inner64 (dq (1 # 7))) as [F H] by (split; [apply finb_spec; reflexivity|apply innerb_ok; vm_compute; reflexivity]). split; [exact F|]. lra.
Qed.
Lemma C118_span_lemma : exists (s : surface b64) u v dv q q', sound_surface s /\ apart (KnotsU s) /\ Forall (tame 1) (Values (Net s)) /\
  end_of (DegreeV s) (KnotsV s) v 0 dv /\ finite64 u /\ 0 <= val u <= 1 /\
  Curve_Evaluate (net_row s 0) u = Ok q /\ Surface_Evaluate s u v = Ok q' /\ val3 q' <> val3 q.
Proof.
  exists gap_surface, (dq (1 # 7)), dz, (at_ (vals gap_knots) 2). eexists. eexists.
  split; [split; [apply soundb_ok; vm_compute; reflexivity|]; split; [apply soundb_ok; vm_compute; reflexivity|]; split; [reflexivity|]; split; reflexivity|].
  split; [apply err_apart|]. split; [apply tameb_ok; vm_compute; reflexivity|]. split; [apply corner_ends|]. split; [apply seventh_unit|]. split; [apply seventh_unit|].
  split; [vm_compute; reflexivity|]. split; [vm_compute; reflexivity|]. intros E. apply (f_equal y3) in E. cbn [y3 val3] in E. unfold val, SF2R, Defs.F2R in E. cbn [Defs.Fnum Defs.Fexp Zaux.cond_Zopp] in E.
  assert (0 < Raux.bpow Zaux.radix2 (-54)) as P by apply bpow_gt_0. nra.
Qed.
