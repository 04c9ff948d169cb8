(** A concrete case for C120. *)
From Coq Require Import Reals QArith ZArith List Lra Lia Bool Floats.SpecFloat.
From Flocq Require Import Core IEEE754.BinarySingleNaN.
From Verif Require Import Outcome Num ModelCore ModelCurve SpecCore SpecBasis SpecErr SpecGeom64 SpecEnd64 SpecCorner64 SpecJoint64
  ThReal ThB64 ThRound ThCoreWit ThCurveWit ThDecide ThErrWit ThBBoxWit ThEnd64w.
Import ListNotations.
Open Scope R_scope.

(** degree 2, a double knot at 1/3 and a single one at 2/3 *)
Definition joint_curve : curve b64 := Curve 2 [dz; dz; dz; dq (1 # 3); dq (1 # 3); dq (2 # 3); done_; done_; done_]
  [pt 1 0 0 1; pt 1 1 0 (1 # 2); pt (1 # 10) (-7) (1 # 3) 1; pt 0 1 2 1; pt 1 1 1 (3 # 4); pt (-3) 0 (1 # 7) 1].
Lemma joint_ok : sound_curve joint_curve /\ Forall mild (ControlPoints joint_curve) /\ joint joint_curve (dq (1 # 3)) 2 /\ plain_end (pt (1 # 10) (-7) (1 # 3) 1).
Proof.
  split; [split; [apply soundb_ok; vm_compute; reflexivity|reflexivity]|]. split; [apply mildb_ok; vm_compute; reflexivity|]. split.
  - split; [apply finb_spec; vm_compute; reflexivity|]. split; [lia|]. split; [vm_compute; reflexivity|]. split.
    + intros j Hj. cbn [joint_curve Degree Knots] in *. assert (j = 3 \/ j = 4)%Z as [->| ->] by lia; reflexivity.
    + change (/ 2 ^ 900 <= val (dq (2 # 3)) - val (dq (1 # 3))).
      assert (SFleb dhalf (dq (2 # 3)) = true) as A by (vm_compute; reflexivity). assert (SFleb (dq (1 # 3)) (dq (3 # 8)) = true) as B by (vm_compute; reflexivity).
      rewrite SFleb_val in A, B by (apply finb_spec; vm_compute; reflexivity). apply Rleb_true in A, B. rewrite val_dhalf in A.
      assert (val (dq (3 # 8)) = 3 / 8) as V.
      { replace (dq (3 # 8)) with (S754_finite false 6755399441055744 (-54)) by (vm_compute; reflexivity). unfold val, BinarySingleNaN.SF2R, Defs.F2R. cbn [Defs.Fnum Defs.Fexp Zaux.cond_Zopp]. unfold Raux.bpow. simpl Zaux.radix_val. change (Z.pow_pos 2 54) with 18014398509481984%Z. lra. }
      apply Rle_trans with (/ 2 ^ 3); [|lra]. apply Rinv_le; [apply pow_lt; lra|]. apply Rle_pow; [lra|lia].
  - split; [exact val_done|]. split; [apply ordinary_big; vm_compute; reflexivity|]. split; [apply ordinary_neg; vm_compute; reflexivity|apply ordinary_big; vm_compute; reflexivity].
Qed.
