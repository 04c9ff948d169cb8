(** C120: a curve of doubles passes exactly through the control point of a knot of full multiplicity. *)
From Coq Require Import Reals QArith ZArith List Lra Lia Floats.SpecFloat.
From Flocq Require Import Core.
From Verif Require Import Outcome Num ModelCore ModelCurve SpecCore SpecBasis SpecErr SpecGeom64 SpecEnd64 SpecJoint64 ThB64 ThCoreWit ThDecide ThErrWit ThBBoxWit ThJoint64 ThJoint64w.
Import ListNotations.
Open Scope R_scope.

(** * C120 *)
Theorem C120_joint : forall (c : curve b64) x k point, sound_curve c -> (1 <= Degree c)%Z -> Forall mild (ControlPoints c) -> joint c x k ->
  nth_error (ControlPoints c) (Z.to_nat k) = Some point -> plain_end point ->
  exists q, Curve_Evaluate c x = Ok q /\ finite64 (x3 q) /\ finite64 (y3 q) /\ finite64 (z3 q) /\ val3 q = val3 (spot point).
Proof. exact C120_lemma. Qed.
Print Assumptions C120_joint.
Example C120_joint_ex : sound_curve joint_curve /\ Forall mild (ControlPoints joint_curve) /\ joint joint_curve (dq (1 # 3)) 2 /\
  nth_error (ControlPoints joint_curve) (Z.to_nat 2) = Some (pt (1 # 10) (-7) (1 # 3) 1) /\ plain_end (pt (1 # 10) (-7) (1 # 3) 1) /\
  Curve_Evaluate joint_curve (dq (1 # 3)) = Ok (Vec3 (dq (1 # 10)) (dq (-7)) (dq (1 # 3))) /\
  Curve_Evaluate joint_curve (dq (2 # 3)) <> Ok (Vec3 dz done_ (dq 2)).
Proof. split; [apply joint_ok|]. split; [apply joint_ok|]. split; [apply joint_ok|]. split; [reflexivity|]. split; [apply joint_ok|]. split; [vm_compute; reflexivity|vm_compute; discriminate]. Qed.
