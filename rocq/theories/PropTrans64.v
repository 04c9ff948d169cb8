(** C113: Transform on doubles. *)
From Coq Require Import Reals QArith ZArith List Lra Lia Floats.SpecFloat.
From Verif Require Import Outcome Num ModelCore ModelBasis ModelCurve ModelSurface SpecCore SpecCurve SpecSurface SpecErr SpecErrIns SpecGeom64 SpecTrans64
  ThB64 ThErr ThDecide ThCurveWit ThBBoxWit ThSurfWit ThErrWit ThTrans64.
Import ListNotations.
Open Scope Z_scope.

(** * C113 *)
Theorem C113_points : forall (c : curve b64) m K M, small_mat K m -> Forall (tame M) (ControlPoints c) -> (0 <= K)%R -> (0 <= M)%R -> (K * M <= 2 ^ 97)%R ->
  Degree (Curve_Transform c m) = Degree c /\ Knots (Curve_Transform c m) = Knots c /\
  List.Forall2 (fun p q => w4 q = w4 p /\ near3 (9 / 2 ^ 53 * (K * M) + / 2 ^ 1000) (spot q) (mat_apply (mat_val m) (val3 (spot p)))) (ControlPoints c) (ControlPoints (Curve_Transform c m)).
Proof. exact C113_points_lemma. Qed.
Print Assumptions C113_points.
Example C113_points_ex : small_mat 1 turn345 /\ Forall (tame 1) (ControlPoints err_curve) /\ Curve_Transform err_curve turn345 <> err_curve.
Proof. split; [apply turn_small|]. split; [apply err_curve_ok|]. intros H. apply (f_equal (fun c => map x4 (ControlPoints c))) in H. vm_compute in H. discriminate H. Qed.

Theorem C113_net : forall (s : surface b64) m K M, small_mat K m -> Forall (tame M) (Values (Net s)) -> (0 <= K)%R -> (0 <= M)%R -> (K * M <= 2 ^ 97)%R ->
  let t := Surface_Transform s m in
  DegreeU t = DegreeU s /\ DegreeV t = DegreeV s /\ KnotsU t = KnotsU s /\ KnotsV t = KnotsV s /\ UCount (Net t) = UCount (Net s) /\ VCount (Net t) = VCount (Net s) /\
  List.Forall2 (fun p q => w4 q = w4 p /\ near3 (9 / 2 ^ 53 * (K * M) + / 2 ^ 1000) (spot q) (mat_apply (mat_val m) (val3 (spot p)))) (Values (Net s)) (Values (Net t)).
Proof. exact C113_net_lemma. Qed.
Print Assumptions C113_net.
Example C113_net_ex : small_mat 1 turn345 /\ Forall (tame 1) (Values (Net err_surface)).
Proof. split; [apply turn_small|apply err_surface_ok]. Qed.

Theorem C113_curve : forall (c : curve b64) m K M x, sound_curve c -> apart (Knots c) -> Degree c <= 50 -> Forall (tame M) (ControlPoints c) -> small_mat K m ->
  (0 <= K)%R -> (0 <= M)%R -> (K * M <= 2 ^ 97)%R -> finite64 x -> (0 <= val x <= 1)%R ->
  exists q, Curve_Evaluate (Curve_Transform c m) x = Ok q /\
    near3 ((180 * (IZR (Degree c) + 1) + 9) / 2 ^ 53 * (K * M) + / 2 ^ 449) q (mat_apply (mat_val m) (curve_point (curve_val c) (val x))).
Proof. exact C113_curve_lemma. Qed.
Print Assumptions C113_curve.
Example C113_curve_ex : sound_curve err_curve /\ apart (Knots err_curve) /\ Degree err_curve <= 50 /\ Forall (tame 1) (ControlPoints err_curve) /\ small_mat 1 turn345 /\
  finite64 (dq (1 # 3)) /\ (0 <= val (dq (1 # 3)) <= 1)%R.
Proof.
  split; [apply err_curve_ok|]. split; [apply err_apart|]. split; [discriminate|]. split; [apply err_curve_ok|]. split; [apply turn_small|]. destruct third_inner as [[F H] _]. split; [exact F|lra].
Qed.

Theorem C113_surface : forall (s : surface b64) m K M u v, sound_surface s -> apart (KnotsU s) -> apart (KnotsV s) -> DegreeU s <= 50 -> DegreeV s <= 50 ->
  Forall (tame M) (Values (Net s)) -> small_mat K m -> (0 <= K)%R -> (0 <= M)%R -> (K * M <= 2 ^ 97)%R -> finite64 u -> (0 <= val u <= 1)%R -> finite64 v -> (0 <= val v <= 1)%R ->
  exists q, Surface_Evaluate (Surface_Transform s m) u v = Ok q /\
    near3 ((180 * (IZR (DegreeU s) + IZR (DegreeV s) + 1) + 9) / 2 ^ 53 * (K * M) + / 2 ^ 449) q (mat_apply (mat_val m) (surf_point (surface_val s) (val u) (val v))).
Proof. exact C113_surface_lemma. Qed.
Print Assumptions C113_surface.
Example C113_surface_ex : sound_surface err_surface /\ apart (KnotsU err_surface) /\ apart (KnotsV err_surface) /\ Forall (tame 1) (Values (Net err_surface)) /\ small_mat 1 turn345 /\
  finite64 (dq (1 # 3)) /\ (0 <= val (dq (1 # 3)) <= 1)%R.
Proof.
  split; [apply err_surface_ok|]. split; [apply err_apart|]. split; [apply err_apart|]. split; [apply err_surface_ok|]. split; [apply turn_small|]. destruct third_inner as [[F H] _]. split; [exact F|lra].
Qed.
