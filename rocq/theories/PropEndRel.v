(** C117: accuracy at the ends and corners, whatever the weights. *)
From Coq Require Import Reals QArith ZArith List Lra Lia Floats.SpecFloat.
From Flocq Require Import Core.
From Verif Require Import Outcome Num ModelCore ModelCurve ModelSurface SpecCore SpecBasis SpecErr SpecEnd64 SpecCorner64 SpecEndRel ThB64 ThRound ThCoreWit ThDecide ThEnd64w ThEndRel ThEndRelWit.
Import ListNotations.
Open Scope R_scope.

(** * C117 *)
Theorem C117_curve : forall (c : curve b64) x k d pe, sound_curve c -> Forall mild (ControlPoints c) -> end_of (Degree c) (Knots c) x k d ->
  nth_error (ControlPoints c) (Z.to_nat k) = Some pe -> sturdy pe -> exists q, Curve_Evaluate c x = Ok q /\ within3 5 pe q.
Proof. exact C117_curve_lemma. Qed.
Print Assumptions C117_curve.
Example C117_curve_ex : sound_curve heavy_curve /\ Forall mild (ControlPoints heavy_curve) /\
  (end_of 1 (Knots heavy_curve) dz 0 (at_ (vals gap_knots) 2) /\ nth_error (ControlPoints heavy_curve) (Z.to_nat 0) = Some (pt (1 # 10) 0 (-7) 3) /\ sturdy (pt (1 # 10) 0 (-7) 3)) /\
  (end_of 1 (Knots heavy_curve) done_ 2 (rnd64 (1 - at_ (vals gap_knots) 2)) /\ nth_error (ControlPoints heavy_curve) (Z.to_nat 2) = Some (pt (-3) 5 (1 # 3) (-1 # 10)) /\ sturdy (pt (-3) 5 (1 # 3) (-1 # 10))).
Proof. split; [apply heavy_ok|]. split; [apply heavy_ok|]. split; (split; [apply heavy_ok|]; split; [reflexivity|apply heavy_ok]). Qed.

Theorem C117_surface : forall (s : surface b64) u v ku kv du dv corner, sound_surface s -> Forall mild (Values (Net s)) ->
  end_of (DegreeU s) (KnotsU s) u ku du -> end_of (DegreeV s) (KnotsV s) v kv dv ->
  nth_error (Values (Net s)) (Z.to_nat (kv * UCount (Net s) + ku)) = Some corner -> sturdy corner ->
  exists q, Surface_Evaluate s u v = Ok q /\ within3 7 corner q.
Proof. exact C117_surface_lemma. Qed.
Print Assumptions C117_surface.
Example C117_surface_ex : sound_surface heavy_surface /\ Forall mild (Values (Net heavy_surface)) /\
  end_of 1 (KnotsU heavy_surface) dz 0 (at_ (vals gap_knots) 2) /\ end_of 1 (KnotsV heavy_surface) done_ 2 (rnd64 (1 - at_ (vals gap_knots) 2)) /\
  nth_error (Values (Net heavy_surface)) (Z.to_nat (2 * UCount (Net heavy_surface) + 0)) = Some (pt 0 2 0 (-3)) /\ sturdy (pt 0 2 0 (-3)).
Proof. split; [apply heavy_surface_ok|]. split; [apply heavy_surface_ok|]. split; [apply heavy_ok|]. split; [apply heavy_ok|]. split; [reflexivity|apply heavy_surface_ok]. Qed.
