(** Property theorems: how far knot removal moves a curve (C87). *)
From Coq Require Import Reals ZArith List.
From Verif Require Import Outcome Num ModelCore ModelCurve SpecCore SpecBasis SpecCurve SpecSearch ThB64 ThCurveWit ThRemove3 ThRemoveTol ThRemoveTolWit.
Import ListNotations.
Open Scope Z_scope.

(** * C87.  Full claim: removing a knot [times] times moves no point of the curve by
    more than [times] times the tolerance.  It holds for polynomial curves, even with a
    factor 1 / (1 + the largest distance of a control point from the origin). *)
Theorem C87_polynomial_partial : forall (c : curve R) u times tol c', wf_curve c -> Forall (fun q => w4 q = 1%R) (ControlPoints c) ->
  (0 < u < 1)%R -> separated u (Knots c) ->
  1 <= times <= count u (Knots c) -> count u (Knots c) <= Degree c + 1 -> 2 * times <= Degree c + count u (Knots c) -> (0 <= tol)%R ->
  Curve_RemoveKnot c u times tol = Ok (c', times) ->
  forall x b, (0 <= x <= 1)%R -> In b (ControlPoints c) ->
  exists y y', Curve_Evaluate c x = Ok y /\ Curve_Evaluate c' x = Ok y' /\
    (dist3 y y' * (1 + dist3 (head3 b) (Vec3 0 0 0)) <= IZR times * tol)%R.
Proof. exact C87_polynomial_lemma. Qed.
Print Assumptions C87_polynomial_partial.
(** For rational curves the bound also needs the largest distance B of a control point
    from the origin, and a small tolerance. *)
Theorem C87_rational_partial : forall (c : curve R) u times tol c', wf_curve c -> (0 < u < 1)%R -> separated u (Knots c) ->
  1 <= times <= count u (Knots c) -> count u (Knots c) <= Degree c + 1 -> 2 * times <= Degree c + count u (Knots c) -> (0 <= tol)%R ->
  Curve_RemoveKnot c u times tol = Ok (c', times) ->
  forall x b B, (0 <= x <= 1)%R -> In b (ControlPoints c) -> Forall (fun q => (dist3 (head3 q) (Vec3 0 0 0) <= B)%R) (ControlPoints c) ->
  (IZR times * tol < 1 + w4 b * dist3 (head3 b) (Vec3 0 0 0))%R ->
  exists y y', Curve_Evaluate c x = Ok y /\ Curve_Evaluate c' x = Ok y' /\
    (dist3 y y' * (1 + w4 b * dist3 (head3 b) (Vec3 0 0 0) - IZR times * tol) <= IZR times * tol * (1 + B))%R.
Proof. exact C87_rational_lemma. Qed.
Print Assumptions C87_rational_partial.
Example C87_ex : exists c', wf_curve tent /\ Forall (fun q => w4 q = 1%R) (ControlPoints tent) /\ (0 < 1/2 < 1)%R /\ separated (1/2) (Knots tent) /\
  1 <= 1 <= count (1/2) (Knots tent) /\ count (1/2) (Knots tent) <= Degree tent + 1 /\ 2 * 1 <= Degree tent + count (1/2) (Knots tent) /\ (0 <= 1)%R /\
  Curve_RemoveKnot tent (1/2)%R 1 1%R = Ok (c', 1) /\ In (Vec4 2 0 0 1)%R (ControlPoints tent) /\
  Forall (fun q => (dist3 (head3 q) (Vec3 0 0 0) <= 2)%R) (ControlPoints tent) /\ (IZR 1 * 1 < 1 + w4 (Vec4 2 0 0 1) * dist3 (head3 (Vec4 2 0 0 1)) (Vec3 0 0 0))%R.
Proof. exact C87_ex_lemma. Qed.
(** In general the claim fails: on doubles a degree 1 curve with small weights is moved
    by 256 times the tolerance. *)
Theorem C87_refuted : exists (c : curve b64) u tol c' x y y', wf_curve (curve_val c) /\ (0 < val u < 1)%R /\ (0 < val tol)%R /\ Degree c = 1 /\
  Curve_RemoveKnot c u 1 tol = Ok (c', 1) /\ Curve_Evaluate c x = Ok y /\ Curve_Evaluate c' x = Ok y' /\
  (256 * val tol <= Rabs (val (x3 y') - val (x3 y)))%R.
Proof. exact C87_refuted_lemma. Qed.
Print Assumptions C87_refuted.
