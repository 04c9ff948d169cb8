(** Property theorems: Bezier extraction (C42) and bounding boxes of curves (C43). *)
From Coq Require Import Reals ZArith List Lra Lia.
From Verif Require Import Outcome Num ModelCore ModelCurve SpecCore SpecBasis SpecCurve SpecBezier
  ThReal ThB64 ThCoreWit ThCurveWit ThBezier ThBezier2 ThBezierWit ThBBox4 ThBBoxWit.
Import ListNotations.
Open Scope Z_scope.

(** * C42, for degrees of at least 1.  [ts] are the distinct knots, so segment [j]
    belongs to the span [[ts_j, ts_(j+1)]]. *)
Theorem C42_extract_partial : forall c, wf_curve c -> 1 <= Degree c -> interior_multiplicity_le (Degree c) (Knots c) ->
  exists segs ts, Curve_ExtractBezier c = Ok segs /\ distinct_knots (Knots c) ts /\ len segs = len ts - 1 /\
    forall j seg, vget segs j = Ok seg -> is_bezier (Degree c) seg /\
      forall s, (0 <= s <= 1)%R ->
        Curve_Evaluate seg s = Curve_Evaluate c (at_ ts j + (at_ ts (j + 1) - at_ ts j) * s)%R.
Proof. exact C42_lemma. Qed.
Print Assumptions C42_extract_partial.
Example C42_ex : wf_curve curve_ex /\ 1 <= Degree curve_ex /\ interior_multiplicity_le (Degree curve_ex) (Knots curve_ex).
Proof. exact C42_ex_lemma. Qed.

(** Missing: degree 0.  There the cutting loop advances by the degree and never
    ends, whatever the number of iterations allowed. *)
Theorem C42_degree_zero_refuted : exists c : curve b64, wf_curve (curve_val c) /\ Degree c = 0 /\
  interior_multiplicity_le 0 (Knots (curve_val c)) /\
  forall fuel, extract_cut fuel (Degree c) (ControlPoints c) 0 = OutOfFuel.
Proof. exact C42_degree_zero_lemma. Qed.
Print Assumptions C42_degree_zero_refuted.

(** * C43.  The first argument of [Curve_GetBoundingBox] is the number of polygons
    each segment may take from its stack. *)
(** Exact arithmetic: the subdivision ends for every curve of degree 1 or more and
    every epsilon (of either sign), because the 1e-6 test accepts small polygons. *)
Theorem C43_terminates_partial : forall c eps, wf_curve c -> 1 <= Degree c ->
  exists n box, forall fuel, (n <= fuel)%nat -> Curve_GetBoundingBox fuel c eps = Ok box.
Proof. exact C43_terminates_lemma. Qed.
Print Assumptions C43_terminates_partial.
(** The box contains the points at the knots.  If all weights are 1, no point of
    the curve is below the box by more than epsilon or 1e-6, and the box is not too
    large: it is inside every box that contains the curve. *)
Theorem C43_box_partial : forall c eps fuel box, wf_curve c -> 1 <= Degree c -> interior_multiplicity_le (Degree c) (Knots c) ->
  Curve_GetBoundingBox fuel c eps = Ok box ->
  ordered box /\ (forall t, In t (Knots c) -> exists q, Curve_Evaluate c t = Ok q /\ in_box q box) /\
  (unit_weights c ->
    (forall x q, Curve_Evaluate c x = Ok q -> above_box (Rmax eps (1 / 1000000)) box q) /\
    (forall D, (forall x q, Curve_Evaluate c x = Ok q -> in_box q D) -> box_incl box D)).
Proof. exact C43_lemma. Qed.
Print Assumptions C43_box_partial.
Example C43_ex : wf_curve poly_ex /\ 1 <= Degree poly_ex /\ interior_multiplicity_le (Degree poly_ex) (Knots poly_ex) /\ unit_weights poly_ex.
Proof. exact C43_ex_lemma. Qed.
(** Missing because false: the upper side ([ExpandToInclude] resets [Max], see C25:
    the control box ends at the last control point and a bulge above it is lost), *)
Theorem C43_upper_refuted : exists (c : curve b64) eps fuel box x q, wf_curve (curve_val c) /\ unit_weights (curve_val c) /\
  finite64 eps /\ (0 < val eps)%R /\ Curve_GetBoundingBox fuel c eps = Ok box /\ Curve_Evaluate c x = Ok q /\
  ~ in_box_enlarged (val eps) (box_val box) (val3 q).
Proof. exact C43_upper_lemma. Qed.
Print Assumptions C43_upper_refuted.
(** the lower side for rational curves (the subdivision ignores the weights), *)
Theorem C43_rational_refuted : exists (c : curve b64) eps fuel box x q, wf_curve (curve_val c) /\
  finite64 eps /\ (0 < val eps)%R /\ Curve_GetBoundingBox fuel c eps = Ok box /\ Curve_Evaluate c x = Ok q /\
  ~ above_box (val eps) (box_val box) (val3 q).
Proof. exact C43_rational_lemma. Qed.
Print Assumptions C43_rational_refuted.
(** and termination in binary64: far from the origin a half can round back to its
    parent, which is then subdivided for ever. *)
Theorem C43_endless_refuted : exists (c : curve b64) eps, wf_curve (curve_val c) /\ 1 <= Degree c /\ unit_weights (curve_val c) /\
  finite64 eps /\ (0 < val eps)%R /\ forall fuel, Curve_GetBoundingBox fuel c eps = OutOfFuel.
Proof. exact C43_endless_lemma. Qed.
Print Assumptions C43_endless_refuted.
