(** Degree elevation: C40 (same curve), C41 (memory safety), C52 (surfaces). *)
From Coq Require Import Reals ZArith List.
From Verif Require Import Outcome Num ModelCore ModelCurve ModelSurface SpecCore SpecBasis SpecCurve SpecSurface SpecBezier SpecElevate ThB64 ThCurveWit ThSurfWit ThElevateWit ThElevSurf ThElev64.
Import ListNotations.
Open Scope Z_scope.

(** * C40.  Full claim: ElevateDegree(t) of a well-formed curve returns a well-formed
    curve of degree p + t in which every distinct knot gained t copies and which
    evaluates to the same points.  False as it stands (below); it holds when the
    degree is at least 1, the binomial coefficients fit in int, no interior knot has
    multiplicity above the degree, distinct knots are 1e-6 apart, the multiplicities
    do not jump up, and the buffers are large enough. *)
Theorem C40_elevate_partial : forall (c : curve R) t, wf_curve c -> 1 <= Degree c -> 1 <= t -> Degree c + t <= 29 ->
  interior_multiplicity_le (Degree c) (Knots c) -> spread (Knots c) -> gentle (Degree c) t (Knots c) ->
  len (ControlPoints c) + t * spans (Knots c) <= 2 * (len (ControlPoints c) - 1 + t) ->
  exists d, Curve_ElevateDegree c t = Ok d /\ wf_curve d /\ Degree d = Degree c + t /\ gains t (Knots c) (Knots d) /\
    same_curve c d /\ forall x, Curve_Evaluate d x = Curve_Evaluate c x.
Proof. exact C40_elevate_lemma. Qed.
Print Assumptions C40_elevate_partial.
(** A quadratic with three spans and a double knot, raised by two. *)
Example C40_elevate_ex : wf_curve curve_ex /\ 1 <= Degree curve_ex /\ Degree curve_ex + 2 <= 29 /\
  interior_multiplicity_le (Degree curve_ex) (Knots curve_ex) /\ spread (Knots curve_ex) /\ gentle (Degree curve_ex) 2 (Knots curve_ex) /\
  len (ControlPoints curve_ex) + 2 * spans (Knots curve_ex) <= 2 * (len (ControlPoints curve_ex) - 1 + 2) /\ spans (Knots curve_ex) = 3.
Proof. exact C40_ex_lemma. Qed.
(** Raising the degree by one: up to degree 9 no condition on the pattern of
    multiplicities and on the number of spans is needed. *)
Theorem C40_by_one_partial : forall c : curve R, wf_curve c -> 1 <= Degree c <= 9 ->
  interior_multiplicity_le (Degree c) (Knots c) -> spread (Knots c) ->
  exists d, Curve_ElevateDegree c 1 = Ok d /\ wf_curve d /\ Degree d = Degree c + 1 /\ gains 1 (Knots c) (Knots d) /\
    same_curve c d /\ forall x, Curve_Evaluate d x = Curve_Evaluate c x.
Proof. exact C40_small_lemma. Qed.
Print Assumptions C40_by_one_partial.
(** Refuted: degree 1 raised by 29 overflows int in the binomial coefficients. *)
Theorem C40_overflow_refuted : exists (c : curve b64) t, wf_curve (curve_val c) /\ Degree c = 1 /\ t = 29 /\
  interior_multiplicity_le (Degree c) (Knots (curve_val c)) /\ Curve_ElevateDegree c t = Undefined IntOverflow.
Proof. exact C40_overflow_lemma. Qed.
Print Assumptions C40_overflow_refuted.
(** Refuted: a degree 0 curve asks for a vector of length -1. *)
Theorem C40_degree_zero_refuted : exists c : curve b64, wf_curve (curve_val c) /\ Degree c = 0 /\
  Curve_ElevateDegree c 1 = Throw LengthError.
Proof. exact C40_degree_zero_lemma. Qed.
Print Assumptions C40_degree_zero_refuted.
(** Refuted: knots less than 1e-6 apart are merged, so one of them disappears. *)
Theorem C40_close_refuted : exists (c : curve b64) d k, wf_curve (curve_val c) /\ 1 <= Degree c /\
  interior_multiplicity_le (Degree c) (Knots (curve_val c)) /\ Curve_ElevateDegree c 1 = Ok d /\
  In (val k) (Knots (curve_val c)) /\ ~ In (val k) (Knots (curve_val d)).
Proof. exact C40_close_lemma. Qed.
Print Assumptions C40_close_refuted.
(** Refuted: a degree 10 curve with a simple and a triple interior knot is moved
    by more than 0.1 (the factor [bet] of the knot removal uses one knot for all
    rows). *)
Theorem C40_pattern_refuted : exists (c d : curve b64) x p q, wf_curve (curve_val c) /\ Degree c = 10 /\
  interior_multiplicity_le 3 (Knots (curve_val c)) /\ Curve_ElevateDegree c 1 = Ok d /\
  Curve_Evaluate c x = Ok p /\ Curve_Evaluate d x = Ok q /\ (val (x3 q) + 1 / 10 < val (x3 p))%R.
Proof. exact C40_pattern_lemma. Qed.
Print Assumptions C40_pattern_refuted.

(** * C41.  Full claim: no out-of-range access for any well-formed curve and t.
    Proved whatever the control points and weights are: the call succeeds, or a
    division by zero in the coordinates occurs ([NotFinite], no memory error). *)
Theorem C41_elevate_partial : forall (c : curve R) t, clamped (Degree c) (Knots c) -> len (ControlPoints c) = len (Knots c) - Degree c - 1 ->
  1 <= Degree c -> 1 <= t -> Degree c + t <= 29 -> interior_multiplicity_le (Degree c) (Knots c) -> spread (Knots c) ->
  len (ControlPoints c) + t * spans (Knots c) <= 2 * (len (ControlPoints c) - 1 + t) ->
  (exists d, Curve_ElevateDegree c t = Ok d /\ Degree d = Degree c + t /\ gains t (Knots c) (Knots d) /\ len (ControlPoints d) = len (ControlPoints c) + t * spans (Knots c)) \/
  Curve_ElevateDegree c t = NotFinite.
Proof. exact C41_any_lemma. Qed.
Print Assumptions C41_elevate_partial.
(** Refuted: four spans of degree 1 raised by 2 overrun the buffer for the new points. *)
Theorem C41_buffer_refuted : exists (c : curve b64) t, wf_curve (curve_val c) /\ 1 <= Degree c /\ 1 <= t /\
  interior_multiplicity_le (Degree c) (Knots (curve_val c)) /\ Curve_ElevateDegree c t = Undefined OutOfBounds.
Proof. exact C41_buffer_lemma. Qed.
Print Assumptions C41_buffer_refuted.
(** Refuted: at an interior knot of multiplicity degree + 1 index -1 is written. *)
Theorem C41_jump_refuted : exists c : curve b64, wf_curve (curve_val c) /\ 1 <= Degree c /\
  Curve_ElevateDegree c 1 = Undefined OutOfBounds.
Proof. exact C41_jump_lemma. Qed.
Print Assumptions C41_jump_refuted.

(** * C52.  Full claim: ElevateDegreeU/V of every well-formed surface succeed and
    keep the surface.  That holds exactly when the direction is a single span. *)
Theorem C52_elevateU_partial : forall (s : surface R) t, wf_surface s -> UCount (Net s) = DegreeU s + 1 ->
  1 <= DegreeU s -> 1 <= t -> DegreeU s + t <= 29 -> (UCount (Net s) + t) * VCount (Net s) <= INT_MAX ->
  exists d, Surface_ElevateDegreeU s t = Ok d /\ wf_surface d /\ DegreeU d = DegreeU s + t /\ DegreeV d = DegreeV s /\
    gains t (KnotsU s) (KnotsU d) /\ KnotsV d = KnotsV s /\ forall u v, Surface_Evaluate d u v = Surface_Evaluate s u v.
Proof. exact C52_U_lemma. Qed.
Print Assumptions C52_elevateU_partial.
Theorem C52_elevateV_partial : forall (s : surface R) t, wf_surface s -> VCount (Net s) = DegreeV s + 1 ->
  1 <= DegreeV s -> 1 <= t -> DegreeV s + t <= 29 -> UCount (Net s) * (VCount (Net s) + t) <= INT_MAX ->
  exists d, Surface_ElevateDegreeV s t = Ok d /\ wf_surface d /\ DegreeV d = DegreeV s + t /\ DegreeU d = DegreeU s /\
    gains t (KnotsV s) (KnotsV d) /\ KnotsU d = KnotsU s /\ forall u v, Surface_Evaluate d u v = Surface_Evaluate s u v.
Proof. exact C52_V_lemma. Qed.
Print Assumptions C52_elevateV_partial.
Example C52_elevate_ex : wf_surface bez_ex /\ UCount (Net bez_ex) = DegreeU bez_ex + 1 /\ 1 <= DegreeU bez_ex /\
  (UCount (Net bez_ex) + 28) * VCount (Net bez_ex) <= INT_MAX /\
  wf_surface bez_exV /\ VCount (Net bez_exV) = DegreeV bez_exV + 1 /\ 1 <= DegreeV bez_exV /\
  UCount (Net bez_exV) * (VCount (Net bez_exV) + 28) <= INT_MAX.
Proof. exact C52_ex_lemma. Qed.
(** With several spans an assertion fails, for every surface whose rows can be elevated. *)
Theorem C52_manyU_partial : forall (s : surface R) t, wf_surface s -> UCount (Net s) <> DegreeU s + 1 -> 1 <= DegreeU s -> 1 <= t -> DegreeU s + t <= 29 ->
  interior_multiplicity_le (DegreeU s) (KnotsU s) -> spread (KnotsU s) -> gentle (DegreeU s) t (KnotsU s) ->
  UCount (Net s) + t * spans (KnotsU s) <= 2 * (UCount (Net s) - 1 + t) ->
  (UCount (Net s) + t) * VCount (Net s) <= INT_MAX -> Surface_ElevateDegreeU s t = AssertFail.
Proof. exact C52_manyU_lemma. Qed.
Print Assumptions C52_manyU_partial.
Theorem C52_manyV_partial : forall (s : surface R) t, wf_surface s -> VCount (Net s) <> DegreeV s + 1 -> 1 <= DegreeV s -> 1 <= t -> DegreeV s + t <= 29 ->
  interior_multiplicity_le (DegreeV s) (KnotsV s) -> spread (KnotsV s) -> gentle (DegreeV s) t (KnotsV s) ->
  VCount (Net s) + t * spans (KnotsV s) <= 2 * (VCount (Net s) - 1 + t) ->
  UCount (Net s) * (VCount (Net s) + t) <= INT_MAX -> Surface_ElevateDegreeV s t = AssertFail.
Proof. exact C52_manyV_lemma. Qed.
Print Assumptions C52_manyV_partial.
Example C52_many_ex : wf_surface surf_ex /\ UCount (Net surf_ex) <> DegreeU surf_ex + 1 /\ 1 <= DegreeU surf_ex /\
  interior_multiplicity_le (DegreeU surf_ex) (KnotsU surf_ex) /\ spread (KnotsU surf_ex) /\ gentle (DegreeU surf_ex) 1 (KnotsU surf_ex) /\
  UCount (Net surf_ex) + 1 * spans (KnotsU surf_ex) <= 2 * (UCount (Net surf_ex) - 1 + 1) /\ (UCount (Net surf_ex) + 1) * VCount (Net surf_ex) <= INT_MAX.
Proof. exact C52_many_ex_lemma. Qed.
(** Refuted: with two spans the new row does not fit the grid that was allocated. *)
Theorem C52_two_spans_refuted : exists sU sV : surface b64, wf_surface (surface_val sU) /\ wf_surface (surface_val sV) /\
  interior_multiplicity_le (DegreeU sU) (KnotsU (surface_val sU)) /\ interior_multiplicity_le (DegreeV sV) (KnotsV (surface_val sV)) /\
  DegreeU sU = 1 /\ DegreeV sV = 1 /\ Surface_ElevateDegreeU sU 1 = AssertFail /\ Surface_ElevateDegreeV sV 1 = AssertFail.
Proof. exact C52_two_spans_lemma. Qed.
Print Assumptions C52_two_spans_refuted.
