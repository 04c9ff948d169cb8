(** Degree elevation on doubles (C105).
    [sound_curve]/[sound_surface]: finite clamped knots and the right number of
    control points, which may be any bit patterns; [vals]: the real values of
    the doubles; [gains t K K']: every distinct knot of [K] occurs [t] more
    times in [K'], and nothing else; [spread]: consecutive distinct knots are at
    least 1e-6 apart; [spans]: the number of knot spans. *)
From Coq Require Import Reals ZArith List.
From Verif Require Import Outcome Num ModelCore ModelCurve ModelSurface SpecCore SpecBezier SpecElevate SpecErr ThB64 ThElevateWit ThElev64 ThElev64Wit.
Import ListNotations.
Open Scope Z_scope.

(** * C105.  Full claim: ElevateDegree(t) of every sound curve or surface of
    doubles of degree at least 1 succeeds with a sound result of degree p + t. *)
Theorem C105_elevate_partial : forall (c : curve b64) t, sound_curve c -> 1 <= Degree c -> 1 <= t -> Degree c + t <= 29 ->
  interior_multiplicity_le (Degree c) (vals (Knots c)) -> spread (vals (Knots c)) ->
  len (ControlPoints c) + t * spans (vals (Knots c)) <= 2 * (len (ControlPoints c) - 1 + t) ->
  exists d, Curve_ElevateDegree c t = Ok d /\ sound_curve d /\ Degree d = Degree c + t /\ gains t (vals (Knots c)) (vals (Knots d)) /\
    len (ControlPoints d) = len (ControlPoints c) + t * spans (vals (Knots c)).
Proof. exact C105_elevate_lemma. Qed.
Print Assumptions C105_elevate_partial.
(** degree 10, knots 1/2 and 3/4 (three times), all control points NaN or infinite *)
Example C105_ex : sound_curve nan_deg10 /\ 1 <= Degree nan_deg10 /\ Degree nan_deg10 + 1 <= 29 /\
  interior_multiplicity_le (Degree nan_deg10) (vals (Knots nan_deg10)) /\ spread (vals (Knots nan_deg10)) /\
  len (ControlPoints nan_deg10) + 1 * spans (vals (Knots nan_deg10)) <= 2 * (len (ControlPoints nan_deg10) - 1 + 1).
Proof. exact nan_deg10_ok. Qed.

(** Success, failure, the knots and the number of points never depend on the
    coordinates or weights, whatever the knots are. *)
Theorem C105_points_irrelevant : forall (c c' : curve b64) t, Degree c = Degree c' -> Knots c = Knots c' -> len (ControlPoints c) = len (ControlPoints c') ->
  match Curve_ElevateDegree c t, Curve_ElevateDegree c' t with
  | Ok d, Ok d' => Degree d = Degree d' /\ Knots d = Knots d' /\ len (ControlPoints d) = len (ControlPoints d')
  | Ok _, _ | _, Ok _ => False
  | o, o' => o = o'
  end.
Proof. exact C105_points_lemma. Qed.
Print Assumptions C105_points_irrelevant.
Example C105_points_ex : Degree four64 = Degree nan_four /\ Knots four64 = Knots nan_four /\ len (ControlPoints four64) = len (ControlPoints nan_four) /\
  ControlPoints four64 <> ControlPoints nan_four.
Proof. exact nan_four_ok. Qed.

(** Surfaces: the direction must be a single span ... *)
Theorem C105_elevateU_partial : forall (s : surface b64) t, sound_surface s -> UCount (Net s) = DegreeU s + 1 -> 1 <= DegreeU s -> 1 <= t -> DegreeU s + t <= 29 ->
  (UCount (Net s) + t) * VCount (Net s) <= INT_MAX ->
  exists d, Surface_ElevateDegreeU s t = Ok d /\ sound_surface d /\ DegreeU d = DegreeU s + t /\ DegreeV d = DegreeV s /\
    gains t (vals (KnotsU s)) (vals (KnotsU d)) /\ KnotsV d = KnotsV s /\ UCount (Net d) = UCount (Net s) + t /\ VCount (Net d) = VCount (Net s).
Proof. exact C105_U_lemma. Qed.
Print Assumptions C105_elevateU_partial.
Theorem C105_elevateV_partial : forall (s : surface b64) t, sound_surface s -> VCount (Net s) = DegreeV s + 1 -> 1 <= DegreeV s -> 1 <= t -> DegreeV s + t <= 29 ->
  UCount (Net s) * (VCount (Net s) + t) <= INT_MAX ->
  exists d, Surface_ElevateDegreeV s t = Ok d /\ sound_surface d /\ DegreeV d = DegreeV s + t /\ DegreeU d = DegreeU s /\
    gains t (vals (KnotsV s)) (vals (KnotsV d)) /\ KnotsU d = KnotsU s /\ VCount (Net d) = VCount (Net s) + t /\ UCount (Net d) = UCount (Net s).
Proof. exact C105_V_lemma. Qed.
Print Assumptions C105_elevateV_partial.
(** ... otherwise the call stops at an assertion. *)
Theorem C105_several_spansU : forall (s : surface b64) t, sound_surface s -> UCount (Net s) <> DegreeU s + 1 -> 1 <= DegreeU s -> 1 <= t -> DegreeU s + t <= 29 ->
  interior_multiplicity_le (DegreeU s) (vals (KnotsU s)) -> spread (vals (KnotsU s)) ->
  UCount (Net s) + t * spans (vals (KnotsU s)) <= 2 * (UCount (Net s) - 1 + t) ->
  (UCount (Net s) + t) * VCount (Net s) <= INT_MAX -> Surface_ElevateDegreeU s t = AssertFail.
Proof. exact C105_manyU_lemma. Qed.
Print Assumptions C105_several_spansU.
Theorem C105_several_spansV : forall (s : surface b64) t, sound_surface s -> VCount (Net s) <> DegreeV s + 1 -> 1 <= DegreeV s -> 1 <= t -> DegreeV s + t <= 29 ->
  interior_multiplicity_le (DegreeV s) (vals (KnotsV s)) -> spread (vals (KnotsV s)) ->
  VCount (Net s) + t * spans (vals (KnotsV s)) <= 2 * (VCount (Net s) - 1 + t) ->
  UCount (Net s) * (VCount (Net s) + t) <= INT_MAX -> Surface_ElevateDegreeV s t = AssertFail.
Proof. exact C105_manyV_lemma. Qed.
Print Assumptions C105_several_spansV.
(** one quadratic span along u, three spans of degree 10 along v *)
Example C105_surface_ex : sound_surface bez_surface /\ UCount (Net bez_surface) = DegreeU bez_surface + 1 /\ VCount (Net bez_surface) <> DegreeV bez_surface + 1 /\
  interior_multiplicity_le (DegreeV bez_surface) (vals (KnotsV bez_surface)) /\ spread (vals (KnotsV bez_surface)) /\
  VCount (Net bez_surface) + 1 * spans (vals (KnotsV bez_surface)) <= 2 * (VCount (Net bez_surface) - 1 + 1) /\
  (UCount (Net bez_surface) + 2) * (VCount (Net bez_surface) + 2) <= INT_MAX.
Proof. exact bez_surface_ok. Qed.
(** Refuted: success without the condition on the buffers. *)
Theorem C105_buffer_refuted : exists (c : curve b64) t, sound_curve c /\ 1 <= Degree c /\ 1 <= t /\
  interior_multiplicity_le (Degree c) (vals (Knots c)) /\ Curve_ElevateDegree c t = Undefined OutOfBounds.
Proof. exact C105_buffer_lemma. Qed.
Print Assumptions C105_buffer_refuted.
