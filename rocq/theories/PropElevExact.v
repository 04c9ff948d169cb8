(** Exactly when degree elevation succeeds on doubles (C106).
    [sound_curve]/[sound_surface]: finite clamped knots and the right number of
    control points, which may be any bit patterns; [spread]: consecutive
    distinct knots are at least 1e-6 apart; [spans]: the number of knot spans. *)
From Coq Require Import Reals ZArith List.
From Verif Require Import Outcome Num ModelCore ModelCurve ModelSurface SpecCore SpecBezier SpecElevate SpecErr ThB64 ThElevateWit ThElev64Wit ThElevExact ThElevExactWit.
Import ListNotations.
Open Scope Z_scope.

(** * C106 *)
Theorem C106_exact : forall (c : curve b64) t, sound_curve c -> spread (vals (Knots c)) ->
  ((exists d, Curve_ElevateDegree c t = Ok d) <->
   1 <= Degree c /\ 1 <= t /\ Degree c + t <= 29 /\ interior_multiplicity_le (Degree c) (vals (Knots c)) /\
   len (ControlPoints c) + t * spans (vals (Knots c)) <= 2 * (len (ControlPoints c) - 1 + t)).
Proof. exact C106_exact_lemma. Qed.
Print Assumptions C106_exact.
(** How it fails otherwise. *)
Theorem C106_fails : forall (c : curve b64) t, sound_curve c -> spread (vals (Knots c)) ->
  (t < 1 -> Curve_ElevateDegree c t = AssertFail) /\
  (1 <= t -> 30 <= Degree c + t -> Curve_ElevateDegree c t = Undefined IntOverflow) /\
  (1 <= t <= 29 -> Degree c = 0 -> Curve_ElevateDegree c t = Throw LengthError) /\
  (1 <= t -> Degree c + t <= 29 -> 1 <= Degree c -> ~ interior_multiplicity_le (Degree c) (vals (Knots c)) -> exists u, Curve_ElevateDegree c t = Undefined u) /\
  (1 <= t -> Degree c + t <= 29 -> 1 <= Degree c -> interior_multiplicity_le (Degree c) (vals (Knots c)) ->
   2 * (len (ControlPoints c) - 1 + t) < len (ControlPoints c) + t * spans (vals (Knots c)) -> Curve_ElevateDegree c t = Undefined OutOfBounds).
Proof. exact C106_fails_lemma. Qed.
Print Assumptions C106_fails.
(** one curve for each of the five outcomes *)
Example C106_cases :
  (sound_curve nan_deg10 /\ spread (vals (Knots nan_deg10)) /\ exists d, Curve_ElevateDegree nan_deg10 1 = Ok d) /\
  (sound_curve line64 /\ spread (vals (Knots line64)) /\ Curve_ElevateDegree line64 29 = Undefined IntOverflow) /\
  (sound_curve jump64 /\ spread (vals (Knots jump64)) /\ Curve_ElevateDegree jump64 1 = Undefined OutOfBounds) /\
  (sound_curve nan_four /\ spread (vals (Knots nan_four)) /\ Curve_ElevateDegree nan_four 2 = Undefined OutOfBounds) /\
  (sound_curve step64 /\ spread (vals (Knots step64)) /\ Curve_ElevateDegree step64 1 = Throw LengthError).
Proof. exact C106_cases_lemma. Qed.

(** Surfaces whose result fits in memory: exactly the single-span directions. *)
Theorem C106_exactU : forall (s : surface b64) t, sound_surface s -> spread (vals (KnotsU s)) -> (UCount (Net s) + t) * VCount (Net s) <= INT_MAX ->
  ((exists d, Surface_ElevateDegreeU s t = Ok d) <-> 1 <= DegreeU s /\ 1 <= t /\ DegreeU s + t <= 29 /\ UCount (Net s) = DegreeU s + 1).
Proof. exact C106_U_lemma. Qed.
Print Assumptions C106_exactU.
Theorem C106_exactV : forall (s : surface b64) t, sound_surface s -> spread (vals (KnotsV s)) -> UCount (Net s) * (VCount (Net s) + t) <= INT_MAX ->
  ((exists d, Surface_ElevateDegreeV s t = Ok d) <-> 1 <= DegreeV s /\ 1 <= t /\ DegreeV s + t <= 29 /\ VCount (Net s) = DegreeV s + 1).
Proof. exact C106_V_lemma. Qed.
Print Assumptions C106_exactV.
Example C106_surface : sound_surface bez_surface /\ spread (vals (KnotsU bez_surface)) /\ spread (vals (KnotsV bez_surface)) /\
  (UCount (Net bez_surface) + 2) * (VCount (Net bez_surface) + 2) <= INT_MAX /\
  1 <= DegreeU bez_surface /\ UCount (Net bez_surface) = DegreeU bez_surface + 1 /\ VCount (Net bez_surface) <> DegreeV bez_surface + 1.
Proof. exact C106_surface_lemma. Qed.
