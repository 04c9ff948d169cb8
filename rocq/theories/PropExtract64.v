(** Property theorems: Bezier extraction (C96, C97) and bounding boxes (C98) of
    curves of doubles.  [sound_curve] asks only for a clamped vector of finite
    knots and matching sizes: the control points may hold any bits. *)
From Coq Require Import Reals QArith ZArith List Lra Lia SpecFloat.
From Verif Require Import Outcome Num ModelCore ModelCurve SpecCore SpecBasis SpecCurve SpecBezier SpecErr SpecErrIns SpecBox64
  ThReal ThB64 ThCoreWit ThCurveWit ThDecide ThErrWit ThErrInsertWit ThBBoxWit ThExtract64 ThBBox64c ThBBox64Wit.
Import ListNotations.
Open Scope Z_scope.

(** * C96: extraction never fails, and only inserts knots and cuts *)
Theorem C96_segments : forall c : curve b64, sound_curve c -> 1 <= Degree c ->
  exists segs, Curve_ExtractBezier c = Ok segs /\
    (forall seg, In seg segs -> sound_curve seg /\ Degree seg = Degree c /\ Knots seg = repeat dz (Z.to_nat (Degree c + 1)) ++ repeat done_ (Z.to_nat (Degree c + 1))) /\
    (interior_multiplicity_le (Degree c) (vals (Knots c)) -> forall ts, distinct_knots (vals (Knots c)) ts -> len segs = len ts - 1).
Proof. exact C96_segments_lemma. Qed.
Print Assumptions C96_segments.
(** segment [j] holds, bit by bit, the control points [j p .. j p + p] of the curve
    [d] in which every distinct knot occurs [p] times (and the first and the last
    once more) *)
Theorem C96_windows : forall (c : curve b64) segs ts, sound_curve c -> 1 <= Degree c -> interior_multiplicity_le (Degree c) (vals (Knots c)) -> distinct_knots (vals (Knots c)) ts ->
  Curve_ExtractBezier c = Ok segs ->
  exists us d, Curve_InsertKnot_list c us = Ok d /\ List.Forall inner64 us /\ len (Knots d) = Degree c * len ts + 2 /\
    (forall i, 0 <= i < Degree c * len ts -> at_ (vals (Knots d)) (i + 1) = at_ ts (i / Degree c)) /\
    forall j seg k, vget segs j = Ok seg -> 0 <= k <= Degree c -> vget (ControlPoints seg) k = vget (ControlPoints d) (j * Degree c + k).
Proof. exact C96_windows_lemma. Qed.
Print Assumptions C96_windows.
Example C96_ex : sound_curve nan_curve /\ 1 <= Degree nan_curve /\
  interior_multiplicity_le (Degree nan_curve) (vals (Knots nan_curve)) /\ distinct_knots (vals (Knots nan_curve)) [0; 1 / 2; 1]%R.
Proof. split; [apply err_curve_ok|]. split; [discriminate|]. split; apply err_extract. Qed.

(** * C97: the segments trace the curve, up to rounding.  [n] is the number of
    inserted knots, [rho] bounds the quotient of two weights. *)
Theorem C97_segments : forall (c : curve b64) M lo hi rho ts n, sound_curve c -> 1 <= Degree c -> interior_multiplicity_le (Degree c) (vals (Knots c)) -> distinct_knots (vals (Knots c)) ts ->
  n = Degree c * (len ts - 2) - (len (Knots c) - 2 * Degree c - 2) ->
  List.Forall (tame M) (ControlPoints c) -> (0 <= M <= 2 ^ 98)%R -> weights_in lo hi (ControlPoints c) -> (/ 2 ^ 99 <= lo)%R -> (hi <= 2 ^ 99)%R -> (hi <= rho * lo)%R -> (rho <= 2 ^ 29)%R -> (IZR n * rho <= 2 ^ 43)%R ->
  exists segs, Curve_ExtractBezier c = Ok segs /\ len segs = len ts - 1 /\ forall j seg, vget segs j = Ok seg ->
    (forall s, (0 <= s <= 1)%R -> within3 (1200 * IZR n * rho / 2 ^ 53 * M + / 2 ^ 390) (curve_point (curve_val seg) s) (curve_point (curve_val c) (at_ ts j + (at_ ts (j + 1) - at_ ts j) * s))) /\
    (Degree c <= 50 -> forall x, finite64 x -> (0 <= val x <= 1)%R -> exists q, Curve_Evaluate seg x = Ok q /\
       near3 ((1200 * IZR n * rho + 90 * (IZR (Degree c) + 1)) / 2 ^ 53 * M + / 2 ^ 380) q (curve_point (curve_val c) (at_ ts j + (at_ ts (j + 1) - at_ ts j) * val x))).
Proof. exact C97_segments_lemma. Qed.
Print Assumptions C97_segments.
Example C97_ex : sound_curve err_curve /\ 1 <= Degree err_curve /\ interior_multiplicity_le (Degree err_curve) (vals (Knots err_curve)) /\ distinct_knots (vals (Knots err_curve)) [0; 1 / 2; 1]%R /\
  1 = Degree err_curve * (len [0; 1 / 2; 1]%R - 2) - (len (Knots err_curve) - 2 * Degree err_curve - 2) /\
  List.Forall (tame 1) (ControlPoints err_curve) /\ weights_in (1 / 2) 1 (ControlPoints err_curve) /\ (1 <= 2 * (1 / 2))%R /\ (2 <= 2 ^ 29)%R /\ (1 * 2 <= 2 ^ 43)%R /\ Degree err_curve <= 50.
Proof.
  split; [apply err_curve_ok|]. split; [discriminate|]. split; [apply err_extract|]. split; [apply err_extract|]. split; [apply err_extract|]. split; [apply err_curve_ok|]. split; [exact err_weights|].
  split; [lra|]. split; [lra|]. split; [lra|]. discriminate.
Qed.

(** * C98: GetBoundingBox.  The first argument of [Curve_GetBoundingBox] is the
    number of polygons each segment may take from its stack. *)
(** whatever the control points and epsilon, the call never fails while it runs *)
Theorem C98_safe : forall (c : curve b64) fuel eps, sound_curve c -> 1 <= Degree c ->
  Curve_GetBoundingBox fuel c eps = OutOfFuel \/ exists box, Curve_GetBoundingBox fuel c eps = Ok box.
Proof. exact C98_safe_lemma. Qed.
Print Assumptions C98_safe.
(** it stops on doubles if the coordinates are at most 2^26 / p^2 *)
Theorem C98_stops : forall (c : curve b64) M lo hi rho ts n eps, sound_curve c -> 1 <= Degree c -> interior_multiplicity_le (Degree c) (vals (Knots c)) -> distinct_knots (vals (Knots c)) ts ->
  n = Degree c * (len ts - 2) - (len (Knots c) - 2 * Degree c - 2) ->
  List.Forall (tame M) (ControlPoints c) -> (1 <= M)%R -> (IZR (Degree c) ^ 2 * M <= 2 ^ 26)%R ->
  weights_in lo hi (ControlPoints c) -> (/ 2 ^ 99 <= lo)%R -> (hi <= 2 ^ 99)%R -> (hi <= rho * lo)%R -> (rho <= 2 ^ 29)%R -> (IZR n * rho <= 2 ^ 43)%R ->
  exists box, forall fuel, 2 ^ 52 <= Z.of_nat fuel -> Curve_GetBoundingBox fuel c eps = Ok box.
Proof. exact C98_stops_lemma. Qed.
Print Assumptions C98_stops.
(** the box it returns is finite, ordered, contains exactly the two ends of every
    Bezier segment, and up to rounding the curve points at the knots *)
Theorem C98_box : forall (c : curve b64) M lo hi rho ts n eps, sound_curve c -> 1 <= Degree c -> interior_multiplicity_le (Degree c) (vals (Knots c)) -> distinct_knots (vals (Knots c)) ts ->
  n = Degree c * (len ts - 2) - (len (Knots c) - 2 * Degree c - 2) ->
  List.Forall (tame M) (ControlPoints c) -> (1 <= M)%R -> (IZR (Degree c) ^ 2 * M <= 2 ^ 26)%R ->
  weights_in lo hi (ControlPoints c) -> (/ 2 ^ 99 <= lo)%R -> (hi <= 2 ^ 99)%R -> (hi <= rho * lo)%R -> (rho <= 2 ^ 29)%R -> (IZR n * rho <= 2 ^ 43)%R ->
  forall fuel box segs, Curve_GetBoundingBox fuel c eps = Ok box -> Curve_ExtractBezier c = Ok segs ->
  finite_box box /\ ordered (box_val box) /\
  (forall seg a, In seg segs -> vget (ControlPoints seg) 0 = Ok a \/ vget (ControlPoints seg) (Degree c) = Ok a -> in_box (val3 (head3 a)) (box_val box)) /\
  (forall t, In t (vals (Knots c)) -> in_box_enlarged (1200 * IZR n * rho / 2 ^ 53 * M + / 2 ^ 390) (box_val box) (curve_point (curve_val c) t)).
Proof. exact C98_contents_lemma. Qed.
Print Assumptions C98_box.
(** and it is not too large: it stays inside every box [D] around the control points
    of the segments, if the corners of [D] are not subnormal *)
Theorem C98_hull : forall (c : curve b64) M lo hi rho ts n eps, sound_curve c -> 1 <= Degree c -> interior_multiplicity_le (Degree c) (vals (Knots c)) -> distinct_knots (vals (Knots c)) ts ->
  n = Degree c * (len ts - 2) - (len (Knots c) - 2 * Degree c - 2) ->
  List.Forall (tame M) (ControlPoints c) -> (1 <= M)%R -> (IZR (Degree c) ^ 2 * M <= 2 ^ 26)%R ->
  weights_in lo hi (ControlPoints c) -> (/ 2 ^ 99 <= lo)%R -> (hi <= 2 ^ 99)%R -> (hi <= rho * lo)%R -> (rho <= 2 ^ 29)%R -> (IZR n * rho <= 2 ^ 43)%R ->
  forall fuel box segs D, Curve_GetBoundingBox fuel c eps = Ok box -> Curve_ExtractBezier c = Ok segs -> halvable_box D ->
  (forall seg q, In seg segs -> In q (ControlPoints seg) -> in_box (val3 (head3 q)) D) -> box_incl (box_val box) D.
Proof. exact C98_hull_lemma. Qed.
Print Assumptions C98_hull.
Example C98_ex : sound_curve err_curve /\ 1 <= Degree err_curve /\ interior_multiplicity_le (Degree err_curve) (vals (Knots err_curve)) /\ distinct_knots (vals (Knots err_curve)) [0; 1 / 2; 1]%R /\
  1 = Degree err_curve * (len [0; 1 / 2; 1]%R - 2) - (len (Knots err_curve) - 2 * Degree err_curve - 2) /\
  List.Forall (tame 1) (ControlPoints err_curve) /\ (IZR (Degree err_curve) ^ 2 * 1 <= 2 ^ 26)%R /\
  weights_in (1 / 2) 1 (ControlPoints err_curve) /\ (1 <= 2 * (1 / 2))%R /\ (2 <= 2 ^ 29)%R /\ (1 * 2 <= 2 ^ 43)%R /\
  halvable_box (BBox (Vec3 0 0 0)%R (Vec3 1 1 1)%R).
Proof.
  split; [apply err_curve_ok|]. split; [discriminate|]. split; [apply err_extract|]. split; [apply err_extract|]. split; [apply err_extract|]. split; [apply err_curve_ok|].
  split; [change (Degree err_curve) with 2; lra|]. split; [exact err_weights|]. split; [lra|]. split; [lra|]. split; [lra|]. exact unit_box_halvable.
Qed.
