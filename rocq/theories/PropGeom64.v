(** Uniform knot vectors, segments and rectangles on doubles (C100 - C102).
    [all_finite], [vals]: the doubles are finite; their real values. *)
From Coq Require Import Reals QArith ZArith List Lra Lia SpecFloat.
From Verif Require Import Outcome Num ModelCore ModelBasis ModelCurve ModelSurface SpecCore SpecErr SpecBox64 SpecGeom64
  ThB64 ThDecide ThBBoxWit ThKnots2 ThGeom ThUniform64 ThGeom64 ThGeom64Wit.
Import ListNotations.
Open Scope Z_scope.

(** * C100.  [uniform_knot p k i] is the exact knot: 0, (i-p)/(k+1) or 1. *)
Theorem C100_uniform_doubles : forall p n, 0 <= p -> 2 * (p + 1) <= n <= 2 ^ 31 ->
  exists l : list b64, KnotVector_Uniform p n = Ok l /\ all_finite l /\ len l = n /\ clamped p (vals l) /\
    (forall i, p <= i <= n - p - 2 -> (at_ (vals l) i < at_ (vals l) (i + 1))%R) /\
    (forall i, 0 <= i < n -> (Rabs (at_ (vals l) i - uniform_knot p (n - 2 * (p + 1)) i) <= / 2 ^ 52)%R) /\
    (4 <= n -> KnotVector_IsValid l = true) /\ KnotVector_IsUniform l = true /\ KnotVector_DetectDegree l = Ok p.
Proof. exact C100_lemma. Qed.
Print Assumptions C100_uniform_doubles.
Example C100_ex : 0 <= 3 /\ 2 * (3 + 1) <= 1000007 <= 2 ^ 31.
Proof. lia. Qed.

(** * C101.  [small3 M a]: finite coordinates of absolute value at most [M];
    [lerp a b s] is a + s (b - a); [near3 e q r]: [q] is finite and within [e]
    of [r] in every coordinate.  Missing: the right end point is not met exactly,
    and coordinates above 2^98. *)
Theorem C101_segment_doubles_partial : forall p n (a b : vec3 b64) M, 1 <= p <= 50 -> p + 1 <= n -> n + p + 1 <= 2 ^ 31 ->
  small3 M a -> small3 M b -> (0 <= M <= 2 ^ 98)%R ->
  exists c, GeomSegment_GetCurve p n a b = Ok c /\ sound_curve c /\ apart (Knots c) /\ Degree c = p /\ len (ControlPoints c) = n /\
    (forall i, 0 <= i < n -> exists q, vget (ControlPoints c) i = Ok q /\ val (w4 q) = 1%R /\
       near3 (8 / 2 ^ 53 * M + / 2 ^ 1000) (spot q) (lerp (val3 a) (val3 b) (IZR i / IZR (n - 1))) /\ (i = 0 -> val3 (spot q) = val3 a)) /\
    (forall x, finite64 x -> (0 <= val x <= 1)%R -> exists q s, Curve_Evaluate c x = Ok q /\ (0 <= s <= 1)%R /\
       near3 ((45 * (IZR p + 1) + 9) / 2 ^ 53 * M + / 2 ^ 449) q (lerp (val3 a) (val3 b) s) /\
       (val x = 0 -> s = 0)%R /\ (val x = 1 -> s = 1)%R /\ (n = p + 1 -> s = val x)).
Proof. exact C101_lemma. Qed.
Print Assumptions C101_segment_doubles_partial.
Theorem C101_right_end_refuted : exists (a b : vec3 b64) c q, small3 5 a /\ small3 5 b /\ GeomSegment_GetCurve 1 2 a b = Ok c /\
  Curve_Evaluate c (dq 1) = Ok q /\ val3 q <> val3 b.
Proof. exact C101_end_lemma. Qed.
Print Assumptions C101_right_end_refuted.
Theorem C101_overflow_refuted : exists (a b : vec3 b64) c q, finite3 a /\ finite3 b /\ GeomSegment_GetCurve 1 2 a b = Ok c /\
  Curve_Evaluate c (dq 0) = Ok q /\ x3 q = S754_nan.
Proof. exact C101_overflow_lemma. Qed.
Print Assumptions C101_overflow_refuted.
Example C101_ex : small3 5 seg_a /\ small3 5 seg_b /\ (0 <= 5 <= 2 ^ 98)%R /\ 1 <= 3 <= 50 /\ 3 + 1 <= 7 /\ 7 + 3 + 1 <= 2 ^ 31.
Proof. split; [apply seg_small|]. split; [apply seg_small|]. split; [pose proof (Rle_pow 2 3 98 ltac:(lra) ltac:(lia)); lra|]. lia. Qed.

(** * C102.  [lerp2 a b d x y] is a + x (b - a) + y (d - a).  Missing: corners other
    than the left-bottom one are not met exactly. *)
Theorem C102_rect_doubles_partial : forall p q n m (a b d e : vec3 b64) M, 1 <= p <= 50 -> 1 <= q <= 50 -> p + 1 <= n -> q + 1 <= m -> n * m <= INT_MAX ->
  n + p + 1 <= 2 ^ 31 -> m + q + 1 <= 2 ^ 31 -> small3 M a -> small3 M b -> small3 M d -> (0 <= M <= 2 ^ 98)%R ->
  exists s, GeomRect_GetSurface p q n m a b d e = Ok s /\ sound_surface s /\ apart (KnotsU s) /\ apart (KnotsV s) /\ DegreeU s = p /\ DegreeV s = q /\
    UCount (Net s) = n /\ VCount (Net s) = m /\
    (forall i j, 0 <= i < n -> 0 <= j < m -> exists c, Grid_Get (Net s) i j = Ok c /\ val (w4 c) = 1%R /\
       near3 (17 / 2 ^ 53 * M + / 2 ^ 1000) (spot c) (lerp2 (val3 a) (val3 b) (val3 d) (IZR i / IZR (n - 1)) (IZR j / IZR (m - 1))) /\
       (i = 0 -> j = 0 -> val3 (spot c) = val3 a)) /\
    (forall u v, finite64 u -> (0 <= val u <= 1)%R -> finite64 v -> (0 <= val v <= 1)%R -> exists c x y, Surface_Evaluate s u v = Ok c /\
       (0 <= x <= 1)%R /\ (0 <= y <= 1)%R /\
       near3 ((135 * (IZR p + IZR q + 1) + 18) / 2 ^ 53 * M + / 2 ^ 449) c (lerp2 (val3 a) (val3 b) (val3 d) x y) /\
       (val u = 0 -> x = 0)%R /\ (val u = 1 -> x = 1)%R /\ (n = p + 1 -> x = val u) /\
       (val v = 0 -> y = 0)%R /\ (val v = 1 -> y = 1)%R /\ (m = q + 1 -> y = val v)).
Proof. exact C102_lemma. Qed.
Print Assumptions C102_rect_doubles_partial.
Theorem C102_corner_refuted : exists (a b d e : vec3 b64) s q, small3 5 a /\ small3 5 b /\ small3 5 d /\ val3 e = lerp2 (val3 a) (val3 b) (val3 d) 1 1 /\
  GeomRect_GetSurface 1 1 2 2 a b d e = Ok s /\ Surface_Evaluate s (dq 1) (dq 0) = Ok q /\ val3 q <> val3 b.
Proof. exact C102_end_lemma. Qed.
Print Assumptions C102_corner_refuted.
Example C102_ex : small3 5 seg_a /\ small3 5 seg_b /\ small3 5 seg_d /\ 2 + 1 <= 5 /\ 3 + 1 <= 4 /\ 5 * 4 <= INT_MAX.
Proof. destruct seg_small as [A [B D]]. unfold INT_MAX. repeat (split; [assumption|]). lia. Qed.
