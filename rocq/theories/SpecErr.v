(** Specification of the accuracy of binary64 evaluation. *)
From Coq Require Import Reals ZArith List Lra Lia.
From Verif Require Import Outcome Num ModelCore ModelCurve ModelSurface SpecCore SpecBasis SpecCurve SpecSurface ThB64.
Import ListNotations.
Open Scope Z_scope.

(** different neighbouring knots are at least 2^-900 apart *)
Definition apart (l : list b64) : Prop := forall i, 0 <= i -> i + 1 < len l ->
  (at_ (vals l) i < at_ (vals l) (i + 1) -> / 2 ^ 900 <= at_ (vals l) (i + 1) - at_ (vals l) i)%R.
(** a control point made of finite numbers, the weight between 2^-100 and
    2^100, the coordinates at most [M] in absolute value *)
Definition tame (M : R) (p : vec4 b64) : Prop :=
  finite64 (x4 p) /\ finite64 (y4 p) /\ finite64 (z4 p) /\ finite64 (w4 p) /\
  (/ 2 ^ 100 <= val (w4 p) <= 2 ^ 100)%R /\
  (Rabs (val (x4 p)) <= M)%R /\ (Rabs (val (y4 p)) <= M)%R /\ (Rabs (val (z4 p)) <= M)%R.
(** finite and within [eps] of the exact point, in each coordinate *)
Definition near3 (eps : R) (q : vec3 b64) (p : vec3 R) : Prop :=
  finite64 (x3 q) /\ finite64 (y3 q) /\ finite64 (z3 q) /\
  (Rabs (val (x3 q) - x3 p) <= eps)%R /\ (Rabs (val (y3 q) - y3 p) <= eps)%R /\ (Rabs (val (z3 q) - z3 p) <= eps)%R.

(** the knots are finite numbers, clamped for the degree *)
Definition sound_knots (p : Z) (l : list b64) : Prop := all_finite l /\ clamped p (vals l).
(** sound knots and the right number of control points; the control points may
    hold anything, infinities and NaN included *)
Definition sound_curve (c : curve b64) : Prop :=
  sound_knots (Degree c) (Knots c) /\ len (ControlPoints c) = len (Knots c) - Degree c - 1.
Definition sound_surface (s : surface b64) : Prop :=
  sound_knots (DegreeU s) (KnotsU s) /\ sound_knots (DegreeV s) (KnotsV s) /\
  UCount (Net s) = len (KnotsU s) - DegreeU s - 1 /\ VCount (Net s) = len (KnotsV s) - DegreeV s - 1 /\
  len (Values (Net s)) = UCount (Net s) * VCount (Net s).
(** a finite number strictly inside the domain *)
Definition inner64 (x : b64) : Prop := finite64 x /\ (0 < val x < 1)%R.
