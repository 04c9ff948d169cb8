(** Vocabulary for statements that compare several calls: affine images,
    rows and columns of a control net, closeness of points. *)
From Coq Require Import Reals ZArith List.
From Verif Require Import Outcome Num ModelCore ModelCurve ModelSurface SpecCore SpecBasis SpecCurve SpecSurface.
Import ListNotations.
Open Scope Z_scope.

(** the point [m p + t], and a control point mapped that way with its weight multiplied by [k] *)
Definition affine3 (m : mat3 R) (t p : vec3 R) : vec3 R :=
  let q := mat_apply m p in (Vec3 (x3 q + x3 t) (y3 q + y3 t) (z3 q + z3 t))%R.
Definition affine4 (m : mat3 R) (t : vec3 R) (k : R) (p : vec4 R) : vec4 R :=
  let q := affine3 m t (Vec3 (x4 p) (y4 p) (z4 p)) in (Vec4 (x3 q) (y3 q) (z3 q) (k * w4 p))%R.
Definition affine_curve (m : mat3 R) (t : vec3 R) (k : R) (c : curve R) : curve R :=
  Curve (Degree c) (Knots c) (map (affine4 m t k) (ControlPoints c)).
Definition affine_surface (m : mat3 R) (t : vec3 R) (k : R) (s : surface R) : surface R :=
  Surface (DegreeU s) (DegreeV s) (KnotsU s) (KnotsV s)
    (Grid (UCount (Net s)) (VCount (Net s)) (map (affine4 m t k) (Values (Net s)))).

(** control points (0, j), (1, j), ... and (i, 0), (i, 1), ... as curves *)
Definition row_curve (s : surface R) (j : Z) : curve R :=
  Curve (DegreeU s) (KnotsU s) (map (fun i => gp s (Z.of_nat i) j) (seq 0 (Z.to_nat (UCount (Net s))))).
Definition column_curve (s : surface R) (i : Z) : curve R :=
  Curve (DegreeV s) (KnotsV s) (map (fun j => gp s i (Z.of_nat j)) (seq 0 (Z.to_nat (VCount (Net s))))).

(** all coordinates closer than [eps] *)
Definition near3 (eps : R) (p q : vec3 R) : Prop :=
  (Rabs (x3 p - x3 q) < eps /\ Rabs (y3 p - y3 q) < eps /\ Rabs (z3 p - z3 q) < eps)%R.
(** [f] with values in outcomes is continuous at [x] within [0,1] *)
Definition continuous_on_unit (f : R -> outcome (vec3 R)) (x : R) : Prop :=
  exists q, f x = Ok q /\ forall eps, (0 < eps)%R -> exists delta, (0 < delta)%R /\
    forall t, (0 <= t <= 1)%R -> (Rabs (t - x) < delta)%R -> exists r, f t = Ok r /\ near3 eps r q.
