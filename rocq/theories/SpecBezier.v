(** Bezier segments and the spans of a knot vector (C42). *)
From Coq Require Import Reals ZArith List.
From Verif Require Import Outcome Num ModelCore ModelCurve SpecCore SpecBasis SpecCurve.
Import ListNotations.
Open Scope Z_scope.

(** [ts] lists the distinct knots of [l] in increasing order; consecutive
    elements bound the non-empty spans. *)
Definition distinct_knots (l ts : list R) : Prop :=
  (forall i j, 0 <= i < j -> j < len ts -> (at_ ts i < at_ ts j)%R) /\ (forall t, In t ts <-> In t l).

(** A Bezier curve of degree [p]: all knots 0 or 1. *)
Definition is_bezier (p : Z) (c : curve R) : Prop :=
  wf_curve c /\ Degree c = p /\ Knots c = repeat 0%R (Z.to_nat (p + 1)) ++ repeat 1%R (Z.to_nat (p + 1)).

(** Every knot strictly inside (0,1) occurs at most [m] times. *)
Definition interior_multiplicity_le (m : Z) (l : list R) : Prop :=
  forall t, (0 < t < 1)%R -> count t l <= m.

(** A polynomial curve: all weights are 1. *)
Definition unit_weights (c : curve R) : Prop := Forall (fun q => w4 q = 1%R) (ControlPoints c).

(** [q] is in the box [b] enlarged by [e] / not below it. *)
Definition above_box (e : R) (b : bbox R) (q : vec3 R) : Prop :=
  (x3 (Min b) - e <= x3 q /\ y3 (Min b) - e <= y3 q /\ z3 (Min b) - e <= z3 q)%R.
Definition in_box_enlarged (e : R) (b : bbox R) (q : vec3 R) : Prop :=
  above_box e b q /\ (x3 q <= x3 (Max b) + e /\ y3 q <= y3 (Max b) + e /\ z3 q <= z3 (Max b) + e)%R.
