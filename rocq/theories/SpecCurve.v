(** Specification of rational B-spline curves. *)
From Coq Require Import Reals ZArith List Lra Lia Permutation.
From Verif Require Import Outcome Num ModelCore ModelCurve SpecCore SpecBasis.
Import ListNotations.
Open Scope Z_scope.

Definition positive_weights (l : list (vec4 R)) : Prop := Forall (fun p => (0 < w4 p)%R) l.

(** Well-formed curve: knots clamped for the degree, matching number of control
    points, positive weights. *)
Record wf_curve (c : curve R) : Prop := {
  wf_knots : clamped (Degree c) (Knots c);
  wf_count : len (ControlPoints c) = len (Knots c) - Degree c - 1;
  wf_weights : positive_weights (ControlPoints c);
}.

(** control point number i *)
Definition cp (c : curve R) (i : Z) : vec4 R := nth (Z.to_nat i) (ControlPoints c) (Vec4 0 0 0 1)%R.
(** i-th basis function of the curve *)
Definition basis_fun (c : curve R) (i : Z) (x : R) : R := N (kf (Knots c)) (Z.to_nat (Degree c)) i x.

(** sum_i N_i(x) w_i f(P_i) over all control points *)
Definition curve_num (c : curve R) (f : vec4 R -> R) (x : R) : R :=
  zsum 0 (len (ControlPoints c)) (fun i => basis_fun c i x * (w4 (cp c i) * f (cp c i)))%R.
(** sum_i N_i(x) w_i *)
Definition curve_den (c : curve R) (x : R) : R :=
  zsum 0 (len (ControlPoints c)) (fun i => basis_fun c i x * w4 (cp c i))%R.
(** the rational B-spline point *)
Definition curve_point (c : curve R) (x : R) : vec3 R :=
  (Vec3 (curve_num c x4 x / curve_den c x) (curve_num c y4 x / curve_den c x) (curve_num c z4 x / curve_den c x))%R.

(** two curves trace the same points *)
Definition same_curve (c d : curve R) : Prop :=
  forall x, (0 <= x <= 1)%R -> curve_point d x = curve_point c x.

(** [d] is [c] after inserting the knots [us] *)
Definition refines (c d : curve R) (us : list R) : Prop :=
  wf_curve d /\ Degree d = Degree c /\ Permutation (Knots d) (us ++ Knots c) /\
  len (ControlPoints d) = len (ControlPoints c) + len us /\
  forall x, Curve_Evaluate d x = Curve_Evaluate c x.
(** matrix times column vector *)
Definition mat_apply (m : mat3 R) (v : vec3 R) : vec3 R :=
  (Vec3 (x3 (row0 m) * x3 v + y3 (row0 m) * y3 v + z3 (row0 m) * z3 v)
        (x3 (row1 m) * x3 v + y3 (row1 m) * y3 v + z3 (row1 m) * z3 v)
        (x3 (row2 m) * x3 v + y3 (row2 m) * y3 v + z3 (row2 m) * z3 v))%R.
