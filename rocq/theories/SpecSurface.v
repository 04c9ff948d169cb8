(** Specification of tensor-product rational B-spline surfaces. *)
From Coq Require Import Reals ZArith List Lra Lia Permutation.
From Verif Require Import Outcome Num ModelCore ModelCurve ModelSurface SpecCore SpecBasis SpecCurve.
Import ListNotations.
Open Scope Z_scope.

(** Well-formed surface: clamped knots in both directions, a control grid of
    matching size, positive weights. *)
Record wf_surface (s : surface R) : Prop := {
  ws_knotsU : clamped (DegreeU s) (KnotsU s);
  ws_knotsV : clamped (DegreeV s) (KnotsV s);
  ws_countU : UCount (Net s) = len (KnotsU s) - DegreeU s - 1;
  ws_countV : VCount (Net s) = len (KnotsV s) - DegreeV s - 1;
  ws_values : len (Values (Net s)) = UCount (Net s) * VCount (Net s);
  ws_weights : positive_weights (Values (Net s));
}.

(** control point (i, j) *)
Definition gp (s : surface R) (i j : Z) : vec4 R :=
  nth (Z.to_nat (j * UCount (Net s) + i)) (Values (Net s)) (Vec4 0 0 0 1)%R.
(** tensor-product basis function *)
Definition basis_uv (s : surface R) (i j : Z) (u v : R) : R :=
  (N (kf (KnotsU s)) (Z.to_nat (DegreeU s)) i u * N (kf (KnotsV s)) (Z.to_nat (DegreeV s)) j v)%R.

Definition surf_num (s : surface R) (f : vec4 R -> R) (u v : R) : R :=
  zsum 0 (UCount (Net s)) (fun i => zsum 0 (VCount (Net s)) (fun j =>
    basis_uv s i j u v * (w4 (gp s i j) * f (gp s i j))))%R.
Definition surf_den (s : surface R) (u v : R) : R :=
  zsum 0 (UCount (Net s)) (fun i => zsum 0 (VCount (Net s)) (fun j => basis_uv s i j u v * w4 (gp s i j)))%R.
Definition surf_point (s : surface R) (u v : R) : vec3 R :=
  (Vec3 (surf_num s x4 u v / surf_den s u v) (surf_num s y4 u v / surf_den s u v) (surf_num s z4 u v / surf_den s u v))%R.

(** [d] is [s] with knots [us] added in the first (second) direction. *)
Definition refinesU (s d : surface R) (us : list R) : Prop :=
  wf_surface d /\ DegreeU d = DegreeU s /\ DegreeV d = DegreeV s /\
  Permutation (KnotsU d) (us ++ KnotsU s) /\ KnotsV d = KnotsV s /\
  UCount (Net d) = UCount (Net s) + len us /\ VCount (Net d) = VCount (Net s) /\
  forall u v, Surface_Evaluate d u v = Surface_Evaluate s u v.
Definition refinesV (s d : surface R) (us : list R) : Prop :=
  wf_surface d /\ DegreeU d = DegreeU s /\ DegreeV d = DegreeV s /\
  KnotsU d = KnotsU s /\ Permutation (KnotsV d) (us ++ KnotsV s) /\
  UCount (Net d) = UCount (Net s) /\ VCount (Net d) = VCount (Net s) + len us /\
  forall u v, Surface_Evaluate d u v = Surface_Evaluate s u v.
