(** Symmetries of the parameter square and directions of the control net (C53). *)
From Coq Require Import Reals ZArith List Permutation.
From Verif Require Import Outcome Num ModelCore ModelCurve ModelSurface SpecCore SpecBasis SpecCurve SpecSurface ThB64 ThCoreWit.
Import ListNotations.
Open Scope Z_scope.

(** The symmetries of the unit square: reverse either parameter, then
    exchange the two. *)
Definition flip (b : bool) (x : R) : R := if b then (1 - x)%R else x.
Definition square_sym (swap ru rv : bool) (uv : R * R) : R * R :=
  let u := flip ru (fst uv) in let v := flip rv (snd uv) in
  if swap then (v, u) else (u, v).

(** The spline space of degree [p] has a jump at [x]: an interior knot of
    multiplicity above the degree. *)
Definition jump_at (p : Z) (l : list R) (x : R) : Prop := (0 < x < 1)%R /\ p < count x l.

(** [d] is [s] composed with a fixed symmetry of the square (outside the jumps
    of [s] in a reversed direction). *)
Definition reparameterised (s d : surface R) (swap ru rv : bool) : Prop :=
  forall u v, let q := square_sym swap ru rv (u, v) in
    ((if swap then rv else ru) = true -> ~ jump_at (DegreeU s) (KnotsU s) (fst q)) ->
    ((if swap then ru else rv) = true -> ~ jump_at (DegreeV s) (KnotsV s) (snd q)) ->
    Surface_Evaluate d u v = Surface_Evaluate s (fst q) (snd q).

(** Coordinate of a vector along an axis. *)
Definition coord (a : AlignAxis) (v : vec3 R) : R := match a with XAxis => x3 v | YAxis => y3 v | ZAxis => z3 v end.
(** Axis [a] strictly dominates the vector. *)
Definition dominated_by (v : vec3 R) (a : AlignAxis) : Prop :=
  forall b, b <> a -> (Rabs (coord b v) < Rabs (coord a v))%R.
(** Corner (bu, bv) of the control net. *)
Definition net_corner (s : surface R) (bu bv : bool) : vec4 R :=
  gp s (if bu then UCount (Net s) - 1 else 0) (if bv then VCount (Net s) - 1 else 0).
(** Edge of the control net in the u (v) direction at the side [b]. *)
Definition edge (a b : vec4 R) : vec3 R := (Vec3 (x4 b - x4 a) (y4 b - y4 a) (z4 b - z4 a))%R.
Definition edgeU (s : surface R) (b : bool) : vec3 R := edge (net_corner s false b) (net_corner s true b).
Definition edgeV (s : surface R) (b : bool) : vec3 R := edge (net_corner s b false) (net_corner s b true).
Definition length3 (v : vec3 R) : R := sqrt (x3 v * x3 v + y3 v * y3 v + z3 v * z3 v).
(** std::sort of the three (extent, axis) pairs returns some rearrangement of them. *)
Definition rearranges (sort_ : list (R * AlignAxis) -> list (R * AlignAxis)) : Prop :=
  forall l, Permutation (sort_ l) l.

(** Contracts of the two library functions in binary64, used by the
    counterexamples: std::acos is decreasing on clearly separated arguments of
    [0,1]; std::sort returns a rearrangement with non-increasing extents. *)
Definition acos_like (f : b64 -> b64) : Prop :=
  forall x y, finite64 x -> finite64 y -> (0 <= val y)%R -> (val y + 1 / 4 <= val x <= 1)%R -> nltb (f x) (f y) = true.
Definition sorts_extents (sort_ : list (b64 * AlignAxis) -> list (b64 * AlignAxis)) : Prop :=
  forall l, Permutation (sort_ l) l /\
    forall i j, (i < j < length l)%nat -> nltb (nth i (map fst (sort_ l)) dz) (nth j (map fst (sort_ l)) dz) = false.
