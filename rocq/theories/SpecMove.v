(** Vocabulary for operations that commute with maps of space (C107-C109). *)
From Coq Require Import Reals ZArith List Floats.SpecFloat.
From Verif Require Import Outcome Num ModelCore ModelCurve ModelSurface SpecCurve SpecMeta.
Import ListNotations.
Open Scope Z_scope.

(** Two runs end the same way; if with values, these are related by [Q]. *)
Definition same_outcome {A B} (Q : A -> B -> Prop) (m : outcome A) (m' : outcome B) : Prop :=
  match m, m' with
  | Ok a, Ok b => Q a b
  | Throw e, Throw e' => e = e'
  | AssertFail, AssertFail => True
  | Undefined u, Undefined u' => u = u'
  | NotFinite, NotFinite => True
  | OutOfFuel, OutOfFuel => True
  | _, _ => False
  end.

(** Curves and surfaces with equal degrees and knots and with control points related one by one. *)
Definition curve_by {T} (Q : vec4 T -> vec4 T -> Prop) (c d : curve T) : Prop :=
  Degree c = Degree d /\ Knots c = Knots d /\ Forall2 Q (ControlPoints c) (ControlPoints d).
Definition grid_by {A B} (Q : A -> B -> Prop) (g : grid A) (h : grid B) : Prop :=
  UCount g = UCount h /\ VCount g = VCount h /\ Forall2 Q (Values g) (Values h).
Definition surface_by {T} (Q : vec4 T -> vec4 T -> Prop) (s t : surface T) : Prop :=
  DegreeU s = DegreeU t /\ DegreeV s = DegreeV t /\ KnotsU s = KnotsU t /\ KnotsV s = KnotsV t /\ grid_by Q (Net s) (Net t).

(** The three coordinates *)
Inductive axis3 : Type := AX | AY | AZ.
Definition coord {T} (a : axis3) (v : vec3 T) : T := match a with AX => x3 v | AY => y3 v | AZ => z3 v end.
Definition coord4 {T} (a : axis3) (v : vec4 T) : T := match a with AX => x4 v | AY => y4 v | AZ => z4 v end.
(** Coordinate [a] of the first point is coordinate [b] of the second; the weights are equal. *)
Definition coord_point {T} (a b : axis3) (p q : vec4 T) : Prop := coord4 a p = coord4 b q /\ w4 p = w4 q.
Definition coord_vec {T} (a b : axis3) (p q : vec3 T) : Prop := coord a p = coord b q.

(** [q] is [p] after the affine map [x |-> m x + b] and multiplication of the weight by [k];
    a point of weight zero has no position. *)
Definition moved_point (m : mat3 R) (b : vec3 R) (k : R) (p q : vec4 R) : Prop :=
  (w4 q = k * w4 p)%R /\ (w4 p <> 0%R -> Vec3 (x4 q) (y4 q) (z4 q) = affine3 m b (Vec3 (x4 p) (y4 p) (z4 p))).

(** [m] keeps lengths *)
Definition isometry (m : mat3 R) : Prop := forall v, let q := mat_apply m v in
  (x3 q * x3 q + y3 q * y3 q + z3 q * z3 q = x3 v * x3 v + y3 v * y3 v + z3 v * z3 v)%R.

(** Lists and grids of derivatives: the first entry is a point, the others are vectors. *)
Definition moved_derivative (m : mat3 R) (b : vec3 R) (first : bool) (p q : vec3 R) : Prop :=
  q = if first then affine3 m b p else mat_apply m p.
Definition moved_derivatives (m : mat3 R) (b : vec3 R) (l l' : list (vec3 R)) : Prop :=
  len l = len l' /\ forall i p q, vget l i = Ok p -> vget l' i = Ok q -> moved_derivative m b (i =? 0) p q.
Definition moved_grid (m : mat3 R) (b : vec3 R) (g h : grid (vec3 R)) : Prop :=
  UCount g = UCount h /\ VCount g = VCount h /\ len (Values g) = len (Values h) /\
  forall i j p q, 0 <= i -> 0 <= j -> Grid_Get g i j = Ok p -> Grid_Get h i j = Ok q -> moved_derivative m b ((i =? 0) && (j =? 0)) p q.

(** [q] is [p] turned by [m]: same weight, position multiplied by [m] *)
Definition turned_point (m : mat3 R) (p q : vec4 R) : Prop :=
  w4 q = w4 p /\ Vec3 (x4 q) (y4 q) (z4 q) = mat_apply m (Vec3 (x4 p) (y4 p) (z4 p)).

(** [q] is [p] moved by [b] with its axes renamed by [s], the weight multiplied by [k];
    the same for positions and for boxes. *)
Definition axes_point (s : axis3 -> axis3) (b : vec3 R) (k : R) (p q : vec4 R) : Prop :=
  (w4 q = k * w4 p)%R /\ forall a, (coord4 a q = coord4 (s a) p + coord a b)%R.
Definition axes_vec (s : axis3 -> axis3) (b p q : vec3 R) : Prop := forall a, (coord a q = coord (s a) p + coord a b)%R.
Definition axes_box (s : axis3 -> axis3) (b : vec3 R) (B C : bbox R) : Prop := axes_vec s b (Min B) (Min C) /\ axes_vec s b (Max B) (Max C).
(** mirrored in y *)
Definition mirrored {T} `{Num T} (p q : vec4 T) : Prop := x4 q = x4 p /\ y4 q = nopp (y4 p) /\ z4 q = z4 p /\ w4 q = w4 p.

(** Opposite doubles, up to the sign of zero *)
Definition is_zero64 (x : b64) : Prop := exists s, x = S754_zero s.
Definition opposite (x y : b64) : Prop := y = nopp x \/ (is_zero64 x /\ is_zero64 y).
(** The relation [r] between coordinate [a] of the first and coordinate [b] of the second point; the weights are equal. *)
Definition coord_point_by {T} (r : T -> T -> Prop) (a b : axis3) (p q : vec4 T) : Prop := r (coord4 a p) (coord4 b q) /\ w4 p = w4 q.
Definition coord_vec_by {T} (r : T -> T -> Prop) (a b : axis3) (p q : vec3 T) : Prop := r (coord a p) (coord b q).
(** Mirrored in the axes marked by [f] *)
Definition flipped (f : axis3 -> bool) (p q : vec4 b64) : Prop :=
  w4 p = w4 q /\ forall a, if f a then opposite (coord4 a p) (coord4 a q) else coord4 a p = coord4 a q.
