(** Points of doubles (C101, C102). *)
From Coq Require Import Reals ZArith.
From Verif Require Import Outcome Num ModelCore ThB64.
Open Scope R_scope.

(** finite coordinates of absolute value at most [M] *)
Definition coord_ok (M : R) (x : b64) : Prop := finite64 x /\ Rabs (val x) <= M.
Definition small3 (M : R) (a : vec3 b64) : Prop := coord_ok M (x3 a) /\ coord_ok M (y3 a) /\ coord_ok M (z3 a).
(** the coordinates of a control point, without its weight *)
Definition spot (q : vec4 b64) : vec3 b64 := Vec3 (x4 q) (y4 q) (z4 q).
