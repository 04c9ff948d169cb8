(** Boxes of doubles (C98). *)
From Coq Require Import Reals ZArith List.
From Verif Require Import Outcome Num ModelCore SpecCore ThB64.
Open Scope Z_scope.

(** a point, a box with finite coordinates *)
Definition finite3 (q : vec3 b64) : Prop := finite64 (x3 q) /\ finite64 (y3 q) /\ finite64 (z3 q).
Definition finite_box (b : bbox b64) : Prop := finite3 (Min b) /\ finite3 (Max b).
(** the value of a double that halves without rounding: 0, or not subnormal *)
Definition halvable (X : R) : Prop := exists x : b64, finite64 x /\ val x = X /\ (X = 0 \/ / 2 ^ 1000 <= Rabs X)%R.
Definition halvable_box (D : bbox R) : Prop := forall g, g = x3 \/ g = y3 \/ g = z3 -> halvable (g (Min D)) /\ halvable (g (Max D)).
