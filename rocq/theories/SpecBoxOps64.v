(** Operations on boxes of doubles (C114). *)
From Coq Require Import Reals ZArith SpecFloat.
From Verif Require Import Outcome Num ModelCore ThB64 SpecBox64 SpecGeom64.
Open Scope R_scope.

(** both corners finite, of absolute value at most [M] *)
Definition small_box (M : R) (b : bbox b64) : Prop := small3 M (Min b) /\ small3 M (Max b).
(** some coordinate is NaN *)
Definition nan3 (q : vec3 b64) : Prop := x3 q = S754_nan \/ y3 q = S754_nan \/ z3 q = S754_nan.
(** a computed length [L] of the interval [a, b]: finite, not negative, zero only for a = b,
    relative error at most 2^-53 *)
Definition side_ok (L a b : b64) : Prop :=
  finite64 L /\ 0 <= val L /\ (val L = 0 <-> val a = val b) /\ Rabs (val L - (val b - val a)) <= / 2 ^ 53 * (val b - val a).
(** a computed midpoint *)
Definition mid_ok (m a b : b64) : Prop :=
  finite64 m /\ val a <= val m <= val b /\ Rabs (val m - (val a + val b) / 2) <= / 2 ^ 52 * Rabs (val a + val b) + / 2 ^ 1074.
