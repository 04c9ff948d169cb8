(** Accuracy at the ends, whatever the weights (C117). *)
From Coq Require Import Reals ZArith List.
From Flocq Require Import Core.
From Verif Require Import Outcome Num ModelCore ThB64.
Open Scope R_scope.

(** zero, or between 2^-1021 and 2^1022 and not below 2^-1021 when weighted, in absolute value *)
Definition sturdy1 (w a : b64) : Prop := val a = 0 \/ (bpow radix2 (-1021) <= Rabs (val a) <= bpow radix2 1022 /\ bpow radix2 (-1021) <= Rabs (val a * val w)).
(** any weight, of either sign, that is not below 2^-1021 in absolute value *)
Definition sturdy (p : vec4 b64) : Prop :=
  bpow radix2 (-1021) <= Rabs (val (w4 p)) /\ sturdy1 (w4 p) (x4 p) /\ sturdy1 (w4 p) (y4 p) /\ sturdy1 (w4 p) (z4 p).
(** [k] units of 2^-53 relative to the exact value *)
Definition within (k : R) (a b : b64) : Prop := finite64 b /\ Rabs (val b - val a) <= k * / 2 ^ 53 * Rabs (val a).
Definition within3 (k : R) (p : vec4 b64) (q : vec3 b64) : Prop := within k (x4 p) (x3 q) /\ within k (y4 p) (y3 q) /\ within k (z4 p) (z3 q).
