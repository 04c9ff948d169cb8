(** End points of curves of doubles (C115). *)
From Coq Require Import Reals ZArith.
From Flocq Require Import Core.
From Verif Require Import Outcome Num ModelCore ThB64.
Open Scope R_scope.

(** a double and its weighted value are finite *)
Definition mild1 (w a : b64) : Prop := finite64 a /\ finite64 (nmul a w).
(** finite coordinates and weight, finite weighted coordinates *)
Definition mild (p : vec4 b64) : Prop := finite64 (w4 p) /\ mild1 (w4 p) (x4 p) /\ mild1 (w4 p) (y4 p) /\ mild1 (w4 p) (z4 p).
(** zero, or not below 2^-1021 in absolute value *)
Definition ordinary (a : b64) : Prop := val a = 0 \/ bpow radix2 (-1021) <= Rabs (val a).
(** a control point of weight one with ordinary coordinates *)
Definition plain_end (p : vec4 b64) : Prop := val (w4 p) = 1 /\ ordinary (x4 p) /\ ordinary (y4 p) /\ ordinary (z4 p).
