(** Corners of surfaces of doubles (C116). *)
From Coq Require Import Reals ZArith List.
From Verif Require Import Outcome Num ModelCore SpecCore SpecBasis ThB64 ThRound.
Open Scope R_scope.

(** [x] is an end of the domain, [k] the index of the control points there and [d] the length, as computed, of the knot span there *)
Definition end_of (p : Z) (l : list b64) (x : b64) (k : Z) (d : R) : Prop :=
  finite64 x /\
  ((val x = 0 /\ k = 0%Z /\ d = at_ (vals l) (p + 1) /\ / 2 ^ 900 <= d) \/
   (val x = 1 /\ k = (len l - p - 2)%Z /\ d = rnd64 (1 - at_ (vals l) (len l - p - 2)))).
(** one divided by [d] and multiplied by it, each rounded, is one *)
Definition undone (d : R) : Prop := rnd64 (d * rnd64 (1 / d)) = 1.
