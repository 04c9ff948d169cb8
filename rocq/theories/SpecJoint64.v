(** Joints of curves of doubles (C120). *)
From Coq Require Import Reals ZArith List.
From Verif Require Import Outcome Num ModelCore ModelCurve SpecCore SpecBasis ThB64.
Open Scope R_scope.

(** [x] is a knot filling the places k+1 .. k+degree, the next knot is at least 2^-900 further on *)
Definition joint (c : curve b64) (x : b64) (k : Z) : Prop :=
  finite64 x /\ (0 <= k)%Z /\ (k + Degree c + 1 < len (Knots c))%Z /\
  (forall j, (k < j <= k + Degree c)%Z -> at_ (vals (Knots c)) j = val x) /\ / 2 ^ 900 <= at_ (vals (Knots c)) (k + Degree c + 1) - val x.
