(** Specification vocabulary for knot removal. *)
From Coq Require Import Reals List.

(** every knot is [u] or visibly different from it: the library counts the
    copies of a knot with Approx(.,.,1e-6) *)
Definition separated (u : R) (l : list R) : Prop := forall v, In v l -> v = u \/ (1 / 1000000 <= Rabs (v - u))%R.
