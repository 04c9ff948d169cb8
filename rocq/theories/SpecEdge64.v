(** Boundary curves of surfaces of doubles (C118). *)
From Coq Require Import Reals ZArith List.
From Verif Require Import Outcome Num ModelCore ModelCurve ModelSurface.

(** the curve of row [j] of the net, over the U knots *)
Definition net_row (s : surface b64) (j : Z) : curve b64 :=
  Curve (DegreeU s) (KnotsU s) (firstn (Z.to_nat (UCount (Net s))) (skipn (Z.to_nat (j * UCount (Net s))) (Values (Net s)))).
(** the curve of column [i] of the net, over the V knots *)
Definition net_column (s : surface b64) (i : Z) : curve b64 :=
  Curve (DegreeV s) (KnotsV s) (map (fun j => nth (Z.to_nat (Z.of_nat j * UCount (Net s) + i)) (Values (Net s)) v4zero) (seq 0 (Z.to_nat (VCount (Net s))))).
