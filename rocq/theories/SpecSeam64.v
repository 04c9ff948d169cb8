(** Surfaces of doubles sharing an edge (C119). *)
From Coq Require Import Reals ZArith List.
From Verif Require Import Outcome Num ModelCore ModelCurve ModelSurface SpecCore SpecCorner64 SpecEdge64.

(** (u,v) is the point at parameter x of an edge of [s] whose control points and knots are those of [c];
    the knot span across the edge is [undone] *)
Definition on_edge (s : surface b64) (c : curve b64) (x u v : b64) : Prop :=
  (exists k d, u = x /\ c = net_row s k /\ end_of (DegreeV s) (KnotsV s) v k d /\ undone d) \/
  (exists k d, v = x /\ c = net_column s k /\ end_of (DegreeU s) (KnotsU s) u k d /\ undone d).
