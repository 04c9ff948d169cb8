(** Each coordinate of a result is computed from that coordinate and the weights alone,
    and all three coordinates are treated alike, bit for bit on doubles (C107).
    [coord_point a b p q]: coordinate [a] of [p] is coordinate [b] of [q] and the weights are
    equal; the other coordinates are arbitrary (infinite, NaN, ...).  [curve_by], [surface_by]:
    equal degrees and knots and related control points.  [same_outcome Q]: the two calls end
    the same way, and if normally, with results related by [Q].  No well-formedness is
    assumed. *)
From Coq Require Import Reals ZArith QArith List.
From Verif Require Import Outcome Num ModelCore ModelCurve ModelSurface SpecMove ThDecide ThCoord ThCoordWit.
Import ListNotations.
Open Scope Z_scope.

(** * C107 *)
Theorem C107_evaluate : forall a b (c d : curve b64) x, curve_by (coord_point a b) c d ->
  same_outcome (coord_vec a b) (Curve_Evaluate c x) (Curve_Evaluate d x).
Proof. exact (coord_Evaluate div_b64). Qed.
Print Assumptions C107_evaluate.
Theorem C107_evaluate_all : forall a b (c d : curve b64) x n, curve_by (coord_point a b) c d ->
  same_outcome (Forall2 (coord_vec a b)) (Curve_EvaluateAll c x n) (Curve_EvaluateAll d x n).
Proof. exact (coord_EvaluateAll div_b64). Qed.
Print Assumptions C107_evaluate_all.
Theorem C107_derivative : forall a b (c d : curve b64) x n, curve_by (coord_point a b) c d ->
  same_outcome (coord_vec a b) (Curve_EvaluateDerivative c x n) (Curve_EvaluateDerivative d x n).
Proof. exact (coord_Derivative div_b64). Qed.
Print Assumptions C107_derivative.
Theorem C107_insert : forall a b (c d : curve b64) u, curve_by (coord_point a b) c d ->
  same_outcome (curve_by (coord_point a b)) (Curve_InsertKnot c u) (Curve_InsertKnot d u).
Proof. exact (coord_InsertKnot div_b64). Qed.
Print Assumptions C107_insert.
Theorem C107_insert_list : forall a b (c d : curve b64) us, curve_by (coord_point a b) c d ->
  same_outcome (curve_by (coord_point a b)) (Curve_InsertKnot_list c us) (Curve_InsertKnot_list d us).
Proof. exact (coord_InsertKnot_list div_b64). Qed.
Print Assumptions C107_insert_list.
Theorem C107_insert_times : forall a b (c d : curve b64) u n, curve_by (coord_point a b) c d ->
  same_outcome (curve_by (coord_point a b)) (Curve_InsertKnot_times c u n) (Curve_InsertKnot_times d u n).
Proof. exact (coord_InsertKnot_times div_b64). Qed.
Print Assumptions C107_insert_times.
Theorem C107_elevate : forall a b (c d : curve b64) n, curve_by (coord_point a b) c d ->
  same_outcome (curve_by (coord_point a b)) (Curve_ElevateDegree c n) (Curve_ElevateDegree d n).
Proof. exact (coord_ElevateDegree div_b64). Qed.
Print Assumptions C107_elevate.
Theorem C107_extract : forall a b (c d : curve b64), curve_by (coord_point a b) c d ->
  same_outcome (Forall2 (curve_by (coord_point a b))) (Curve_ExtractBezier c) (Curve_ExtractBezier d).
Proof. exact (coord_ExtractBezier div_b64). Qed.
Print Assumptions C107_extract.
(** NaN in two coordinates does not reach the third *)
Example C107_curve : curve_by (coord_point AX AZ) arc64 bad64 /\
  exists p q, Curve_Evaluate arc64 (dq (1 # 4)) = Ok p /\ Curve_Evaluate bad64 (dq (1 # 4)) = Ok q /\ x3 p = z3 q /\ x3 q = nan64 /\ x3 p <> nan64.
Proof. exact C107_curve_lemma. Qed.

Theorem C107_surface_evaluate : forall a b (s t : surface b64) u v, surface_by (coord_point a b) s t ->
  same_outcome (coord_vec a b) (Surface_Evaluate s u v) (Surface_Evaluate t u v).
Proof. exact (coord_Surface_Evaluate div_b64). Qed.
Print Assumptions C107_surface_evaluate.
Theorem C107_surface_evaluate_all : forall a b (s t : surface b64) u v m n, surface_by (coord_point a b) s t ->
  same_outcome (grid_by (coord_vec a b)) (Surface_EvaluateAll s u v m n) (Surface_EvaluateAll t u v m n).
Proof. exact (coord_Surface_EvaluateAll div_b64). Qed.
Print Assumptions C107_surface_evaluate_all.
Theorem C107_surface_derivative : forall a b (s t : surface b64) u v m n, surface_by (coord_point a b) s t ->
  same_outcome (coord_vec a b) (Surface_EvaluateDerivative s u v m n) (Surface_EvaluateDerivative t u v m n).
Proof. exact (coord_Surface_Derivative div_b64). Qed.
Print Assumptions C107_surface_derivative.
Theorem C107_insertV : forall a b (s t : surface b64) u, surface_by (coord_point a b) s t ->
  same_outcome (surface_by (coord_point a b)) (Surface_InsertKnotV s u) (Surface_InsertKnotV t u).
Proof. exact (coord_InsertKnotV div_b64). Qed.
Print Assumptions C107_insertV.
Theorem C107_insertV_times : forall a b (s t : surface b64) u n, surface_by (coord_point a b) s t ->
  same_outcome (surface_by (coord_point a b)) (Surface_InsertKnotV_times s u n) (Surface_InsertKnotV_times t u n).
Proof. exact (coord_InsertKnotV_times div_b64). Qed.
Print Assumptions C107_insertV_times.
Theorem C107_elevateU : forall a b (s t : surface b64) n, surface_by (coord_point a b) s t ->
  same_outcome (surface_by (coord_point a b)) (Surface_ElevateDegreeU s n) (Surface_ElevateDegreeU t n).
Proof. exact (coord_ElevateDegreeU div_b64). Qed.
Print Assumptions C107_elevateU.
Theorem C107_elevateV : forall a b (s t : surface b64) n, surface_by (coord_point a b) s t ->
  same_outcome (surface_by (coord_point a b)) (Surface_ElevateDegreeV s n) (Surface_ElevateDegreeV t n).
Proof. exact (coord_ElevateDegreeV div_b64). Qed.
Print Assumptions C107_elevateV.
Theorem C107_insertU : forall a b (j j' : vec4 b64) (s t : surface b64) u, coord_point a b j j' -> surface_by (coord_point a b) s t ->
  same_outcome (surface_by (coord_point a b)) (Surface_InsertKnotU j s u) (Surface_InsertKnotU j' t u).
Proof. exact (coord_InsertKnotU div_b64). Qed.
Print Assumptions C107_insertU.
Theorem C107_insertU_times : forall a b (j j' : vec4 b64) (s t : surface b64) u n, coord_point a b j j' -> surface_by (coord_point a b) s t ->
  same_outcome (surface_by (coord_point a b)) (Surface_InsertKnotU_times j s u n) (Surface_InsertKnotU_times j' t u n).
Proof. exact (coord_InsertKnotU_times div_b64). Qed.
Print Assumptions C107_insertU_times.
Example C107_surface : surface_by (coord_point AX AZ) patch_arc bad_patch /\
  exists s t, Surface_InsertKnotU (Vec4 nan64 nan64 nan64 nan64) patch_arc (dq (1 # 2)) = Ok s /\ Surface_InsertKnotU (Vec4 nan64 nan64 nan64 nan64) bad_patch (dq (1 # 2)) = Ok t.
Proof. exact C107_surface_lemma. Qed.
