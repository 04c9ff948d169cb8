(** Mirror images and quarter turns are computed exactly on doubles (C111): if coordinate [b] of the
    control points of one object is the opposite of coordinate [a] of the other's and the weights are
    equal, the results are related in the same way, bit for bit up to the sign of zero.
    Any control points (infinite, NaN, ...), no well-formedness.  With C107 for the coordinates that
    keep their sign this covers every signed permutation of the axes. *)
From Coq Require Import Reals ZArith QArith List.
From Verif Require Import Outcome Num ModelCore ModelCurve ModelSurface SpecMove ThDecide ThOpp ThCoordBy ThCoordWit ThMoveWit ThMirrorRm ThMirrorWit.
Import ListNotations.
Open Scope Z_scope.

(** * C111 *)
Theorem C111_evaluate : forall a b (c d : curve b64) x, curve_by (coord_point_by opposite a b) c d ->
  same_outcome (coord_vec_by opposite a b) (Curve_Evaluate c x) (Curve_Evaluate d x).
Proof. exact (by_Evaluate opposite opp_n0 opp_add opp_sub opp_mul_r opp_mul_l opp_ndiv). Qed.
Print Assumptions C111_evaluate.
Theorem C111_evaluate_all : forall a b (c d : curve b64) x n, curve_by (coord_point_by opposite a b) c d ->
  same_outcome (Forall2 (coord_vec_by opposite a b)) (Curve_EvaluateAll c x n) (Curve_EvaluateAll d x n).
Proof. exact (by_EvaluateAll opposite opp_n0 opp_add opp_sub opp_mul_r opp_mul_l opp_ndiv). Qed.
Print Assumptions C111_evaluate_all.
Theorem C111_derivative : forall a b (c d : curve b64) x n, curve_by (coord_point_by opposite a b) c d ->
  same_outcome (coord_vec_by opposite a b) (Curve_EvaluateDerivative c x n) (Curve_EvaluateDerivative d x n).
Proof. exact (by_Derivative opposite opp_n0 opp_add opp_sub opp_mul_r opp_mul_l opp_ndiv). Qed.
Print Assumptions C111_derivative.
Theorem C111_insert : forall a b (c d : curve b64) u, curve_by (coord_point_by opposite a b) c d ->
  same_outcome (curve_by (coord_point_by opposite a b)) (Curve_InsertKnot c u) (Curve_InsertKnot d u).
Proof. exact (by_InsertKnot opposite opp_n0 opp_add opp_sub opp_mul_r opp_mul_l opp_ndiv). Qed.
Print Assumptions C111_insert.
Theorem C111_insert_list : forall a b (c d : curve b64) us, curve_by (coord_point_by opposite a b) c d ->
  same_outcome (curve_by (coord_point_by opposite a b)) (Curve_InsertKnot_list c us) (Curve_InsertKnot_list d us).
Proof. exact (by_InsertKnot_list opposite opp_n0 opp_add opp_sub opp_mul_r opp_mul_l opp_ndiv). Qed.
Print Assumptions C111_insert_list.
Theorem C111_insert_times : forall a b (c d : curve b64) u n, curve_by (coord_point_by opposite a b) c d ->
  same_outcome (curve_by (coord_point_by opposite a b)) (Curve_InsertKnot_times c u n) (Curve_InsertKnot_times d u n).
Proof. exact (by_InsertKnot_times opposite opp_n0 opp_add opp_sub opp_mul_r opp_mul_l opp_ndiv). Qed.
Print Assumptions C111_insert_times.
Theorem C111_elevate : forall a b (c d : curve b64) n, curve_by (coord_point_by opposite a b) c d ->
  same_outcome (curve_by (coord_point_by opposite a b)) (Curve_ElevateDegree c n) (Curve_ElevateDegree d n).
Proof. exact (by_ElevateDegree opposite opp_n0 opp_add opp_sub opp_mul_r opp_mul_l opp_ndiv). Qed.
Print Assumptions C111_elevate.
Theorem C111_extract : forall a b (c d : curve b64), curve_by (coord_point_by opposite a b) c d ->
  same_outcome (Forall2 (curve_by (coord_point_by opposite a b))) (Curve_ExtractBezier c) (Curve_ExtractBezier d).
Proof. exact (by_ExtractBezier opposite opp_n0 opp_add opp_sub opp_mul_r opp_mul_l opp_ndiv). Qed.
Print Assumptions C111_extract.
Example C111_curve : curve_by (coord_point_by opposite AX AY) arc64 turned64 /\ curve_by (coord_point AY AX) arc64 turned64 /\
  exists p q, Curve_Evaluate arc64 (dq (1 # 3)) = Ok p /\ Curve_Evaluate turned64 (dq (1 # 3)) = Ok q /\ y3 q = nopp (x3 p) /\ x3 q = y3 p /\ nltb n0 (x3 p) = true /\ nltb n0 (y3 p) = true.
Proof. exact C111_curve_lemma. Qed.

Theorem C111_surface_evaluate : forall a b (s t : surface b64) u v, surface_by (coord_point_by opposite a b) s t ->
  same_outcome (coord_vec_by opposite a b) (Surface_Evaluate s u v) (Surface_Evaluate t u v).
Proof. exact (by_Surface_Evaluate opposite opp_n0 opp_add opp_sub opp_mul_r opp_mul_l opp_ndiv). Qed.
Print Assumptions C111_surface_evaluate.
Theorem C111_surface_evaluate_all : forall a b (s t : surface b64) u v m n, surface_by (coord_point_by opposite a b) s t ->
  same_outcome (grid_by (coord_vec_by opposite a b)) (Surface_EvaluateAll s u v m n) (Surface_EvaluateAll t u v m n).
Proof. exact (by_Surface_EvaluateAll opposite opp_n0 opp_add opp_sub opp_mul_r opp_mul_l opp_ndiv). Qed.
Print Assumptions C111_surface_evaluate_all.
Theorem C111_surface_derivative : forall a b (s t : surface b64) u v m n, surface_by (coord_point_by opposite a b) s t ->
  same_outcome (coord_vec_by opposite a b) (Surface_EvaluateDerivative s u v m n) (Surface_EvaluateDerivative t u v m n).
Proof. exact (by_Surface_Derivative opposite opp_n0 opp_add opp_sub opp_mul_r opp_mul_l opp_ndiv). Qed.
Print Assumptions C111_surface_derivative.
Theorem C111_insertV : forall a b (s t : surface b64) u, surface_by (coord_point_by opposite a b) s t ->
  same_outcome (surface_by (coord_point_by opposite a b)) (Surface_InsertKnotV s u) (Surface_InsertKnotV t u).
Proof. exact (by_InsertKnotV opposite opp_n0 opp_add opp_sub opp_mul_r opp_mul_l opp_ndiv). Qed.
Print Assumptions C111_insertV.
Theorem C111_insertV_times : forall a b (s t : surface b64) u n, surface_by (coord_point_by opposite a b) s t ->
  same_outcome (surface_by (coord_point_by opposite a b)) (Surface_InsertKnotV_times s u n) (Surface_InsertKnotV_times t u n).
Proof. exact (by_InsertKnotV_times opposite opp_n0 opp_add opp_sub opp_mul_r opp_mul_l opp_ndiv). Qed.
Print Assumptions C111_insertV_times.
Theorem C111_elevateU : forall a b (s t : surface b64) n, surface_by (coord_point_by opposite a b) s t ->
  same_outcome (surface_by (coord_point_by opposite a b)) (Surface_ElevateDegreeU s n) (Surface_ElevateDegreeU t n).
Proof. exact (by_ElevateDegreeU opposite opp_n0 opp_add opp_sub opp_mul_r opp_mul_l opp_ndiv). Qed.
Print Assumptions C111_elevateU.
Theorem C111_elevateV : forall a b (s t : surface b64) n, surface_by (coord_point_by opposite a b) s t ->
  same_outcome (surface_by (coord_point_by opposite a b)) (Surface_ElevateDegreeV s n) (Surface_ElevateDegreeV t n).
Proof. exact (by_ElevateDegreeV opposite opp_n0 opp_add opp_sub opp_mul_r opp_mul_l opp_ndiv). Qed.
Print Assumptions C111_elevateV.
Theorem C111_insertU : forall a b (j j' : vec4 b64) (s t : surface b64) u, coord_point_by opposite a b j j' -> surface_by (coord_point_by opposite a b) s t ->
  same_outcome (surface_by (coord_point_by opposite a b)) (Surface_InsertKnotU j s u) (Surface_InsertKnotU j' t u).
Proof. exact (by_InsertKnotU opposite opp_n0 opp_add opp_sub opp_mul_r opp_mul_l opp_ndiv). Qed.
Print Assumptions C111_insertU.
Theorem C111_insertU_times : forall a b (j j' : vec4 b64) (s t : surface b64) u n, coord_point_by opposite a b j j' -> surface_by (coord_point_by opposite a b) s t ->
  same_outcome (surface_by (coord_point_by opposite a b)) (Surface_InsertKnotU_times j s u n) (Surface_InsertKnotU_times j' t u n).
Proof. exact (by_InsertKnotU_times opposite opp_n0 opp_add opp_sub opp_mul_r opp_mul_l opp_ndiv). Qed.
Print Assumptions C111_insertU_times.
Example C111_surface : surface_by (coord_point_by opposite AX AY) patch_arc turned_patch.
Proof. exact C111_surface_lemma. Qed.

(** Knot removal measures distances; mirroring in any set of axes (marked by [f]) commutes with it, too:
    the same number of knots is removed and the result is the mirror image. *)
Theorem C111_remove : forall f (c d : curve b64) u n tol, curve_by (flipped f) c d ->
  same_outcome (fun x y => curve_by (flipped f) (fst x) (fst y) /\ snd x = snd y) (Curve_RemoveKnot c u n tol) (Curve_RemoveKnot d u n tol).
Proof. exact flip_RemoveKnot. Qed.
Print Assumptions C111_remove.
Theorem C111_removeU : forall f (c d : surface b64) u n tol, surface_by (flipped f) c d ->
  same_outcome (fun x y => surface_by (flipped f) (fst x) (fst y) /\ snd x = snd y) (Surface_RemoveKnotU c u n tol) (Surface_RemoveKnotU d u n tol).
Proof. exact flip_RemoveKnotU. Qed.
Print Assumptions C111_removeU.
Theorem C111_removeV : forall f (c d : surface b64) u n tol, surface_by (flipped f) c d ->
  same_outcome (fun x y => surface_by (flipped f) (fst x) (fst y) /\ snd x = snd y) (Surface_RemoveKnotV c u n tol) (Surface_RemoveKnotV d u n tol).
Proof. exact flip_RemoveKnotV. Qed.
Print Assumptions C111_removeV.
Example C111_remove_ex : curve_by (flipped (fun a => match a with AX => true | _ => false end)) near64 (Curve 1 (Knots near64) (map flipx (ControlPoints near64))) /\
  exists e, Curve_RemoveKnot near64 (dq (1 # 2)) 1 (dq (1 # 10)) = Ok (e, 1).
Proof. exact C111_remove_lemma. Qed.
