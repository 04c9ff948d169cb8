(** Operations on moved curves and surfaces, in exact arithmetic (C108, C109).
    [moved_point m b k p q]: [q] is [p] after the affine map [x |-> m x + b] (any matrix [m])
    with its weight multiplied by [k <> 0]; a point of weight zero has no position.
    [curve_by Q], [surface_by Q]: equal degrees and knots, control points related by [Q].
    [same_outcome Q]: the two calls end the same way, and if normally, with results related
    by [Q].  No well-formedness is assumed. *)
From Coq Require Import Reals ZArith List Lra Bool.
From Verif Require Import Outcome Num ModelCore ModelCurve ModelSurface SpecBasis SpecCurve SpecSurface SpecMeta SpecMove ThB64 ThCurveWit ThSurfWit ThMeta3 ThMove ThRigid ThMoveWit.
Import ListNotations.
Open Scope Z_scope.

(** * C108. Affine maps and weight scaling commute with evaluation, derivatives, refinement, elevation, extraction *)
(** Every curve and surface has such an image. *)
Theorem C108_images : forall m b k c s, curve_by (moved_point m b k) c (affine_curve m b k c) /\ surface_by (moved_point m b k) s (affine_surface m b k s).
Proof. exact C108_affine_lemma. Qed.
Print Assumptions C108_images.
Theorem C108_evaluate : forall m b k, (k <> 0)%R -> forall (c d : curve R) x, curve_by (moved_point m b k) c d ->
  same_outcome (fun p q => q = affine3 m b p) (Curve_Evaluate c x) (Curve_Evaluate d x).
Proof. exact move_Evaluate. Qed.
Print Assumptions C108_evaluate.
Theorem C108_evaluate_all : forall m b k, (k <> 0)%R -> forall (c d : curve R) x n, curve_by (moved_point m b k) c d ->
  same_outcome (moved_derivatives m b) (Curve_EvaluateAll c x n) (Curve_EvaluateAll d x n).
Proof. exact move_EvaluateAll. Qed.
Print Assumptions C108_evaluate_all.
Theorem C108_derivative : forall m b k, (k <> 0)%R -> forall (c d : curve R) x n, curve_by (moved_point m b k) c d ->
  same_outcome (moved_derivative m b (n =? 0)) (Curve_EvaluateDerivative c x n) (Curve_EvaluateDerivative d x n).
Proof. exact move_Derivative. Qed.
Print Assumptions C108_derivative.
Theorem C108_insert : forall m b k, (k <> 0)%R -> forall (c d : curve R) u, curve_by (moved_point m b k) c d ->
  same_outcome (curve_by (moved_point m b k)) (Curve_InsertKnot c u) (Curve_InsertKnot d u).
Proof. exact move_InsertKnot. Qed.
Print Assumptions C108_insert.
Theorem C108_insert_list : forall m b k, (k <> 0)%R -> forall (c d : curve R) us, curve_by (moved_point m b k) c d ->
  same_outcome (curve_by (moved_point m b k)) (Curve_InsertKnot_list c us) (Curve_InsertKnot_list d us).
Proof. exact move_InsertKnot_list. Qed.
Print Assumptions C108_insert_list.
Theorem C108_insert_times : forall m b k, (k <> 0)%R -> forall (c d : curve R) u n, curve_by (moved_point m b k) c d ->
  same_outcome (curve_by (moved_point m b k)) (Curve_InsertKnot_times c u n) (Curve_InsertKnot_times d u n).
Proof. exact move_InsertKnot_times. Qed.
Print Assumptions C108_insert_times.
Theorem C108_elevate : forall m b k, (k <> 0)%R -> forall (c d : curve R) n, curve_by (moved_point m b k) c d ->
  same_outcome (curve_by (moved_point m b k)) (Curve_ElevateDegree c n) (Curve_ElevateDegree d n).
Proof. exact move_ElevateDegree. Qed.
Print Assumptions C108_elevate.
Theorem C108_extract : forall m b k, (k <> 0)%R -> forall (c d : curve R), curve_by (moved_point m b k) c d ->
  same_outcome (Forall2 (curve_by (moved_point m b k))) (Curve_ExtractBezier c) (Curve_ExtractBezier d).
Proof. exact move_ExtractBezier. Qed.
Print Assumptions C108_extract.
Theorem C108_surface_evaluate : forall m b k, (k <> 0)%R -> forall (s t : surface R) u v, surface_by (moved_point m b k) s t ->
  same_outcome (fun p q => q = affine3 m b p) (Surface_Evaluate s u v) (Surface_Evaluate t u v).
Proof. exact move_Surface_Evaluate. Qed.
Print Assumptions C108_surface_evaluate.
Theorem C108_surface_evaluate_all : forall m b k, (k <> 0)%R -> forall (s t : surface R) u v i j, surface_by (moved_point m b k) s t ->
  same_outcome (moved_grid m b) (Surface_EvaluateAll s u v i j) (Surface_EvaluateAll t u v i j).
Proof. exact move_Surface_EvaluateAll. Qed.
Print Assumptions C108_surface_evaluate_all.
Theorem C108_surface_derivative : forall m b k, (k <> 0)%R -> forall (s t : surface R) u v i j, 0 <= i -> 0 <= j -> surface_by (moved_point m b k) s t ->
  same_outcome (moved_derivative m b ((i =? 0) && (j =? 0))) (Surface_EvaluateDerivative s u v i j) (Surface_EvaluateDerivative t u v i j).
Proof. exact move_Surface_Derivative. Qed.
Print Assumptions C108_surface_derivative.
Theorem C108_insertV : forall m b k, (k <> 0)%R -> forall (s t : surface R) u, surface_by (moved_point m b k) s t ->
  same_outcome (surface_by (moved_point m b k)) (Surface_InsertKnotV s u) (Surface_InsertKnotV t u).
Proof. exact move_InsertKnotV. Qed.
Print Assumptions C108_insertV.
Theorem C108_insertV_times : forall m b k, (k <> 0)%R -> forall (s t : surface R) u n, surface_by (moved_point m b k) s t ->
  same_outcome (surface_by (moved_point m b k)) (Surface_InsertKnotV_times s u n) (Surface_InsertKnotV_times t u n).
Proof. exact move_InsertKnotV_times. Qed.
Print Assumptions C108_insertV_times.
Theorem C108_elevateU : forall m b k, (k <> 0)%R -> forall (s t : surface R) n, surface_by (moved_point m b k) s t ->
  same_outcome (surface_by (moved_point m b k)) (Surface_ElevateDegreeU s n) (Surface_ElevateDegreeU t n).
Proof. exact move_ElevateDegreeU. Qed.
Print Assumptions C108_elevateU.
Theorem C108_elevateV : forall m b k, (k <> 0)%R -> forall (s t : surface R) n, surface_by (moved_point m b k) s t ->
  same_outcome (surface_by (moved_point m b k)) (Surface_ElevateDegreeV s n) (Surface_ElevateDegreeV t n).
Proof. exact move_ElevateDegreeV. Qed.
Print Assumptions C108_elevateV.
Theorem C108_insertU : forall m b k, (k <> 0)%R -> forall (j j' : vec4 R) (s t : surface R) u, moved_point m b k j j' -> surface_by (moved_point m b k) s t ->
  same_outcome (surface_by (moved_point m b k)) (Surface_InsertKnotU j s u) (Surface_InsertKnotU j' t u).
Proof. exact move_InsertKnotU. Qed.
Print Assumptions C108_insertU.
Theorem C108_insertU_times : forall m b k, (k <> 0)%R -> forall (j j' : vec4 R) (s t : surface R) u n, moved_point m b k j j' -> surface_by (moved_point m b k) s t ->
  same_outcome (surface_by (moved_point m b k)) (Surface_InsertKnotU_times j s u n) (Surface_InsertKnotU_times j' t u n).
Proof. exact move_InsertKnotU_times. Qed.
Print Assumptions C108_insertU_times.
(** a shear, a translation and a negative weight factor; a well-formed rational curve *)
Example C108_ex : wf_curve curve_ex /\ wf_surface surf_ex /\ (-2 <> 0)%R /\
  curve_by (moved_point shear (Vec3 1 1 1)%R (-2)) curve_ex (affine_curve shear (Vec3 1 1 1)%R (-2) curve_ex) /\
  surface_by (moved_point shear (Vec3 1 1 1)%R (-2)) surf_ex (affine_surface shear (Vec3 1 1 1)%R (-2) surf_ex).
Proof. split; [exact curve_ex_wf|]. split; [exact surf_ex_wf|]. split; [apply Rlt_not_eq; lra|]. apply C108_affine_lemma. Qed.

(** * C109. Searches and knot removal do not depend on the position of the object *)
Theorem C109_search : forall m b k, isometry m -> (k <> 0)%R -> forall fuel (c d : curve R) p init eps n, curve_by (moved_point m b k) c d ->
  Curve_SearchParameter fuel d (affine3 m b p) init eps n = Curve_SearchParameter fuel c p init eps n.
Proof. exact C109_search_lemma. Qed.
Print Assumptions C109_search.
Theorem C109_binary_search : forall m b k, isometry m -> (k <> 0)%R -> forall (c d : curve R) p eps n, curve_by (moved_point m b k) c d ->
  Curve_BinarySearchParameter d (affine3 m b p) eps n = Curve_BinarySearchParameter c p eps n.
Proof. exact C109_binary_search_lemma. Qed.
Print Assumptions C109_binary_search.
Theorem C109_surface_search : forall m b k, isometry m -> (k <> 0)%R -> forall fuel (c d : surface R) p u v eps n, surface_by (moved_point m b k) c d ->
  Surface_SearchParameter fuel d (affine3 m b p) u v eps n = Surface_SearchParameter fuel c p u v eps n.
Proof. exact C109_surface_search_lemma. Qed.
Print Assumptions C109_surface_search.
Theorem C109_search_on : forall m b k, isometry m -> (k <> 0)%R -> forall fuel (c d : surface R) p dir constant init eps n, surface_by (moved_point m b k) c d ->
  Surface_SearchParameterOn fuel d (affine3 m b p) dir constant init eps n = Surface_SearchParameterOn fuel c p dir constant init eps n.
Proof. exact C109_search_on_lemma. Qed.
Print Assumptions C109_search_on.
Theorem C109_binary_search_on : forall m b k, isometry m -> (k <> 0)%R -> forall fuel (c d : surface R) p dir constant eps n, surface_by (moved_point m b k) c d ->
  Surface_BinarySearchParameterOn fuel d (affine3 m b p) dir constant eps n = Surface_BinarySearchParameterOn fuel c p dir constant eps n.
Proof. exact C109_binary_search_on_lemma. Qed.
Print Assumptions C109_binary_search_on.
Theorem C109_remove : forall m, isometry m -> forall (c d : curve R) u n tol, curve_by (turned_point m) c d ->
  same_outcome (fun x y => curve_by (turned_point m) (fst x) (fst y) /\ snd x = snd y) (Curve_RemoveKnot c u n tol) (Curve_RemoveKnot d u n tol).
Proof. exact rigid_RemoveKnot. Qed.
Print Assumptions C109_remove.
Theorem C109_removeU : forall m, isometry m -> forall (c d : surface R) u n tol, surface_by (turned_point m) c d ->
  same_outcome (fun x y => surface_by (turned_point m) (fst x) (fst y) /\ snd x = snd y) (Surface_RemoveKnotU c u n tol) (Surface_RemoveKnotU d u n tol).
Proof. exact rigid_RemoveKnotU. Qed.
Print Assumptions C109_removeU.
Theorem C109_removeV : forall m, isometry m -> forall (c d : surface R) u n tol, surface_by (turned_point m) c d ->
  same_outcome (fun x y => surface_by (turned_point m) (fst x) (fst y) /\ snd x = snd y) (Surface_RemoveKnotV c u n tol) (Surface_RemoveKnotV d u n tol).
Proof. exact rigid_RemoveKnotV. Qed.
Print Assumptions C109_removeV.
(** [Transform] by an isometry produces such an image. *)
Theorem C109_transform : forall m c s, curve_by (turned_point m) c (Curve_Transform c m) /\ surface_by (turned_point m) s (Surface_Transform s m).
Proof. exact C109_transform_lemma. Qed.
Print Assumptions C109_transform.
(** Translations are different: the tolerance of knot removal shrinks with the distance from the origin. *)
Theorem C109_translation_refuted : exists (c d : curve b64) u tol, curve_by moved_by8 c d /\ finite64 u /\ finite64 tol /\
  (exists e, Curve_RemoveKnot c u 1 tol = Ok (e, 1)) /\ (exists e, Curve_RemoveKnot d u 1 tol = Ok (e, 0)).
Proof. exact C109_translation_lemma. Qed.
Print Assumptions C109_translation_refuted.
Example C109_ex : isometry turn345 /\ mat_apply turn345 (Vec3 5 0 0)%R = (Vec3 3 4 0)%R /\ wf_curve curve_ex /\ curve_by (turned_point turn345) curve_ex (Curve_Transform curve_ex turn345).
Proof. split; [apply turn345_ok|]. split; [apply turn345_ok|]. split; [exact curve_ex_wf|]. apply (C109_transform_lemma turn345 curve_ex surf_ex). Qed.
