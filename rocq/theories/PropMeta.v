(** Property theorems: how results of several calls relate (C73-C80). *)
From Coq Require Import Reals ZArith List Lra Lia Permutation.
From Verif Require Import Outcome Num ModelCore ModelBasis ModelCurve ModelSurface SpecCore SpecBasis SpecCurve SpecSurface SpecDeriv SpecMeta
  ThCoreWit ThCurveWit ThSurfWit ThOrder ThOrder2 ThSmooth ThMeta ThMeta2 ThMeta3.
Import ListNotations.
Open Scope Z_scope.

(** * C73. The order of knot insertions does not matter *)
Theorem C73_curve_insertion_order : forall c us us', wf_curve c -> Forall (fun u => 0 < u < 1)%R us -> Permutation us us' ->
  Curve_InsertKnot_list c us = Curve_InsertKnot_list c us'.
Proof. exact insert_list_perm. Qed.
Print Assumptions C73_curve_insertion_order.
Example C73_ex : wf_curve curve_ex /\ Forall (fun u => 0 < u < 1)%R [1/2; 1/4; 3/4]%R /\ Permutation [1/2; 1/4; 3/4]%R [3/4; 1/4; 1/2]%R.
Proof. split; [exact curve_ex_wf|]. split; [repeat constructor; lra|]. apply (Permutation_rev [1/2; 1/4; 3/4]%R). Qed.
Theorem C73_surface_insertion_order_U : forall junk us us', Permutation us us' -> forall s, wf_surface s -> 1 <= DegreeU s -> Forall (fun u => 0 < u < 1)%R us ->
  Surface_InsertKnotU_list junk s us = Surface_InsertKnotU_list junk s us'.
Proof. exact insertU_list_perm. Qed.
Print Assumptions C73_surface_insertion_order_U.
Theorem C73_surface_insertion_order_V : forall vs vs', Permutation vs vs' -> forall s, wf_surface s -> 1 <= DegreeV s -> Forall (fun v => 0 < v < 1)%R vs ->
  Surface_InsertKnotV_list s vs = Surface_InsertKnotV_list s vs'.
Proof. exact insertV_list_perm. Qed.
Print Assumptions C73_surface_insertion_order_V.
Theorem C73_surface_directions_commute : forall junk s u v, wf_surface s -> 1 <= DegreeU s -> 1 <= DegreeV s -> (0 < u < 1)%R -> (0 < v < 1)%R ->
  (s' <- Surface_InsertKnotU junk s u ;; Surface_InsertKnotV s' v)%outcome = (s' <- Surface_InsertKnotV s v ;; Surface_InsertKnotU junk s' u)%outcome.
Proof. exact InsertKnotUV_swap. Qed.
Print Assumptions C73_surface_directions_commute.
Example C73_surface_ex : wf_surface surf_ex /\ 1 <= DegreeU surf_ex /\ 1 <= DegreeV surf_ex /\ Forall (fun u => 0 < u < 1)%R [1/2; 1/4]%R.
Proof. split; [exact surf_ex_wf|]. split; [vm_compute; discriminate|]. split; [vm_compute; discriminate|]. repeat constructor; lra. Qed.

(** * C74. A curve is determined by its points.  False without the bound on multiplicities. *)
Theorem C74_points_determine_curve : forall c d, wf_curve c -> wf_curve d -> Degree d = Degree c -> Knots d = Knots c ->
  map w4 (ControlPoints d) = map w4 (ControlPoints c) -> (forall v, (0 < v < 1)%R -> count v (Knots c) <= Degree c + 1) ->
  (forall x, (0 <= x <= 1)%R -> Curve_Evaluate d x = Curve_Evaluate c x) -> d = c.
Proof. exact curve_unique. Qed.
Print Assumptions C74_points_determine_curve.
Example C74_ex : wf_curve curve_ex /\ forall v, (0 < v < 1)%R -> count v (Knots curve_ex) <= Degree curve_ex + 1.
Proof. split; [exact curve_ex_wf|]. intros v _. exact (ex_multiplicity v). Qed.
Theorem C74_multiplicity_bound_needed : exists c d : curve R, wf_curve c /\ wf_curve d /\ Degree d = Degree c /\ Knots d = Knots c /\
  map w4 (ControlPoints d) = map w4 (ControlPoints c) /\ (forall x, Curve_Evaluate d x = Curve_Evaluate c x) /\ d <> c.
Proof. exact idle_refuted. Qed.
Print Assumptions C74_multiplicity_bound_needed.

(** * C75. Local control *)
Theorem C75_curve_locality : forall T (H : Num T) (c d : curve T) x j order, Degree d = Degree c -> Knots d = Knots c ->
  KnotVector_FindSpanIndex (Knots c) (Degree c) x = Ok j ->
  (forall i, 0 <= i -> j - Degree c <= i <= j -> nth_error (ControlPoints d) (Z.to_nat i) = nth_error (ControlPoints c) (Z.to_nat i)) ->
  Curve_Evaluate d x = Curve_Evaluate c x /\ Curve_EvaluateAll d x order = Curve_EvaluateAll c x order /\
  Curve_EvaluateDerivative d x order = Curve_EvaluateDerivative c x order.
Proof. exact local_curve. Qed.
Print Assumptions C75_curve_locality.
Example C75_ex : exists j, KnotVector_FindSpanIndex (Knots line64) (Degree line64) dhalf = Ok j.
Proof. eexists. vm_compute. reflexivity. Qed.
Theorem C75_surface_locality : forall T (H : Num T) (s t : surface T) u v ju jv ou ov,
  DegreeU t = DegreeU s -> DegreeV t = DegreeV s -> KnotsU t = KnotsU s -> KnotsV t = KnotsV s ->
  KnotVector_FindSpanIndex (KnotsU s) (DegreeU s) u = Ok ju -> KnotVector_FindSpanIndex (KnotsV s) (DegreeV s) v = Ok jv ->
  (forall i j, ju - DegreeU s <= i <= ju -> jv - DegreeV s <= j <= jv -> Grid_Get (Net t) i j = Grid_Get (Net s) i j) ->
  Surface_Evaluate t u v = Surface_Evaluate s u v /\ Surface_EvaluateAll t u v ou ov = Surface_EvaluateAll s u v ou ov.
Proof. exact local_surface. Qed.
Print Assumptions C75_surface_locality.
Theorem C75_moving_one_point : forall c d m x, wf_curve c -> wf_curve d -> Degree d = Degree c -> Knots d = Knots c -> 0 <= m < len (ControlPoints c) ->
  (forall i, 0 <= i < len (ControlPoints c) -> i <> m -> cp d i = cp c i) -> (0 <= x <= 1)%R ->
  ((x < at_ (Knots c) m)%R \/ (at_ (Knots c) (m + Degree c + 1) <= x < 1)%R \/ x = 1%R /\ m < len (ControlPoints c) - 1 ->
     Curve_Evaluate d x = Curve_Evaluate c x) /\
  (w4 (cp d m) = w4 (cp c m) -> exists p q a, Curve_Evaluate c x = Ok p /\ Curve_Evaluate d x = Ok q /\ (0 <= a <= 1)%R /\
     (x3 q = x3 p + a * (x4 (cp d m) - x4 (cp c m)) /\ y3 q = y3 p + a * (y4 (cp d m) - y4 (cp c m)) /\
      z3 q = z3 p + a * (z4 (cp d m) - z4 (cp c m)))%R).
Proof. exact move_one. Qed.
Print Assumptions C75_moving_one_point.
Example C75_move_ex : wf_curve curve_ex /\ wf_curve curve_ex' /\ forall i, 0 <= i < len (ControlPoints curve_ex) -> i <> 4 -> cp curve_ex' i = cp curve_ex i.
Proof.
  split; [exact curve_ex_wf|]. split; [exact curve_ex'_wf|]. change (len (ControlPoints curve_ex)) with 6. intros i Hi Ne.
  assert (i = 0 \/ i = 1 \/ i = 2 \/ i = 3 \/ i = 5) as [-> | [-> | [-> | [-> | ->]]]] by lia; reflexivity.
Qed.

(** * C76. Smoothness at knots.  A knot of multiplicity degree + 1 allows a jump. *)
Theorem C76_smooth : forall c x k, wf_curve c -> (0 < x < 1)%R -> 0 <= k <= 29 -> count x (Knots c) + k <= Degree c ->
  continuous_on_unit (fun t => Curve_EvaluateDerivative c t k) x /\
  exists q, Curve_EvaluateDerivative c x k = Ok q /\ is_derive_n3 (curve_point c) (Z.to_nat k) x q.
Proof. exact smooth_in. Qed.
Print Assumptions C76_smooth.
Example C76_ex : wf_curve curve_ex /\ count (1/3)%R (Knots curve_ex) + 1 <= Degree curve_ex.
Proof. split; [exact curve_ex_wf|]. rewrite ex_third. vm_compute. discriminate. Qed.
Theorem C76_smooth_ends : forall c x k, wf_curve c -> x = 0%R \/ x = 1%R -> 0 <= k <= 29 -> continuous_on_unit (fun t => Curve_EvaluateDerivative c t k) x.
Proof. exact smooth_ends. Qed.
Print Assumptions C76_smooth_ends.
Theorem C76_continuous : forall c, wf_curve c -> (forall x, (0 < x < 1)%R -> count x (Knots c) <= Degree c) ->
  forall x, (0 <= x <= 1)%R -> continuous_on_unit (Curve_Evaluate c) x.
Proof. exact continuous_curve. Qed.
Print Assumptions C76_continuous.
Example C76_continuous_ex : wf_curve curve_ex /\ forall x, (0 < x < 1)%R -> count x (Knots curve_ex) <= Degree curve_ex.
Proof. split; [exact curve_ex_wf|exact ex_inner]. Qed.
Theorem C76_jump_at_full_multiplicity : exists c x, wf_curve c /\ (0 < x < 1)%R /\ count x (Knots c) = Degree c + 1 /\ ~ continuous_on_unit (Curve_Evaluate c) x.
Proof. exact jump_refuted. Qed.
Print Assumptions C76_jump_at_full_multiplicity.

(** * C77. Isoparametric curves and boundaries *)
Theorem C77_fixed_v : forall s v, wf_surface s -> (0 <= v <= 1)%R -> exists c, wf_curve c /\ Degree c = DegreeU s /\ Knots c = KnotsU s /\
  (forall i, 0 <= i < UCount (Net s) -> exists p, nth_error (ControlPoints c) (Z.to_nat i) = Some p /\
     Curve_Evaluate (column_curve s i) v = Ok (Vec3 (x4 p) (y4 p) (z4 p)) /\ w4 p = curve_den (column_curve s i) v) /\
  forall u, Surface_Evaluate s u v = Curve_Evaluate c u.
Proof. exact iso_v. Qed.
Print Assumptions C77_fixed_v.
Theorem C77_fixed_u : forall s u, wf_surface s -> (0 <= u <= 1)%R -> exists c, wf_curve c /\ Degree c = DegreeV s /\ Knots c = KnotsV s /\
  (forall j, 0 <= j < VCount (Net s) -> exists p, nth_error (ControlPoints c) (Z.to_nat j) = Some p /\
     Curve_Evaluate (row_curve s j) u = Ok (Vec3 (x4 p) (y4 p) (z4 p)) /\ w4 p = curve_den (row_curve s j) u) /\
  forall v, Surface_Evaluate s u v = Curve_Evaluate c v.
Proof. exact iso_u. Qed.
Print Assumptions C77_fixed_u.
Theorem C77_boundary_v0 : forall s u, wf_surface s -> Surface_Evaluate s u 0%R = Curve_Evaluate (row_curve s 0) u.
Proof. exact boundary_v0. Qed.
Print Assumptions C77_boundary_v0.
Theorem C77_boundary_v1 : forall s u, wf_surface s -> Surface_Evaluate s u 1%R = Curve_Evaluate (row_curve s (VCount (Net s) - 1)) u.
Proof. exact boundary_v1. Qed.
Print Assumptions C77_boundary_v1.
Theorem C77_boundary_u0 : forall s v, wf_surface s -> Surface_Evaluate s 0%R v = Curve_Evaluate (column_curve s 0) v.
Proof. exact boundary_u0. Qed.
Print Assumptions C77_boundary_u0.
Theorem C77_boundary_u1 : forall s v, wf_surface s -> Surface_Evaluate s 1%R v = Curve_Evaluate (column_curve s (UCount (Net s) - 1)) v.
Proof. exact boundary_u1. Qed.
Print Assumptions C77_boundary_u1.
Example C77_ex : wf_surface surf_ex /\ (0 <= 1/3 <= 1)%R.
Proof. split; [exact surf_ex_wf|lra]. Qed.

(** * C78. Affine invariance *)
Theorem C78_evaluate : forall m t k, (0 < k)%R -> forall c x q, wf_curve c -> Curve_Evaluate c x = Ok q -> Curve_Evaluate (affine_curve m t k c) x = Ok (affine3 m t q).
Proof. exact affine_Evaluate. Qed.
Print Assumptions C78_evaluate.
Theorem C78_surface_evaluate : forall m t k, (0 < k)%R -> forall s u v q, wf_surface s -> Surface_Evaluate s u v = Ok q ->
  Surface_Evaluate (affine_surface m t k s) u v = Ok (affine3 m t q).
Proof. exact affine_Surface_Evaluate. Qed.
Print Assumptions C78_surface_evaluate.
Theorem C78_insert : forall m t k, (0 < k)%R -> forall us c, wf_curve c -> Forall (fun u => 0 < u < 1)%R us -> forall c', Curve_InsertKnot_list c us = Ok c' ->
  Curve_InsertKnot_list (affine_curve m t k c) us = Ok (affine_curve m t k c').
Proof. exact affine_insert_list. Qed.
Print Assumptions C78_insert.
Example C78_ex : wf_curve curve_ex /\ wf_surface surf_ex /\ affine3 shear (Vec3 1 1 1)%R (Vec3 1 0 0)%R = (Vec3 2 1 0)%R.
Proof. split; [exact curve_ex_wf|]. split; [exact surf_ex_wf|]. unfold affine3, mat_apply, shear. cbn [row0 row1 row2 x3 y3 z3]. f_equal; ring. Qed.

(** * C79. The refined control polygon stays in the hull of the old one *)
Theorem C79_half_spaces : forall c us c' A B D e, wf_curve c -> Forall (fun u => 0 < u < 1)%R us -> Curve_InsertKnot_list c us = Ok c' ->
  Forall (fun p => A * x4 p + B * y4 p + D * z4 p <= e)%R (ControlPoints c) -> Forall (fun p => A * x4 p + B * y4 p + D * z4 p <= e)%R (ControlPoints c').
Proof. exact insert_hull. Qed.
Print Assumptions C79_half_spaces.
Theorem C79_weights : forall c us c' lo hi, wf_curve c -> Forall (fun u => 0 < u < 1)%R us -> Curve_InsertKnot_list c us = Ok c' ->
  Forall (fun p => lo <= w4 p <= hi)%R (ControlPoints c) -> Forall (fun p => lo <= w4 p <= hi)%R (ControlPoints c').
Proof. exact insert_weights. Qed.
Print Assumptions C79_weights.
Theorem C79_polynomial : forall c us c', wf_curve c -> Forall (fun u => 0 < u < 1)%R us -> Curve_InsertKnot_list c us = Ok c' ->
  Curve_IsRational c = false -> Curve_IsRational c' = false.
Proof. exact insert_rational. Qed.
Print Assumptions C79_polynomial.
Example C79_ex : wf_curve curve_ex /\ Forall (fun p => 1 * x4 p + 0 * y4 p + 0 * z4 p <= 3)%R (ControlPoints curve_ex) /\ Forall (fun p => 1/2 <= w4 p <= 2)%R (ControlPoints curve_ex).
Proof. split; [exact curve_ex_wf|]. split; repeat constructor; simpl; lra. Qed.

(** * C80. End tangents *)
Theorem C80_start : forall c, wf_curve c -> 1 <= Degree c -> exists k,
  k = (IZR (Degree c) / at_ (Knots c) (Degree c + 1) * (w4 (cp c 1) / w4 (cp c 0)))%R /\
  Curve_EvaluateDerivative c 0%R 1 = Ok (Vec3 (k * (x4 (cp c 1) - x4 (cp c 0))) (k * (y4 (cp c 1) - y4 (cp c 0))) (k * (z4 (cp c 1) - z4 (cp c 0))))%R.
Proof. exact tangent_start. Qed.
Print Assumptions C80_start.
Theorem C80_end : forall c n, wf_curve c -> 1 <= Degree c -> n = len (ControlPoints c) - 1 -> exists k,
  k = (IZR (Degree c) / (1 - at_ (Knots c) n) * (w4 (cp c (n - 1)) / w4 (cp c n)))%R /\
  Curve_EvaluateDerivative c 1%R 1 =
    Ok (Vec3 (k * (x4 (cp c n) - x4 (cp c (n - 1)%Z))) (k * (y4 (cp c n) - y4 (cp c (n - 1)%Z))) (k * (z4 (cp c n) - z4 (cp c (n - 1)%Z))))%R.
Proof. exact tangent_end. Qed.
Print Assumptions C80_end.
Example C80_ex : wf_curve curve_ex /\ 1 <= Degree curve_ex.
Proof. split; [exact curve_ex_wf|]. vm_compute. discriminate. Qed.
