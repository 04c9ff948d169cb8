(** Property theorems: surface evaluation, transformation, knot insertion,
    generated segments and rectangles (C46-C48, C50, C55, C56). *)
From Coq Require Import Reals ZArith List Lra Lia Bool Permutation SpecFloat.
From Verif Require Import Outcome Num ModelCore ModelBasis ModelCurve ModelSurface SpecCore SpecBasis SpecCurve SpecSurface
  ThReal ThB64 ThCoreWit ThCurveWit ThSurface2 ThSurfWit ThGeom.
Import ListNotations.
Open Scope Z_scope.

(** * C46 *)
Theorem C46_evaluate : forall s u v, wf_surface s ->
  ((0 <= u <= 1)%R /\ (0 <= v <= 1)%R -> (0 < surf_den s u v)%R /\ Surface_Evaluate s u v = Ok (surf_point s u v)) /\
  (~ ((0 <= u <= 1)%R /\ (0 <= v <= 1)%R) -> Surface_Evaluate s u v = AssertFail).
Proof. exact C46_lemma. Qed.
Print Assumptions C46_evaluate.
Theorem C46_corners : forall s, wf_surface s ->
  Surface_Evaluate s 0%R 0%R = Ok (head3 (gp s 0 0)) /\
  Surface_Evaluate s 1%R 0%R = Ok (head3 (gp s (UCount (Net s) - 1) 0)) /\
  Surface_Evaluate s 0%R 1%R = Ok (head3 (gp s 0 (VCount (Net s) - 1))) /\
  Surface_Evaluate s 1%R 1%R = Ok (head3 (gp s (UCount (Net s) - 1) (VCount (Net s) - 1))).
Proof. exact C46_corners_lemma. Qed.
Print Assumptions C46_corners.
Example C46_ex : wf_surface surf_ex /\ head3 (gp surf_ex 5 2) = Vec3 5%R 2%R 1%R.
Proof. split; [exact surf_ex_wf|reflexivity]. Qed.

(** * C47 *)
Theorem C47_half_space : forall s u v a b d e q, wf_surface s ->
  (forall i j, 0 <= i < UCount (Net s) -> 0 <= j < VCount (Net s) -> basis_uv s i j u v <> 0%R ->
     (a * x4 (gp s i j) + b * y4 (gp s i j) + d * z4 (gp s i j) <= e)%R) ->
  Surface_Evaluate s u v = Ok q -> (a * x3 q + b * y3 q + d * z3 q <= e)%R.
Proof. exact C47_lemma. Qed.
Print Assumptions C47_half_space.
Theorem C47_box : forall s u v (b : bbox R) q, wf_surface s ->
  Forall (fun p => in_box (Vec3 (x4 p) (y4 p) (z4 p)) b) (Values (Net s)) ->
  Surface_Evaluate s u v = Ok q -> in_box q b.
Proof. exact C47_box_lemma. Qed.
Print Assumptions C47_box.
Example C47_ex : wf_surface surf_ex /\
  Forall (fun p => in_box (Vec3 (x4 p) (y4 p) (z4 p)) (BBox (Vec3 0 0 0) (Vec3 5 2 2))%R) (Values (Net surf_ex)).
Proof.
  split; [exact surf_ex_wf|]. unfold surf_ex. cbn [Net Values].
  repeat (apply Forall_cons; [unfold in_box, le3; simpl; lra|]). apply Forall_nil.
Qed.

(** * C48 *)
Theorem C48_transform : forall s m u v q, wf_surface s -> Surface_Evaluate s u v = Ok q ->
  Surface_Evaluate (Surface_Transform s m) u v = Ok (mat_apply m q) /\
  wf_surface (Surface_Transform s m) /\
  DegreeU (Surface_Transform s m) = DegreeU s /\ DegreeV (Surface_Transform s m) = DegreeV s /\
  KnotsU (Surface_Transform s m) = KnotsU s /\ KnotsV (Surface_Transform s m) = KnotsV s /\
  map w4 (Values (Net (Surface_Transform s m))) = map w4 (Values (Net s)).
Proof. exact C48_lemma. Qed.
Print Assumptions C48_transform.
Example C48_ex : wf_surface surf_ex /\ exists q, Surface_Evaluate surf_ex (1/4)%R (2/3)%R = Ok q.
Proof. split; [exact surf_ex_wf|]. eexists. apply C46_lemma; [exact surf_ex_wf|split; lra]. Qed.

(** * C50.  [refinesU s d us]: [d] is well-formed, has the degrees of [s], its
    first knot vector is that of [s] with exactly the knots [us] added, its
    control grid has that many columns more, and it evaluates to the same
    outcome at every (u,v); [refinesV] likewise for the second direction.  [jk] is the
    content of uninitialised memory. *)
Theorem C50_insert_partial : forall jk s u, wf_surface s -> 1 <= DegreeU s -> 1 <= DegreeV s ->
  ((0 < u < 1)%R -> (exists s', Surface_InsertKnotU jk s u = Ok s' /\ refinesU s s' [u]) /\
     (exists s', Surface_InsertKnotV s u = Ok s' /\ refinesV s s' [u])) /\
  (~ (0 < u < 1)%R -> Surface_InsertKnotU jk s u = AssertFail /\ Surface_InsertKnotV s u = AssertFail).
Proof. exact C50_single_lemma. Qed.
Print Assumptions C50_insert_partial.
Theorem C50_insertU_list_partial : forall jk s us, wf_surface s -> 1 <= DegreeU s -> Forall (fun u => 0 < u < 1)%R us ->
  exists s', Surface_InsertKnotU_list jk s us = Ok s' /\ refinesU s s' us.
Proof. exact C50_U_lemma. Qed.
Print Assumptions C50_insertU_list_partial.
Theorem C50_insertV_list_partial : forall s us, wf_surface s -> 1 <= DegreeV s -> Forall (fun u => 0 < u < 1)%R us ->
  exists s', Surface_InsertKnotV_list s us = Ok s' /\ refinesV s s' us.
Proof. exact C50_V_lemma. Qed.
Print Assumptions C50_insertV_list_partial.
Theorem C50_times_partial : forall jk s u n, wf_surface s -> 1 <= DegreeU s -> 1 <= DegreeV s -> (0 < u < 1)%R -> 0 <= n ->
  (exists s', Surface_InsertKnotU_times jk s u n = Ok s' /\ refinesU s s' (repeat u (Z.to_nat n))) /\
  (exists s', Surface_InsertKnotV_times s u n = Ok s' /\ refinesV s s' (repeat u (Z.to_nat n))).
Proof. exact C50_times_lemma. Qed.
Print Assumptions C50_times_partial.
(** In a direction of degree 0 a row of zero points (weight 0) is inserted. *)
Theorem C50_degree_0_refuted : exists (s : surface b64) k sU sV qU qV, wf_surface (surface_val s) /\
  DegreeU s = 0 /\ DegreeV s = 0 /\ (0 < val k < 1)%R /\
  Surface_Evaluate s dz dz = Ok (Vec3 done_ done_ dz) /\
  Surface_InsertKnotU v4zero s k = Ok sU /\ Surface_Evaluate sU dz dz = Ok qU /\ nan3 qU /\
  Surface_InsertKnotV s k = Ok sV /\ Surface_Evaluate sV dz dz = Ok qV /\ nan3 qV.
Proof. exact C50_refuted_lemma. Qed.
Print Assumptions C50_degree_0_refuted.
Example C50_ex : wf_surface surf_ex /\ 1 <= DegreeU surf_ex /\ 1 <= DegreeV surf_ex /\
  Forall (fun u => 0 < u < 1)%R [1/2; 1/3; 1/2; 9/10]%R.
Proof. split; [exact surf_ex_wf|]. simpl. split; [lia|]. split; [lia|]. repeat (apply Forall_cons; [lra|]). apply Forall_nil. Qed.

(** * C55.  [lerp a b s] is the point a + s (b - a). *)
Theorem C55_segment : forall p n (a b : vec3 R), 1 <= p -> p + 1 <= n ->
  exists c, GeomSegment_GetCurve p n a b = Ok c /\ wf_curve c /\ Degree c = p /\ len (ControlPoints c) = n /\
    Curve_Evaluate c 0%R = Ok a /\ Curve_Evaluate c 1%R = Ok b /\
    (forall t, (0 <= t <= 1)%R -> exists s, (0 <= s <= 1)%R /\ Curve_Evaluate c t = Ok (lerp a b s)) /\
    (n = p + 1 -> forall t, (0 <= t <= 1)%R -> Curve_Evaluate c t = Ok (lerp a b t)).
Proof. exact C55_lemma. Qed.
Print Assumptions C55_segment.
Example C55_ex : 1 <= 3 /\ 3 + 1 <= 7 /\ 3 + 1 <= 4. Proof. lia. Qed.

(** * C56.  [lerp2 a b d x y] is the point a + x (b - a) + y (d - a).  Missing: the
    fourth corner, which is b + d - a whatever the given right-top point is. *)
Theorem C56_rect_partial : forall p q n m (a b d e : vec3 R), 1 <= p -> 1 <= q -> p + 1 <= n -> q + 1 <= m -> n * m <= INT_MAX ->
  exists s, GeomRect_GetSurface p q n m a b d e = Ok s /\ wf_surface s /\ DegreeU s = p /\ DegreeV s = q /\
    UCount (Net s) = n /\ VCount (Net s) = m /\
    Surface_Evaluate s 0%R 0%R = Ok a /\ Surface_Evaluate s 1%R 0%R = Ok b /\ Surface_Evaluate s 0%R 1%R = Ok d /\
    Surface_Evaluate s 1%R 1%R = Ok (lerp2 a b d 1 1) /\
    (forall u v, (0 <= u <= 1)%R -> (0 <= v <= 1)%R -> exists x y, (0 <= x <= 1)%R /\ (0 <= y <= 1)%R /\
       Surface_Evaluate s u v = Ok (lerp2 a b d x y) /\ (n = p + 1 -> x = u) /\ (m = q + 1 -> y = v)).
Proof. exact C56_lemma. Qed.
Print Assumptions C56_rect_partial.
Theorem C56_corner_refuted : exists (a b d e q : vec3 R) s, GeomRect_GetSurface 1 1 2 2 a b d e = Ok s /\ wf_surface s /\
  Surface_Evaluate s 1%R 1%R = Ok q /\ q <> e.
Proof. exact C56_refuted_lemma. Qed.
Print Assumptions C56_corner_refuted.
Example C56_ex : 1 <= 2 /\ 1 <= 3 /\ 2 + 1 <= 5 /\ 3 + 1 <= 4 /\ 5 * 4 <= INT_MAX.
Proof. unfold INT_MAX. lia. Qed.
