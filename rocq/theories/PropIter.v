(** Property theorems: every iterate of the quasi-Newton searches (C81-C85).

    [search_run] and [search_run2] (SpecIter.v) describe the searches by the
    derivative of half the squared distance, backtracking, the secant equation
    and quadratic forms. *)
From Coq Require Import Reals ZArith List Lra Lia QArith.
From Verif Require Import Outcome Num ModelCore ModelCurve ModelSurface SpecCore SpecBasis SpecCurve SpecSurface SpecSearch SpecIter
  ThReal ThB64 ThCoreWit ThCurveWit ThDecide ThSurfWit ThSearch ThIter ThIterWit ThGeom ThConv.
Import ListNotations.
Open Scope Z_scope.

(** * C81: Curve::SearchParameter *)
Theorem C81_curve_search_run : forall c P init eps mx n u, wf_curve c -> unit_interval init -> (mx <= INR n)%R ->
  Curve_SearchParameter n c P init eps mx = Ok u <->
  search_run (fun x => dist3 (curve_point c x) P) (slope_at (Knots c) (fun x => half_sq (curve_point c x) P)) 20 eps mx 0 init dbl_max 1 u.
Proof. exact C81_lemma. Qed.
Print Assumptions C81_curve_search_run.
Example C81_ex : wf_curve curve_ex /\ unit_interval (1/4)%R /\ (7/2 <= INR 4)%R /\
  search_run (fun x => Rabs (x - 1 / 2)) (slope_at [0; 0; 1; 1]%R (fun x => (x - 1 / 2) ^ 2 / 2)%R) 20 (1 / 10) 5 0 0 dbl_max 1 (1 / 2).
Proof.
  split; [exact curve_ex_wf|]. split; [unfold unit_interval; lra|]. split; [cbn [INR]; lra|]. exact C81_ex_lemma.
Qed.

(** * C82: Surface::SearchParameter *)
Theorem C82_surface_search_run : forall s P a b eps mx n uv, wf_surface s -> unit_square (a, b) -> (mx <= INR n)%R ->
  Surface_SearchParameter n s P a b eps mx = Ok uv <->
  search_run2 (fun x => dist3 (surf_point s (fst x) (snd x)) P)
    (slope2_at (KnotsU s) (KnotsV s) (fun u v => half_sq (surf_point s u v) P)) 20 eps mx 0 (a, b) dbl_max one2 uv.
Proof. exact C82_lemma. Qed.
Print Assumptions C82_surface_search_run.
(** The matrix of such a run satisfies the secant equation and stays positive
    definite as long as the curvature is positive. *)
Theorem C82_secant : forall h s y h', bfgs h s y h' -> (1 / 10 ^ 16 <= Rabs (dot2 s y))%R ->
  apply2 h' y = s /\
  ((forall v, v <> (0, 0)%R -> (0 < quad h v)%R) -> (0 < dot2 s y)%R -> forall v, v <> (0, 0)%R -> (0 < quad h' v)%R).
Proof. exact bfgs_secant. Qed.
Print Assumptions C82_secant.
Example C82_ex : wf_surface surf_ex /\ unit_square (1/4, 1/3)%R /\ (7/2 <= INR 4)%R /\
  search_run2 (fun x => Rabs (fst x - 1 / 2) + Rabs (snd x - 1 / 4))%R
    (slope2_at [0; 0; 1; 1]%R [0; 0; 1; 1]%R (fun u v => (u - 1 / 2) ^ 2 / 2 + (v - 1 / 4) ^ 2 / 2)%R)
    20 (1 / 10) 5 0 (0, 0)%R dbl_max one2 (1 / 2, 1 / 4)%R.
Proof.
  split; [exact surf_ex_wf|]. split; [split; unfold unit_interval; cbn [fst snd]; lra|]. split; [cbn [INR]; lra|]. exact C82_ex_lemma.
Qed.

(** * C83: Surface::SearchParameterOn, without backtracking *)
Theorem C83_surface_search_on_run : forall s P d k init eps mx n u v, wf_surface s -> 0 <= d <= 1 -> unit_interval k -> unit_interval init -> (mx <= INR n)%R ->
  Surface_SearchParameterOn n s P d k init eps mx = Ok (u, v) <->
  (d = 0 /\ u = k /\ search_run (fun x => dist3 (surf_point s k x) P) (slope_at (KnotsV s) (fun x => half_sq (surf_point s k x) P)) 0 eps mx 0 init dbl_max 1 v) \/
  (d = 1 /\ v = k /\ search_run (fun x => dist3 (surf_point s x k) P) (slope_at (KnotsU s) (fun x => half_sq (surf_point s x k) P)) 0 eps mx 0 init dbl_max 1 u).
Proof. exact C83_lemma. Qed.
Print Assumptions C83_surface_search_on_run.
Example C83_ex : wf_surface surf_ex /\ 0 <= 1 <= 1 /\ unit_interval (1/4)%R /\ (7/2 <= INR 4)%R.
Proof. split; [exact surf_ex_wf|]. split; [lia|]. split; [unfold unit_interval; lra|cbn [INR]; lra]. Qed.

(** * C84: where a search stays, and that it may end farther away *)
Theorem C84_stationary_curve : forall c P init eps mx n, wf_curve c -> unit_interval init -> (mx <= INR n)%R ->
  slope_at (Knots c) (fun x => half_sq (curve_point c x) P) init 0 -> Curve_SearchParameter n c P init eps mx = Ok init.
Proof. exact C84_curve_lemma. Qed.
Print Assumptions C84_stationary_curve.
Theorem C84_stationary_surface : forall s P a b eps mx n, wf_surface s -> unit_square (a, b) -> (mx <= INR n)%R ->
  slope2_at (KnotsU s) (KnotsV s) (fun u v => half_sq (surf_point s u v) P) (a, b) (0, 0)%R -> Surface_SearchParameter n s P a b eps mx = Ok (a, b).
Proof. exact C84_surface_lemma. Qed.
Print Assumptions C84_stationary_surface.
Theorem C84_on_target : forall c P init eps mx n, wf_curve c -> unit_interval init -> (mx <= INR n)%R -> curve_point c init = P ->
  Curve_SearchParameter n c P init eps mx = Ok init.
Proof. exact C84_target_lemma. Qed.
Print Assumptions C84_on_target.
Theorem C84_on_target_surface : forall s P a b eps mx n, wf_surface s -> unit_square (a, b) -> (mx <= INR n)%R -> surf_point s a b = P ->
  Surface_SearchParameter n s P a b eps mx = Ok (a, b).
Proof. exact C84_target2_lemma. Qed.
Print Assumptions C84_on_target_surface.
(** With the default arguments of the library the search on a polyline leaves
    the start at distance 1 and ends at distance 2. *)
Theorem C84_farther_refuted : exists (c : curve b64) P u a b, wf_curve (curve_val c) /\
  Curve_SearchParameter 512 c P dhalf (dq (1 # 100000000)) (b64_of_Z 512) = Ok u /\
  Curve_Evaluate c dhalf = Ok a /\ Curve_Evaluate c u = Ok b /\
  v3norm (v3sub a P) = b64_of_Z 1 /\ v3norm (v3sub b P) = b64_of_Z 2.
Proof. exact C84_farther_lemma. Qed.
Print Assumptions C84_farther_refuted.
Theorem C84_farther_surface_refuted : exists (s : surface b64) P u v a b, wf_surface (surface_val s) /\
  Surface_SearchParameter 20 s P dhalf dz (dq (1 # 100000000)) (b64_of_Z 20) = Ok (u, v) /\
  Surface_SearchParameterOn 20 s P 1 dz dhalf (dq (1 # 100000000)) (b64_of_Z 20) = Ok (u, v) /\
  Surface_Evaluate s dhalf dz = Ok a /\ Surface_Evaluate s u v = Ok b /\
  v3norm (v3sub a P) = b64_of_Z 1 /\ v3norm (v3sub b P) = b64_of_Z 2.
Proof. exact C84_farther2_lemma. Qed.
Print Assumptions C84_farther_surface_refuted.
Example C84_ex : wf_curve curve_ex /\ unit_interval (1/4)%R /\ (7/2 <= INR 4)%R /\ (exists P, curve_point curve_ex (1/4) = P) /\
  slope_at (Knots curve_ex) (fun x => half_sq (curve_point curve_ex x) (curve_point curve_ex (1/4))) (1/4) 0 /\
  slope2_at (KnotsU surf_ex) (KnotsV surf_ex) (fun u v => half_sq (surf_point surf_ex u v) (surf_point surf_ex (1/4) (1/3))) (1/4, 1/3)%R (0, 0)%R.
Proof.
  split; [exact curve_ex_wf|]. split; [unfold unit_interval; lra|]. split; [cbn [INR]; lra|]. split; [eauto|].
  split; [apply slope_on_target; [exact curve_ex_wf|unfold unit_interval; lra|reflexivity]|].
  apply slope2_on_target; [exact surf_ex_wf|unfold unit_interval; lra|unfold unit_interval; lra|reflexivity].
Qed.

(** * C85: convergence on straight lines *)
(** Two iterations find a target on a curve that runs straight and evenly from
    [a] to [b], for distances of [a] and [b] from 1 to 10^4. *)
Theorem C85_straight_curve_partial : forall c a b t init eps mx n, wf_curve c -> (forall x, unit_interval x -> Curve_Evaluate c x = Ok (lerp a b x)) ->
  (1 <= dist3 a b <= 10 ^ 4)%R -> unit_interval t -> unit_interval init -> (1 / 10 ^ 8 <= eps <= dbl_max)%R -> (1 < mx <= INR n)%R ->
  exists u, Curve_SearchParameter n c (lerp a b t) init eps mx = Ok u /\ unit_interval u /\ (dist3 (curve_point c u) (lerp a b t) < eps)%R.
Proof. exact C85_lemma. Qed.
Print Assumptions C85_straight_curve_partial.
Theorem C85_segment_partial : forall p a b c t init eps mx n, 1 <= p -> GeomSegment_GetCurve p (p + 1) a b = Ok c ->
  (1 <= dist3 a b <= 10 ^ 4)%R -> unit_interval t -> unit_interval init -> (1 / 10 ^ 8 <= eps <= dbl_max)%R -> (1 < mx <= INR n)%R ->
  exists u, Curve_SearchParameter n c (lerp a b t) init eps mx = Ok u /\ unit_interval u /\ (dist3 (curve_point c u) (lerp a b t) < eps)%R.
Proof. exact C85_segment_lemma. Qed.
Print Assumptions C85_segment_partial.
(** On a straight line of a surface there is no upper bound on the distance. *)
Theorem C85_straight_on_partial : forall s d k a b t init eps mx n, wf_surface s -> 0 <= d <= 1 -> unit_interval k ->
  (d = 0 -> forall x, unit_interval x -> surf_point s k x = lerp a b x) ->
  (d = 1 -> forall x, unit_interval x -> surf_point s x k = lerp a b x) ->
  (1 <= dist3 a b)%R -> unit_interval t -> unit_interval init -> (1 / 10 ^ 8 <= eps <= dbl_max)%R -> (1 < mx <= INR n)%R ->
  exists u v, Surface_SearchParameterOn n s (lerp a b t) d k init eps mx = Ok (u, v) /\ (dist3 (surf_point s u v) (lerp a b t) < eps)%R.
Proof. exact C85_on_lemma. Qed.
Print Assumptions C85_straight_on_partial.
(** On a short straight curve every iteration moves the parameter by at most
    twice the squared length, *)
Theorem C85_stall : forall c a b t init eps mx n u, wf_curve c -> (forall x, unit_interval x -> Curve_Evaluate c x = Ok (lerp a b x)) ->
  (dist3 a b <= 1 / 1024)%R -> unit_interval t -> unit_interval init -> (0 <= mx <= INR n)%R ->
  Curve_SearchParameter n c (lerp a b t) init eps mx = Ok u -> (Rabs (u - init) <= 2 * dist3 a b ^ 2 * (mx + 1))%R.
Proof. exact C85_stall_lemma. Qed.
Print Assumptions C85_stall.
(** so the default arguments do not find the start of a segment of length 1/1024
    from its middle: what is returned is farther than 1/2100 away. *)
Theorem C85_short_refuted : exists (c : curve R) a b (u : R), GeomSegment_GetCurve 1 2 a b = Ok c /\ wf_curve c /\ dist3 a b = (1 / 1024)%R /\
  curve_point c 0 = a /\ Curve_SearchParameter 512 c a (1 / 2)%R (1 / 10 ^ 8)%R 512%R = Ok u /\ (dist3 (curve_point c u) a > 1 / 2100)%R.
Proof. exact C85_short_lemma. Qed.
Print Assumptions C85_short_refuted.
Example C85_ex : (exists c : curve R, GeomSegment_GetCurve 1 2 (Vec3 0 0 0)%R (Vec3 1 0 0)%R = Ok c /\ wf_curve c /\
    (forall x, unit_interval x -> Curve_Evaluate c x = Ok (lerp (Vec3 0 0 0) (Vec3 1 0 0) x)%R)) /\
  (1 <= dist3 (Vec3 0 0 0) (Vec3 1 0 0) <= 10 ^ 4)%R /\ unit_interval (1/3)%R /\ unit_interval (1/2)%R /\
  (1 / 10 ^ 8 <= 1 / 1000 <= dbl_max)%R /\ (1 < 3 <= INR 3)%R.
Proof. exact C85_ex_lemma. Qed.
