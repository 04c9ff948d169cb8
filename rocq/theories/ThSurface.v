(** Surface::Evaluate: value, corners, convex hull, transformation, knot insertion. *)
From Coq Require Import Reals ZArith List Lra Lia Bool Permutation.
From Verif Require Import Outcome Num ModelCore ModelBasis ModelCurve ModelSurface SpecCore SpecBasis SpecCurve SpecSurface
  ThOutcome ThReal ThKnots ThGrid ThVec ThSum ThSpline ThBasis ThCurve ThInsert.
Import ListNotations.
Open Scope Z_scope.

(** value of the spline with coefficients [P] *)
Definition spl (p : Z) (l : list R) (P : Z -> R) (x : R) : R :=
  zsum 0 (len l - p - 1) (fun i => N (kf l) (Z.to_nat p) i x * P i)%R.
Lemma spl_ext p l P Q x : (forall i, 0 <= i < len l - p - 1 -> P i = Q i) -> spl p l P x = spl p l Q x.
Proof. intros E. apply zsum_ext. intros i Hi. rewrite E by assumption. reflexivity. Qed.
Lemma spl_lin p l a b P Q x : spl p l (fun i => a * P i + b * Q i)%R x = (a * spl p l P x + b * spl p l Q x)%R.
Proof. unfold spl. rewrite <- !zsum_scale, <- zsum_add. apply zsum_ext. intros; ring. Qed.
Lemma spl_const p l c x : clamped p l -> (0 <= x <= 1)%R -> spl p l (fun _ => c) x = c.
Proof.
  intros C Hx. unfold spl. rewrite zsum_scale_r, basis_sum by assumption. ring.
Qed.
Lemma N_nonneg p l i x : clamped p l -> (0 <= x <= 1)%R -> (0 <= N (kf l) (Z.to_nat p) i x)%R.
Proof.
  intros C Hx. destruct (clamped_span _ _ x C Hx) as [j [_ [Hj S]]].
  rewrite (N_local _ j x (clamped_mono _ _ C) (clamped_le1 _ _ C) S).
  apply B_nonneg; [apply (clamped_mono _ _ C)|apply (span_nonempty _ _ _ S)|apply span_bounds; assumption].
Qed.
Lemma spl_le p l P Q x : clamped p l -> (0 <= x <= 1)%R -> (forall i, 0 <= i < len l - p - 1 -> (P i <= Q i)%R) ->
  (spl p l P x <= spl p l Q x)%R.
Proof.
  intros C Hx H. apply zsum_le. intros i Hi. apply Rmult_le_compat_l; [apply N_nonneg; assumption|apply H; assumption].
Qed.
(** a lower bound over finitely many coefficients *)
Lemma min_exists n (P : Z -> R) : (forall i, 0 <= i < n -> (0 < P i)%R) -> exists m, (0 < m)%R /\ forall i, 0 <= i < n -> (m <= P i)%R.
Proof.
  intros H. destruct (Z_le_gt_dec n 0) as [L|L].
  - exists 1%R. split; [lra|]. intros; lia.
  - assert (forall k : nat, Z.of_nat k <= n -> exists m, (0 < m)%R /\ forall i, 0 <= i < Z.of_nat k -> (m <= P i)%R) as G.
    { induction k as [|k IH]; intros Hk.
      - exists 1%R. split; [lra|]. intros; lia.
      - destruct IH as [m [M0 M1]]; [lia|]. exists (Rmin m (P (Z.of_nat k))). split.
        + apply Rmin_glb_lt; [exact M0|]. apply H. lia.
        + intros i Hi. destruct (Z.eq_dec i (Z.of_nat k)) as [->|]; [apply Rmin_r|].
          apply Rle_trans with m; [apply Rmin_l|]. apply M1. lia. }
    destruct (G (Z.to_nat n)) as [m [M0 M1]]; [lia|]. exists m. split; [exact M0|]. intros; apply M1; lia.
Qed.
Lemma spl_pos p l P x : clamped p l -> (0 <= x <= 1)%R -> (forall i, 0 <= i < len l - p - 1 -> (0 < P i)%R) -> (0 < spl p l P x)%R.
Proof.
  intros C Hx H. destruct (min_exists _ P H) as [m [M0 M1]]. apply Rlt_le_trans with m; [exact M0|].
  rewrite <- (spl_const p l m x C Hx) at 1. apply spl_le; assumption.
Qed.
Lemma spl_swap p l q k (P : Z -> Z -> R) u v :
  spl q k (fun j => spl p l (fun i => P i j) u) v = spl p l (fun i => spl q k (fun j => P i j) v) u.
Proof.
  unfold spl. rewrite (zsum_ext _ _ _ (fun j => zsum 0 (len l - p - 1) (fun i => N (kf k) (Z.to_nat q) j v * (N (kf l) (Z.to_nat p) i u * P i j))%R))
    by (intros; rewrite zsum_scale; reflexivity).
  rewrite zsum_swap. apply zsum_ext. intros i Hi. rewrite <- zsum_scale. apply zsum_ext. intros; ring.
Qed.
Lemma spl_start p l P : clamped p l -> spl p l P 0 = P 0.
Proof.
  intros C. pose proof (cl_degree _ _ C) as P0. pose proof (cl_len _ _ C) as CL.
  unfold spl. rewrite (local_sum p l p 0 P C); [|lia|apply span_start; assumption].
  rewrite <- (run_const (kf l) 0 _ 0%R).
  - rewrite bl_dual; [reflexivity|apply (clamped_mono _ _ C)|apply (span_nonempty _ _ _ (span_start _ _ C))|].
    rewrite nn_of by lia. lia.
  - intros k Hk. rewrite nn_of in Hk by lia. rewrite kf_at by lia. apply (cl_zero _ _ C). lia.
Qed.
Lemma spl_end p l P : clamped p l -> spl p l P 1 = P (len l - p - 2).
Proof.
  intros C. pose proof (cl_degree _ _ C) as P0. pose proof (cl_len _ _ C) as CL.
  unfold spl. rewrite (local_sum p l (len l - p - 2) 1 P C); [|lia|apply span_end; assumption].
  rewrite <- (run_const (kf l) (len l - p - 2) _ 1%R).
  - rewrite bl_dual; [reflexivity|apply (clamped_mono _ _ C)|apply (span_nonempty _ _ _ (span_end _ _ C))|].
    rewrite nn_of by lia. lia.
  - intros k Hk. rewrite nn_of in Hk by lia. rewrite kf_at by lia. apply (cl_one _ _ C). lia.
Qed.

(** ** Surfaces *)
Definition ghp (s : surface R) (i j : Z) : vec4 R := ToHomo (gp s i j).
Definition hsurf (s : surface R) (f : vec4 R -> R) (u v : R) : R :=
  spl (DegreeV s) (KnotsV s) (fun j => spl (DegreeU s) (KnotsU s) (fun i => f (ghp s i j)) u) v.

Lemma gp_weight s i j : positive_weights (Values (Net s)) -> (0 < w4 (gp s i j))%R.
Proof.
  intros W. unfold gp. destruct (nth_in_or_default (Z.to_nat (j * UCount (Net s) + i)) (Values (Net s)) (Vec4 0 0 0 1)%R) as [I|E].
  - unfold positive_weights in W. rewrite Forall_forall in W. apply W; assumption.
  - rewrite E. simpl. lra.
Qed.
Lemma shape_grid s : clamped (DegreeU s) (KnotsU s) -> clamped (DegreeV s) (KnotsV s) ->
  UCount (Net s) = len (KnotsU s) - DegreeU s - 1 -> VCount (Net s) = len (KnotsV s) - DegreeV s - 1 ->
  len (Values (Net s)) = UCount (Net s) * VCount (Net s) -> grid_is (Net s) (UCount (Net s)) (VCount (Net s)) (gp s).
Proof.
  intros CU CV NU NV L. pose proof (cl_len _ _ CU). pose proof (cl_len _ _ CV).
  pose proof (cl_degree _ _ CU). pose proof (cl_degree _ _ CV).
  pose proof (grid_is_ex (Vec4 0 0 0 1)%R (UCount (Net s)) (VCount (Net s)) (Values (Net s)) ltac:(lia) ltac:(lia) L) as G.
  destruct s as [du dv ku kv [uc vc vals]]. exact G.
Qed.
Lemma wf_grid s : wf_surface s -> grid_is (Net s) (UCount (Net s)) (VCount (Net s)) (gp s).
Proof. intros [CU CV NU NV L Wt]. apply shape_grid; assumption. Qed.
Lemma surf_num_hsurf s f g u v : wf_surface s -> (forall p, f (ToHomo p) = (w4 p * g p)%R) ->
  surf_num s g u v = hsurf s f u v.
Proof.
  intros W E. unfold hsurf. rewrite spl_swap. unfold spl, surf_num. rewrite (ws_countU s W), (ws_countV s W).
  apply zsum_ext. intros i Hi. rewrite <- zsum_scale. apply zsum_ext. intros j Hj. unfold ghp. rewrite E. unfold basis_uv. ring.
Qed.
Lemma surf_den_hsurf s u v : wf_surface s -> surf_den s u v = hsurf s w4 u v.
Proof.
  intros W. unfold hsurf. rewrite spl_swap. unfold spl, surf_den. rewrite (ws_countU s W), (ws_countV s W).
  apply zsum_ext. intros i Hi. rewrite <- zsum_scale. apply zsum_ext. intros j Hj. unfold ghp, basis_uv. simpl. ring.
Qed.
Lemma surf_point_hsurf s u v : wf_surface s -> surf_point s u v =
  (Vec3 (hsurf s x4 u v / hsurf s w4 u v) (hsurf s y4 u v / hsurf s w4 u v) (hsurf s z4 u v / hsurf s w4 u v))%R.
Proof.
  intros W. unfold surf_point. rewrite surf_den_hsurf by assumption.
  rewrite (surf_num_hsurf s x4 x4), (surf_num_hsurf s y4 y4), (surf_num_hsurf s z4 z4); try assumption;
    try (intros p; simpl; apply Rmult_comm). reflexivity.
Qed.
Lemma hsurf_w_pos s u v : wf_surface s -> (0 <= u <= 1)%R -> (0 <= v <= 1)%R -> (0 < hsurf s w4 u v)%R.
Proof.
  intros W Hu Hv. apply spl_pos; [apply (ws_knotsV s W)|assumption|]. intros j Hj.
  apply spl_pos; [apply (ws_knotsU s W)|assumption|]. intros i Hi. apply gp_weight. apply (ws_weights s W).
Qed.

(** sum over the active span = full sum *)
Lemma spl_active p l j x P n : clamped p l -> (0 <= x <= 1)%R -> 0 <= n -> p <= j <= len l - p - 2 ->
  (forall k, ~ (j - p <= k <= j) -> N (kf l) (Z.to_nat p) k x = 0%R) -> n = p + 1 ->
  zsum (j - p) (j - p + n) (fun i => N (kf l) (Z.to_nat p) i x * P i)%R = spl p l P x.
Proof.
  intros C Hx Hn Hj Z0 ->. unfold spl. symmetry. pose proof (cl_degree _ _ C).
  apply zsum_support; try lia. intros i Hi Ho. rewrite Z0 by lia. ring.
Qed.

(** generic accumulation loop *)
Lemma acc_loop lo n (body : Z -> outcome (R * vec4 R)) (g : Z -> R) (h : Z -> vec4 R) :
  0 <= n -> (forall i, 0 <= i < n -> body i = Ok (g (lo + i), h (lo + i))) ->
  exists r, for_up 0 n (fun i acc => '(b, p) <- body i ;; Ok (v4add acc (v4scale b p))) v4zero = Ok r /\
    forall f, lin f -> f r = zsum lo (lo + n) (fun i => g i * f (h i))%R.
Proof.
  intros Hn Hb.
  apply (for_up_inv (fun i r => forall f, lin f -> f r = zsum lo (lo + i) (fun i => g i * f (h i))%R) 0 n).
  - assumption.
  - intros f Lf. rewrite zsum_empty by lia. apply lin_zero; assumption.
  - intros i r Hi Q. rewrite Hb by lia. cbn [bind]. eexists. split; [reflexivity|]. intros f Lf.
    rewrite lin_add, lin_scale, Q by assumption. replace (lo + (i + 1)) with (lo + i + 1) by lia.
    rewrite zsum_last' by lia. reflexivity.
Qed.
Lemma Surface_Evaluate_gen s u v : clamped (DegreeU s) (KnotsU s) -> clamped (DegreeV s) (KnotsV s) ->
  UCount (Net s) = len (KnotsU s) - DegreeU s - 1 -> VCount (Net s) = len (KnotsV s) - DegreeV s - 1 ->
  len (Values (Net s)) = UCount (Net s) * VCount (Net s) -> (hsurf s w4 u v <> 0)%R -> (0 <= u <= 1)%R -> (0 <= v <= 1)%R ->
  Surface_Evaluate s u v =
    Ok (Vec3 (hsurf s x4 u v / hsurf s w4 u v) (hsurf s y4 u v / hsurf s w4 u v) (hsurf s z4 u v / hsurf s w4 u v))%R.
Proof.
  intros CU CV NU NV LV Wp Hu Hv.
  destruct (Basis_Evaluate_N _ _ u CU Hu) as [iu [ru [E1 [_ [E2 [Hj [Sp [Lr [Gr Z0]]]]]]]]].
  destruct (Basis_Evaluate_N _ _ v CV Hv) as [iv [rv [F1 [_ [F2 [Hj' [Sp' [Lr' [Gr' Z0']]]]]]]]].
  pose proof (cl_degree _ _ CU) as P0. pose proof (cl_degree _ _ CV) as Q0. pose proof (shape_grid s CU CV NU NV LV) as G.
  unfold Surface_Evaluate. rewrite !unit_assert by assumption. cbn [assert_ bind].
  rewrite E1. cbn [bind]. rewrite F1. cbn [bind]. rewrite E2. cbn [bind]. rewrite F2. cbn [bind].
  rewrite Lr, Lr', !Z.eqb_refl. cbn [assert_ bind]. cbv zeta.
  set (p := DegreeU s) in *. set (q := DegreeV s) in *.
  (* inner sums *)
  assert (forall j, 0 <= j < q + 1 -> exists r,
    for_up 0 (p + 1) (fun i tmp =>
       p0 <- Grid_Get (Net s) (iu - p + i) (iv - q + j) ;; b <- vget ru i ;;
       Ok (v4add tmp (v4scale b (ToHomo p0)))) v4zero = Ok r /\
    forall f, lin f -> f r = spl p (KnotsU s) (fun i => f (ghp s i (iv - q + j))) u) as Inner.
  { intros j Hjj.
    destruct (acc_loop (iu - p) (p + 1) (fun i => p0 <- Grid_Get (Net s) (iu - p + i) (iv - q + j) ;; b <- vget ru i ;; Ok (b, ToHomo p0))
      (fun i => N (kf (KnotsU s)) (Z.to_nat p) i u) (fun i => ghp s i (iv - q + j))) as [r [Er Qr]].
    - lia.
    - intros i Hi. rewrite (Grid_Get_ok _ _ _ _ _ _ G) by lia. cbn [bind]. rewrite Gr by lia. reflexivity.
    - exists r. split.
      + rewrite <- Er. apply for_up_ext. intros i t Hi. rewrite (Grid_Get_ok _ _ _ _ _ _ G) by lia. cbn [bind].
        rewrite Gr by lia. reflexivity.
      + intros f Lf. rewrite Qr by assumption. apply spl_active; auto; lia. }
  assert (exists r, for_up 0 (q + 1) (fun j result =>
        tmp <- for_up 0 (p + 1) (fun i tmp =>
            p0 <- Grid_Get (Net s) (iu - p + i) (iv - q + j) ;;
            b <- vget ru i ;;
            Ok (v4add tmp (v4scale b (ToHomo p0)))) v4zero ;;
        b <- vget rv j ;;
        Ok (v4add result (v4scale b tmp))) v4zero = Ok r /\ forall f, lin f -> f r = hsurf s f u v) as [r [Er Qr]].
  { destruct (for_up_inv (fun j r => forall f, lin f -> f r = zsum (iv - q) (iv - q + j) (fun j => N (kf (KnotsV s)) (Z.to_nat q) j v *
        spl p (KnotsU s) (fun i => f (ghp s i j)) u)%R) 0 (q + 1) (fun j result =>
        tmp <- for_up 0 (p + 1) (fun i tmp =>
            p0 <- Grid_Get (Net s) (iu - p + i) (iv - q + j) ;;
            b <- vget ru i ;;
            Ok (v4add tmp (v4scale b (ToHomo p0)))) v4zero ;;
        b <- vget rv j ;;
        Ok (v4add result (v4scale b tmp))) v4zero) as [r [Er Qr]].
    - lia.
    - intros f Lf. rewrite zsum_empty by lia. apply lin_zero; assumption.
    - intros j r Hjj Q. destruct (Inner j Hjj) as [t [Et Qt]]. rewrite Et. cbn [bind]. rewrite Gr' by lia. cbn [bind].
      eexists. split; [reflexivity|]. intros f Lf. rewrite lin_add, lin_scale, Q, Qt by assumption.
      replace (iv - q + (j + 1)) with (iv - q + j + 1) by lia. rewrite zsum_last' by lia. reflexivity.
    - exists r. split; [exact Er|]. intros f Lf. rewrite Qr by assumption. unfold hsurf. fold p q. apply spl_active; auto; lia. }
  rewrite Er. cbn [bind].
  rewrite v3div_ok by (rewrite Qr by apply lin_w; lra).
  unfold head3. cbn [x3 y3 z3]. rewrite !Qr by (unfold lin; auto). reflexivity.
Qed.
Lemma Surface_Evaluate_ok s u v : wf_surface s -> (0 <= u <= 1)%R -> (0 <= v <= 1)%R ->
  Surface_Evaluate s u v = Ok (surf_point s u v).
Proof.
  intros W Hu Hv. rewrite surf_point_hsurf by assumption. pose proof (hsurf_w_pos s u v W Hu Hv).
  apply Surface_Evaluate_gen; try apply W; try assumption. lra.
Qed.
Lemma Surface_Evaluate_outside s u v : ~ ((0 <= u <= 1)%R /\ (0 <= v <= 1)%R) -> Surface_Evaluate s u v = AssertFail.
Proof.
  intros H. unfold Surface_Evaluate.
  destruct (Rle_dec 0 u) as [A|A]; [destruct (Rle_dec u 1) as [B'|B']|].
  - rewrite unit_assert by lra. cbn [assert_ bind]. rewrite unit_assert_false by tauto. reflexivity.
  - rewrite unit_assert_false by lra. reflexivity.
  - rewrite unit_assert_false by lra. reflexivity.
Qed.
