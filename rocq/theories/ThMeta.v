(** Statements that compare several calls: uniqueness, locality, affine images,
    control polygons of refined curves, isoparametric curves, end tangents. *)
From Coq Require Import Reals ZArith List Lra Lia Bool Permutation.
From Coquelicot Require Import Coquelicot.
From Verif Require Import Outcome Num ModelCore ModelBasis ModelAlgo ModelCurve ModelSurface SpecCore SpecBasis SpecCurve SpecSurface SpecDeriv SpecMeta
  ThOutcome ThReal ThKnots ThVec ThSum ThSpline ThBasis ThCurve ThReverse ThInsert ThCurveWit ThGrid ThSurface ThSurface2 ThDeriv ThDers ThLeib ThDerivs ThUnique ThOrder ThOrder2 ThSmooth ThLocal.
Import ListNotations.
Open Scope Z_scope.

(** ** a curve is determined by its points *)
Lemma rise U a n : mono U -> (U a < U (a + nn n)%Z)%R -> exists j, a <= j < a + nn n /\ (U j < U (j + 1)%Z)%R.
Proof.
  intros M. induction n as [|n IH]; intros H; [rewrite nn_0 in H; replace (a + 0) with a in H by lia; lra|]. rewrite nn_S in *. pose proof (nn_nonneg n).
  replace (a + (nn n + 1)) with (a + nn n + 1) in H by lia.
  destruct (Rlt_le_dec (U (a + nn n)%Z) (U (a + nn n + 1)%Z)) as [L|L]; [exists (a + nn n); split; [lia|exact L]|].
  destruct IH as [j [Hj Sj]]; [lra|]. exists j. split; [lia|exact Sj].
Qed.
Lemma rise_span p l j : clamped p l -> (kf l j < kf l (j + 1)%Z)%R -> p <= j <= len l - p - 2.
Proof.
  intros C H. pose proof (cl_degree _ _ C). pose proof (cl_len _ _ C). pose proof (clamped_le1 _ _ C (j + 1)) as L1. pose proof (clamped_mono _ _ C) as M. split.
  - destruct (Z_le_gt_dec p j) as [|G]; [assumption|exfalso]. destruct (Z_lt_ge_dec j 0) as [N|N].
    + unfold kf in H. replace (Z.to_nat (j + 1)) with (Z.to_nat j) in H by lia. lra.
    + rewrite !kf_at in H by lia. rewrite !(cl_zero _ _ C) in H by lia. lra.
  - destruct (Z_le_gt_dec j (len l - p - 2)) as [|G]; [assumption|exfalso]. pose proof (M (len l - p - 1) j ltac:(lia)) as Q. rewrite (kf_at l (len l - p - 1)) in Q by lia. rewrite (cl_one _ _ C) in Q by lia. lra.
Qed.
Lemma support_nonempty p l i : clamped p l -> 0 <= i < len l - p - 1 -> (forall v, (0 < v < 1)%R -> count v l <= p + 1) -> (kf l i < kf l (i + p + 1)%Z)%R.
Proof.
  intros C Hi Hc. pose proof (cl_degree _ _ C). pose proof (cl_len _ _ C). pose proof (clamped_mono _ _ C) as M.
  destruct (Rlt_le_dec (kf l i) (kf l (i + p + 1))) as [|G]; [assumption|exfalso].
  assert (forall k, i <= k <= i + p + 1 -> kf l k = kf l i) as E. { intros k Hk. pose proof (M i k ltac:(lia)). pose proof (M k (i + p + 1) ltac:(lia)). lra. }
  assert (0 < kf l i)%R as Gt0.
  { destruct (Z_le_gt_dec i p) as [L|L]; [rewrite <- (E (p + 1)) by lia; rewrite kf_at by lia; apply (cl_first _ _ C)|]. pose proof (M (p + 1) i ltac:(lia)) as Q. pose proof (cl_first _ _ C). rewrite (kf_at l (p + 1)) in Q by lia. lra. }
  assert (kf l i < 1)%R as Lt1. { pose proof (M i (len l - p - 2) ltac:(lia)) as Q. rewrite (kf_at l (len l - p - 2)) in Q by lia. pose proof (cl_last _ _ C). lra. }
  assert (i <> 0) by (intros ->; rewrite kf_at in Gt0 by lia; rewrite (cl_zero _ _ C) in Gt0 by lia; lra).
  pose proof (count_run l (kf l i) (i - 1) (i + p + 1) ltac:(lia) ltac:(lia)) as Q. specialize (Hc (kf l i) ltac:(lra)).
  enough (i + p + 1 - (i - 1) <= count (kf l i) l) by lia. apply Q. intros k Hk. rewrite <- kf_at by lia. apply E. lia.
Qed.
Lemma curve_unique c d : wf_curve c -> wf_curve d -> Degree d = Degree c -> Knots d = Knots c -> map w4 (ControlPoints d) = map w4 (ControlPoints c) ->
  (forall v, (0 < v < 1)%R -> count v (Knots c) <= Degree c + 1) ->
  (forall x, (0 <= x <= 1)%R -> Curve_Evaluate d x = Curve_Evaluate c x) -> d = c.
Proof.
  intros W X Ed Ek Ew Hc He. pose proof (wf_knots c W) as C. pose proof (cl_degree _ _ C) as P0. pose proof (wf_count c W) as Nc. pose proof (wf_count d X) as Nd. rewrite Ed, Ek in Nd.
  assert (forall i, w4 (cp d i) = w4 (cp c i)) as Hw.
  { intros i. unfold cp. change 1%R with (w4 (Vec4 0 0 0 1)%R) at 1. rewrite <- !(map_nth w4). rewrite Ew. reflexivity. }
  assert (ControlPoints d = ControlPoints c) as Ec; [|destruct c, d; cbn in *; congruence].
  apply list_cp_ext; [congruence|]. intros i Hi. change (cp d i = cp c i).
  assert (kf (Knots c) i < kf (Knots c) (i + nn (S (Z.to_nat (Degree c))))%Z)%R as Su.
  { rewrite nn_S, nn_of by lia. replace (i + (Degree c + 1)) with (i + Degree c + 1) by lia. apply support_nonempty; try assumption. lia. }
  destruct (rise _ _ _ (clamped_mono _ _ C) Su) as [j [Hj Sj]]. rewrite nn_S, nn_of in Hj by lia. pose proof (rise_span _ _ j C Sj) as Hj'.
  assert (forall x, (kf (Knots c) j < x < kf (Knots c) (j + 1)%Z)%R -> (0 <= x <= 1)%R) as X01.
  { intros x Hx. pose proof (clamped_le1 _ _ C (j + 1)). pose proof (clamped_mono _ _ C 0 j ltac:(lia)) as Q. rewrite (kf_at _ 0) in Q by (pose proof (cl_len _ _ C); lia). rewrite (cl_zero _ _ C) in Q by lia. lra. }
  assert (forall x f, lin f -> (kf (Knots c) j < x < kf (Knots c) (j + 1)%Z)%R -> hsum d f x = hsum c f x) as Hs.
  { intros x f Lf Hx. specialize (He x (X01 x Hx)). rewrite !Curve_Evaluate_ok in He by (try assumption; apply X01; exact Hx).
    assert (hsum d w4 x = hsum c w4 x) as Hd. { unfold hsum. rewrite Nd, Nc. apply zsum_ext. intros k Hk. unfold basis_fun. rewrite Ed, Ek. f_equal. apply Hw. }
    assert (curve_point d x = curve_point c x) as Hp by congruence. rewrite !curve_point_hsum, Hd in Hp. pose proof (curve_den_pos c x W (X01 x Hx)) as Dp. change (curve_den c x) with (hsum c w4 x) in Dp.
    injection Hp as Hx4 Hy4 Hz4.
    assert (forall a b, (a / hsum c w4 x = b / hsum c w4 x)%R -> a = b) as Cancel. { intros a b Hab. apply (f_equal (fun q => q * hsum c w4 x)%R) in Hab. unfold Rdiv in Hab. rewrite !Rmult_assoc, Rinv_l, !Rmult_1_r in Hab by lra. exact Hab. }
    destruct Lf as [-> | [-> | [-> | ->]]]; [apply Cancel; exact Hx4|apply Cancel; exact Hy4|apply Cancel; exact Hz4|exact Hd]. }
  apply ToHomo_inj; [apply cp_weight, (wf_weights d X)|apply cp_weight, (wf_weights c W)|]. intros f Lf.
  change (f (hp d i) = f (hp c i)).
  enough ((f (hp d i) - f (hp c i))%R = 0%R) by lra.
  apply (B_indep (kf (Knots c)) j (clamped_mono _ _ C) Sj (Z.to_nat (Degree c)) (fun i => f (hp d i) - f (hp c i))%R); [|rewrite nn_of by lia; lia].
  intros x Hx. rewrite (B_value (kf (Knots c)) j (clamped_mono _ _ C) Sj).
  assert (bl (kf (Knots c)) j (repeat x (Z.to_nat (Degree c))) (fun i => f (hp d i)) = bl (kf (Knots c)) j (repeat x (Z.to_nat (Degree c))) (fun i => f (hp c i))) as Eb.
  { assert (span_at (kf (Knots c)) j x) as Sx by (left; lra). rewrite <- (hsum_bl c f j x W Hj' Sx). rewrite <- (Hs x f Lf Hx). rewrite (hsum_bl d f j x X); [rewrite Ed, Ek; reflexivity|rewrite Ed, Ek; exact Hj'|rewrite Ek; exact Sx]. }
  rewrite (bl_ext (kf (Knots c)) j (repeat x (Z.to_nat (Degree c))) _ (fun i => 1 * f (hp d i) + (-1) * f (hp c i))%R) by (intros; ring). rewrite bl_lin, Eb. ring.
Qed.

(** moving one control point *)
Lemma N_outside p l m x : clamped p l -> (0 <= x <= 1)%R -> 0 <= m < len l - p - 1 -> (x < kf l m)%R \/ (kf l (m + p + 1)%Z <= x)%R /\ (x < 1)%R \/ x = 1%R /\ m < len l - p - 2 -> N (kf l) (Z.to_nat p) m x = 0%R.
Proof.
  intros C Hx Hm Ho. pose proof (cl_degree _ _ C) as P0. destruct (FindSpanIndex_R _ _ x C Hx) as [j [_ [Hj Si]]]. pose proof (in_span_span_at l j x ltac:(lia) Si) as Sp.
  pose proof (clamped_mono _ _ C) as M. destruct Ho as [Ho|[[Ho H1]|[-> Ho]]].
  - rewrite (N_local _ _ _ (clamped_mono _ _ C) (clamped_le1 _ _ C) Sp). apply B_support. rewrite nn_of by lia. intros Hr. pose proof (M m j ltac:(lia)). pose proof (span_bounds _ _ _ Sp). lra.
  - rewrite (N_local _ _ _ (clamped_mono _ _ C) (clamped_le1 _ _ C) Sp). apply B_support. rewrite nn_of by lia. intros Hr. pose proof (M (j + 1) (m + p + 1) ltac:(lia)). destruct Sp as [Sp|Sp]; lra.
  - pose proof (spl_end p l (fun i => if i =? m then 1%R else 0%R) C) as Q. unfold spl in Q. rewrite (zsum_support _ _ m (m + 1)) in Q; try lia.
    + rewrite zsum_one, Z.eqb_refl in Q. destruct (Z.eqb_spec (len l - p - 2) m); [lia|]. lra.
    + intros i Hi Hn. destruct (Z.eqb_spec i m); [lia|ring].
Qed.

Lemma same_but c d m f x : wf_curve c -> wf_curve d -> Degree d = Degree c -> Knots d = Knots c ->
  (forall i, 0 <= i < len (ControlPoints c) -> i <> m -> cp d i = cp c i) -> 0 <= m < len (ControlPoints c) -> lin f ->
  hsum d f x = (hsum c f x + basis_fun c m x * (f (hp d m) - f (hp c m)))%R.
Proof.
  intros W X Ed Ek E Hm Lf. pose proof (wf_count c W). pose proof (wf_count d X) as Nd. rewrite Ed, Ek in Nd.
  enough (hsum d f x - hsum c f x = basis_fun c m x * (f (hp d m) - f (hp c m)))%R by lra.
  unfold hsum. replace (len (ControlPoints d)) with (len (ControlPoints c)) by lia. rewrite <- zsum_sub. rewrite (zsum_support _ _ m (m + 1)); try lia.
  - rewrite zsum_one. unfold basis_fun. rewrite Ed, Ek. ring.
  - intros i Hi Ho. unfold basis_fun. rewrite Ed, Ek. unfold hp. rewrite E by lia. ring.
Qed.
Lemma move_one c d m x : wf_curve c -> wf_curve d -> Degree d = Degree c -> Knots d = Knots c -> 0 <= m < len (ControlPoints c) ->
  (forall i, 0 <= i < len (ControlPoints c) -> i <> m -> cp d i = cp c i) -> (0 <= x <= 1)%R ->
  ((x < at_ (Knots c) m)%R \/ (at_ (Knots c) (m + Degree c + 1) <= x < 1)%R \/ x = 1%R /\ m < len (ControlPoints c) - 1 -> Curve_Evaluate d x = Curve_Evaluate c x) /\
  (w4 (cp d m) = w4 (cp c m) -> exists p q a, Curve_Evaluate c x = Ok p /\ Curve_Evaluate d x = Ok q /\ (0 <= a <= 1)%R /\
     (x3 q = x3 p + a * (x4 (cp d m) - x4 (cp c m)) /\ y3 q = y3 p + a * (y4 (cp d m) - y4 (cp c m)) /\ z3 q = z3 p + a * (z4 (cp d m) - z4 (cp c m)))%R).
Proof.
  intros W X Ed Ek Hm E Hx. pose proof (wf_knots c W) as C. pose proof (wf_count c W) as Nc. pose proof (cl_degree _ _ C) as P0.
  pose proof (fun f Lf => same_but c d m f x W X Ed Ek E Hm Lf) as S. rewrite !Curve_Evaluate_ok by assumption. split.
  - intros Ho. f_equal. rewrite !curve_point_hsum. rewrite !S by (unfold lin; auto).
    assert (basis_fun c m x = 0%R) as ->; [|rewrite !Rmult_0_l, !Rplus_0_r; reflexivity].
    apply N_outside; try assumption; [lia|]. rewrite !kf_at by lia. destruct Ho as [Ho|[Ho|[Ho1 Ho2]]]; [left; exact Ho|right; left; exact Ho|right; right; split; [exact Ho1|lia]].
  - intros Hw. pose proof (curve_den_pos c x W Hx) as Dp. change (curve_den c x) with (hsum c w4 x) in Dp.
    assert (hsum d w4 x = hsum c w4 x) as Hd. { rewrite S by (unfold lin; auto). change (w4 (hp d m)) with (w4 (cp d m)). change (w4 (hp c m)) with (w4 (cp c m)). rewrite Hw. ring. }
    exists (curve_point c x), (curve_point d x), (basis_fun c m x * w4 (cp c m) / hsum c w4 x)%R. split; [reflexivity|]. split; [reflexivity|]. split.
    + pose proof (basis_nonneg c m x W Hx) as B0. pose proof (cp_weight c m (wf_weights c W)) as W0. split.
      * apply Rmult_le_pos; [apply Rmult_le_pos; lra|]. apply Rlt_le, Rinv_0_lt_compat, Dp.
      * apply Rmult_le_reg_r with (hsum c w4 x); [exact Dp|]. unfold Rdiv. rewrite Rmult_assoc, Rinv_l, Rmult_1_r, Rmult_1_l by lra.
        unfold hsum. rewrite (zsum_split m) by lia. rewrite (zsum_first m) by lia. change (w4 (hp c m)) with (w4 (cp c m)).
        assert (forall lo hi, (0 <= zsum lo hi (fun i => basis_fun c i x * w4 (hp c i)))%R) as G.
        { intros lo hi. rewrite <- (zsum_zero lo hi (fun _ => 0%R)) by reflexivity. apply zsum_le. intros i Hi. apply Rmult_le_pos; [apply (basis_nonneg c i x W Hx)|]. apply Rlt_le, (cp_weight c i (wf_weights c W)). }
        pose proof (G 0 m). pose proof (G (m + 1) (len (ControlPoints c))). lra.
    + rewrite !curve_point_hsum. cbn [x3 y3 z3]. rewrite Hd, !S by (unfold lin; auto). unfold hp, ToHomo. cbn [x4 y4 z4 w4]. norm_R. rewrite Hw. repeat split; field; lra.
Qed.
