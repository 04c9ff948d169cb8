(** Curve::Evaluate: value, end points, convex hull, transformation. *)
From Coq Require Import Reals ZArith List Lra Lia Bool Permutation.
From Verif Require Import Outcome Num ModelCore ModelBasis ModelCurve SpecCore SpecBasis SpecCurve
  ThOutcome ThReal ThKnots ThVec ThSum ThSpline ThBasis.
Import ListNotations.
Open Scope Z_scope.

(** homogeneous components *)
Definition lin (f : vec4 R -> R) : Prop := f = x4 \/ f = y4 \/ f = z4 \/ f = w4.
Lemma lin_add f a b : lin f -> f (v4add a b) = (f a + f b)%R.
Proof. intros [-> | [-> | [-> | ->]]]; reflexivity. Qed.
Lemma lin_scale f s a : lin f -> f (v4scale s a) = (s * f a)%R.
Proof. intros [-> | [-> | [-> | ->]]]; reflexivity. Qed.
Lemma lin_sub f a b : lin f -> f (v4sub a b) = (f a - f b)%R.
Proof. intros [-> | [-> | [-> | ->]]]; reflexivity. Qed.
Lemma lin_zero f : lin f -> f v4zero = 0%R.
Proof. intros [-> | [-> | [-> | ->]]]; reflexivity. Qed.
Lemma lin_ext (a b : vec4 R) : (forall f, lin f -> f a = f b) -> a = b.
Proof.
  intros H. destruct a as [a1 a2 a3 a4], b as [b1 b2 b3 b4].
  pose proof (H x4 ltac:(unfold lin; auto)). pose proof (H y4 ltac:(unfold lin; auto)).
  pose proof (H z4 ltac:(unfold lin; auto)). pose proof (H w4 ltac:(unfold lin; auto)). simpl in *. congruence.
Qed.
Lemma lin_x : lin x4. Proof. unfold lin; auto. Qed.
Lemma lin_y : lin y4. Proof. unfold lin; auto. Qed.
Lemma lin_z : lin z4. Proof. unfold lin; auto. Qed.
Lemma lin_w : lin w4. Proof. unfold lin; auto. Qed.

Lemma vget_cp c i : 0 <= i < len (ControlPoints c) -> vget (ControlPoints c) i = Ok (cp c i).
Proof. intros. apply (vget_ok (Vec4 0 0 0 1)%R). assumption. Qed.
Lemma cp_weight c i : positive_weights (ControlPoints c) -> (0 < w4 (cp c i))%R.
Proof.
  intros W. unfold cp. destruct (nth_in_or_default (Z.to_nat i) (ControlPoints c) (Vec4 0 0 0 1)%R) as [I|E].
  - unfold positive_weights in W. rewrite Forall_forall in W. apply W; assumption.
  - rewrite E. simpl. lra.
Qed.
(** homogeneous coordinates of control point i *)
Definition hp (c : curve R) (i : Z) : vec4 R := ToHomo (cp c i).

Lemma num_hom c x : curve_num c x4 x = zsum 0 (len (ControlPoints c)) (fun i => basis_fun c i x * x4 (hp c i))%R.
Proof. apply zsum_ext. intros. unfold hp, ToHomo. simpl. ring. Qed.
Lemma num_hom_y c x : curve_num c y4 x = zsum 0 (len (ControlPoints c)) (fun i => basis_fun c i x * y4 (hp c i))%R.
Proof. apply zsum_ext. intros. unfold hp, ToHomo. simpl. ring. Qed.
Lemma num_hom_z c x : curve_num c z4 x = zsum 0 (len (ControlPoints c)) (fun i => basis_fun c i x * z4 (hp c i))%R.
Proof. apply zsum_ext. intros. unfold hp, ToHomo. simpl. ring. Qed.
Lemma den_hom c x : curve_den c x = zsum 0 (len (ControlPoints c)) (fun i => basis_fun c i x * w4 (hp c i))%R.
Proof. reflexivity. Qed.

(** homogeneous curve point, component [f] *)
Definition hsum (c : curve R) (f : vec4 R -> R) (x : R) : R :=
  zsum 0 (len (ControlPoints c)) (fun i => basis_fun c i x * f (hp c i))%R.
Lemma curve_point_hsum c x : curve_point c x =
  (Vec3 (hsum c x4 x / hsum c w4 x) (hsum c y4 x / hsum c w4 x) (hsum c z4 x / hsum c w4 x))%R.
Proof. unfold curve_point. rewrite num_hom, num_hom_y, num_hom_z, den_hom. reflexivity. Qed.

(** sum over all coefficients = polar form of the active span *)
Lemma local_sum p l j x P : clamped p l -> p <= j <= len l - p - 2 -> span_at (kf l) j x ->
  zsum 0 (len l - p - 1) (fun i => N (kf l) (Z.to_nat p) i x * P i)%R = bl (kf l) j (repeat x (Z.to_nat p)) P.
Proof.
  intros C Hj S. pose proof (clamped_mono p l C) as M. pose proof (clamped_le1 p l C) as L1.
  pose proof (cl_degree p l C) as P0.
  rewrite <- (B_value (kf l) j M (span_nonempty _ _ _ S)). rewrite nn_of by lia.
  rewrite (zsum_support 0 (len l - p - 1) (j - p) (j + 1)); try lia.
  - apply zsum_ext. intros i Hi. rewrite (N_local _ _ _ M L1 S). reflexivity.
  - intros i Hi Ho. rewrite (N_local _ _ _ M L1 S), B_support; [ring|]. rewrite nn_of by lia. lia.
Qed.
Lemma hsum_bl c f j x : wf_curve c -> Degree c <= j <= len (Knots c) - Degree c - 2 -> span_at (kf (Knots c)) j x ->
  hsum c f x = bl (kf (Knots c)) j (repeat x (Z.to_nat (Degree c))) (fun i => f (hp c i)).
Proof.
  intros W Hj S. destruct W as [C Cn W]. unfold hsum. rewrite Cn. apply local_sum; auto.
Qed.

Lemma basis_nonneg c i x : wf_curve c -> (0 <= x <= 1)%R -> (0 <= basis_fun c i x)%R.
Proof.
  intros W Hx. destruct (clamped_span _ _ x (wf_knots c W) Hx) as [j [_ [Hj S]]].
  unfold basis_fun. rewrite (N_local _ j x (clamped_mono _ _ (wf_knots c W)) (clamped_le1 _ _ (wf_knots c W)) S).
  apply B_nonneg; [apply (clamped_mono _ _ (wf_knots c W))|apply (span_nonempty _ _ _ S)|apply span_bounds; assumption].
Qed.
Lemma basis_sum p l x : clamped p l -> (0 <= x <= 1)%R ->
  zsum 0 (len l - p - 1) (fun i => N (kf l) (Z.to_nat p) i x) = 1%R.
Proof.
  intros C Hx. destruct (clamped_span _ _ x C Hx) as [j [_ [Hj S]]].
  rewrite <- (bl_const (kf l) j (clamped_mono p l C) (span_nonempty _ _ _ S) (repeat x (Z.to_nat p)) 1).
  rewrite <- (local_sum p l j x (fun _ => 1%R) C Hj S). apply zsum_ext. intros; ring.
Qed.
Lemma curve_den_pos c x : wf_curve c -> (0 <= x <= 1)%R -> (0 < curve_den c x)%R.
Proof.
  intros W Hx. pose proof (basis_sum _ _ x (wf_knots c W) Hx) as S1. rewrite <- (wf_count c W) in S1.
  assert (0 <= curve_den c x)%R as G.
  { apply zsum_nonneg. intros i Hi. apply Rmult_le_pos; [apply basis_nonneg; auto|].
    pose proof (cp_weight c i (wf_weights c W)). lra. }
  destruct G as [G|G]; [assumption|]. exfalso.
  assert (forall lo, 0 <= lo -> zsum lo (len (ControlPoints c)) (fun i => basis_fun c i x * w4 (cp c i))%R = 0%R ->
    zsum lo (len (ControlPoints c)) (fun i => basis_fun c i x) = 0%R) as Z0.
  { apply (zsum_ind (fun lo => 0 <= lo -> zsum lo (len (ControlPoints c)) (fun i => basis_fun c i x * w4 (cp c i))%R = 0%R ->
    zsum lo (len (ControlPoints c)) (fun i => basis_fun c i x) = 0%R) (len (ControlPoints c))).
    - intros lo L _ _. apply zsum_empty; assumption.
    - intros lo L IH L0 E. rewrite zsum_first in E by assumption. rewrite zsum_first by assumption.
      assert (0 <= zsum (lo + 1) (len (ControlPoints c)) (fun i => basis_fun c i x * w4 (cp c i)))%R.
      { apply zsum_nonneg. intros i Hi. apply Rmult_le_pos; [apply basis_nonneg; auto|].
        pose proof (cp_weight c i (wf_weights c W)). lra. }
      pose proof (cp_weight c lo (wf_weights c W)) as Wl. pose proof (basis_nonneg c lo x W Hx) as Bl.
      assert (0 <= basis_fun c lo x * w4 (cp c lo))%R by (apply Rmult_le_pos; lra).
      assert (basis_fun c lo x * w4 (cp c lo) = 0)%R as E1 by lra.
      apply Rmult_integral in E1. destruct E1 as [E1|E1]; [|lra]. rewrite E1, IH; [ring|lia|lra]. }
  specialize (Z0 0 ltac:(lia) (eq_sym G)). unfold basis_fun in Z0. lra.
Qed.

(** ** C27 *)
Lemma v3div_ok (a : vec3 R) s : s <> 0%R -> v3div a s = Ok (Vec3 (x3 a / s) (y3 a / s) (z3 a / s))%R.
Proof. intros. unfold v3div. norm_R. rewrite !Rdivo_ok by assumption. reflexivity. Qed.
Lemma unit_assert x : (0 <= x <= 1)%R -> ngeb x n0 && nleb x n1 = true.
Proof. intros. norm_R. apply andb_true_iff. rewrite !Rleb_true. assumption. Qed.
Lemma unit_assert_false x : ~ (0 <= x <= 1)%R -> ngeb x n0 && nleb x n1 = false.
Proof. intros. norm_R. apply andb_false_iff. rewrite !Rleb_false. destruct (Rle_dec 0 x); [right|left]; lra. Qed.

(** weighted sum loop *)
Lemma sum_loop c (lo : Z) (b : Z -> outcome R) (g : Z -> R) n :
  0 <= n -> 0 <= lo -> lo + n <= len (ControlPoints c) -> (forall i, 0 <= i < n -> b i = Ok (g i)) ->
  exists h, for_up 0 n (fun i result =>
        p <- vget (ControlPoints c) (lo + i) ;; b_ <- b i ;;
        Ok (v4add result (v4scale b_ (ToHomo p)))) v4zero = Ok h /\
    forall f, lin f -> f h = zsum lo (lo + n) (fun i => g (i - lo)%Z * f (hp c i))%R.
Proof.
  intros Hn Hlo Hhi Gb.
  apply (for_up_inv (fun i h => forall f, lin f -> f h = zsum lo (lo + i) (fun i => g (i - lo)%Z * f (hp c i))%R) 0 n).
  - assumption.
  - intros f Lf. rewrite zsum_empty by lia. apply lin_zero; assumption.
  - intros i h Hi Q. rewrite vget_cp by lia. cbn [bind]. rewrite Gb by lia. cbn [bind].
    eexists. split; [reflexivity|]. intros f Lf. rewrite lin_add, lin_scale, Q by assumption.
    replace (lo + (i + 1)) with (lo + i + 1) by lia. rewrite zsum_last' by lia.
    replace (lo + i - lo) with i by lia. reflexivity.
Qed.

Lemma Curve_Evaluate_gen c x : clamped (Degree c) (Knots c) -> len (ControlPoints c) = len (Knots c) - Degree c - 1 ->
  (0 <= x <= 1)%R -> curve_den c x <> 0%R -> Curve_Evaluate c x = Ok (curve_point c x).
Proof.
  intros C Cn Hx Dp.
  destruct (Basis_Evaluate_N _ _ x C Hx) as [j [res [E1 [_ [E2 [Hj [Sp [Lr [Gr Z0]]]]]]]]].
  pose proof (cl_degree _ _ C) as P0.
  unfold Curve_Evaluate. rewrite unit_assert by assumption. cbn [assert_ bind].
  rewrite E1. cbn [bind]. rewrite E2. cbn [bind]. rewrite Lr, Z.eqb_refl. cbn [assert_ bind].
  destruct (sum_loop c (j - Degree c) (vget res) (fun i => basis_fun c (j - Degree c + i) x) (Degree c + 1)) as [h [Eh Qh]]; try lia.
  { intros i Hi. rewrite Gr by lia. reflexivity. }
  rewrite Eh. cbn [bind].
  assert (forall f, lin f -> f h = hsum c f x) as Q.
  { intros f Lf. rewrite Qh by assumption. unfold hsum.
    rewrite (zsum_support 0 (len (ControlPoints c)) (j - Degree c) (j - Degree c + (Degree c + 1))); try lia.
    - apply zsum_ext. intros i Hi. do 2 f_equal. lia.
    - intros i Hi Ho. unfold basis_fun. rewrite Z0 by lia. ring. }
  rewrite den_hom in Dp. fold (hsum c w4 x) in Dp.
  rewrite v3div_ok by (rewrite Q by apply lin_w; exact Dp).
  rewrite curve_point_hsum. unfold head3. cbn [x3 y3 z3].
  rewrite !Q by (unfold lin; auto). reflexivity.
Qed.
Lemma Curve_Evaluate_ok c x : wf_curve c -> (0 <= x <= 1)%R -> Curve_Evaluate c x = Ok (curve_point c x).
Proof.
  intros W Hx. apply Curve_Evaluate_gen; try assumption; try apply W. pose proof (curve_den_pos c x W Hx). lra.
Qed.
Lemma Curve_Evaluate_outside c x : ~ (0 <= x <= 1)%R -> Curve_Evaluate c x = AssertFail.
Proof. intros. unfold Curve_Evaluate. rewrite unit_assert_false by assumption. reflexivity. Qed.

(** ** C28 *)
Lemma run_const U i n v : (forall k, i < k <= i + nn n -> U k = v) -> run U i n = repeat v n.
Proof.
  revert i. induction n as [|n IH]; intros i H; [reflexivity|]. rewrite nn_S in H. simpl.
  rewrite H by (pose proof (nn_nonneg n); lia). rewrite IH; [reflexivity|]. intros k Hk. apply H. lia.
Qed.
Lemma span_start p l : clamped p l -> span_at (kf l) p 0.
Proof.
  intros C. destruct C. left. rewrite !kf_at by lia. rewrite cl_zero by lia. lra.
Qed.
Lemma span_end p l : clamped p l -> span_at (kf l) (len l - p - 2) 1.
Proof.
  intros C. destruct C. right. rewrite !kf_at by lia. rewrite (cl_one (len l - p - 2 + 1)) by lia. lra.
Qed.
Lemma hsum_start c f : wf_curve c -> hsum c f 0 = f (hp c 0).
Proof.
  intros W. pose proof (wf_knots c W) as C. pose proof (cl_degree _ _ C) as P0. pose proof (cl_len _ _ C) as CL.
  rewrite (hsum_bl c f (Degree c) 0 W); [|lia|apply span_start; assumption].
  rewrite <- (run_const (kf (Knots c)) 0 _ 0%R).
  - rewrite bl_dual; [reflexivity|apply (clamped_mono _ _ C)|apply (span_nonempty _ _ _ (span_start _ _ C))|].
    rewrite nn_of by lia. lia.
  - intros k Hk. rewrite nn_of in Hk by lia. rewrite kf_at by lia. apply (cl_zero _ _ C). lia.
Qed.
Lemma hsum_end c f : wf_curve c -> hsum c f 1 = f (hp c (len (ControlPoints c) - 1)).
Proof.
  intros W. pose proof (wf_knots c W) as C. pose proof (cl_degree _ _ C) as P0. pose proof (cl_len _ _ C) as CL.
  rewrite (hsum_bl c f (len (Knots c) - Degree c - 2) 1 W); [|lia|apply span_end; assumption].
  rewrite <- (run_const (kf (Knots c)) (len (Knots c) - Degree c - 2) _ 1%R).
  - rewrite bl_dual; [|apply (clamped_mono _ _ C)|apply (span_nonempty _ _ _ (span_end _ _ C))|].
    + do 2 f_equal. rewrite (wf_count c W). lia.
    + rewrite nn_of by lia. lia.
  - intros k Hk. rewrite nn_of in Hk by lia. rewrite kf_at by lia. apply (cl_one _ _ C). lia.
Qed.
Lemma hp_div c i : positive_weights (ControlPoints c) ->
  (x4 (hp c i) / w4 (hp c i) = x4 (cp c i) /\ y4 (hp c i) / w4 (hp c i) = y4 (cp c i) /\ z4 (hp c i) / w4 (hp c i) = z4 (cp c i))%R.
Proof.
  intros W. pose proof (cp_weight c i W). unfold hp, ToHomo. simpl. repeat split; field; lra.
Qed.
Definition point3 (p : vec4 R) : vec3 R := Vec3 (x4 p) (y4 p) (z4 p).
Lemma curve_point_start c : wf_curve c -> curve_point c 0 = point3 (cp c 0).
Proof.
  intros W. rewrite curve_point_hsum, !(hsum_start c _ W).
  destruct (hp_div c 0 (wf_weights c W)) as [-> [-> ->]]. reflexivity.
Qed.
Lemma curve_point_end c : wf_curve c -> curve_point c 1 = point3 (cp c (len (ControlPoints c) - 1)).
Proof.
  intros W. rewrite curve_point_hsum, !(hsum_end c _ W).
  destruct (hp_div c (len (ControlPoints c) - 1) (wf_weights c W)) as [-> [-> ->]]. reflexivity.
Qed.
Lemma end_points c : wf_curve c -> exists p q, nth_error (ControlPoints c) 0 = Some p /\
  nth_error (ControlPoints c) (Z.to_nat (len (ControlPoints c) - 1)) = Some q /\
  Curve_Evaluate c 0%R = Ok (point3 p) /\ Curve_Evaluate c 1%R = Ok (point3 q).
Proof.
  intros W. pose proof (wf_knots c W) as C. pose proof (cl_degree _ _ C) as P0. pose proof (cl_len _ _ C) as CL.
  pose proof (wf_count c W) as Cn.
  exists (cp c 0), (cp c (len (ControlPoints c) - 1)).
  split; [apply nth_error_nth'; unfold len in *; lia|]. split; [apply nth_error_nth'; unfold len in *; lia|].
  rewrite !Curve_Evaluate_ok by (auto; lra). rewrite curve_point_start, curve_point_end by assumption. auto.
Qed.

(** ** C29 *)
Lemma half_space c x a b d e : wf_curve c -> (0 <= x <= 1)%R ->
  (forall i, 0 <= i < len (ControlPoints c) -> basis_fun c i x <> 0%R ->
     (a * x4 (cp c i) + b * y4 (cp c i) + d * z4 (cp c i) <= e)%R) ->
  (a * x3 (curve_point c x) + b * y3 (curve_point c x) + d * z3 (curve_point c x) <= e)%R.
Proof.
  intros W Hx H. pose proof (curve_den_pos c x W Hx) as Dp. unfold curve_point. cbn [x3 y3 z3].
  replace (a * (curve_num c x4 x / curve_den c x) + b * (curve_num c y4 x / curve_den c x) + d * (curve_num c z4 x / curve_den c x))%R
    with ((a * curve_num c x4 x + b * curve_num c y4 x + d * curve_num c z4 x) / curve_den c x)%R by (field; lra).
  apply Rmult_le_reg_r with (curve_den c x); [assumption|]. unfold Rdiv. rewrite Rmult_assoc, Rinv_l, Rmult_1_r by lra.
  unfold curve_num, curve_den. rewrite <- !zsum_scale, <- !zsum_add. apply zsum_le. intros i Hi.
  destruct (Req_EM_T (basis_fun c i x) 0) as [E|E]; [rewrite E; lra|].
  specialize (H i Hi E). pose proof (basis_nonneg c i x W Hx). pose proof (cp_weight c i (wf_weights c W)).
  assert (0 <= basis_fun c i x * w4 (cp c i))%R as G by (apply Rmult_le_pos; lra).
  apply (Rmult_le_compat_l _ _ _ G) in H. lra.
Qed.

(** ** C30 *)
Lemma transform_cp c m i : 0 <= i < len (ControlPoints c) ->
  cp (Curve_Transform c m) i = set_head3 (cp c i) (m3mul m (head3 (cp c i))).
Proof.
  intros Hi. unfold cp. simpl. exact (znth_map _ (Vec4 0 0 0 1)%R _ _ _ Hi).
Qed.
Lemma transform_wf c m : wf_curve c -> wf_curve (Curve_Transform c m).
Proof.
  intros [C Cn W]. constructor; simpl.
  - exact C.
  - rewrite len_map. exact Cn.
  - unfold positive_weights in *. apply Forall_map. simpl. exact W.
Qed.
Lemma transform_point c m x : wf_curve c -> (0 <= x <= 1)%R ->
  curve_point (Curve_Transform c m) x = mat_apply m (curve_point c x).
Proof.
  intros W Hx. pose proof (curve_den_pos c x W Hx) as Dp.
  assert (len (ControlPoints (Curve_Transform c m)) = len (ControlPoints c)) as L by (simpl; apply len_map).
  assert (curve_den (Curve_Transform c m) x = curve_den c x) as Ed.
  { unfold curve_den. rewrite L. apply zsum_ext. intros i Hi. rewrite transform_cp by assumption. reflexivity. }
  assert (forall f r, lin f -> (forall p, f (set_head3 p (m3mul m (head3 p))) = (x3 r * x4 p + y3 r * y4 p + z3 r * z4 p)%R) ->
    curve_num (Curve_Transform c m) f x = (x3 r * curve_num c x4 x + y3 r * curve_num c y4 x + z3 r * curve_num c z4 x)%R) as En.
  { intros f r Lf Hf. unfold curve_num. rewrite L, <- !zsum_scale, <- !zsum_add. apply zsum_ext. intros i Hi.
    rewrite transform_cp by assumption. rewrite Hf. simpl. unfold basis_fun. simpl. ring. }
  unfold curve_point. rewrite Ed, (En x4 (row0 m)), (En y4 (row1 m)), (En z4 (row2 m)) by (unfold lin; auto).
  unfold mat_apply. simpl. f_equal; field; lra.
Qed.
