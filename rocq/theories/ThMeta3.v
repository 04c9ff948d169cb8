(** End tangents, and witnesses showing that the hypotheses of the uniqueness and smoothness theorems are needed. *)
From Coq Require Import Reals ZArith List Lra Lia Bool Permutation.
From Coquelicot Require Import Coquelicot.
From Verif Require Import Outcome Num ModelCore ModelBasis ModelAlgo ModelCurve ModelSurface SpecCore SpecBasis SpecCurve SpecSurface SpecDeriv SpecMeta
  ThOutcome ThReal ThKnots ThVec ThSum ThSpline ThBasis ThCurve ThReverse ThInsert ThCoreWit ThCurveWit ThGrid ThSurface ThSurface2 ThDeriv ThDers ThLeib ThDerivs ThUnique ThOrder ThOrder2 ThSmooth ThMeta ThMeta2 ThLocal.
Import ListNotations.
Open Scope Z_scope.

(** ** end tangents *)
Lemma DBk_1 U j p i x : mono U -> (U j < U (j + 1)%Z)%R -> DBk U j p i 1 x = DB U j p i x.
Proof.
  intros M Sp. pose proof (DBk_derive U j M Sp p i 0 x) as D. pose proof (B_derive U j M Sp p i x) as E.
  assert (is_derive (fun t => DBk U j p i 0 t) x (DB U j p i x)) as E' by (apply (is_derive_ext (fun t => B U j p i t)); [intros; symmetry; apply DBk_0|exact E]).
  apply is_derive_unique in D. apply is_derive_unique in E'. congruence.
Qed.
(** derivative of a spline piece where all inner knots of [run i (p-1)] equal the parameter *)
Lemma piece_tangent p l j P x i : clamped p l -> 1 <= p -> (kf l j < kf l (j + 1)%Z)%R -> p <= j <= len l - p - 2 -> j - p < i <= j ->
  (forall k, i < k < i + p -> kf l k = x) -> piece p l j 1 P x = (IZR p / (kf l (i + p)%Z - kf l i) * (P i - P (i - 1)%Z))%R.
Proof.
  intros C P1 Sp Hj Hi Hk. pose proof (clamped_mono _ _ C) as M.
  rewrite <- (piece_active p l j C Hj 1 P x (p + 1)) by lia. replace (j - p + (p + 1)) with (j + 1) by lia.
  rewrite (zsum_ext _ _ _ (fun i => DB (kf l) j (S (Z.to_nat (p - 1))) i x * P i)%R).
  2:{ intros k Hk'. change (Z.to_nat 1) with 1%nat. rewrite DBk_1 by assumption. replace (S (Z.to_nat (p - 1))) with (Z.to_nat p) by lia. reflexivity. }
  replace (j - p) with (j - nn (S (Z.to_nat (p - 1)))) by (unfold nn; lia).
  rewrite (DB_sum (kf l) j), B_value by assumption.
  rewrite <- (run_const (kf l) i _ x) by (intros k Hk'; rewrite nn_of in Hk' by lia; apply Hk; lia).
  rewrite bl_dual by (try assumption; rewrite nn_of by lia; lia). unfold gap. replace (nn (S (Z.to_nat (p - 1)))) with p by (unfold nn; lia).
  pose proof (den_pos (kf l) j M Sp i (i + p) ltac:(lia)) as G. unfold rinv, ratio. destruct (Req_EM_T _ 0) as [E|E]; [lra|]. field. lra.
Qed.
Lemma hder_tangent c j f x i : wf_curve c -> 1 <= Degree c -> (kf (Knots c) j < kf (Knots c) (j + 1)%Z)%R -> Degree c <= j <= len (Knots c) - Degree c - 2 -> j - Degree c < i <= j ->
  (forall k, i < k < i + Degree c -> kf (Knots c) k = x) -> hder c j f 1 x = (IZR (Degree c) / (kf (Knots c) (i + Degree c)%Z - kf (Knots c) i) * (f (hp c i) - f (hp c (i - 1)%Z)))%R.
Proof. intros W. intros. unfold hder. apply piece_tangent; try assumption. apply (wf_knots c W). Qed.
Lemma cder_1 c j f x : cder c j f 1 x = ((hder c j f 1 x - hder c j w4 1 x * (hder c j f 0 x / hder c j w4 0 x)) / hder c j w4 0 x)%R.
Proof.
  unfold cder. rewrite quo1_eq by lia. change (1 + 1) with 2. rewrite (zsum_first 1 2) by lia. rewrite zsum_empty by lia. change (1 - 1) with 0. rewrite quo1_0.
  replace (ch 1 1) with 1%R by reflexivity. do 2 f_equal. ring.
Qed.
Lemma tangent_start c : wf_curve c -> 1 <= Degree c -> exists k, k = (IZR (Degree c) / at_ (Knots c) (Degree c + 1) * (w4 (cp c 1) / w4 (cp c 0)))%R /\
  Curve_EvaluateDerivative c 0%R 1 = Ok (Vec3 (k * (x4 (cp c 1) - x4 (cp c 0))) (k * (y4 (cp c 1) - y4 (cp c 0))) (k * (z4 (cp c 1) - z4 (cp c 0))))%R.
Proof.
  intros W P1. pose proof (wf_knots c W) as C. pose proof (cl_len _ _ C) as CL. pose proof (span_start _ _ C) as Sp. eexists. split; [reflexivity|].
  rewrite (EvaluateDerivative_at c 0%R 1 (Degree c) W) by (try assumption; try lra; lia). f_equal. pose proof (cl_first _ _ C) as F.
  assert (forall f, hder c (Degree c) f 1 0 = (IZR (Degree c) / at_ (Knots c) (Degree c + 1) * (f (hp c 1) - f (hp c 0))))%R as T.
  { intros f. rewrite (hder_tangent c (Degree c) f 0%R 1 W P1 (span_nonempty _ _ _ Sp)); try lia.
    - rewrite !kf_at by lia. rewrite (cl_zero _ _ C 1) by lia. replace (1 + Degree c) with (Degree c + 1) by lia. change (1 - 1) with 0. rewrite Rminus_0_r. reflexivity.
    - intros k Hk. rewrite kf_at by lia. apply (cl_zero _ _ C). lia. }
  unfold cder3. rewrite !cder_1, !T, !hder_0, !hsum_start by assumption. pose proof (cp_weight c 0 (wf_weights c W)) as W0.
  unfold hp, ToHomo. cbn [x4 y4 z4 w4]. norm_R. f_equal; field; split; lra.
Qed.
Lemma tangent_end c n : wf_curve c -> 1 <= Degree c -> n = len (ControlPoints c) - 1 -> exists k, k = (IZR (Degree c) / (1 - at_ (Knots c) n) * (w4 (cp c (n - 1)) / w4 (cp c n)))%R /\
  Curve_EvaluateDerivative c 1%R 1 = Ok (Vec3 (k * (x4 (cp c n) - x4 (cp c (n - 1)%Z))) (k * (y4 (cp c n) - y4 (cp c (n - 1)%Z))) (k * (z4 (cp c n) - z4 (cp c (n - 1)%Z))))%R.
Proof.
  intros W P1 En. pose proof (wf_knots c W) as C. pose proof (cl_len _ _ C) as CL. pose proof (span_end _ _ C) as Sp. pose proof (wf_count c W) as Nc. assert (n = len (Knots c) - Degree c - 2) as Ej by lia. rewrite <- Ej in Sp. eexists. split; [reflexivity|].
  rewrite (EvaluateDerivative_at c 1%R 1 n W) by (try assumption; try lra; lia). f_equal. pose proof (cl_last _ _ C) as F. rewrite <- Ej in F.
  assert (forall f, hder c n f 1 1 = (IZR (Degree c) / (1 - at_ (Knots c) n) * (f (hp c n) - f (hp c (n - 1)%Z))))%R as T.
  { intros f. rewrite (hder_tangent c n f 1%R n W P1 (span_nonempty _ _ _ Sp)); try lia.
    - rewrite !kf_at by lia. rewrite (cl_one _ _ C (n + Degree c)) by lia. reflexivity.
    - intros k Hk. rewrite kf_at by lia. apply (cl_one _ _ C). lia. }
  assert (forall f, hder c n f 0 1 = f (hp c n)) as T0.
  { intros f. rewrite hder_0 by assumption. rewrite hsum_spl by exact W. rewrite spl_end by exact C. rewrite <- Ej. reflexivity. }
  unfold cder3. rewrite !cder_1, !T, !T0. pose proof (cp_weight c n (wf_weights c W)) as W0.
  unfold hp, ToHomo. cbn [x4 y4 z4 w4]. norm_R. f_equal; field; split; lra.
Qed.

(** ** witnesses *)
(** a control point without influence: the knot 1/2 has multiplicity degree + 2 *)
Definition idle_curve (a : R) : curve R :=
  Curve 1 [0; 0; 1/2; 1/2; 1/2; 1; 1]%R [Vec4 0 0 0 1; Vec4 1 0 0 1; Vec4 a 0 0 1; Vec4 1 0 0 1; Vec4 2 0 0 1]%R.
Lemma idle_wf a : wf_curve (idle_curve a).
Proof.
  constructor; cbn [idle_curve Degree Knots ControlPoints].
  - constructor; try (unfold len; simpl; lia).
    + nondec.
    + intros i Hi. assert (i = 0 \/ i = 1) as [-> | ->] by lia; reflexivity.
    + unfold at_. simpl. lra.
    + unfold at_. simpl. lra.
    + change (len [0; 0; 1/2; 1/2; 1/2; 1; 1]%R) with 7. intros i Hi. assert (i = 5 \/ i = 6) as [-> | ->] by lia; reflexivity.
  - reflexivity.
  - repeat constructor; simpl; lra.
Qed.
Lemma idle_same a b x : Curve_Evaluate (idle_curve a) x = Curve_Evaluate (idle_curve b) x.
Proof.
  destruct (Rle_dec 0 x) as [A|A]; [destruct (Rle_dec x 1) as [B|B]|]; try (rewrite !Curve_Evaluate_outside by lra; reflexivity).
  destruct (move_one (idle_curve b) (idle_curve a) 2 x (idle_wf b) (idle_wf a) eq_refl eq_refl) as [H _].
  - vm_compute; split; [discriminate|reflexivity].
  - change (len (ControlPoints (idle_curve b))) with 5. intros i Hi Ne. assert (i = 0 \/ i = 1 \/ i = 3 \/ i = 4) as [-> | [-> | [-> | ->]]] by lia; reflexivity.
  - lra.
  - apply H. change (at_ (Knots (idle_curve b)) 2) with (1/2)%R. change (at_ (Knots (idle_curve b)) (2 + Degree (idle_curve b) + 1)) with (1/2)%R.
    change (len (ControlPoints (idle_curve b))) with 5. destruct (Rlt_dec x (1/2)); [left; assumption|]. destruct (Rlt_dec x 1); [right; left; lra|right; right]. split; [lra|lia].
Qed.
Lemma idle_refuted : exists c d : curve R, wf_curve c /\ wf_curve d /\ Degree d = Degree c /\ Knots d = Knots c /\ map w4 (ControlPoints d) = map w4 (ControlPoints c) /\
  (forall x, Curve_Evaluate d x = Curve_Evaluate c x) /\ d <> c.
Proof.
  exists (idle_curve 0), (idle_curve 1). split; [apply idle_wf|]. split; [apply idle_wf|]. split; [reflexivity|]. split; [reflexivity|]. split; [reflexivity|].
  split; [intros; apply idle_same|]. intros E. assert (x4 (cp (idle_curve 1) 2) = x4 (cp (idle_curve 0) 2)) as E' by (rewrite E; reflexivity).
  change (1 = 0)%R in E'. lra.
Qed.
(** a jump: the knot 1/2 has multiplicity degree + 1 *)
Definition jump_curve : curve R :=
  Curve 1 [0; 0; 1/2; 1/2; 1; 1]%R [Vec4 0 0 0 1; Vec4 0 0 0 1; Vec4 1 0 0 1; Vec4 1 0 0 1]%R.
Lemma jump_wf : wf_curve jump_curve.
Proof.
  constructor; cbn [jump_curve Degree Knots ControlPoints].
  - constructor; try (unfold len; simpl; lia).
    + nondec.
    + intros i Hi. assert (i = 0 \/ i = 1) as [-> | ->] by lia; reflexivity.
    + unfold at_. simpl. lra.
    + unfold at_. simpl. lra.
    + change (len [0; 0; 1/2; 1/2; 1; 1]%R) with 6. intros i Hi. assert (i = 4 \/ i = 5) as [-> | ->] by lia; reflexivity.
  - reflexivity.
  - repeat constructor; simpl; lra.
Qed.
Lemma jump_value x : (0 <= x < 1)%R -> exists q, Curve_Evaluate jump_curve x = Ok q /\ x3 q = (if Rlt_dec x (1/2) then 0 else 1)%R.
Proof.
  intros Hx. exists (curve_point jump_curve x). split; [apply Curve_Evaluate_ok; [apply jump_wf|lra]|]. rewrite curve_point_hsum. cbn [x3].
  assert (forall j, 1 <= j <= 3 -> span_at (kf (Knots jump_curve)) j x -> forall f, hsum jump_curve f x = bl (kf (Knots jump_curve)) j [x] (fun i => f (hp jump_curve i))) as H.
  { intros j Hj Sp f. apply (hsum_bl jump_curve f j x jump_wf); [|exact Sp]. change (len (Knots jump_curve)) with 6. cbn [jump_curve Degree]. lia. }
  destruct (Rlt_dec x (1/2)).
  - assert (span_at (kf (Knots jump_curve)) 1 x) as Sp. { left. change (kf (Knots jump_curve) 1) with 0%R. change (kf (Knots jump_curve) (1 + 1)) with (1/2)%R. lra. }
    rewrite !(H 1 ltac:(lia) Sp). cbn [bl length]. unfold step, ratio. change (kf (Knots jump_curve) 1) with 0%R. change (kf (Knots jump_curve) (1 + nn 1)) with (1/2)%R.
    change (x4 (hp jump_curve 1)) with (0 * 1)%R. change (x4 (hp jump_curve (1 - 1))) with (0 * 1)%R. unfold Rdiv. ring.
  - assert (span_at (kf (Knots jump_curve)) 3 x) as Sp. { left. change (kf (Knots jump_curve) 3) with (1/2)%R. change (kf (Knots jump_curve) (3 + 1)) with 1%R. lra. }
    rewrite !(H 3 ltac:(lia) Sp). cbn [bl length]. unfold step, ratio. change (kf (Knots jump_curve) 3) with (1/2)%R. change (kf (Knots jump_curve) (3 + nn 1)) with 1%R.
    change (x4 (hp jump_curve 3)) with (1 * 1)%R. change (x4 (hp jump_curve (3 - 1))) with (1 * 1)%R. change (w4 (hp jump_curve 3)) with 1%R. change (w4 (hp jump_curve (3 - 1))) with 1%R.
    field. lra.
Qed.
Lemma jump_refuted : exists c x, wf_curve c /\ (0 < x < 1)%R /\ count x (Knots c) = Degree c + 1 /\ ~ continuous_on_unit (Curve_Evaluate c) x.
Proof.
  exists jump_curve, (1/2)%R. split; [apply jump_wf|]. split; [lra|]. split.
  - unfold count. cbn [jump_curve Knots Degree count_occ]. repeat (destruct (Req_EM_T _ _); try lra). reflexivity.
  - intros [q [E H]]. destruct (H 1%R ltac:(lra)) as [d [Pd Hd]]. pose proof (Rmin_l d (1/2)). pose proof (Rmin_r d (1/2)). pose proof (Rmin_pos d (1/2) Pd ltac:(lra)).
    destruct (jump_value (1/2)%R ltac:(lra)) as [q' [E' X]]. rewrite E in E'. injection E' as <-. destruct (Rlt_dec (1/2) (1/2)) as [L|_]; [lra|].
    destruct (jump_value (1/2 - Rmin d (1/2) / 2)%R ltac:(lra)) as [r [Er Xr]]. destruct (Rlt_dec (1/2 - Rmin d (1/2) / 2) (1/2)) as [_|L]; [|lra].
    destruct (Hd (1/2 - Rmin d (1/2) / 2)%R ltac:(lra)) as [r' [Er' [Nr _]]]; [|rewrite Er in Er'; injection Er' as <-; rewrite X, Xr in Nr; replace (0 - 1)%R with (-1)%R in Nr by lra; rewrite Rabs_left in Nr by lra; lra].
    replace (1/2 - Rmin d (1/2) / 2 - 1/2)%R with (- (Rmin d (1/2) / 2))%R by lra. rewrite Rabs_Ropp, Rabs_right by lra. lra.
Qed.

(** ** statements of PropMeta *)
Lemma local_nth {T} (P Q : list T) lo hi : (forall i, 0 <= i -> lo <= i <= hi -> nth_error P (Z.to_nat i) = nth_error Q (Z.to_nat i)) -> forall i, lo <= i <= hi -> vget P i = vget Q i.
Proof. intros E i Hi. unfold vget. destruct (Z.ltb_spec i 0); [reflexivity|]. rewrite E by lia. reflexivity. Qed.
Lemma local_curve T (H : Num T) (c d : curve T) x j order : Degree d = Degree c -> Knots d = Knots c -> KnotVector_FindSpanIndex (Knots c) (Degree c) x = Ok j ->
  (forall i, 0 <= i -> j - Degree c <= i <= j -> nth_error (ControlPoints d) (Z.to_nat i) = nth_error (ControlPoints c) (Z.to_nat i)) ->
  Curve_Evaluate d x = Curve_Evaluate c x /\ Curve_EvaluateAll d x order = Curve_EvaluateAll c x order /\ Curve_EvaluateDerivative d x order = Curve_EvaluateDerivative c x order.
Proof.
  intros Ed Ek Ef E. pose proof (local_nth _ _ _ _ E) as E'. split; [apply (Evaluate_local c d x j); assumption|].
  pose proof (fun o => EvaluateAll_local c d x j o Ed Ek Ef E') as A. split; [apply A|]. unfold Curve_EvaluateDerivative. rewrite A. reflexivity.
Qed.
Lemma local_surface T (H : Num T) (s t : surface T) u v ju jv ou ov : DegreeU t = DegreeU s -> DegreeV t = DegreeV s -> KnotsU t = KnotsU s -> KnotsV t = KnotsV s ->
  KnotVector_FindSpanIndex (KnotsU s) (DegreeU s) u = Ok ju -> KnotVector_FindSpanIndex (KnotsV s) (DegreeV s) v = Ok jv ->
  (forall i j, ju - DegreeU s <= i <= ju -> jv - DegreeV s <= j <= jv -> Grid_Get (Net t) i j = Grid_Get (Net s) i j) ->
  Surface_Evaluate t u v = Surface_Evaluate s u v /\ Surface_EvaluateAll t u v ou ov = Surface_EvaluateAll s u v ou ov.
Proof. intros. split; [apply (Surface_Evaluate_local s t u v ju jv); assumption|apply (Surface_EvaluateAll_local s t u v ju jv); assumption]. Qed.
Lemma smooth_lemma c x k : wf_curve c -> (0 <= x <= 1)%R -> 0 <= k <= 29 -> (0 < x < 1)%R -> count x (Knots c) + k <= Degree c ->
  continuous_on_unit (fun t => Curve_EvaluateDerivative c t k) x /\ exists q, Curve_EvaluateDerivative c x k = Ok q /\ is_derive_n3 (curve_point c) (Z.to_nat k) x q.
Proof.
  intros W _ Hk Hx Hm. destruct (smooth_at c x k W Hx Hk Hm) as [q [E [D H]]]. split; [|exists q; split; assumption].
  exists q. split; [exact E|]. intros eps He. destruct (H eps He) as [d [Pd Hd]]. exists d. split; [exact Pd|]. intros t _ Ht. apply Hd. exact Ht.
Qed.
Lemma smooth_in c x k : wf_curve c -> (0 < x < 1)%R -> 0 <= k <= 29 -> count x (Knots c) + k <= Degree c ->
  continuous_on_unit (fun t => Curve_EvaluateDerivative c t k) x /\ exists q, Curve_EvaluateDerivative c x k = Ok q /\ is_derive_n3 (curve_point c) (Z.to_nat k) x q.
Proof. intros W Hx Hk Hm. apply smooth_lemma; try assumption. lra. Qed.
Lemma smooth_ends c x k : wf_curve c -> x = 0%R \/ x = 1%R -> 0 <= k <= 29 -> continuous_on_unit (fun t => Curve_EvaluateDerivative c t k) x.
Proof. exact (smooth_end c x k). Qed.
Lemma derivative_0 c t : wf_curve c -> Curve_EvaluateDerivative c t 0 = Curve_Evaluate c t \/ ~ (0 <= t <= 1)%R.
Proof.
  intros W. destruct (Rle_dec 0 t) as [A|A]; [destruct (Rle_dec t 1) as [B|B]|]; try (right; lra). left.
  destruct (Curve_EvaluateAll_ok c t 0 W ltac:(lra) ltac:(lia)) as [j [res [Hj [Sp _]]]].
  rewrite (EvaluateDerivative_at c t 0 j W ltac:(lra) ltac:(lia) Sp Hj), cder3_0, Curve_Evaluate_ok by (try assumption; lra). reflexivity.
Qed.
Lemma continuous_curve c : wf_curve c -> (forall x, (0 < x < 1)%R -> count x (Knots c) <= Degree c) -> forall x, (0 <= x <= 1)%R -> continuous_on_unit (Curve_Evaluate c) x.
Proof.
  intros W Hm x Hx.
  assert (continuous_on_unit (fun t => Curve_EvaluateDerivative c t 0) x) as [q [E H]].
  { destruct (Req_dec x 0) as [->|N0]; [apply smooth_ends; auto; lia|]. destruct (Req_dec x 1) as [->|N1]; [apply smooth_ends; auto; lia|].
    assert (0 < x < 1)%R as Hx' by lra. apply smooth_in; [exact W|exact Hx'|lia|]. specialize (Hm x Hx'). lia. }
  exists q. split; [destruct (derivative_0 c x W) as [D|D]; [rewrite <- D; exact E|lra]|]. intros eps He. destruct (H eps He) as [d [Pd Hd]]. exists d. split; [exact Pd|].
  intros t Ht Hl. destruct (Hd t Ht Hl) as [r [Er Nr]]. exists r. split; [|exact Nr]. destruct (derivative_0 c t W) as [D|D]; [rewrite <- D; exact Er|contradiction].
Qed.
(** examples *)
Definition curve_ex' : curve R :=
  Curve 2 [0; 0; 0; 1/3; 1/2; 1/2; 1; 1; 1]%R
    [Vec4 0 0 0 1; Vec4 1 0 0 2; Vec4 1 1 0 1; Vec4 2 1 0 (1/2); Vec4 7 2 1 1; Vec4 3 0 1 1]%R.
Lemma curve_ex'_wf : wf_curve curve_ex'.
Proof. constructor; [exact clamped_ex|reflexivity|]. unfold positive_weights. simpl. repeat constructor; simpl; lra. Qed.
Lemma ex_multiplicity v : count v (Knots curve_ex) <= 3.
Proof. unfold count. cbn [curve_ex Knots count_occ]. repeat destruct (Req_EM_T _ _); try lra; lia. Qed.
Lemma ex_inner v : (0 < v < 1)%R -> count v (Knots curve_ex) <= 2.
Proof. intros Hv. unfold count. cbn [curve_ex Knots count_occ]. repeat destruct (Req_EM_T _ _); try lra; lia. Qed.
Lemma ex_third : count (1/3)%R (Knots curve_ex) = 1.
Proof. unfold count. cbn [curve_ex Knots count_occ]. repeat (destruct (Req_EM_T _ _); try lra). reflexivity. Qed.
Definition shear : mat3 R := (Mat3 (Vec3 1 2 0) (Vec3 0 1 0) (Vec3 (-1) 0 3))%R.
