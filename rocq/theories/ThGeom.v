(** GeomSegment::GetCurve and GeomRect::GetSurface. *)
From Coq Require Import Reals ZArith List Lra Lia Bool Permutation.
From Verif Require Import Outcome Num ModelCore ModelBasis ModelCurve ModelSurface SpecCore SpecBasis SpecCurve SpecSurface
  ThOutcome ThReal ThKnots ThKnots2 ThGrid ThVec ThSum ThSpline ThBasis ThCurve ThInsert ThCurveWit ThSurface ThSurface2 ThSurfWit.
Import ListNotations.
Open Scope Z_scope.

(** ** Linear precision: coefficients [avg (U_{i+1}..U_{i+p})] give the identity. *)
Definition lsum (l : list R) : R := fold_right Rplus 0%R l.
Lemma lsum_perm l l' : Permutation l l' -> lsum l = lsum l'.
Proof. induction 1; simpl; try lra. Qed.
Lemma lsum_repeat x n : lsum (repeat x n) = (IZR (Z.of_nat n) * x)%R.
Proof. induction n as [|n IH]; [simpl; lra|]. cbn [repeat lsum fold_right]. fold (lsum (repeat x n)). rewrite IH, Nat2Z.inj_succ, succ_IZR. ring. Qed.
Lemma lsum_app a b : lsum (a ++ b) = (lsum a + lsum b)%R.
Proof. induction a as [|x a IH]; simpl; [lra|]. unfold lsum in *. simpl. lra. Qed.
Lemma lsum_sma p : (0 < p)%nat -> sma p (fun ts => lsum ts / IZR (Z.of_nat p))%R.
Proof.
  intros Hp. assert (0 < IZR (Z.of_nat p))%R by (apply IZR_lt; lia). split.
  - intros. rewrite (lsum_perm ts ts') by assumption. reflexivity.
  - intros. simpl. field. lra.
Qed.
Lemma linear_precision p l x : clamped p l -> 1 <= p -> (0 <= x <= 1)%R ->
  spl p l (fun i => lsum (run (kf l) i (Z.to_nat p)) / IZR p)%R x = x.
Proof.
  intros C P1 Hx. destruct (clamped_span _ _ x C Hx) as [j [_ [Hj S]]].
  unfold spl. rewrite (local_sum p l j x _ C Hj S).
  assert (0 < IZR p)%R as Pp by (apply IZR_lt; lia).
  rewrite <- (bl_unique (kf l) j (clamped_mono _ _ C) (span_nonempty _ _ _ S) (repeat x (Z.to_nat p)) (fun ts => lsum ts / IZR p)%R).
  - rewrite lsum_repeat, Z2Nat.id by lia. field. lra.
  - rewrite repeat_length. pose proof (lsum_sma (Z.to_nat p) ltac:(lia)) as Q. rewrite Z2Nat.id in Q by lia. exact Q.
  - intros i Hi. rewrite repeat_length. reflexivity.
Qed.
(** single-span (Bezier) knots *)
Lemma run_const_val U i n c : (forall k, i < k <= i + nn n -> U k = c) -> run U i n = repeat c n.
Proof.
  revert i. induction n as [|n IH]; intros i H; [reflexivity|]. rewrite nn_S in H. cbn [run repeat]. pose proof (nn_nonneg n). f_equal.
  - apply H. lia.
  - apply IH. intros k Hk. apply H. lia.
Qed.
Lemma run_split U i a b : run U i (a + b) = run U i a ++ run U (i + nn a) b.
Proof.
  revert i. induction a as [|a IH]; intros i.
  - rewrite nn_0. simpl. f_equal. lia.
  - simpl. f_equal. rewrite IH, nn_S. do 2 f_equal. lia.
Qed.
Lemma bezier_precision p l x : clamped p l -> 1 <= p -> len l = 2 * p + 2 -> (0 <= x <= 1)%R ->
  spl p l (fun i => IZR i / IZR p)%R x = x.
Proof.
  intros C P1 L Hx. transitivity (spl p l (fun i => lsum (run (kf l) i (Z.to_nat p)) / IZR p)%R x); [|apply linear_precision; assumption].
  apply spl_ext. intros i Hi. f_equal.
  replace (Z.to_nat p) with (Z.to_nat (p - i) + Z.to_nat i)%nat by lia. rewrite run_split, lsum_app.
  rewrite (run_const_val _ i _ 0%R), (run_const_val _ _ _ 1%R).
  - rewrite !lsum_repeat, !Z2Nat.id by lia. ring.
  - intros k Hk. rewrite !nn_of in Hk by lia. rewrite kf_at by lia. apply (cl_one _ _ C). lia.
  - intros k Hk. rewrite nn_of in Hk by lia. rewrite kf_at by lia. apply (cl_zero _ _ C). lia.
Qed.

(** position along the segment *)
Definition seg_param (p : Z) (l : list R) (x : R) : R := spl p l (fun i => IZR i / IZR (len l - p - 2))%R x.
Lemma seg_param_bounds p l x : clamped p l -> 1 <= p -> (0 <= x <= 1)%R -> (0 <= seg_param p l x <= 1)%R.
Proof.
  intros C P1 Hx. pose proof (cl_len _ _ C). assert (0 < IZR (len l - p - 2))%R as Np by (apply IZR_lt; lia).
  unfold seg_param. split.
  - rewrite <- (spl_const p l 0 x C Hx). apply spl_le; auto. intros i Hi.
    apply Rmult_le_pos; [apply IZR_le; lia|]. left. apply Rinv_0_lt_compat; lra.
  - rewrite <- (spl_const p l 1 x C Hx). apply spl_le; auto. intros i Hi.
    apply Rmult_le_reg_r with (IZR (len l - p - 2)); [exact Np|]. unfold Rdiv. rewrite Rmult_assoc, Rinv_l, Rmult_1_r, Rmult_1_l by lra.
    apply IZR_le. lia.
Qed.
Lemma seg_param_0 p l : clamped p l -> seg_param p l 0 = 0%R.
Proof. intros C. unfold seg_param. rewrite spl_start by assumption. unfold Rdiv. ring. Qed.
Lemma seg_param_1 p l : clamped p l -> 1 <= p -> seg_param p l 1 = 1%R.
Proof.
  intros C P1. pose proof (cl_len _ _ C). assert (0 < IZR (len l - p - 2))%R by (apply IZR_lt; lia).
  unfold seg_param. rewrite spl_end by assumption. field. lra.
Qed.

(** [a + s (b - a)] *)
Definition lerp (a b : vec3 R) (s : R) : vec3 R :=
  (Vec3 (x3 a + s * (x3 b - x3 a)) (y3 a + s * (y3 b - y3 a)) (z3 a + s * (z3 b - z3 a)))%R.
Definition lift (v : vec3 R) : vec4 R := Vec4 (x3 v) (y3 v) (z3 v) 1%R.

Lemma segment_make p n (a b : vec3 R) : 1 <= p -> p + 1 <= n ->
  exists c, GeomSegment_GetCurve p n a b = Ok c /\ Degree c = p /\ Knots c = uniform_list p (n - p - 1) /\
    len (ControlPoints c) = n /\ forall i, 0 <= i < n -> vget (ControlPoints c) i = Ok (lift (lerp a b (IZR i / IZR (n - 1)))).
Proof.
  intros P1 Hn. unfold GeomSegment_GetCurve. destruct (Z.leb_spec 1 p); [|lia]. cbn [assert_ bind].
  destruct (Z.leb_spec (p + 1) n); [|lia]. cbn [assert_ bind]. cbv zeta.
  rewrite Uniform_R by lia. cbn [bind]. replace (n + p + 1 - 2 * (p + 1)) with (n - p - 1) by lia.
  assert (0 < IZR (n - 1))%R by (apply IZR_lt; lia).
  change (nofZ (n - 1)) with (IZR (n - 1)). rewrite v3div_ok by lra. cbn [bind].
  match goal with |- context [tabulate 0 n ?f] => rewrite (tabulate_ok 0 n f (fun i => lift (lerp a b (IZR i / IZR (n - 1))))) end.
  - cbn [bind]. eexists. split; [reflexivity|]. cbn [Degree Knots ControlPoints]. split; [reflexivity|]. split; [reflexivity|].
    split; [apply len_map_zrange; lia|]. intros i Hi. exact (vget_map_zrange (fun i => lift (lerp a b (IZR i / IZR (n - 1)))) n i Hi).
  - intros i Hi. f_equal. unfold lift, lerp. destruct a, b. simpl. norm_R. f_equal; field; lra.
Qed.
Lemma curve_eval_lerp c a b (g : Z -> R) x : wf_curve c -> (0 <= x <= 1)%R ->
  (forall i, 0 <= i < len (ControlPoints c) -> cp c i = lift (lerp a b (g i))) ->
  Curve_Evaluate c x = Ok (lerp a b (spl (Degree c) (Knots c) g x)).
Proof.
  intros W Hx G. rewrite Curve_Evaluate_ok by assumption. f_equal. pose proof (wf_knots c W) as C. pose proof (wf_count c W) as Cn.
  set (s := spl (Degree c) (Knots c) g x).
  assert (curve_den c x = 1%R) as D.
  { unfold curve_den. rewrite <- (spl_const (Degree c) (Knots c) 1 x C Hx). unfold spl. rewrite <- Cn.
    apply zsum_ext. intros i Hi. rewrite G by assumption. unfold basis_fun. simpl. ring. }
  assert (forall f (f3 : vec3 R -> R), (forall v, f (lift v) = f3 v) -> (forall t, f3 (lerp a b t) = f3 a + t * (f3 b - f3 a))%R ->
    curve_num c f x = (f3 a + s * (f3 b - f3 a))%R) as Nm.
  { intros f f3 Hf H3. unfold curve_num.
    transitivity (spl (Degree c) (Knots c) (fun i => f3 a * 1 + (f3 b - f3 a) * g i)%R x).
    - unfold spl. rewrite <- Cn. apply zsum_ext. intros i Hi. rewrite G by assumption. rewrite Hf, H3. unfold basis_fun. simpl. ring.
    - rewrite (spl_lin _ _ (f3 a) (f3 b - f3 a) (fun _ => 1%R) g), spl_const by assumption. fold s. ring. }
  unfold curve_point. rewrite D, (Nm x4 x3), (Nm y4 y3), (Nm z4 z3) by reflexivity. unfold lerp. f_equal; field.
Qed.
Lemma C55_lemma p n (a b : vec3 R) : 1 <= p -> p + 1 <= n ->
  exists c, GeomSegment_GetCurve p n a b = Ok c /\ wf_curve c /\ Degree c = p /\ len (ControlPoints c) = n /\
    Curve_Evaluate c 0%R = Ok a /\ Curve_Evaluate c 1%R = Ok b /\
    (forall t, (0 <= t <= 1)%R -> exists s, (0 <= s <= 1)%R /\ Curve_Evaluate c t = Ok (lerp a b s)) /\
    (n = p + 1 -> forall t, (0 <= t <= 1)%R -> Curve_Evaluate c t = Ok (lerp a b t)).
Proof.
  intros P1 Hn. destruct (segment_make p n a b P1 Hn) as [c [E [D [K [L G]]]]]. exists c. split; [exact E|].
  assert (clamped p (Knots c)) as C by (rewrite K; apply uniform_clamped; lia).
  assert (len (Knots c) = n + p + 1) as Lk by (rewrite K, len_uniform; lia).
  assert (forall i, 0 <= i < len (ControlPoints c) -> cp c i = lift (lerp a b (IZR i / IZR (n - 1)))) as Gc.
  { intros i Hi. specialize (G i ltac:(lia)). rewrite vget_cp in G by lia. congruence. }
  assert (wf_curve c) as W.
  { constructor; [rewrite D; exact C|lia|]. apply Forall_forall. intros q Hq. destruct (In_znth (Vec4 0 0 0 1)%R _ _ Hq) as [i [Hi Ei]].
    specialize (Gc i Hi). unfold cp, znth in *. rewrite <- Ei, Gc. simpl. lra. }
  assert (forall x, (0 <= x <= 1)%R -> Curve_Evaluate c x = Ok (lerp a b (seg_param p (Knots c) x))) as Ev.
  { intros x Hx. rewrite (curve_eval_lerp c a b _ x W Hx Gc). unfold seg_param. rewrite D, Lk. do 4 f_equal. replace (n + p + 1 - p - 2) with (n - 1) by lia. reflexivity. }
  split; [exact W|]. split; [exact D|]. split; [exact L|].
  split; [rewrite Ev by lra; rewrite seg_param_0 by assumption; unfold lerp; destruct a; simpl; do 2 f_equal; ring|].
  split; [rewrite Ev by lra; rewrite seg_param_1 by assumption; unfold lerp; destruct a, b; simpl; do 2 f_equal; ring|].
  split.
  - intros t Ht. exists (seg_param p (Knots c) t). split; [apply seg_param_bounds; assumption|apply Ev; exact Ht].
  - intros -> t Ht. rewrite Ev by assumption. do 2 f_equal. unfold seg_param. rewrite Lk.
    replace (p + 1 + p + 1 - p - 2) with p by lia. apply bezier_precision; auto; lia.
Qed.

(** ** GeomRect *)
Lemma grid_freeze_ok (g : grid (option (vec4 R))) nu nv f : grid_is g nu nv (fun i j => Some (f i j)) ->
  exists g', grid_freeze g = Ok g' /\ grid_is g' nu nv f.
Proof.
  intros G. pose proof (grid_is_ze _ _ _ _ G) as Z1. destruct G as [Gu [Gv [Hu [Hv [L _]]]]].
  destruct (freeze_spec (Values g) (fun k => f (k mod nu) (k / nu))) as [l' [E [L' G']]].
  - intros k Hk. rewrite L, Z.mul_comm in Hk. destruct (idx_ex _ _ _ Hu Hk) as [r [c [Hr [Hc ->]]]].
    assert ((r * nu + c) mod nu = c) as -> by (rewrite Z.add_comm, Z.mod_add by lia; apply Z.mod_small; lia).
    assert ((r * nu + c) / nu = r) as -> by (rewrite Z.add_comm, Z.div_add by lia; rewrite Z.div_small by lia; lia).
    apply vget_ze; [nia|]. apply Z1; assumption.
  - unfold grid_freeze. rewrite E. cbn [bind]. eexists. split; [reflexivity|]. unfold grid_is. cbn [UCount VCount Values].
    repeat split; auto; [lia|]. intros i j Hi Hj. pose proof (idx_range j i nv nu Hj Hi). specialize (G' (j * nu + i) ltac:(lia)).
    replace ((j * nu + i) mod nu) with i in G' by (rewrite Z.add_comm, Z.mod_add by lia; rewrite Z.mod_small; lia).
    replace ((j * nu + i) / nu) with j in G' by (rewrite Z.add_comm, Z.div_add by lia; rewrite Z.div_small; lia).
    unfold vget in G'. destruct (Z.ltb_spec (j * nu + i) 0); [lia|]. destruct (nth_error l' (Z.to_nat (j * nu + i))); congruence.
Qed.
(** [a + s (b - a) + t (d - a)] *)
Definition lerp2 (a b d : vec3 R) (s t : R) : vec3 R :=
  (Vec3 (x3 a + s * (x3 b - x3 a) + t * (x3 d - x3 a)) (y3 a + s * (y3 b - y3 a) + t * (y3 d - y3 a))
        (z3 a + s * (z3 b - z3 a) + t * (z3 d - z3 a)))%R.
Lemma rect_make p q n m (a b d e : vec3 R) : 1 <= p -> 1 <= q -> p + 1 <= n -> q + 1 <= m -> n * m <= INT_MAX ->
  exists s, GeomRect_GetSurface p q n m a b d e = Ok s /\ DegreeU s = p /\ DegreeV s = q /\
    KnotsU s = uniform_list p (n - p - 1) /\ KnotsV s = uniform_list q (m - q - 1) /\
    grid_is (Net s) n m (fun i j => lift (lerp2 a b d (IZR i / IZR (n - 1)) (IZR j / IZR (m - 1)))).
Proof.
  intros P1 Q1 Hn Hm Fit. unfold GeomRect_GetSurface. destruct (Z.leb_spec 1 p); [|lia]. destruct (Z.leb_spec 1 q); [|lia].
  destruct (Z.leb_spec (p + 1) n); [|lia]. destruct (Z.leb_spec (q + 1) m); [|lia]. cbn [assert_ bind].
  rewrite !Uniform_R by lia. cbn [bind]. replace (n + p + 1 - 2 * (p + 1)) with (n - p - 1) by lia.
  replace (m + q + 1 - 2 * (q + 1)) with (m - q - 1) by lia.
  assert (0 < IZR (n - 1))%R by (apply IZR_lt; lia). assert (0 < IZR (m - 1))%R by (apply IZR_lt; lia).
  unfold grid_uninit. destruct (Grid_make_ok n m (@None (vec4 R))) as [g0 [E0 G0]]; try lia. rewrite E0. cbn [bind].
  change (nofZ (n - 1)) with (IZR (n - 1)). change (nofZ (m - 1)) with (IZR (m - 1)). rewrite !v3div_ok by lra. cbn [bind].
  match goal with |- context [for_up 0 m (fun j net => for_up 0 n (fun i net' => @?bd j i net') net) g0] =>
    destruct (fill_rows g0 n m _ 0 n m (fun i j => Some (lift (lerp2 a b d (IZR i / IZR (n - 1)) (IZR j / IZR (m - 1))))) (fun i j net => bd j i net) G0) as [g1 [E1 G1]]; try lia
  end.
  - intros i j g' Hi Hj. cbv beta zeta. do 2 f_equal. unfold lift, lerp2. destruct a, b, d. simpl. norm_R. f_equal; field; lra.
  - cbv beta zeta in E1. rewrite E1. cbn [bind].
    assert (grid_is g1 n m (fun i j => Some (lift (lerp2 a b d (IZR i / IZR (n - 1)) (IZR j / IZR (m - 1)))))) as G2.
    { apply (grid_is_eq _ _ _ _ _ G1). intros i j Hi Hj. destruct (Z.leb_spec 0 i); [|lia]. destruct (Z.ltb_spec i n); [|lia].
      destruct (Z.ltb_spec j m); [|lia]. reflexivity. }
    destruct (grid_freeze_ok _ _ _ _ G2) as [g3 [E3 G3]]. rewrite E3. cbn [bind]. eexists. split; [reflexivity|]. auto.
Qed.
Lemma surf_eval_lerp2 s a b d (g h : Z -> R) u v : wf_surface s -> (0 <= u <= 1)%R -> (0 <= v <= 1)%R ->
  (forall i j, 0 <= i < UCount (Net s) -> 0 <= j < VCount (Net s) -> gp s i j = lift (lerp2 a b d (g i) (h j))) ->
  Surface_Evaluate s u v = Ok (lerp2 a b d (spl (DegreeU s) (KnotsU s) g u) (spl (DegreeV s) (KnotsV s) h v)).
Proof.
  intros W Hu Hv G. rewrite Surface_Evaluate_ok by assumption. f_equal.
  pose proof (ws_knotsU s W) as CU. pose proof (ws_knotsV s W) as CV. pose proof (ws_countU s W). pose proof (ws_countV s W).
  set (x := spl (DegreeU s) (KnotsU s) g u). set (y := spl (DegreeV s) (KnotsV s) h v).
  assert (forall f c0 c1 c2, (forall i j, 0 <= i < UCount (Net s) -> 0 <= j < VCount (Net s) -> f (ghp s i j) = (c0 + c1 * g i + c2 * h j)%R) ->
    hsurf s f u v = (c0 + c1 * x + c2 * y)%R) as Hs.
  { intros f c0 c1 c2 Hf. unfold hsurf.
    transitivity (spl (DegreeV s) (KnotsV s) (fun j => (c0 + c1 * x) * 1 + c2 * h j)%R v).
    - apply spl_ext. intros j Hj. transitivity (spl (DegreeU s) (KnotsU s) (fun i => (c0 + c2 * h j) * 1 + c1 * g i)%R u).
      + apply spl_ext. intros i Hi. rewrite Hf by lia. ring.
      + rewrite (spl_lin _ _ _ _ (fun _ => 1%R) g), spl_const by assumption. fold x. ring.
    - rewrite (spl_lin _ _ _ _ (fun _ => 1%R) h), spl_const by assumption. fold y. ring. }
  rewrite surf_point_hsurf by assumption.
  rewrite (Hs w4 1 0 0)%R by (intros; unfold ghp; rewrite G by assumption; simpl; ring).
  rewrite (Hs x4 (x3 a) (x3 b - x3 a) (x3 d - x3 a))%R by (intros; unfold ghp; rewrite G by assumption; simpl; norm_R; ring).
  rewrite (Hs y4 (y3 a) (y3 b - y3 a) (y3 d - y3 a))%R by (intros; unfold ghp; rewrite G by assumption; simpl; norm_R; ring).
  rewrite (Hs z4 (z3 a) (z3 b - z3 a) (z3 d - z3 a))%R by (intros; unfold ghp; rewrite G by assumption; simpl; norm_R; ring).
  unfold lerp2. f_equal; field.
Qed.
Lemma C56_lemma p q n m (a b d e : vec3 R) : 1 <= p -> 1 <= q -> p + 1 <= n -> q + 1 <= m -> n * m <= INT_MAX ->
  exists s, GeomRect_GetSurface p q n m a b d e = Ok s /\ wf_surface s /\ DegreeU s = p /\ DegreeV s = q /\
    UCount (Net s) = n /\ VCount (Net s) = m /\
    Surface_Evaluate s 0%R 0%R = Ok a /\ Surface_Evaluate s 1%R 0%R = Ok b /\ Surface_Evaluate s 0%R 1%R = Ok d /\
    Surface_Evaluate s 1%R 1%R = Ok (lerp2 a b d 1 1) /\
    (forall u v, (0 <= u <= 1)%R -> (0 <= v <= 1)%R -> exists x y, (0 <= x <= 1)%R /\ (0 <= y <= 1)%R /\
       Surface_Evaluate s u v = Ok (lerp2 a b d x y) /\ (n = p + 1 -> x = u) /\ (m = q + 1 -> y = v)).
Proof.
  intros P1 Q1 Hn Hm Fit. destruct (rect_make p q n m a b d e P1 Q1 Hn Hm Fit) as [s [E [D1 [D2 [K1 [K2 G]]]]]].
  exists s. split; [exact E|].
  assert (clamped p (KnotsU s)) as CU by (rewrite K1; apply uniform_clamped; lia).
  assert (clamped q (KnotsV s)) as CV by (rewrite K2; apply uniform_clamped; lia).
  assert (len (KnotsU s) = n + p + 1) as LU by (rewrite K1, len_uniform; lia).
  assert (len (KnotsV s) = m + q + 1) as LV by (rewrite K2, len_uniform; lia).
  assert (UCount (Net s) = n /\ VCount (Net s) = m) as [NU NV] by (split; apply G).
  assert (wf_surface s) as W.
  { eapply wf_of_grid.
    - rewrite D1; exact CU.
    - rewrite D2; exact CV.
    - rewrite D1, D2, LU, LV. replace (n + p + 1 - p - 1) with n by lia. replace (m + q + 1 - q - 1) with m by lia. exact G.
    - intros. simpl. lra. }
  assert (forall u v, (0 <= u <= 1)%R -> (0 <= v <= 1)%R ->
    Surface_Evaluate s u v = Ok (lerp2 a b d (seg_param p (KnotsU s) u) (seg_param q (KnotsV s) v))) as Ev.
  { intros u v Hu Hv. rewrite (surf_eval_lerp2 s a b d (fun i => IZR i / IZR (n - 1))%R (fun j => IZR j / IZR (m - 1))%R u v W Hu Hv).
    - unfold seg_param. rewrite D1, D2, LU, LV. replace (n + p + 1 - p - 2) with (n - 1) by lia. replace (m + q + 1 - q - 2) with (m - 1) by lia. reflexivity.
    - intros i j Hi Hj. rewrite (gp_grid _ _ _ _ i j G) by lia. reflexivity. }
  split; [exact W|]. split; [exact D1|]. split; [exact D2|]. split; [exact NU|]. split; [exact NV|].
  rewrite !Ev by lra. rewrite !seg_param_0, !seg_param_1 by assumption.
  split; [unfold lerp2; destruct a, b, d; simpl; do 2 f_equal; ring|].
  split; [unfold lerp2; destruct a, b, d; simpl; do 2 f_equal; ring|].
  split; [unfold lerp2; destruct a, b, d; simpl; do 2 f_equal; ring|].
  split; [reflexivity|]. intros u v Hu Hv. exists (seg_param p (KnotsU s) u), (seg_param q (KnotsV s) v).
  split; [apply seg_param_bounds; assumption|]. split; [apply seg_param_bounds; assumption|]. split; [apply Ev; assumption|].
  split; intros Eq; unfold seg_param; rewrite ?LU, ?LV.
  - replace (n + p + 1 - p - 2) with p by lia. apply bezier_precision; auto; lia.
  - replace (m + q + 1 - q - 2) with q by lia. apply bezier_precision; auto; lia.
Qed.
Lemma C56_refuted_lemma : exists (a b d e q : vec3 R) s, GeomRect_GetSurface 1 1 2 2 a b d e = Ok s /\ wf_surface s /\
  Surface_Evaluate s 1%R 1%R = Ok q /\ q <> e.
Proof.
  destruct (C56_lemma 1 1 2 2 (Vec3 0 0 0) (Vec3 1 0 0) (Vec3 0 1 0) (Vec3 2 2 0))%R as [s [E [W [_ [_ [_ [_ [_ [_ [_ [Q _]]]]]]]]]]]; try lia.
  { unfold INT_MAX. lia. }
  eexists _, _, _, _, _, s. split; [exact E|]. split; [exact W|]. split; [exact Q|]. unfold lerp2. simpl. intros H. inversion H. lra.
Qed.
