(** The parameter searches are the iterations of [SpecIter] (C81, C82, C83). *)
From Coq Require Import Reals ZArith List Lra Lia QArith Qreals Bool.
From Coquelicot Require Import Coquelicot.
From Verif Require Import Outcome Num ModelCore ModelBasis ModelCurve ModelSurface SpecCore SpecBasis SpecCurve SpecSurface SpecSearch
  SpecDeriv SpecIter ThB64 ThOutcome ThReal ThMath ThKnots ThGrid ThVec ThSum ThSpline ThBasis ThCurve ThSurface ThSurface2 ThGeom ThDeriv ThDers ThLeib ThDerivs ThDerivs2 ThSearch.
Import ListNotations.
Open Scope R_scope.

(** ** Uniqueness of the slope *)
Lemma slope_unique f a b x g g' : a < b -> a <= x <= b -> slope_in f a b x g -> slope_in f a b x g' -> g = g'.
Proof.
  intros Hab Hx [F [HF DF]] [G [HG DG]].
  pose (D := fun t => F t - G t).
  assert (DD : is_derive D x (g - g')).
  { unfold D. apply (is_derive_minus F G x g g' DF DG). }
  assert (ZD : forall t, a < t < b -> D t = 0).
  { intros t Ht. unfold D. rewrite <- HF, <- HG by assumption. ring. }
  apply is_derive_Reals in DD.
  (* D x = 0 by continuity *)
  assert (D0 : D x = 0).
  { destruct (Req_dec (D x) 0) as [E|N]; [exact E|exfalso].
    assert (C : continuity_pt D x) by (apply derivable_continuous_pt; exists (g - g'); exact DD).
    destruct (C (Rabs (D x)) ltac:(apply Rabs_pos_lt; exact N)) as [d [Hd Q]].
    assert (exists t, a < t < b /\ t <> x /\ Rabs (t - x) < d) as [t [Ht [Nt Dt]]].
    { destruct (Rlt_le_dec x b) as [L|L].
      - exists (x + Rmin d (b - x) / 2). pose proof (Rmin_l d (b - x)). pose proof (Rmin_r d (b - x)).
        assert (0 < Rmin d (b - x)) by (apply Rmin_glb_lt; lra). split; [lra|]. split; [lra|]. rewrite Rabs_right; lra.
      - assert (x = b) as -> by lra. exists (b - Rmin d (b - a) / 2). pose proof (Rmin_l d (b - a)). pose proof (Rmin_r d (b - a)).
        assert (0 < Rmin d (b - a)) by (apply Rmin_glb_lt; lra). split; [lra|]. split; [lra|]. rewrite Rabs_left; lra. }
    specialize (Q t). unfold D_x, no_cond, dist in Q. cbn in Q. unfold R_dist in Q.
    specialize (Q ltac:(split; [split; [exact I|auto]|exact Dt])). rewrite (ZD t Ht) in Q.
    rewrite Rminus_0_l, Rabs_Ropp in Q. lra. }
  destruct (Req_dec g g') as [E|N]; [exact E|exfalso].
  destruct (DD (Rabs (g - g')) ltac:(apply Rabs_pos_lt; lra)) as [d Q].
  assert (exists h, a < x + h < b /\ h <> 0 /\ Rabs h < d) as [h [Ht [Nt Dt]]].
  { pose proof (cond_pos d) as Hd. destruct (Rlt_le_dec x b) as [L|L].
    - exists (Rmin d (b - x) / 2). pose proof (Rmin_l d (b - x)). pose proof (Rmin_r d (b - x)).
      assert (0 < Rmin d (b - x)) by (apply Rmin_glb_lt; lra). split; [lra|]. split; [lra|]. rewrite Rabs_right; lra.
    - assert (x = b) as -> by lra. exists (- (Rmin d (b - a) / 2)). pose proof (Rmin_l d (b - a)). pose proof (Rmin_r d (b - a)).
      assert (0 < Rmin d (b - a)) by (apply Rmin_glb_lt; lra). split; [lra|]. split; [lra|]. rewrite Rabs_left; lra. }
  specialize (Q h Nt Dt). rewrite D0, (ZD _ Ht) in Q. replace ((0 - 0) / h - (g - g')) with (- (g - g')) in Q by (field; exact Nt).
  rewrite Rabs_Ropp in Q. lra.
Qed.
Lemma slope_at_unique p l f x g g' : clamped p l -> slope_at l f x g -> slope_at l f x g' -> g = g'.
Proof.
  intros C [j [Hj [Ij Sj]]] [k [Hk [Ik Sk]]].
  assert (E : j = k).
  { eapply in_span_unique; try eassumption; [apply (cl_sorted _ _ C)|]. apply (cl_one _ _ C). pose proof (cl_degree _ _ C). lia. }
  subst k. apply (slope_unique f (at_ l j) (at_ l (j + 1)) x g g'); auto.
  - destruct Ij as [I|I]; lra.
  - destruct Ij as [I|I]; lra.
Qed.

(** ** The code's gradients are slopes of half the squared distance *)
Lemma half_sq_derive (X Y Z : R -> R) (P : vec3 R) x dx dy dz :
  is_derive X x dx -> is_derive Y x dy -> is_derive Z x dz ->
  is_derive (fun t => half_sq (Vec3 (X t) (Y t) (Z t)) P) x ((X x - x3 P) * dx + (Y x - y3 P) * dy + (Z x - z3 P) * dz).
Proof.
  intros HX HY HZ. unfold half_sq. cbn [x3 y3 z3].
  auto_derive.
  - repeat split; try (eexists; eassumption).
  - replace (Derive (fun t => X t) x) with dx by (symmetry; apply is_derive_unique; exact HX).
    replace (Derive (fun t => Y t) x) with dy by (symmetry; apply is_derive_unique; exact HY).
    replace (Derive (fun t => Z t) x) with dz by (symmetry; apply is_derive_unique; exact HZ). field.
Qed.
Lemma cder_derive c j f x : wf_curve c -> (Degree c <= j <= len (Knots c) - Degree c - 2)%Z -> span_at (kf (Knots c)) j x ->
  is_derive (fun t => cder c j f 0 t) x (cder c j f 1 x).
Proof.
  intros W Hj Sp. change 1%Z with (0 + 1)%Z. apply quo1_derive.
  - intros; apply piece_derive; [apply (wf_knots c W)|apply (span_nonempty _ _ _ Sp)|assumption].
  - intros; apply piece_derive; [apply (wf_knots c W)|apply (span_nonempty _ _ _ Sp)|assumption].
  - lia.
  - pose proof (hder_w_pos c j x W Hj (span_nonempty _ _ _ Sp) (span_bounds _ _ _ Sp)). lra.
Qed.
Lemma curve_slope c P x : wf_curve c -> unit_interval x ->
  exists g, (e <- Curve_Evaluate c x ;; d <- Curve_EvaluateDerivative c x 1 ;; Ok (v3dot (v3sub e P) d)) = Ok g /\
    slope_at (Knots c) (fun t => half_sq (curve_point c t) P) x g.
Proof.
  intros W Hx. rewrite eval_ok by assumption. cbn [bind].
  destruct (Curve_EvaluateAll_ok c x 1 W Hx ltac:(lia)) as [j [res [Hj [Sp [Er [Lr Gr]]]]]].
  unfold Curve_EvaluateDerivative. rewrite Er. cbn [bind]. rewrite Gr by lia. cbn [bind].
  eexists. split; [reflexivity|]. pose proof (cl_degree _ _ (wf_knots c W)) as P0.
  exists j. split; [lia|]. split; [apply span_at_in; [lia|exact Sp]|]. rewrite <- !kf_at by lia.
  exists (fun t => half_sq (cder3 c j 0 t) P). split.
  - intros t Ht. rewrite cder3_0; [reflexivity|exact W|left; lra].
  - rewrite <- (cder3_0 c j x W Sp).
    pose proof (half_sq_derive _ _ _ P x _ _ _ (cder_derive c j x4 x W Hj Sp) (cder_derive c j y4 x W Hj Sp) (cder_derive c j z4 x W Hj Sp)) as D.
    unfold v3dot, v3sub, cder3. cbn [x3 y3 z3]. norm_R. exact D.
Qed.
Lemma sder_du s ju jv f u v : wf_surface s ->
  (DegreeU s <= ju <= len (KnotsU s) - DegreeU s - 2)%Z -> span_at (kf (KnotsU s)) ju u ->
  (DegreeV s <= jv <= len (KnotsV s) - DegreeV s - 2)%Z -> span_at (kf (KnotsV s)) jv v ->
  is_derive (fun t => sder s ju jv f 0 0 t v) u (sder s ju jv f 1 0 u v) /\
  is_derive (fun t => sder s ju jv f 0 0 u t) v (sder s ju jv f 0 1 u v).
Proof.
  intros W Hju Su Hjv Sv.
  pose proof (hsd_w_pos s ju jv u v W Hju (span_nonempty _ _ _ Su) Hjv (span_nonempty _ _ _ Sv) (span_bounds _ _ _ Su) (span_bounds _ _ _ Sv)) as Wp.
  change 1%Z with (0 + 1)%Z. split.
  + apply (quo2_du (hsd s ju jv f) (hsd s ju jv w4)); try lia; try lra.
    * intros. apply hsd_du; [assumption|apply (span_nonempty _ _ _ Su)|assumption].
    * intros. apply hsd_du; [assumption|apply (span_nonempty _ _ _ Su)|assumption].
  + apply (quo2_dv (hsd s ju jv f) (hsd s ju jv w4)); try lia; try lra.
    * intros. apply hsd_dv; [assumption|apply (span_nonempty _ _ _ Sv)|assumption].
    * intros. apply hsd_dv; [assumption|apply (span_nonempty _ _ _ Sv)|assumption].
Qed.
Lemma surf_slope s P u v : wf_surface s -> unit_interval u -> unit_interval v ->
  exists du dv, Surface_EvaluateDerivative s u v 1 0 = Ok du /\ Surface_EvaluateDerivative s u v 0 1 = Ok dv /\
    slope_at (KnotsU s) (fun t => half_sq (surf_point s t v) P) u (v3dot (v3sub (surf_point s u v) P) du) /\
    slope_at (KnotsV s) (fun t => half_sq (surf_point s u t) P) v (v3dot (v3sub (surf_point s u v) P) dv).
Proof.
  intros W Hu Hv.
  assert (B : forall k l, (0 <= k <= 1)%Z -> (0 <= l <= 1)%Z -> binomials_fit k l).
  { intros k l Hk Hl. apply binomials_fit_29; lia. }
  destruct (Surface_EvaluateAll_ok s u v 1 0 W Hu Hv ltac:(lia) ltac:(lia) (B 1 0 ltac:(lia) ltac:(lia))%Z) as [ju [jv [res [Hju [Su [Hjv [Sv [E1 [E2 [Er Gr]]]]]]]]]].
  destruct (Surface_EvaluateAll_ok s u v 0 1 W Hu Hv ltac:(lia) ltac:(lia) (B 0 1 ltac:(lia) ltac:(lia))%Z) as [ju' [jv' [res' [_ [_ [_ [_ [E1' [E2' [Er' Gr']]]]]]]]]].
  assert (ju' = ju) by congruence. assert (jv' = jv) by congruence. subst ju' jv'.
  exists (sder3 s ju jv 1 0 u v), (sder3 s ju jv 0 1 u v). unfold Surface_EvaluateDerivative. rewrite Er, Er'. cbn [bind].
  rewrite (Grid_Get_ok _ _ _ _ _ _ Gr), (Grid_Get_ok _ _ _ _ _ _ Gr') by lia.
  split; [reflexivity|]. split; [reflexivity|].
  pose proof (cl_degree _ _ (ws_knotsU s W)) as P0. pose proof (cl_degree _ _ (ws_knotsV s W)) as Q0.
  destruct (sder_du s ju jv x4 u v W Hju Su Hjv Sv) as [Dx Dx'].
  destruct (sder_du s ju jv y4 u v W Hju Su Hjv Sv) as [Dy Dy'].
  destruct (sder_du s ju jv z4 u v W Hju Su Hjv Sv) as [Dz Dz'].
  split.
  - exists ju. split; [lia|]. split; [apply span_at_in; [lia|exact Su]|]. rewrite <- !kf_at by lia.
    exists (fun t => half_sq (sder3 s ju jv 0 0 t v) P). split.
    + intros t Ht. rewrite sder3_00; [reflexivity|exact W|left; lra|exact Sv].
    + rewrite <- (sder3_00 s ju jv u v W Su Sv). pose proof (half_sq_derive _ _ _ P u _ _ _ Dx Dy Dz) as D.
      unfold v3dot, v3sub, sder3. cbn [x3 y3 z3]. norm_R. exact D.
  - exists jv. split; [lia|]. split; [apply span_at_in; [lia|exact Sv]|]. rewrite <- !kf_at by lia.
    exists (fun t => half_sq (sder3 s ju jv 0 0 u t) P). split.
    + intros t Ht. rewrite sder3_00; [reflexivity|exact W|exact Su|left; lra].
    + rewrite <- (sder3_00 s ju jv u v W Su Sv). pose proof (half_sq_derive _ _ _ P v _ _ _ Dx' Dy' Dz') as D.
      unfold v3dot, v3sub, sder3. cbn [x3 y3 z3]. norm_R. exact D.
Qed.

(** ** One parameter *)
Lemma clamp01_nclamp (x : R) : nclamp x n0 n1 = clamp01 x.
Proof. unfold clamp01, Rmax, Rmin. norm_R. bool_R; repeat destruct (Rle_dec _ _); lra. Qed.
Lemma clamp01_unit x : unit_interval (clamp01 x).
Proof. rewrite <- clamp01_nclamp. apply clamp_unit. Qed.

Section Run1.
  Variables (Rn fi : R -> outcome R) (dist : R -> R) (slope : R -> R -> Prop) (m : nat) (eps mx : R).
  Hypothesis HR : forall x, unit_interval x -> Rn x = Ok (dist x).
  Hypothesis Hf : forall x, unit_interval x -> exists g, fi x = Ok g /\ slope x g.
  Hypothesis Hu : forall x g g', unit_interval x -> slope x g -> slope x g' -> g = g'.

  Lemma line_search_backtrack x r h g x' n : forall i, (i + n = m)%nat ->
    (forall k, (k < i)%nat -> ~ dist (clamp01 (x - (9 / 10) ^ k * (h * g))) <= r - 1 / 10000 * (9 / 10) ^ k * (h * g ^ 2)) ->
    line_search Rn x r h g n ((9 / 10) ^ i) = Ok x' -> backtrack dist m x r h g x'.
  Proof using HR.
    induction n as [|n IH]; intros i Hi Hk; cbn [line_search]; rewrite ?clamp01_nclamp.
    - intros [= <-]. exists i. split; [lia|]. split; [f_equal; norm_R; ring|]. split; [exact Hk|]. intros; lia.
    - rewrite HR by apply clamp01_unit. cbn [bind].
      assert (E1 : clamp01 (nsub x (nmul (nmul ((9 / 10) ^ i) h) g)) = clamp01 (x - (9 / 10) ^ i * (h * g))) by (f_equal; norm_R; ring).
      rewrite E1.
      assert (E2 : nsub r (nmul (nmul (nmul (nmul (nlit (1 # 10000)) ((9 / 10) ^ i)) g) h) g) = r - 1 / 10000 * (9 / 10) ^ i * (h * g ^ 2)).
      { norm_R. unfold Q2R. cbn [Qnum Qden]. field. }
      rewrite E2. change (@nleb R Num_R) with Rleb. destruct (Rleb_spec (dist (clamp01 (x - (9 / 10) ^ i * (h * g)))) (r - 1 / 10000 * (9 / 10) ^ i * (h * g ^ 2))) as [L|L].
      + intros [= <-]. exists i. split; [lia|]. split; [reflexivity|]. split; [exact Hk|]. intros _; exact L.
      + assert (E3 : nmul ((9 / 10) ^ i) (nlit (9 # 10)) = (9 / 10) ^ (S i)).
        { norm_R. unfold Q2R. cbn [Qnum Qden pow]. field. }
        rewrite E3. apply IH; [lia|]. intros k Hk'. destruct (Nat.eq_dec k i) as [->|]; [lra|]. apply Hk. lia.
  Qed.
  Lemma backtrack_unique x r h g a b : backtrack dist m x r h g a -> backtrack dist m x r h g b -> a = b.
  Proof using.
    intros [i [Hi [-> [Ni Yi]]]] [j [Hj [-> [Nj Yj]]]].
    destruct (lt_eq_lt_dec i j) as [[L| ->]|L]; [|reflexivity|].
    - exfalso. apply (Nj i L). apply Yi. lia.
    - exfalso. apply (Ni j L). apply Yj. lia.
  Qed.
  Lemma secant_unique s y a b : secant s y a -> secant s y b -> a = b.
  Proof using.
    intros [A1 A2] [B1 B2]. destruct (Rlt_le_dec (Rabs (s * y)) (1 / 10 ^ 16)) as [L|L].
    - rewrite A2, B2 by exact L. reflexivity.
    - specialize (A1 L). specialize (B1 L). assert (y <> 0).
      { intros ->. rewrite Rmult_0_r, Rabs_R0 in L. assert (0 < 1 / 10 ^ 16) by (apply Rdiv_lt_0_compat; [lra|apply pow_lt; lra]). lra. }
      apply (Rmult_eq_reg_r y); [congruence|assumption].
  Qed.
  Lemma backtrack_unit x r h g a : backtrack dist m x r h g a -> unit_interval a.
  Proof using. intros [j [_ [-> _]]]. apply clamp01_unit. Qed.
  Lemma run_unique k x r h u : search_run dist slope m eps mx k x r h u -> unit_interval x ->
    forall u', search_run dist slope m eps mx k x r h u' -> u = u'.
  Proof using Hu.
    induction 1 as [k x r h [S|S]|k x r h g x' g' h' u Hr Hk Hg Hb Hg' Hs Run IH]; intros Hx u' R'.
    - inversion R'; subst; [reflexivity|contradiction].
    - inversion R'; subst; [reflexivity|lra].
    - inversion R' as [? ? ? ? S|? ? ? ? g1 x1 g1' h1 ? Hr1 Hk1 Hg1 Hb1 Hg1' Hs1 Run1]; subst.
      + destruct S; [contradiction|lra].
      + assert (g1 = g) by (eapply Hu; eassumption). subst g1.
        assert (x1 = x') by (eapply backtrack_unique; eassumption). subst x1.
        pose proof (backtrack_unit _ _ _ _ _ Hb) as Hx'.
        assert (g1' = g') by (eapply Hu; eassumption). subst g1'.
        assert (h1 = h') by (eapply secant_unique; eassumption). subst h1.
        apply IH; assumption.
  Qed.
  Lemma loop_run fuel : forall k x r h u, unit_interval x ->
    search_loop Rn fi m eps mx fuel (Z.of_nat k) x r h = Ok u -> search_run dist slope m eps mx k x r h u.
  Proof using HR Hf.
    induction fuel as [|fuel IH]; intros k x r h u Hx; cbn [search_loop];
      change (@nltb R Num_R r eps) with (Rltb r eps);
      change (@nleb R Num_R mx (nofZ (Z.of_nat k))) with (Rleb mx (IZR (Z.of_nat k))); rewrite <- INR_IZR_INZ;
      (destruct (Rltb_spec r eps); [intros [= <-]; apply run_stop; left; assumption|]);
      (destruct (Rleb_spec mx (INR k)); [intros [= <-]; apply run_stop; right; assumption|]).
    - discriminate.
    - destruct (Hf x Hx) as [g [Eg Sg]]. rewrite Eg. cbn [bind]. intros E.
      apply bind_Ok in E. destruct E as [x' [Ex E]].
      assert (B : backtrack dist m x r h g x').
      { apply (line_search_backtrack x r h g x' m 0); [lia|intros; lia|]. exact Ex. }
      pose proof (backtrack_unit _ _ _ _ _ B) as Hx'.
      destruct (Hf x' Hx') as [g' [Eg' Sg']]. rewrite Eg' in E. cbn [bind] in E.
      set (h1 := if Rlt_dec (Rabs ((x' - x) * (g' - g))) (1 / 10 ^ 16) then (1 - 10 ^ 10 * ((x' - x) * (g' - g))) ^ 2 + 10 ^ 10 * (x' - x) ^ 2
                 else (x' - x) / (g' - g)).
      assert (Pos : 0 < 1 / 10 ^ 16) by (apply Rdiv_lt_0_compat; [lra|apply pow_lt; lra]).
      apply (run_step dist slope m eps mx k x r h g x' g' h1 u); auto; [lra| |].
      + unfold h1. split; intros L; destruct (Rlt_dec _ _); try lra. field. intros Z.
        rewrite Z, Rmult_0_r, Rabs_R0 in L. lra.
      + revert E. change (@nltb R Num_R) with Rltb. norm_R. rewrite Rabs_if. replace (Q2R (1 # 10000000000000000)) with (1 / 10 ^ 16) by (unfold Q2R; cbn [Qnum Qden]; lra).
        rewrite (Rmult_comm (g' - g) (x' - x)) at 1.
        destruct (Rltb_spec (Rabs ((x' - x) * (g' - g))) (1 / 10 ^ 16)) as [L|L].
        * rewrite Rdivo_ok by (unfold Q2R; cbn [Qnum Qden]; lra). cbn [bind]. rewrite HR by exact Hx'. cbn [bind].
          replace (Z.of_nat k + 1)%Z with (Z.of_nat (S k)) by lia. intros E. apply IH in E; [|exact Hx'].
          revert E. match goal with |- search_run _ _ _ _ _ _ _ _ ?a _ -> search_run _ _ _ _ _ _ _ _ ?b _ => replace b with a; [auto|] end.
          unfold h1. destruct (Rlt_dec _ _); [|contradiction]. unfold Q2R; cbn [Qnum Qden]. field.
        * assert (Nz : (g' - g) * (x' - x) <> 0).
          { intros Z. rewrite Rmult_comm, Z, Rabs_R0 in L. lra. }
          rewrite Rdivo_ok by exact Nz. cbn [bind]. rewrite HR by exact Hx'. cbn [bind].
          replace (Z.of_nat k + 1)%Z with (Z.of_nat (S k)) by lia. intros E. apply IH in E; [|exact Hx'].
          revert E. match goal with |- search_run _ _ _ _ _ _ _ _ ?a _ -> search_run _ _ _ _ _ _ _ _ ?b _ => replace b with a; [auto|] end.
          unfold h1. destruct (Rlt_dec _ _); [contradiction|]. field.
          split; intros Z; apply Nz; rewrite Z; ring.
  Qed.
  Lemma loop_iff n x u : unit_interval x -> mx <= INR n ->
    search_loop Rn fi m eps mx n 0 x dbl_max 1 = Ok u <-> search_run dist slope m eps mx 0 x dbl_max 1 u.
  Proof using HR Hf Hu.
    intros Hx Hn. split; intros H.
    - apply (loop_run n 0%nat); assumption.
    - destruct (search_loop_ok Rn fi m eps mx) with (fuel := n) (count := 0%Z) (u := x) (res := dbl_max) (H := 1) as [v [Ev Hv]]; auto.
      + intros y Hy. rewrite HR by exact Hy. eauto.
      + intros y Hy. destruct (Hf y Hy) as [g [-> _]]. eauto.
      + lra.
      + rewrite Ev. f_equal. symmetry. apply (run_unique _ _ _ _ _ H Hx). apply (loop_run n 0%nat); assumption.
  Qed.
End Run1.

Lemma C81_lemma c P init eps mx n u : wf_curve c -> unit_interval init -> mx <= INR n ->
  Curve_SearchParameter n c P init eps mx = Ok u <->
  search_run (fun x => dist3 (curve_point c x) P) (slope_at (Knots c) (fun x => half_sq (curve_point c x) P)) 20 eps mx 0 init dbl_max 1 u.
Proof.
  intros W Hi Hn. unfold Curve_SearchParameter. cbn zeta. rewrite DBL_MAX_R. change LS_MAX with 20%nat. apply loop_iff; auto.
  - intros x Hx. rewrite eval_ok by assumption. cbn [bind]. now rewrite dist3_norm.
  - intros x Hx. destruct (curve_slope c P x W Hx) as [g [Eg Sg]]. exists g. split; [|exact Sg]. rewrite <- Eg.
    rewrite eval_ok by assumption. reflexivity.
  - intros x g g' _. apply (slope_at_unique (Degree c)), (wf_knots c W).
Qed.

Ltac eqb01 := change (0 =? 0)%Z with true; change (0 =? 1)%Z with false; change (1 =? 0)%Z with false; change (1 =? 1)%Z with true; cbv iota.
Lemma C83_lemma s P d k init eps mx n u v : wf_surface s -> (0 <= d <= 1)%Z -> unit_interval k -> unit_interval init -> mx <= INR n ->
  Surface_SearchParameterOn n s P d k init eps mx = Ok (u, v) <->
  (d = 0%Z /\ u = k /\ search_run (fun x => dist3 (surf_point s k x) P) (slope_at (KnotsV s) (fun x => half_sq (surf_point s k x) P)) 0 eps mx 0 init dbl_max 1 v) \/
  (d = 1%Z /\ v = k /\ search_run (fun x => dist3 (surf_point s x k) P) (slope_at (KnotsU s) (fun x => half_sq (surf_point s x k) P)) 0 eps mx 0 init dbl_max 1 u).
Proof.
  intros W Hd Hk Hi Hn. unfold Surface_SearchParameterOn. cbn zeta. rewrite DBL_MAX_R.
  assert (d = 0 \/ d = 1)%Z as [-> | ->] by lia.
  - match goal with |- context [search_loop ?r ?f _ eps mx _ 0 init _ n1] => set (Rn := r); set (fi := f) end.
    assert (L : forall x, search_loop Rn fi 0 eps mx n 0 init dbl_max 1 = Ok x <->
      search_run (fun x => dist3 (surf_point s k x) P) (slope_at (KnotsV s) (fun x => half_sq (surf_point s k x) P)) 0 eps mx 0 init dbl_max 1 x).
    { intros x. apply loop_iff; auto.
      - intros y Hy. unfold Rn, on_uv. eqb01. rewrite seval_ok by assumption. cbn [bind]. now rewrite dist3_norm.
      - intros y Hy. unfold fi, on_uv. eqb01. rewrite seval_ok by assumption. cbn [bind].
        destruct (surf_slope s P k y W Hk Hy) as [du [dv [_ [-> [_ S]]]]]. cbn [bind]. eexists; split; [reflexivity|exact S].
      - intros y g g' _. apply (slope_at_unique (DegreeV s)), (ws_knotsV s W). }
    unfold on_result. eqb01. split.
    + intros E. apply bind_Ok in E. destruct E as [x [Ex E]]. injection E as <- <-. left. split; [reflexivity|]. split; [reflexivity|]. apply L, Ex.
    + intros [[_ [-> Run]]|[F _]]; [|lia]. apply L in Run. change (@n1 R Num_R) with 1. rewrite Run. reflexivity.
  - match goal with |- context [search_loop ?r ?f _ eps mx _ 0 init _ n1] => set (Rn := r); set (fi := f) end.
    assert (L : forall x, search_loop Rn fi 0 eps mx n 0 init dbl_max 1 = Ok x <->
      search_run (fun x => dist3 (surf_point s x k) P) (slope_at (KnotsU s) (fun x => half_sq (surf_point s x k) P)) 0 eps mx 0 init dbl_max 1 x).
    { intros x. apply loop_iff; auto.
      - intros y Hy. unfold Rn, on_uv. eqb01. rewrite seval_ok by assumption. cbn [bind]. now rewrite dist3_norm.
      - intros y Hy. unfold fi, on_uv. eqb01. rewrite seval_ok by assumption. cbn [bind].
        destruct (surf_slope s P y k W Hy Hk) as [du [dv [-> [_ [S _]]]]]. cbn [bind]. eexists; split; [reflexivity|exact S].
      - intros y g g' _. apply (slope_at_unique (DegreeU s)), (ws_knotsU s W). }
    unfold on_result. eqb01. split.
    + intros E. apply bind_Ok in E. destruct E as [x [Ex E]]. injection E as <- <-. right. split; [reflexivity|]. split; [reflexivity|]. apply L, Ex.
    + intros [[F _]|[_ [-> Run]]]; [lia|]. apply L in Run. change (@n1 R Num_R) with 1. rewrite Run. reflexivity.
Qed.

(** ** Two parameters *)
Definition mat_of (h : sym2) : (R * R) * (R * R) := ((s11 h, s12 h), (s12 h, s22 h)).
Lemma clamp01_2_unit x : unit_square (clamp01_2 x).
Proof. split; apply clamp01_unit. Qed.
Lemma v2clamp_clamp x : v2clamp x = clamp01_2 x.
Proof. unfold v2clamp, clamp01_2. now rewrite !clamp01_nclamp. Qed.

(** the matrix the code computes, with curvature [d] *)
Definition upd (h : sym2) (s y : R * R) (d : R) : sym2 :=
  let q := fun a b => dot2 a (apply2 h b) in
  let e1 := along (1, 0) (- (fst s / d)) y in
  let e2 := along (0, 1) (- (snd s / d)) y in
  Sym2 (q e1 e1 + fst s ^ 2 / d) (q e1 e2 + fst s * snd s / d) (q e2 e2 + snd s ^ 2 / d).
Lemma upd_form h s y d : d <> 0 -> bfgs_form h s y d (upd h s y d).
Proof.
  intros Hd [a b]. destruct h as [h1 h2 h3], s as [s1 s2], y as [y1 y2]. unfold upd, quad, along, apply2, dot2. cbn [fst snd s11 s12 s22]. field. exact Hd.
Qed.
Lemma bfgs_form_unique h s y d a b : bfgs_form h s y d a -> bfgs_form h s y d b -> a = b.
Proof.
  intros A B. assert (Q : forall v, quad a v = quad b v) by (intros v; rewrite A, B; reflexivity).
  pose proof (Q (1, 0)) as Q1. pose proof (Q (0, 1)) as Q2. pose proof (Q (1, 1)) as Q3.
  destruct a as [a1 a2 a3], b as [b1 b2 b3]. unfold quad, apply2, dot2 in *. cbn [fst snd s11 s12 s22] in *. f_equal; lra.
Qed.
Lemma bfgs_unique h s y a b : bfgs h s y a -> bfgs h s y b -> a = b.
Proof.
  intros [A1 A2] [B1 B2]. destruct (Rlt_le_dec (Rabs (dot2 s y)) (1 / 10 ^ 16)) as [L|L].
  - eapply bfgs_form_unique; [apply A2, L|apply B2, L].
  - eapply bfgs_form_unique; [apply A1, L|apply B1, L].
Qed.
Lemma code_upd h s y d rho : d <> 0 -> rho = 1 / d ->
  m2add (m2mul (m2mul (m2sub m2id (m2outer (v2scale rho s) y)) (mat_of h)) (m2sub m2id (m2outer (v2scale rho y) s)))
        (m2outer (v2scale rho s) s) = mat_of (upd h s y d).
Proof.
  intros Hd ->. destruct h as [h1 h2 h3], s as [s1 s2], y as [y1 y2].
  unfold m2add, m2mul, m2sub, m2id, m2outer, v2scale, v2sub, v2dot, mat_of, upd, quad, along, apply2, dot2. cbn [fst snd s11 s12 s22]. norm_R.
  f_equal; f_equal; field; exact Hd.
Qed.

Section Run2.
  Variables (Rn : R * R -> outcome R) (Ki : R * R -> outcome (R * R)) (dist : R * R -> R) (slope : R * R -> R * R -> Prop) (eps mx : R).
  Hypothesis HR : forall x, unit_square x -> Rn x = Ok (dist x).
  Hypothesis Hf : forall x, unit_square x -> exists g, Ki x = Ok g /\ slope x g.
  Hypothesis Hu : forall x g g', unit_square x -> slope x g -> slope x g' -> g = g'.

  Lemma line_search_backtrack2 m x r h g x' n : forall i, (i + n = m)%nat ->
    (forall k, (k < i)%nat -> ~ dist (clamp01_2 (along x (- (9 / 10) ^ k) (apply2 h g))) <= r - 1 / 10000 * (9 / 10) ^ k * quad h g) ->
    line_search2 Rn x r (mat_of h) g n ((9 / 10) ^ i) = Ok x' -> backtrack2 dist m x r h g x'.
  Proof using HR.
    assert (E1 : forall a, v2sub x (m2mulv (m2scale a (mat_of h)) g) = along x (- a) (apply2 h g)).
    { intros a. unfold v2sub, m2mulv, m2scale, v2scale, v2dot, mat_of, along, apply2. cbn [fst snd]. norm_R. f_equal; ring. }
    assert (E0 : v2dot g (m2mulv (mat_of h) g) = quad h g).
    { unfold m2mulv, v2dot, mat_of, quad, dot2, apply2. cbn [fst snd]. norm_R. ring. }
    induction n as [|n IH]; intros i Hi Hk; cbn [line_search2]; rewrite ?v2clamp_clamp, E1.
    - intros [= <-]. exists i. split; [lia|]. split; [reflexivity|]. split; [exact Hk|]. intros; lia.
    - rewrite HR by apply clamp01_2_unit. cbn [bind]. rewrite E0.
      assert (E2 : nsub r (nmul (nmul (nlit (1 # 10000)) ((9 / 10) ^ i)) (quad h g)) = r - 1 / 10000 * (9 / 10) ^ i * quad h g).
      { norm_R. unfold Q2R. cbn [Qnum Qden]. field. }
      rewrite E2. change (@nleb R Num_R) with Rleb.
      match goal with |- context [Rleb ?a ?b] => destruct (Rleb_spec a b) as [L|L] end.
      + intros [= <-]. exists i. split; [lia|]. split; [reflexivity|]. split; [exact Hk|]. intros _; exact L.
      + assert (E3 : nmul ((9 / 10) ^ i) (nlit (9 # 10)) = (9 / 10) ^ (S i)).
        { norm_R. unfold Q2R. cbn [Qnum Qden pow]. field. }
        rewrite E3. apply IH; [lia|]. intros k Hk'. destruct (Nat.eq_dec k i) as [->|]; [lra|]. apply Hk. lia.
  Qed.
  Lemma backtrack2_unique m x r h g a b : backtrack2 dist m x r h g a -> backtrack2 dist m x r h g b -> a = b.
  Proof using.
    intros [i [Hi [-> [Ni Yi]]]] [j [Hj [-> [Nj Yj]]]].
    destruct (lt_eq_lt_dec i j) as [[L| ->]|L]; [|reflexivity|].
    - exfalso. apply (Nj i L). apply Yi. lia.
    - exfalso. apply (Ni j L). apply Yj. lia.
  Qed.
  Lemma backtrack2_unit m x r h g a : backtrack2 dist m x r h g a -> unit_square a.
  Proof using. intros [j [_ [-> _]]]. apply clamp01_2_unit. Qed.
  Lemma run2_unique m k x r h u : search_run2 dist slope m eps mx k x r h u -> unit_square x ->
    forall u', search_run2 dist slope m eps mx k x r h u' -> u = u'.
  Proof using Hu.
    induction 1 as [k x r h [S|S]|k x r h g x' g' h' u Hr Hk Hg Hb Hg' Hs Run IH]; intros Hx u' R'.
    - inversion R'; subst; [reflexivity|contradiction].
    - inversion R'; subst; [reflexivity|lra].
    - inversion R' as [? ? ? ? S|? ? ? ? g1 x1 g1' h1 ? Hr1 Hk1 Hg1 Hb1 Hg1' Hs1 Run1]; subst.
      + destruct S; [contradiction|lra].
      + assert (g1 = g) by (eapply Hu; eassumption). subst g1.
        assert (x1 = x') by (eapply backtrack2_unique; eassumption). subst x1.
        pose proof (backtrack2_unit _ _ _ _ _ _ Hb) as Hx'.
        assert (g1' = g') by (eapply Hu; eassumption). subst g1'.
        assert (h1 = h') by (eapply bfgs_unique; eassumption). subst h1.
        apply IH; assumption.
  Qed.
  Lemma loop2_run fuel : forall k x r h u, unit_square x ->
    search_loop2 Rn Ki eps mx fuel (Z.of_nat k) x r (mat_of h) = Ok u -> search_run2 dist slope 20 eps mx k x r h u.
  Proof using HR Hf.
    induction fuel as [|fuel IH]; intros k x r h u Hx; cbn [search_loop2];
      change (@nltb R Num_R r eps) with (Rltb r eps);
      change (@nleb R Num_R mx (nofZ (Z.of_nat k))) with (Rleb mx (IZR (Z.of_nat k))); rewrite <- INR_IZR_INZ;
      (destruct (Rltb_spec r eps); [intros [= <-]; apply run2_stop; left; assumption|]);
      (destruct (Rleb_spec mx (INR k)); [intros [= <-]; apply run2_stop; right; assumption|]).
    - discriminate.
    - destruct (Hf x Hx) as [g [Eg Sg]]. rewrite Eg. cbn [bind]. intros E.
      apply bind_Ok in E. destruct E as [x' [Ex E]].
      assert (B : backtrack2 dist 20 x r h g x').
      { apply (line_search_backtrack2 20 x r h g x' LS_MAX 0); [reflexivity|intros; lia|]. exact Ex. }
      pose proof (backtrack2_unit _ _ _ _ _ _ B) as Hx'.
      destruct (Hf x' Hx') as [g' [Eg' Sg']]. rewrite Eg' in E. cbn [bind] in E.
      assert (Pos : 0 < 1 / 10 ^ 16) by (apply Rdiv_lt_0_compat; [lra|apply pow_lt; lra]).
      assert (Ed : v2dot (v2sub g' g) (v2sub x' x) = dot2 (diff2 x' x) (diff2 g' g)).
      { unfold v2dot, v2sub, dot2, diff2. cbn [fst snd]. norm_R. ring. }
      rewrite Ed in E. change (v2sub x' x) with (diff2 x' x) in E. change (v2sub g' g) with (diff2 g' g) in E.
      set (s := diff2 x' x) in *. set (y := diff2 g' g) in *.
      assert (Ec : @nltb R Num_R (nabs (dot2 s y)) (nlit (1 # 10000000000000000)) = Rltb (Rabs (dot2 s y)) (1 / 10 ^ 16)).
      { norm_R. rewrite Rabs_if. f_equal. unfold Q2R; cbn [Qnum Qden]; lra. }
      rewrite Ec in E.
      destruct (Rltb_spec (Rabs (dot2 s y)) (1 / 10 ^ 16)) as [L|L].
      + assert (Nz : 1 / 10 ^ 10 <> 0) by lra.
        assert (Er : @ndiv R Num_R n1 (nlit (1 # 10000000000)) = Ok (1 / (1 / 10 ^ 10))).
        { norm_R. rewrite Rdivo_ok by (unfold Q2R; cbn [Qnum Qden]; lra). f_equal. unfold Q2R; cbn [Qnum Qden]. field. }
        rewrite Er in E. cbn [bind] in E. change m2id with (mat_of one2) in E at 2. rewrite (code_upd one2 s y (1 / 10 ^ 10) _ Nz eq_refl) in E.
        rewrite HR in E by exact Hx'. cbn [bind] in E. replace (Z.of_nat k + 1)%Z with (Z.of_nat (S k)) in E by lia. apply IH in E; [|exact Hx'].
        apply (run2_step dist slope 20 eps mx k x r h g x' g' (upd one2 s y (1 / 10 ^ 10)) u); auto.
        * lra.
        * split; [intros; exfalso; fold s y in H; lra|]. intros _. apply upd_form, Nz.
      + assert (Nz : dot2 s y <> 0).
        { intros Z. rewrite Z, Rabs_R0 in L. lra. }
        assert (Er : @ndiv R Num_R n1 (dot2 s y) = Ok (1 / dot2 s y)) by (norm_R; rewrite Rdivo_ok by exact Nz; reflexivity).
        rewrite Er in E. cbn [bind] in E. rewrite (code_upd h s y (dot2 s y) _ Nz eq_refl) in E.
        rewrite HR in E by exact Hx'. cbn [bind] in E. replace (Z.of_nat k + 1)%Z with (Z.of_nat (S k)) in E by lia. apply IH in E; [|exact Hx'].
        apply (run2_step dist slope 20 eps mx k x r h g x' g' (upd h s y (dot2 s y)) u); auto.
        * lra.
        * split; [intros _; apply upd_form, Nz|]. intros; exfalso; fold s y in H; lra.
  Qed.
  Lemma loop2_iff n x u : unit_square x -> mx <= INR n ->
    search_loop2 Rn Ki eps mx n 0 x dbl_max m2id = Ok u <-> search_run2 dist slope 20 eps mx 0 x dbl_max one2 u.
  Proof using HR Hf Hu.
    intros Hx Hn. split; intros H.
    - apply (loop2_run n 0%nat); assumption.
    - destruct (search_loop2_ok Rn Ki eps mx) with (fuel := n) (count := 0%Z) (u := x) (res := dbl_max) (H := @m2id R Num_R) as [v [Ev Hv]]; auto.
      + intros y Hy. rewrite HR by exact Hy. eauto.
      + intros y Hy. destruct (Hf y Hy) as [g [-> _]]. eauto.
      + lra.
      + rewrite Ev. f_equal. symmetry. apply (run2_unique _ _ _ _ _ _ H Hx). apply (loop2_run n 0%nat); assumption.
  Qed.
End Run2.

Lemma C82_lemma s P a b eps mx n uv : wf_surface s -> unit_square (a, b) -> mx <= INR n ->
  Surface_SearchParameter n s P a b eps mx = Ok uv <->
  search_run2 (fun x => dist3 (surf_point s (fst x) (snd x)) P) (slope2_at (KnotsU s) (KnotsV s) (fun u v => half_sq (surf_point s u v) P))
    20 eps mx 0 (a, b) dbl_max one2 uv.
Proof.
  intros W Hab Hn.
  assert (S1 : forall x : R, unit_interval x -> (ngeb x n0 && nleb x n1)%bool = true).
  { intros x Hx. unfold unit_interval in Hx. norm_R. bool_R; try reflexivity; exfalso; lra. }
  unfold Surface_SearchParameter. destruct Hab as [Ha Hb]. cbn [fst snd] in Ha, Hb. rewrite !S1 by assumption. cbn [assert_ bind]. cbn zeta. rewrite DBL_MAX_R.
  apply loop2_iff; auto.
  - intros x [Hx Hy]. rewrite seval_ok by assumption. cbn [bind]. now rewrite dist3_norm.
  - intros x [Hx Hy]. rewrite seval_ok by assumption. cbn [bind].
    destruct (surf_slope s P _ _ W Hx Hy) as [du [dv [-> [-> [S1' S2]]]]]. cbn [bind]. eexists. split; [reflexivity|]. split; assumption.
  - intros x g g' _ [A1 A2] [B1 B2]. destruct g as [g1 g2], g' as [g1' g2']. cbn [fst snd] in *. f_equal.
    + apply (slope_at_unique (DegreeU s) _ _ _ _ _ (ws_knotsU s W) A1 B1).
    + apply (slope_at_unique (DegreeV s) _ _ _ _ _ (ws_knotsV s W) A2 B2).
  - split; assumption.
Qed.

(** ** What the update means *)
(** secant equation and positive definiteness are kept *)
Lemma bfgs_secant h s y h' : bfgs h s y h' -> 1 / 10 ^ 16 <= Rabs (dot2 s y) ->
  apply2 h' y = s /\ ((forall v, v <> (0, 0) -> 0 < quad h v) -> 0 < dot2 s y -> forall v, v <> (0, 0) -> 0 < quad h' v).
Proof.
  intros [B _] L. specialize (B L). assert (Pos : 0 < 1 / 10 ^ 16) by (apply Rdiv_lt_0_compat; [lra|apply pow_lt; lra]).
  assert (Nz : dot2 s y <> 0) by (intros Z; rewrite Z, Rabs_R0 in L; lra). split.
  - assert (E : h' = upd h s y (dot2 s y)) by (eapply bfgs_form_unique; [exact B|apply upd_form, Nz]). rewrite E.
    destruct s as [s1 s2], y as [y1 y2], h as [h1 h2 h3]. unfold upd, apply2, along, dot2 in *. cbn [fst snd s11 s12 s22] in *. f_equal; field; exact Nz.
  - intros Ph Ps v Nv. rewrite B. set (w := along v (- (dot2 s v / dot2 s y)) y).
    assert (P2 : 0 <= dot2 s v ^ 2 / dot2 s y) by (apply Rdiv_le_0_compat; [apply pow2_ge_0|exact Ps]).
    destruct (Req_dec (fst w) 0) as [W1|W1]; [destruct (Req_dec (snd w) 0) as [W2|W2]|].
    + assert (Ev : dot2 s v <> 0).
      { intros Z. apply Nv. revert W1 W2. unfold w, along. rewrite Z. cbn [fst snd]. destruct v as [v1 v2]. cbn [fst snd].
        unfold Rdiv. intros W1 W2. f_equal; lra. }
      assert (0 < dot2 s v ^ 2 / dot2 s y).
      { apply Rdiv_lt_0_compat; [|exact Ps]. rewrite <- Rsqr_pow2. apply Rlt_0_sqr, Ev. }
      assert (quad h w = 0) by (unfold quad, dot2, apply2; rewrite W1, W2; ring). lra.
    + assert (0 < quad h w) by (apply Ph; destruct w; cbn [snd] in W2; intros [= -> ->]; auto). lra.
    + assert (0 < quad h w) by (apply Ph; destruct w; cbn [fst] in W1; intros [= -> ->]; auto). lra.
Qed.
