(** Convergence of the searches on straight lines (C85). *)
From Coq Require Import Reals ZArith List Lra Lia QArith Bool SpecFloat.
From Coquelicot Require Import Coquelicot.
From Verif Require Import Outcome Num ModelCore ModelBasis ModelCurve ModelSurface SpecCore SpecBasis SpecCurve SpecSurface SpecSearch
  SpecIter ThReal ThB64 ThOutcome ThCurve ThSurface2 ThGeom ThCoreWit ThCurveWit ThDecide ThSurfWit ThSearch ThIter ThIterWit.
Import ListNotations.
Open Scope R_scope.

Section Line.
  Variables (dist : R -> R) (slope : R -> R -> Prop) (m : nat) (eps mx D t : R).
  Hypothesis Hd : forall x, unit_interval x -> dist x = D * Rabs (x - t).
  Hypothesis Hs : forall x g, unit_interval x -> slope x g -> g = D ^ 2 * (x - t).
  Hypothesis HD : 1 <= D.
  Hypothesis HM : m = 0%nat \/ D <= 10 ^ 4.
  Hypothesis Ht : unit_interval t.
  Hypothesis He : 1 / 10 ^ 8 <= eps <= dbl_max.

  (** a full step that is good enough is taken *)
  Lemma full_step x r h g x' : backtrack dist m x r h g x' ->
    (m = 0%nat \/ dist (clamp01 (x - h * g)) <= r - 1 / 10000 * (h * g ^ 2)) -> x' = clamp01 (x - h * g).
  Proof using.
    clear HM. intros [j [Hj [-> [No _]]]] Hm.
    assert (E : j = 0%nat).
    { destruct Hm as [-> |Hm]; [lia|]. destruct j as [|j]; [reflexivity|]. exfalso. apply (No 0%nat); [lia|].
      cbn [pow]. rewrite !Rmult_1_l, Rmult_1_r. exact Hm. }
    subst j. cbn [pow]. now rewrite Rmult_1_l.
  Qed.
  Lemma overshoot x x' : unit_interval x -> x' = clamp01 (x - D ^ 2 * (x - t)) -> Rabs (x' - t) <= Rabs (x' - x).
  Proof using HD Ht.
    intros Hx ->. unfold unit_interval in *. assert (D2 : 1 <= D ^ 2) by nra. set (q := D ^ 2 * (x - t)).
    unfold clamp01, Rmax, Rmin. destruct (Rle_dec t x) as [L|L].
    - assert (x - t <= q) by (unfold q; nra). repeat destruct (Rle_dec _ _); unfold Rabs; repeat destruct (Rcase_abs _); lra.
    - assert (q <= x - t) by (unfold q; nra). repeat destruct (Rle_dec _ _); unfold Rabs; repeat destruct (Rcase_abs _); lra.
  Qed.
  Lemma unit_dist x : unit_interval x -> 0 <= dist x <= D.
  Proof using Hd HD Ht.
    intros Hx. rewrite Hd by exact Hx. unfold unit_interval in *. assert (Rabs (x - t) <= 1) by (apply Rabs_le; lra).
    pose proof (Rabs_pos (x - t)). nra.
  Qed.
  Lemma stop_now k x r h u : search_run dist slope m eps mx k x r h u -> r < eps -> u = x.
  Proof using. intros Run L. inversion Run; subst; [reflexivity|contradiction]. Qed.

  Lemma line_converges x u : unit_interval x -> 1 < mx -> search_run dist slope m eps mx 0 x dbl_max 1 u ->
    unit_interval u /\ dist u < eps.
  Proof using Hd Hs HD HM Ht He.
    intros Hx Hmx Run. assert (Big : 10 ^ 17 <= dbl_max).
    { unfold dbl_max. replace (10 ^ 17) with (IZR (10 ^ 17)) by (rewrite pow_IZR; reflexivity). apply IZR_le, Z.leb_le. vm_compute. reflexivity. }
    assert (Pos : 0 < 1 / 10 ^ 16) by lra. assert (D2 : 1 <= D ^ 2) by nra.
    inversion Run as [? ? ? ? S|? ? ? ? g x1 g1 h1 ? Hr Hk Hg Hb Hg1 Hh Run1]; subst.
    { exfalso. cbn [INR] in S. destruct S as [S|S]; [|lra]. apply (Rlt_not_le _ _ S). apply He. }
    apply Hs in Hg; [|exact Hx]. subst g.
    assert (Ex : x1 = clamp01 (x - 1 * (D ^ 2 * (x - t)))).
    { apply (full_step _ _ _ _ _ Hb). destruct HM as [M0|M4]; [left; exact M0|right].
      pose proof (unit_dist _ (clamp01_unit (x - 1 * (D ^ 2 * (x - t))))) as Ud.
      assert (A : (D ^ 2 * (x - t)) ^ 2 <= 10 ^ 16).
      { replace ((D ^ 2 * (x - t)) ^ 2) with ((D ^ 2) ^ 2 * (x - t) ^ 2) by ring.
        assert (B1 : D ^ 2 <= 10 ^ 8) by nra. assert (B2 : (D ^ 2) ^ 2 <= 10 ^ 16) by nra.
        assert (B3 : -1 <= x - t <= 1) by (pose proof Hx as [X0 X1]; pose proof Ht as [T0 T1]; clear - X0 X1 T0 T1; lra). assert (B4 : 0 <= (x - t) ^ 2 <= 1).
        { split; [apply pow2_ge_0|]. revert B3. generalize (x - t). clear. intros z Hz. assert (0 <= (1 - z) * (1 + z)) by (apply Rmult_le_pos; lra). lra. }
        replace (10 ^ 16) with (10 ^ 16 * 1) by ring. apply Rmult_le_compat; [apply pow2_ge_0|apply pow2_ge_0|exact B2|apply B4]. }
      lra. }
    rewrite Rmult_1_l in Ex. assert (Hx1 : unit_interval x1) by (rewrite Ex; apply clamp01_unit).
    apply Hs in Hg1; [|exact Hx1]. subst g1.
    pose proof (overshoot x x1 Hx Ex) as Ov. pose proof (unit_dist x1 Hx1) as U1.
    replace (D ^ 2 * (x1 - t) - D ^ 2 * (x - t)) with (D ^ 2 * (x1 - x)) in Hh by ring.
    destruct Hh as [H1 H2].
    assert (Sy : Rabs ((x1 - x) * (D ^ 2 * (x1 - x))) = (D * Rabs (x1 - x)) ^ 2).
    { replace ((x1 - x) * (D ^ 2 * (x1 - x))) with (D ^ 2 * (x1 - x) ^ 2) by ring. rewrite Rabs_right by (apply Rle_ge, Rmult_le_pos; apply pow2_ge_0).
      rewrite Rpow_mult_distr, pow2_abs. reflexivity. }
    rewrite Sy in H1, H2.
    destruct (Rlt_le_dec (dist x1) eps) as [L|L].
    { apply (stop_now _ _ _ _ _ Run1) in L as E. subst u. split; assumption. }
    rewrite Hd in L by exact Hx1.
    assert (Sb : 1 / 10 ^ 8 <= D * Rabs (x1 - x)).
    { pose proof (Rmult_le_compat_l D _ _ ltac:(lra) Ov). lra. }
    assert (S16 : 1 / 10 ^ 16 <= (D * Rabs (x1 - x)) ^ 2).
    { replace (1 / 10 ^ 16) with ((1 / 10 ^ 8) ^ 2) by field. apply pow_incr. lra. }
    specialize (H1 S16). assert (Sn : x1 - x <> 0).
    { intros Z. rewrite Z, Rabs_R0, Rmult_0_r in Sb. lra. }
    assert (Eh : h1 = / D ^ 2).
    { apply (Rmult_eq_reg_r (D ^ 2 * (x1 - x))); [|apply Rmult_integral_contrapositive; split; [lra|exact Sn]]. rewrite H1. field. lra. }
    subst h1.
    inversion Run1 as [? ? ? ? S|? ? ? ? g x2 g2 h2 ? Hr' Hk' Hg' Hb' Hg2 Hh2 Run2]; subst x0 r h k.
    { exfalso. match goal with H : x1 = u |- _ => rewrite <- H in S end. rewrite Hd in S by exact Hx1. cbn [INR] in S. lra. }
    apply Hs in Hg'; [|exact Hx1]. subst g.
    assert (Et : clamp01 (x1 - / D ^ 2 * (D ^ 2 * (x1 - t))) = t).
    { replace (x1 - / D ^ 2 * (D ^ 2 * (x1 - t))) with t by (field; lra). apply clamp01_id, Ht. }
    assert (Dt : dist t = 0) by (rewrite Hd by exact Ht; rewrite Rminus_eq_0, Rabs_R0; ring).
    assert (E2 : x2 = t).
    { rewrite <- Et. apply (full_step _ _ _ _ _ Hb'). destruct HM as [M0|M4]; [left; exact M0|right].
      rewrite Et, Dt. replace (/ D ^ 2 * (D ^ 2 * (x1 - t)) ^ 2) with (dist x1 ^ 2).
      - nra.
      - rewrite Hd by exact Hx1. rewrite Rpow_mult_distr, pow2_abs. field. lra. }
    subst x2. apply stop_now in Run2; [|rewrite Dt; lra]. subst u. split; [exact Ht|]. rewrite Dt. lra.
  Qed.
End Line.

(** On a short line every step is degenerate and no longer than twice the
    squared length. *)
Section Short.
  Variables (dist : R -> R) (slope : R -> R -> Prop) (m : nat) (eps mx D t : R).
  Hypothesis Hs : forall x g, unit_interval x -> slope x g -> g = D ^ 2 * (x - t).
  Hypothesis HD : 0 <= D <= 1 / 1024.
  Hypothesis Ht : unit_interval t.
  Lemma clamp01_near x d : unit_interval x -> Rabs (clamp01 (x - d) - x) <= Rabs d.
  Proof using.
    unfold unit_interval, clamp01, Rmax, Rmin. intros Hx. repeat destruct (Rle_dec _ _); unfold Rabs; repeat destruct (Rcase_abs _); lra.
  Qed.
  Lemma short_step x h g x' r : unit_interval x -> 0 <= h <= 2 -> g = D ^ 2 * (x - t) -> backtrack dist m x r h g x' ->
    unit_interval x' /\ Rabs (x' - x) <= 2 * D ^ 2.
  Proof using HD Ht.
    intros Hx Hh Eg [j [_ [-> _]]]. split; [apply clamp01_unit|].
    apply Rle_trans with (1 := clamp01_near _ _ Hx). rewrite Eg, !Rabs_mult.
    assert (A : 0 <= (9 / 10) ^ j <= 1).
    { split; [apply pow_le; lra|]. rewrite <- (pow1 j). apply pow_incr. lra. }
    assert (B : Rabs (x - t) <= 1) by (unfold unit_interval in *; apply Rabs_le; lra). pose proof (Rabs_pos (x - t)) as B0.
    pose proof (pow2_ge_0 D) as D2. rewrite (Rabs_right ((9 / 10) ^ j)), (Rabs_right h), (Rabs_right (D ^ 2)) by lra.
    assert (C : D ^ 2 * Rabs (x - t) <= D ^ 2) by (rewrite <- (Rmult_1_r (D ^ 2)) at 2; apply Rmult_le_compat_l; lra).
    assert (C0 : 0 <= D ^ 2 * Rabs (x - t)) by (apply Rmult_le_pos; lra).
    assert (E : h * (D ^ 2 * Rabs (x - t)) <= 2 * D ^ 2) by (apply Rmult_le_compat; lra).
    assert (E0 : 0 <= h * (D ^ 2 * Rabs (x - t))) by (apply Rmult_le_pos; lra).
    rewrite <- (Rmult_1_l (2 * D ^ 2)). apply Rmult_le_compat; lra.
  Qed.
  Lemma short_h s h : Rabs s <= 2 * D ^ 2 -> secant s (D ^ 2 * s) h -> 0 <= h <= 2.
  Proof using HD.
    intros Hs' [_ H2]. assert (B : 0 <= D ^ 2 <= 1 / 2 ^ 20).
    { split; [apply pow2_ge_0|]. replace (1 / 2 ^ 20) with ((1 / 1024) ^ 2) by field. apply pow_incr. lra. }
    assert (S2 : 0 <= s ^ 2 <= 1 / 2 ^ 38).
    { split; [apply pow2_ge_0|]. rewrite <- pow2_abs. replace (1 / 2 ^ 38) with ((1 / 2 ^ 19) ^ 2) by field. apply pow_incr.
      split; [apply Rabs_pos|]. lra. }
    assert (P : 0 <= s * (D ^ 2 * s) <= 1 / 2 ^ 58).
    { replace (s * (D ^ 2 * s)) with (D ^ 2 * s ^ 2) by ring. split; [apply Rmult_le_pos; lra|].
      replace (1 / 2 ^ 58) with (1 / 2 ^ 20 * (1 / 2 ^ 38)) by field. apply Rmult_le_compat; lra. }
    rewrite H2 by (rewrite Rabs_right by lra; lra).
    assert (Q : 0 <= 1 - 10 ^ 10 * (s * (D ^ 2 * s)) <= 1) by lra.
    assert (0 <= (1 - 10 ^ 10 * (s * (D ^ 2 * s))) ^ 2 <= 1).
    { split; [apply pow2_ge_0|]. apply Rle_trans with (1 ^ 2); [apply pow_incr; exact Q|lra]. }
    lra.
  Qed.
  Lemma short_run k x r h u : search_run dist slope m eps mx k x r h u -> unit_interval x -> 0 <= h <= 2 ->
    Rabs (u - x) <= 2 * D ^ 2 * Rmax 0 (mx + 1 - INR k).
  Proof using Hs HD Ht.
    pose proof (pow2_ge_0 D) as D2. intros Run. induction Run as [k x r h _|k x r h g x' g' h' u _ Hk Sg B Sg' Sc _ IH]; intros Hx Hh.
    - rewrite Rminus_eq_0, Rabs_R0. apply Rmult_le_pos; [lra|apply Rmax_l].
    - apply Hs in Sg; [|exact Hx]. destruct (short_step _ _ _ _ _ Hx Hh Sg B) as [Hx' Le]. apply Hs in Sg'; [|exact Hx'].
      subst g g'. replace (D ^ 2 * (x' - t) - D ^ 2 * (x - t)) with (D ^ 2 * (x' - x)) in Sc by ring.
      specialize (IH Hx' (short_h _ _ Le Sc)). rewrite S_INR in IH.
      rewrite Rmax_right in IH by lra. rewrite Rmax_right by lra.
      replace (u - x) with ((u - x') + (x' - x)) by ring. pose proof (Rabs_triang (u - x') (x' - x)).
      replace (2 * D ^ 2 * (mx + 1 - INR k)) with (2 * D ^ 2 * (mx + 1 - (INR k + 1)) + 2 * D ^ 2) by ring. lra.
  Qed.
End Short.

(** the slope of a quadratic *)
Lemma slope_quadratic p l f L t x g : clamped p l -> (forall y, unit_interval y -> f y = L * (y - t) ^ 2 / 2) ->
  slope_at l f x g -> g = L * (x - t).
Proof.
  intros C Hf [j [Hj [Ij Sj]]].
  assert (R0 : forall i, (0 <= i < len l)%Z -> unit_interval (at_ l i)).
  { intros i Hi. pose proof (cl_degree _ _ C). pose proof (cl_len _ _ C). pose proof (cl_sorted _ _ C) as Sd.
    assert (Z0 : at_ l 0 = 0) by (apply (cl_zero _ _ C); lia). assert (O1 : at_ l (len l - 1) = 1) by (apply (cl_one _ _ C); lia).
    split; [rewrite <- Z0|rewrite <- O1]; apply Sd; lia. }
  pose proof (R0 j ltac:(lia)) as A. pose proof (R0 (j + 1)%Z ltac:(lia)) as B. unfold unit_interval in *.
  apply (slope_unique f (at_ l j) (at_ l (j + 1)) x g (L * (x - t))); [destruct Ij; lra|destruct Ij; lra|exact Sj|].
  exists (fun y => L * (y - t) ^ 2 / 2). split; [intros y Hy; apply Hf; unfold unit_interval; lra|].
  auto_derive; [exact I|field].
Qed.
Lemma dist_lerp a b x t : dist3 (lerp a b x) (lerp a b t) = dist3 a b * Rabs (x - t).
Proof.
  unfold dist3. rewrite <- sqrt_Rsqr_abs, <- sqrt_mult; [| |apply Rle_0_sqr].
  - f_equal. unfold lerp, Rsqr. cbn [x3 y3 z3]. norm_R. ring.
  - pose proof (Rle_0_sqr (x3 a - x3 b)). pose proof (Rle_0_sqr (y3 a - y3 b)). pose proof (Rle_0_sqr (z3 a - z3 b)). unfold Rsqr in *. lra.
Qed.
Lemma half_sq_dist a b : half_sq a b = dist3 a b ^ 2 / 2.
Proof.
  unfold half_sq, dist3. rewrite pow2_sqrt; [unfold Rdiv; ring|].
  pose proof (Rle_0_sqr (x3 a - x3 b)). pose proof (Rle_0_sqr (y3 a - y3 b)). pose proof (Rle_0_sqr (z3 a - z3 b)). unfold Rsqr in *. lra.
Qed.
Lemma half_sq_lerp a b x t : half_sq (lerp a b x) (lerp a b t) = dist3 a b ^ 2 * (x - t) ^ 2 / 2.
Proof. rewrite half_sq_dist, dist_lerp, Rpow_mult_distr, pow2_abs. reflexivity. Qed.

Lemma C85_lemma c a b t init eps mx n : wf_curve c -> (forall x, unit_interval x -> Curve_Evaluate c x = Ok (lerp a b x)) ->
  1 <= dist3 a b <= 10 ^ 4 -> unit_interval t -> unit_interval init -> 1 / 10 ^ 8 <= eps <= dbl_max -> 1 < mx <= INR n ->
  exists u, Curve_SearchParameter n c (lerp a b t) init eps mx = Ok u /\ unit_interval u /\ dist3 (curve_point c u) (lerp a b t) < eps.
Proof.
  intros W Ec HD Ht Hi He Hm. destruct (proj1 (C44_lemma c (lerp a b t) init eps mx W Hi) n ltac:(lra)) as [u [Eu _]].
  exists u. split; [exact Eu|]. apply C81_lemma in Eu; [|exact W|exact Hi|lra].
  assert (Cp : forall x, unit_interval x -> curve_point c x = lerp a b x).
  { intros x Hx. specialize (Ec x Hx). rewrite eval_ok in Ec by assumption. congruence. }
  apply (line_converges (fun x => dist3 (curve_point c x) (lerp a b t)) (slope_at (Knots c) (fun x => half_sq (curve_point c x) (lerp a b t))) 20 eps mx (dist3 a b) t) with (x := init); try exact Eu; auto; try lra.
  - intros x Hx. cbn beta. rewrite Cp by exact Hx. apply dist_lerp.
  - intros x g Hx. apply (slope_quadratic (Degree c) _ _ _ _ _ _ (wf_knots c W)). intros y Hy. cbn beta. rewrite Cp by exact Hy. apply half_sq_lerp.
Qed.
Lemma C85_segment_lemma p a b c t init eps mx n : (1 <= p)%Z -> GeomSegment_GetCurve p (p + 1) a b = Ok c ->
  1 <= dist3 a b <= 10 ^ 4 -> unit_interval t -> unit_interval init -> 1 / 10 ^ 8 <= eps <= dbl_max -> 1 < mx <= INR n ->
  exists u, Curve_SearchParameter n c (lerp a b t) init eps mx = Ok u /\ unit_interval u /\ dist3 (curve_point c u) (lerp a b t) < eps.
Proof.
  intros Hp Ec. destruct (C55_lemma p (p + 1) a b Hp ltac:(lia)) as [c' [Ec' [W [_ [_ [_ [_ [_ E]]]]]]]].
  assert (c' = c) by congruence. subst c'. apply C85_lemma; auto.
Qed.
Lemma C85_on_lemma s d k a b t init eps mx n : wf_surface s -> (0 <= d <= 1)%Z -> unit_interval k ->
  (d = 0%Z -> forall x, unit_interval x -> surf_point s k x = lerp a b x) ->
  (d = 1%Z -> forall x, unit_interval x -> surf_point s x k = lerp a b x) ->
  1 <= dist3 a b -> unit_interval t -> unit_interval init -> 1 / 10 ^ 8 <= eps <= dbl_max -> 1 < mx <= INR n ->
  exists u v, Surface_SearchParameterOn n s (lerp a b t) d k init eps mx = Ok (u, v) /\ dist3 (surf_point s u v) (lerp a b t) < eps.
Proof.
  intros W Hd Hk Ec Ec' HD Ht Hi He Hm.
  destruct (proj1 (C54_on_lemma s (lerp a b t) d k init eps mx W Hd Hk Hi) n ltac:(lra)) as [u [v Eu]].
  exists u, v. split; [exact Eu|]. apply C83_lemma in Eu; auto; try lra. destruct Eu as [[-> [-> Eu]]|[-> [-> Eu]]]; [specialize (Ec eq_refl)|specialize (Ec' eq_refl)].
  - apply (line_converges (fun x => dist3 (surf_point s k x) (lerp a b t)) (slope_at (KnotsV s) (fun x => half_sq (surf_point s k x) (lerp a b t))) 0 eps mx (dist3 a b) t) with (x := init); try exact Eu; auto; try lra.
    + intros x Hx. cbn beta. rewrite Ec by exact Hx. apply dist_lerp.
    + intros x g Hx. apply (slope_quadratic (DegreeV s) _ _ _ _ _ _ (ws_knotsV s W)). intros y Hy. cbn beta. rewrite Ec by exact Hy. apply half_sq_lerp.
  - apply (line_converges (fun x => dist3 (surf_point s x k) (lerp a b t)) (slope_at (KnotsU s) (fun x => half_sq (surf_point s x k) (lerp a b t))) 0 eps mx (dist3 a b) t) with (x := init); try exact Eu; auto; try lra.
    + intros x Hx. cbn beta. rewrite Ec' by exact Hx. apply dist_lerp.
    + intros x g Hx. apply (slope_quadratic (DegreeU s) _ _ _ _ _ _ (ws_knotsU s W)). intros y Hy. cbn beta. rewrite Ec' by exact Hy. apply half_sq_lerp.
Qed.

Lemma C85_stall_lemma c a b t init eps mx n u : wf_curve c -> (forall x, unit_interval x -> Curve_Evaluate c x = Ok (lerp a b x)) ->
  dist3 a b <= 1 / 1024 -> unit_interval t -> unit_interval init -> 0 <= mx <= INR n ->
  Curve_SearchParameter n c (lerp a b t) init eps mx = Ok u -> Rabs (u - init) <= 2 * dist3 a b ^ 2 * (mx + 1).
Proof.
  intros W Ec HD Ht Hi Hm Eu. apply C81_lemma in Eu; [|exact W|exact Hi|lra].
  assert (Cp : forall x, unit_interval x -> curve_point c x = lerp a b x).
  { intros x Hx. specialize (Ec x Hx). rewrite eval_ok in Ec by assumption. congruence. }
  apply (short_run _ _ _ _ _ (dist3 a b) t) in Eu; [|intros x g Hx|split; [apply sqrt_pos|exact HD]|exact Ht|exact Hi|lra].
  - cbn [INR] in Eu. rewrite Rmax_right, Rminus_0_r in Eu by lra. exact Eu.
  - apply (slope_quadratic (Degree c) _ _ _ _ _ _ (wf_knots c W)). intros y Hy. cbn beta. rewrite Cp by exact Hy. apply half_sq_lerp.
Qed.
Lemma dist3_x d : 0 <= d -> dist3 (Vec3 0 0 0) (Vec3 d 0 0) = d.
Proof.
  intros H. unfold dist3. cbn [x3 y3 z3]. match goal with |- sqrt ?x = _ => replace x with (Rsqr d) by (unfold Rsqr; ring) end. now apply sqrt_Rsqr.
Qed.
(** With the default arguments the search from the middle of a segment of length
    1/1024 for its start hardly moves. *)
Lemma C85_short_lemma : exists (c : curve R) a b u, GeomSegment_GetCurve 1 2 a b = Ok c /\ wf_curve c /\ dist3 a b = 1 / 1024 /\
  curve_point c 0 = a /\ Curve_SearchParameter 512 c a (1 / 2) (1 / 10 ^ 8) 512 = Ok u /\ dist3 (curve_point c u) a > 1 / 2100.
Proof.
  set (a := Vec3 0 0 0). set (b := Vec3 (1 / 1024) 0 0).
  assert (D : dist3 a b = 1 / 1024) by (apply dist3_x; lra).
  destruct (C55_lemma 1 2 a b ltac:(lia) ltac:(lia)) as [c [Ec [W [_ [_ [_ [_ [_ E]]]]]]]]. specialize (E eq_refl).
  assert (Cp : forall x, unit_interval x -> curve_point c x = lerp a b x).
  { intros x Hx. specialize (E x Hx). rewrite eval_ok in E by assumption. congruence. }
  assert (H0 : unit_interval 0) by (unfold unit_interval; lra). assert (Hh : unit_interval (1 / 2)) by (unfold unit_interval; lra).
  assert (La : lerp a b 0 = a) by (unfold lerp, a, b; cbn [x3 y3 z3]; norm_R; f_equal; ring).
  assert (N : 0 <= 512 <= INR 512) by (rewrite INR_IZR_INZ; split; [lra|apply IZR_le; reflexivity || (vm_compute; discriminate)]).
  destruct (proj1 (C44_lemma c a (1 / 2) (1 / 10 ^ 8) 512 W Hh) 512%nat (proj2 N)) as [u [Eu Hu]].
  exists c, a, b, u. split; [exact Ec|]. split; [exact W|]. split; [exact D|]. split; [rewrite Cp by exact H0; exact La|].
  split; [exact Eu|]. rewrite <- La in Eu. apply (C85_stall_lemma c a b 0) in Eu; auto; [|lra].
  rewrite Cp by exact Hu. rewrite <- La at 2. rewrite dist_lerp, D, Rminus_0_r in *.
  apply Rabs_le_between in Eu. rewrite Rabs_right by (destruct Hu; lra). lra.
Qed.
Lemma C85_ex_lemma : (exists c : curve R, GeomSegment_GetCurve 1 2 (Vec3 0 0 0) (Vec3 1 0 0) = Ok c /\ wf_curve c /\
    (forall x, unit_interval x -> Curve_Evaluate c x = Ok (lerp (Vec3 0 0 0) (Vec3 1 0 0) x))) /\
  (1 <= dist3 (Vec3 0 0 0) (Vec3 1 0 0) <= 10 ^ 4) /\ unit_interval (1/3) /\ unit_interval (1/2) /\
  (1 / 10 ^ 8 <= 1 / 1000 <= dbl_max) /\ (1 < 3 <= INR 3).
Proof.
  split; [|split; [|split; [|split; [|split]]]].
  - destruct (C55_lemma 1 2 (Vec3 0 0 0) (Vec3 1 0 0) ltac:(lia) ltac:(lia)) as [c [Ec [W [_ [_ [_ [_ [_ E]]]]]]]].
    exists c. split; [exact Ec|]. split; [exact W|]. apply E. reflexivity.
  - assert (E : dist3 (Vec3 0 0 0) (Vec3 1 0 0) = 1).
    { unfold dist3. cbn [x3 y3 z3]. match goal with |- sqrt ?x = _ => replace x with 1 by ring end. apply sqrt_1. }
    rewrite E. lra.
  - unfold unit_interval; lra.
  - unfold unit_interval; lra.
  - pose proof dbl_max_big. lra.
  - cbn [INR]. lra.
Qed.
