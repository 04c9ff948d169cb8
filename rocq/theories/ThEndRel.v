(** Accuracy at the ends, whatever the weights (C117). *)
From Coq Require Import Reals QArith ZArith List Lra Lia Psatz Bool Floats.SpecFloat.
From Flocq Require Import Core Relative IEEE754.BinarySingleNaN.
From Verif Require Import Outcome Num ModelCore ModelBasis ModelCurve ModelSurface SpecCore SpecBasis SpecCurve SpecErr SpecGeom64 SpecEnd64 SpecCorner64 SpecEndRel
  ThOutcome ThReal ThB64 ThRound ThVec ThKnots ThSum ThSpline ThBasis ThCurve ThErr ThErrBasis ThErrCurve ThErrInsert2 ThErrInsert3 ThBBoxWit ThUniform64 ThEnd64 ThEnd64b ThCorner64.
Import ListNotations.
Open Scope R_scope.

Lemma half_1021 : bpow radix2 (-1022) = bpow radix2 (-1021) / 2.
Proof. replace (-1022)%Z with (-1021 + -1)%Z by lia. rewrite bpow_plus. change (bpow radix2 (-1)) with (/ 2). reflexivity. Qed.
Lemma rel x : bpow radix2 (-1022) <= Rabs x -> exists e, Rabs e <= u64 /\ rnd64 x = x * (1 + e).
Proof.
  intros H. destruct (relative_error_N_FLT_ex radix2 (-1074) 53 ltac:(reflexivity) (fun n => negb (Z.even n)) x) as [eps [He E]]; [exact H|].
  exists eps. split; [|exact E]. eapply Rle_trans; [exact He|]. right. change (/ 2) with (bpow radix2 (-1)). rewrite <- bpow_plus. reflexivity.
Qed.
Lemma u_tiny : u64 = / 9007199254740992. Proof. exact u64_53. Qed.
(** rounding n x with n near one *)
Lemma rel_n n x : n = 1 \/ n = one_less -> 9 / 10 * bpow radix2 (-1021) <= Rabs x -> exists e, Rabs e <= u64 /\ rnd64 (n * x) = n * x * (1 + e).
Proof.
  intros Hn Hx. apply rel. rewrite half_1021. pose proof (bpow_gt_0 radix2 (-1021)) as P. pose proof u_tiny as U. assert (9 / 10 <= n <= 1) as N by (unfold one_less in Hn; destruct Hn as [->| ->]; lra).
  rewrite Rabs_mult, (Rabs_pos_eq n) by lra. nra.
Qed.
Lemma abs_near x e m : Rabs e <= / 1000 -> m <= Rabs x -> 0 <= m -> 999 / 1000 * m <= Rabs (x * (1 + e)).
Proof. intros He Hx Hm. apply Rabs_le_inv in He. rewrite Rabs_mult, (Rabs_pos_eq (1 + e)) by lra. nra. Qed.

(** the quotient of two products of the same scale [N] *)
Lemma quot N X W e1 e2 e3 eps G : 0 < N -> W <> 0 -> Rabs e1 <= u64 -> Rabs e2 <= eps -> Rabs e3 <= eps -> 0 <= eps <= 3 * u64 ->
  (1 + u64) * (1 + eps) <= (1 + G) * (1 - eps) -> (1 - G) * (1 + eps) <= (1 - u64) * (1 - eps) -> 0 <= G <= / 1000 ->
  bpow radix2 (-1021) <= Rabs X <= bpow radix2 1022 ->
  let num := N * (X * W * (1 + e1)) * (1 + e2) in let den := N * W * (1 + e3) in
  den <> 0 /\ Rabs (num / den) <= bpow radix2 1023 /\ Rabs (rnd64 (num / den) - X) <= (G + u64 + G * u64) * Rabs X.
Proof.
  intros HN HW H1 H2 H3 He A B HG [X0 X1] num den. pose proof u_tiny as U. apply Rabs_le_inv in H1. apply Rabs_le_inv in H2. apply Rabs_le_inv in H3.
  assert (0 < 1 + e3) as P3 by lra. assert (den <> 0) as Nz by (unfold den; apply Rmult_integral_contrapositive; split; [apply Rmult_integral_contrapositive; split; [lra|exact HW]|lra]).
  split; [exact Nz|]. set (g := (1 + e1) * (1 + e2) / (1 + e3) - 1).
  assert (num / den = X * (1 + g)) as Eq by (unfold num, den, g; field; repeat split; lra).
  assert ((1 + e1) * (1 + e2) <= (1 + u64) * (1 + eps)) as Up by nra. assert ((1 - u64) * (1 - eps) <= (1 + e1) * (1 + e2)) as Lo by nra.
  assert (- G <= g <= G) as Hg.
  { unfold g. split.
    - apply Rplus_le_reg_r with 1. replace ((1 + e1) * (1 + e2) / (1 + e3) - 1 + 1) with ((1 + e1) * (1 + e2) / (1 + e3)) by ring. apply Rmult_le_reg_r with (1 + e3); [exact P3|]. unfold Rdiv. rewrite Rmult_assoc, Rinv_l, Rmult_1_r by lra. nra.
    - apply Rplus_le_reg_r with 1. replace ((1 + e1) * (1 + e2) / (1 + e3) - 1 + 1) with ((1 + e1) * (1 + e2) / (1 + e3)) by ring. apply Rmult_le_reg_r with (1 + e3); [exact P3|]. unfold Rdiv. rewrite Rmult_assoc, Rinv_l, Rmult_1_r by lra. nra. }
  assert (Rabs g <= G) as Ag by (apply Rabs_le; lra). rewrite Eq. pose proof (bpow_gt_0 radix2 (-1021)) as P. pose proof (bpow_gt_0 radix2 1022) as P2. split.
  - rewrite Rabs_mult, (Rabs_pos_eq (1 + g)) by lra. replace 1023%Z with (1022 + 1)%Z by lia. rewrite bpow_plus. change (bpow radix2 1) with 2. pose proof (Rabs_pos X). nra.
  - destruct (rel (X * (1 + g))) as [e4 [H4 E4]]. { rewrite half_1021. pose proof (abs_near X g _ ltac:(lra) X0 ltac:(lra)). lra. }
    rewrite E4. replace (X * (1 + g) * (1 + e4) - X) with (X * (g + e4 + g * e4)) by ring. rewrite Rabs_mult, Rmult_comm. apply Rmult_le_compat_r; [apply Rabs_pos|].
    eapply Rle_trans; [apply Rabs_triang|]. rewrite Rabs_mult. pose proof (Rabs_triang g e4). pose proof (Rabs_pos g). pose proof (Rabs_pos e4). nra.
Qed.

(** one factor: curves *)
Lemma quot1 n X W : n = 1 \/ n = one_less -> bpow radix2 (-1021) <= Rabs W -> bpow radix2 (-1021) <= Rabs (X * W) -> bpow radix2 (-1021) <= Rabs X <= bpow radix2 1022 ->
  let num := rnd64 (n * rnd64 (X * W)) in let den := rnd64 (n * W) in
  den <> 0 /\ Rabs (num / den) <= bpow radix2 1023 /\ Rabs (rnd64 (num / den) - X) <= 5 * / 2 ^ 53 * Rabs X.
Proof.
  intros Hn HW HP HX num den. pose proof u_tiny as U. pose proof (bpow_gt_0 radix2 (-1021)) as P. assert (W <> 0) as Wz by (intros ->; rewrite Rabs_R0 in HW; lra).
  assert (0 < n) as N0 by (unfold one_less in Hn; destruct Hn as [->| ->]; lra).
  destruct (rel (X * W)) as [e1 [H1 E1]]; [rewrite half_1021; lra|].
  destruct (rel_n n (rnd64 (X * W)) Hn) as [e2 [H2 E2]]; [rewrite E1; pose proof (abs_near (X * W) e1 _ ltac:(lra) HP ltac:(lra)); lra|].
  destruct (rel_n n W Hn) as [e3 [H3 E3]]; [lra|].
  destruct (quot n X W e1 e2 e3 u64 (7 / 2 * u64) N0 Wz H1 H2 H3) as [Q1 [Q2 Q3]]; try lra; try exact HX; try (rewrite U; lra).
  unfold num, den. rewrite E2, E1, E3. split; [exact Q1|]. split; [exact Q2|]. eapply Rle_trans; [exact Q3|]. apply Rmult_le_compat_r; [apply Rabs_pos|]. rewrite U. lra.
Qed.
(** two factors: surfaces *)
Lemma quot2 nu nv X W : nu = 1 \/ nu = one_less -> nv = 1 \/ nv = one_less -> bpow radix2 (-1021) <= Rabs W -> bpow radix2 (-1021) <= Rabs (X * W) -> bpow radix2 (-1021) <= Rabs X <= bpow radix2 1022 ->
  let num := rnd64 (nv * rnd64 (nu * rnd64 (X * W))) in let den := rnd64 (nv * rnd64 (nu * W)) in
  den <> 0 /\ Rabs (num / den) <= bpow radix2 1023 /\ Rabs (rnd64 (num / den) - X) <= 7 * / 2 ^ 53 * Rabs X.
Proof.
  intros Hn Hm HW HP HX num den. pose proof u_tiny as U. pose proof (bpow_gt_0 radix2 (-1021)) as P. assert (W <> 0) as Wz by (intros ->; rewrite Rabs_R0 in HW; lra).
  assert (999 / 1000 <= nu <= 1) as N0 by (unfold one_less in Hn; destruct Hn as [->| ->]; lra). assert (999 / 1000 <= nv <= 1) as M0 by (unfold one_less in Hm; destruct Hm as [->| ->]; lra).
  assert (forall x m, m <= Rabs x -> 0 <= m -> 999 / 1000 * m <= Rabs (nu * x)) as Sc by (intros x m Hx Hm0; rewrite Rabs_mult, (Rabs_pos_eq nu) by lra; nra).
  destruct (rel (X * W)) as [e1 [H1 E1]]; [rewrite half_1021; lra|]. pose proof (abs_near (X * W) e1 _ ltac:(lra) HP ltac:(lra)) as A1.
  destruct (rel_n nu (rnd64 (X * W)) Hn) as [e2 [H2 E2]]; [rewrite E1; lra|]. pose proof (Sc _ _ A1 ltac:(lra)) as A2. pose proof (abs_near _ e2 _ ltac:(lra) A2 ltac:(lra)) as A3.
  destruct (rel_n nv (rnd64 (nu * rnd64 (X * W))) Hm) as [e3 [H3 E3]]; [rewrite E2, E1; lra|].
  destruct (rel_n nu W Hn) as [e4 [H4 E4]]; [lra|]. pose proof (Sc _ _ HW ltac:(lra)) as A4. pose proof (abs_near _ e4 _ ltac:(lra) A4 ltac:(lra)) as A5.
  destruct (rel_n nv (rnd64 (nu * W)) Hm) as [e5 [H5 E5]]; [rewrite E4; lra|].
  assert (forall a b, Rabs a <= u64 -> Rabs b <= u64 -> Rabs (a + b + a * b) <= 2 * u64 + u64 * u64) as Two.
  { intros a b Ha Hb. eapply Rle_trans; [apply Rabs_triang|]. rewrite Rabs_mult. pose proof (Rabs_triang a b). pose proof (Rmult_le_compat _ _ _ _ (Rabs_pos a) (Rabs_pos b) Ha Hb). lra. }
  destruct (quot (nv * nu) X W e1 (e2 + e3 + e2 * e3) (e4 + e5 + e4 * e5) (2 * u64 + u64 * u64) (11 / 2 * u64)) as [Q1 [Q2 Q3]]; try (apply Two; assumption); try assumption; try (rewrite U; lra); [nra|].
  unfold num, den. rewrite E3, E2, E1, E5, E4.
  replace (nv * (nu * (X * W * (1 + e1)) * (1 + e2)) * (1 + e3)) with (nv * nu * (X * W * (1 + e1)) * (1 + (e2 + e3 + e2 * e3))) by ring.
  replace (nv * (nu * W * (1 + e4)) * (1 + e5)) with (nv * nu * W * (1 + (e4 + e5 + e4 * e5))) by ring.
  split; [exact Q1|]. split; [exact Q2|]. eapply Rle_trans; [exact Q3|]. apply Rmult_le_compat_r; [apply Rabs_pos|]. rewrite U. lra.
Qed.

(** the division at the end of an evaluation *)
Lemma divide (num den : b64) rn rd X k : is_ rn num -> is_ rd den -> rd <> 0 -> Rabs (rn / rd) <= bpow radix2 1023 -> Rabs (rnd64 (rn / rd) - X) <= k * / 2 ^ 53 * Rabs X ->
  exists q, ndiv num den = Ok q /\ finite64 q /\ Rabs (val q - X) <= k * / 2 ^ 53 * Rabs X.
Proof.
  intros [Fn Vn] [Fd Vd] Nz B E. destruct (div_round num den Fn Fd) as [q [Eq [Fq Vq]]]; rewrite ?Vn, ?Vd in *; [exact Nz|apply rnd64_big; exact B|].
  exists q. split; [exact Eq|]. split; [exact Fq|]. rewrite Vq. exact E.
Qed.
Lemma mul_not_finite x y : finite64 x -> finite64 y -> ~ Rabs (rnd64 (val x * val y)) < bpow radix2 1024 -> ~ finite64 (nmul x y).
Proof.
  intros [Dx Fx] [Dy Fy] Ho [_ F]. destruct (to_B x Dx) as [a <-]. destruct (to_B y Dy) as [b <-].
  change (nmul (B2SF a) (B2SF b)) with (SFmul 53 1024 (B2SF a) (B2SF b)) in F. rewrite mul_equiv in F. rewrite !B_val in Ho.
  pose proof (Bmult_correct 53 1024 ThRound.prec53 ThRound.emax1024 mode_NE a b) as C.
  change (SpecFloat.fexp 53 1024) with (FLT_exp (-1074) 53) in C. change (round_mode mode_NE) with ZnearestE in C.
  rewrite Rlt_bool_false in C by (apply Rnot_lt_le; exact Ho). pose proof (eq_trans (f_equal is_finite_SF (eq_sym C)) F) as D. discriminate D.
Qed.
Lemma mul_val (a w : b64) : finite64 a -> finite64 w -> finite64 (nmul a w) -> val (nmul a w) = rnd64 (val a * val w).
Proof.
  intros Fa Fw Fp. destruct (Rlt_dec (Rabs (rnd64 (val a * val w))) (bpow radix2 1024)) as [L|L]; [apply (mul_round a w Fa Fw L)|].
  exfalso. exact (mul_not_finite a w Fa Fw L Fp).
Qed.

Lemma zero_num n (h : b64) : val h = 0 -> rnd64 (n * val h) = 0.
Proof. intros ->. rewrite Rmult_0_r. apply rnd64_id, generic_format_0. Qed.
Lemma coord1 n (w a num den : b64) : n = 1 \/ n = one_less -> finite64 w -> mild1 w a -> bpow radix2 (-1021) <= Rabs (val w) -> sturdy1 w a ->
  is_ (rnd64 (n * val (nmul a w))) num -> is_ (rnd64 (n * val w)) den -> exists q, ndiv num den = Ok q /\ within 5 a q.
Proof.
  intros Hn Fw [Fa Fp] HW St Pn Pd. rewrite (mul_val a w Fa Fw Fp) in Pn. unfold within. destruct St as [V0|[HX HP]].
  - rewrite V0, Rmult_0_l, (rnd64_id 0), Rmult_0_r, (rnd64_id 0) in Pn by apply generic_format_0.
    destruct (rel_n n (val w) Hn) as [e [He E]]; [pose proof (bpow_gt_0 radix2 (-1021)); lra|]. pose proof u_tiny as U. apply Rabs_le_inv in He.
    assert (rnd64 (n * val w) <> 0) as Nz.
    { rewrite E. pose proof (bpow_gt_0 radix2 (-1021)). assert (val w <> 0) by (intros Z0; rewrite Z0, Rabs_R0 in HW; lra). assert (0 < n) by (unfold one_less in Hn; destruct Hn as [->| ->]; lra).
      repeat (apply Rmult_integral_contrapositive; split); lra. }
    rewrite V0. apply (divide num den 0 (rnd64 (n * val w)) 0 5 Pn Pd Nz); unfold Rdiv; rewrite Rmult_0_l; [rewrite Rabs_R0; apply bpow_ge_0|]. rewrite rnd64_id by apply generic_format_0. rewrite Rminus_0_r, Rabs_R0. lra.
  - destruct (quot1 n (val a) (val w) Hn HW HP HX) as [Q1 [Q2 Q3]]. exact (divide _ _ _ _ _ _ Pn Pd Q1 Q2 Q3).
Qed.
Lemma coord2 nu nv (w a num den : b64) : nu = 1 \/ nu = one_less -> nv = 1 \/ nv = one_less -> finite64 w -> mild1 w a -> bpow radix2 (-1021) <= Rabs (val w) -> sturdy1 w a ->
  is_ (rnd64 (nv * rnd64 (nu * val (nmul a w)))) num -> is_ (rnd64 (nv * rnd64 (nu * val w))) den -> exists q, ndiv num den = Ok q /\ within 7 a q.
Proof.
  intros Hn Hm Fw [Fa Fp] HW St Pn Pd. rewrite (mul_val a w Fa Fw Fp) in Pn. unfold within. destruct St as [V0|[HX HP]].
  - rewrite V0, Rmult_0_l, (rnd64_id 0), Rmult_0_r, (rnd64_id 0), Rmult_0_r, (rnd64_id 0) in Pn by apply generic_format_0.
    pose proof u_tiny as U. pose proof (bpow_gt_0 radix2 (-1021)) as P. assert (val w <> 0) by (intros Z0; rewrite Z0, Rabs_R0 in HW; lra).
    assert (999 / 1000 <= nu <= 1) by (unfold one_less in Hn; destruct Hn as [->| ->]; lra). assert (999 / 1000 <= nv <= 1) by (unfold one_less in Hm; destruct Hm as [->| ->]; lra).
    destruct (rel_n nu (val w) Hn) as [e [He E]]; [lra|]. 
    assert (999 / 1000 * bpow radix2 (-1021) <= Rabs (nu * val w)) as A by (rewrite Rabs_mult, (Rabs_pos_eq nu) by lra; nra).
    pose proof (abs_near _ e _ ltac:(lra) A ltac:(lra)) as A'. destruct (rel_n nv (rnd64 (nu * val w)) Hm) as [f [Hf E']]; [rewrite E; lra|]. apply Rabs_le_inv in He. apply Rabs_le_inv in Hf.
    assert (rnd64 (nv * rnd64 (nu * val w)) <> 0) as Nz by (rewrite E', E; repeat (apply Rmult_integral_contrapositive; split); lra).
    rewrite V0. apply (divide num den 0 _ 0 7 Pn Pd Nz); unfold Rdiv; rewrite Rmult_0_l; [rewrite Rabs_R0; apply bpow_ge_0|]. rewrite rnd64_id by apply generic_format_0. rewrite Rminus_0_r, Rabs_R0. lra.
  - destruct (quot2 nu nv (val a) (val w) Hn Hm HW HP HX) as [Q1 [Q2 Q3]]. exact (divide _ _ _ _ _ _ Pn Pd Q1 Q2 Q3).
Qed.
Lemma dom_of p l x k d : end_of p l x k d -> finite64 x /\ 0 <= val x <= 1.
Proof. intros [F [[H _]|[H _]]]; split; [exact F|lra|exact F|lra]. Qed.

Lemma C117_curve_lemma : forall (c : curve b64) x k d pe, sound_curve c -> Forall mild (ControlPoints c) -> end_of (Degree c) (Knots c) x k d ->
  nth_error (ControlPoints c) (Z.to_nat k) = Some pe -> sturdy pe -> exists q, Curve_Evaluate c x = Ok q /\ within3 5 pe q.
Proof.
  intros c x k d pe [Sk Sn] M En Hp [Sw [Sx [Sy Sz]]]. destruct (end_basis _ _ _ _ _ Sk En) as [i [basis [e [n [Fi [Bi [Zb [Kk [Lo [Hi [Un _]]]]]]]]]]].
  destruct (dom_of _ _ _ _ _ En) as [Fx Hx]. assert (0 <= Degree c)%Z as P0 by (apply (cl_degree _ _ (proj2 Sk))). pose proof (proj1 (proj2 Zb)) as He.
  assert (vget (ControlPoints c) k = Ok pe) as Ep by (unfold vget; destruct (Z.ltb_spec k 0); [lia|rewrite Hp; reflexivity]).
  assert (mild pe) as Mp by (rewrite Forall_forall in M; apply M; apply (vget_in _ _ _ Ep)).
  unfold Curve_Evaluate. rewrite (unit_assert64 x Fx Hx). cbn [assert_ bind]. rewrite Fi. cbn [bind]. rewrite Bi. cbn [bind]. rewrite (proj1 Zb), Z.eqb_refl. cbn [assert_ bind].
  edestruct (pick (fun j => bind (vget (ControlPoints c) (i - Degree c + j)) (fun q => Ok (ToHomo q))) basis (Degree c) e n) as [s [Es [S1 [S2 [S3 S4]]]]]; [exact Zb|apply unit_range; exact Un| | |].
  { intros r Hr. destruct (vget_ex (ControlPoints c) (i - Degree c + r)) as [q Eq]; [lia|]. rewrite Eq. cbn [bind]. do 5 eexists. split; [reflexivity|]. apply homo_is. rewrite Forall_forall in M. apply M. apply (vget_in _ _ _ Eq). }
  { rewrite Kk, Ep. cbn [bind]. eexists. split; [reflexivity|]. apply homo_is. exact Mp. }
  destruct Mp as [Fw [M1 [M2 M3]]].
  destruct (coord1 n _ _ _ _ Un Fw M1 Sw Sx S1 S4) as [q1 [E1 W1]]. destruct (coord1 n _ _ _ _ Un Fw M2 Sw Sy S2 S4) as [q2 [E2 W2]]. destruct (coord1 n _ _ _ _ Un Fw M3 Sw Sz S3 S4) as [q3 [E3 W3]].
  exists (Vec3 q1 q2 q3). split; [|split; [exact W1|split; [exact W2|exact W3]]].
  rewrite (for_up_ext' 0 (Degree c + 1) _ (fun i0 result => bind (bind (vget (ControlPoints c) (i - Degree c + i0)) (fun q => Ok (ToHomo q))) (fun t => bind (vget basis i0) (fun b => Ok (v4add result (v4scale b t)))))).
  - rewrite Es. cbn [bind]. unfold v3div, head3. cbn [x3 y3 z3]. rewrite E1. cbn [bind]. rewrite E2. cbn [bind]. rewrite E3. reflexivity.
  - intros j a. destruct (vget (ControlPoints c) (i - Degree c + j)); reflexivity.
Qed.
Lemma C117_surface_lemma : forall (s : surface b64) u v ku kv du dv corner, sound_surface s -> Forall mild (Values (Net s)) ->
  end_of (DegreeU s) (KnotsU s) u ku du -> end_of (DegreeV s) (KnotsV s) v kv dv ->
  nth_error (Values (Net s)) (Z.to_nat (kv * UCount (Net s) + ku)) = Some corner -> sturdy corner ->
  exists q, Surface_Evaluate s u v = Ok q /\ within3 7 corner q.
Proof.
  intros s u v ku kv du dv pe [Su [Sv [Nu [Nv Nn]]]] M Eu Ev Hp [Sw [Sx [Sy Sz]]].
  destruct (end_basis _ _ _ _ _ Su Eu) as [iu [bu [eu [nu [Fu [Bu [Zu [Ku [Lu [Hu [Unu _]]]]]]]]]]].
  destruct (end_basis _ _ _ _ _ Sv Ev) as [iv [bv [ev [nv [Fv [Bv [Zv [Kv [Lv [Hv [Unv _]]]]]]]]]]].
  pose proof (unit_range _ Unu) as Ru. pose proof (unit_range _ Unv) as Rv.
  destruct (dom_of _ _ _ _ _ Eu) as [Fu' Hu']. destruct (dom_of _ _ _ _ _ Ev) as [Fv' Hv'].
  assert (0 <= DegreeU s)%Z as P0 by (apply (cl_degree _ _ (proj2 Su))). assert (0 <= DegreeV s)%Z as P1 by (apply (cl_degree _ _ (proj2 Sv))).
  unfold Surface_Evaluate. rewrite (unit_assert64 u Fu' Hu'), (unit_assert64 v Fv' Hv'). cbn [assert_ bind]. rewrite Fu. cbn [bind]. rewrite Fv. cbn [bind]. rewrite Bu. cbn [bind]. rewrite Bv. cbn [bind].
  rewrite (proj1 Zu), (proj1 Zv), !Z.eqb_refl. cbn [assert_ bind]. cbv zeta.
  pose proof (proj1 (proj2 Zu)) as Heu. pose proof (proj1 (proj2 Zv)) as Hev.
  assert (forall j i, (0 <= i < UCount (Net s))%Z -> (0 <= j < VCount (Net s))%Z -> exists q, Grid_Get (Net s) i j = Ok q /\ vget (Values (Net s)) (j * UCount (Net s) + i) = Ok q /\ mild q) as Get.
  { intros j i Hi Hj. unfold Grid_Get. destruct (Z.ltb_spec i (UCount (Net s))); [|lia]. destruct (Z.ltb_spec j (VCount (Net s))); [|lia]. cbn [andb assert_ bind].
    destruct (vget_ex (Values (Net s)) (j * UCount (Net s) + i)) as [q Eq]; [rewrite Nn; nia|]. exists q. split; [exact Eq|]. split; [exact Eq|]. rewrite Forall_forall in M. apply M. apply (vget_in _ _ _ Eq). }
  set (row := fun j => for_up 0 (DegreeU s + 1) (fun i tmp => bind (bind (Grid_Get (Net s) (iu - DegreeU s + i) (iv - DegreeV s + j)) (fun q => Ok (ToHomo q))) (fun t => bind (vget bu i) (fun b => Ok (v4add tmp (v4scale b t))))) v4zero).
  assert (forall j, (0 <= j <= DegreeV s)%Z -> exists q t, vget (Values (Net s)) ((iv - DegreeV s + j) * UCount (Net s) + ku) = Ok q /\ row j = Ok t /\ homo4 nu q t) as Row.
  { intros j Hj. destruct (Get (iv - DegreeV s + j)%Z ku ltac:(lia) ltac:(lia)) as [q [Eq [Eq' Mq]]].
    edestruct (pick (fun i => bind (Grid_Get (Net s) (iu - DegreeU s + i) (iv - DegreeV s + j)) (fun q => Ok (ToHomo q))) bu (DegreeU s) eu nu) as [t [Et Pt]]; [exact Zu|exact Ru| | |].
    - intros r Hr. destruct (Get (iv - DegreeV s + j)%Z (iu - DegreeU s + r)%Z ltac:(lia) ltac:(lia)) as [q' [Eq2 [_ Mq']]]. rewrite Eq2. cbn [bind]. do 5 eexists. split; [reflexivity|]. apply homo_is. exact Mq'.
    - rewrite Ku, Eq. cbn [bind]. eexists. split; [reflexivity|]. apply homo_is. exact Mq.
    - exists q, t. split; [exact Eq'|]. split; [exact Et|exact Pt]. }
  destruct (Row ev Hev) as [q0 [te [Eq0 [Ete Hte]]]]. rewrite Kv in Eq0.
  assert (q0 = pe) as ->.
  { revert Eq0. unfold vget. destruct (Z.ltb_spec (kv * UCount (Net s) + ku) 0); [discriminate|]. rewrite Hp. congruence. }
  edestruct (pick row bv (DegreeV s) ev nv) as [res [Er [S1 [S2 [S3 S4]]]]]; [exact Zv|exact Rv| | |].
  { intros r Hr. destruct (Row r Hr) as [q' [t [_ [Et Pt]]]]. do 5 eexists. split; [exact Et|exact Pt]. }
  { exists te. split; [exact Ete|exact Hte]. }
  assert (mild pe) as [Fw [M1 [M2 M3]]]. { rewrite Forall_forall in M. apply M. apply (vget_in _ _ _ Eq0). }
  destruct (coord2 nu nv _ _ _ _ Unu Unv Fw M1 Sw Sx S1 S4) as [q1 [E1 W1]]. destruct (coord2 nu nv _ _ _ _ Unu Unv Fw M2 Sw Sy S2 S4) as [q2 [E2 W2]]. destruct (coord2 nu nv _ _ _ _ Unu Unv Fw M3 Sw Sz S3 S4) as [q3 [E3 W3]].
  exists (Vec3 q1 q2 q3). split; [|split; [exact W1|split; [exact W2|exact W3]]].
  rewrite (for_up_ext' 0 (DegreeV s + 1) _ (fun i result => bind (row i) (fun t => bind (vget bv i) (fun b => Ok (v4add result (v4scale b t)))))).
  - rewrite Er. cbn [bind]. unfold v3div, head3. cbn [x3 y3 z3]. rewrite E1. cbn [bind]. rewrite E2. cbn [bind]. rewrite E3. reflexivity.
  - intros j a. unfold row. f_equal. apply for_up_ext'. intros i b. destruct (Grid_Get (Net s) (iu - DegreeU s + i) (iv - DegreeV s + j)); reflexivity.
Qed.
