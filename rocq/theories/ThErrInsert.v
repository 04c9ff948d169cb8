(** Accuracy of knot insertion in binary64. *)
From Coq Require Import Reals ZArith List Lra Lia Psatz Floats.SpecFloat Permutation.
From Flocq Require Import Core.
From Verif Require Import Outcome Num ModelCore ModelBasis ModelCurve ModelSurface SpecCore SpecBasis SpecCurve SpecErr SpecErrIns ThOutcome ThReal ThB64 ThRound ThVec ThKnots ThSum ThSpline ThBasis ThCurve ThCurveWit ThInsert ThErr ThErrBasis ThErrSum ThErrCurve ThSafe ThSafe2.
Import ListNotations.
Open Scope R_scope.

Lemma sap_sub k e f (a b : b64) x y A B : sap k e a x A -> sap k f b y B -> 0 <= e -> 0 <= f ->
  r64 ^ k * (A + B) + (e + f) <= bpow radix2 1023 -> sap (k + 1) (r64 * (e + f)) (nsub a b) (x - y) (A + B).
Proof.
  intros Sa Sb He Hf O. pose proof (sap_A _ _ _ _ _ Sa). pose proof (sap_A _ _ _ _ _ Sb).
  pose proof (sap_bound _ _ _ _ _ Sa) as Ba. pose proof (sap_bound _ _ _ _ _ Sb) as Bb.
  destruct Sa as [Fa [Xa Ea]], Sb as [Fb [Xb Eb]].
  assert (Rabs (val a - val b) <= r64 ^ k * (A + B) + (e + f)) as T by (pose proof (Rabs_triang (val a) (- val b)) as Q; rewrite Rabs_Ropp in Q; unfold Rminus; lra).
  destruct (sub_exact a b Fa Fb (Rle_trans _ _ _ T O)) as [F [rho [R1 R2]]]. split; [exact F|].
  split; [pose proof (Rabs_triang x (- y)) as Q; rewrite Rabs_Ropp in Q; unfold Rminus; lra|].
  assert (val (nsub a b) = (val a - val b) * rho) as R3.
  { apply Rminus_diag_uniq. destruct (Req_dec (val (nsub a b) - (val a - val b) * rho) 0) as [|N]; [assumption|]. pose proof (Rabs_pos_lt _ N). exfalso. lra. }
  rewrite R3.
  assert (Rabs (rho - 1) <= r64 - 1) as T1.
  { destruct R1 as [R1 R4]. rewrite pow_1 in *. pose proof r64_gt1. assert (1 - (r64 - 1) <= / r64).
    { apply (Rmult_le_reg_r r64); [lra|]. rewrite Rinv_l by lra. nra. } apply Rabs_le. lra. }
  replace ((val a - val b) * rho - (x - y)) with ((val a - x) - (val b - y) + (val a - val b) * (rho - 1)) by ring.
  pose proof (Rabs_triang (val a - x - (val b - y)) ((val a - val b) * (rho - 1))) as T2.
  pose proof (Rabs_triang (val a - x) (- (val b - y))) as T3. rewrite (Rabs_Ropp (val b - y)) in T3. change (val a - x + - (val b - y)) with (val a - x - (val b - y)) in T3. rewrite (Rabs_mult (val a - val b)) in T2.
  rewrite Nat.add_1_r. cbn [pow]. pose proof r64_gt1.
  assert (Rabs (val a - val b) * Rabs (rho - 1) <= (r64 ^ k * (A + B) + (e + f)) * (r64 - 1)).
  { apply Rmult_le_compat; try assumption; apply Rabs_pos. }
  assert (Rabs (val a - x - (val b - y)) <= (r64 ^ k - 1) * (A + B) + (e + f)).
  { lra. }
  nra.
Qed.

Lemma r_small k : (k <= 10)%nat -> r64 ^ k <= 11 / 10.
Proof. intros. apply r_1000. lia. Qed.
Lemma eta_tiny : eta64 <= bpow radix2 (-1000). Proof. apply bpow_le. lia. Qed.
Lemma tiny_small n : (n <= -10)%Z -> bpow radix2 n <= / 1000.
Proof. intros. apply (Rle_trans _ (bpow radix2 (-10))); [apply bpow_le; lia|]. change (bpow radix2 (-10)) with (/ 1024). lra. Qed.

(** the blended homogeneous point *)
Lemma blend_hom64 (al : b64) a p q M W c : pap 3 eta64 al a -> 0 <= a <= 1 -> tame M p -> tame M q -> 0 <= M <= bpow radix2 100 ->
  val (w4 p) <= W -> val (w4 q) <= W -> W <= bpow radix2 100 ->
  sap 7 (bpow radix2 (-870)) (co c (v4add (v4scale al (ToHomo p)) (v4scale (nsub n1 al) (ToHomo q))))
      (co c (blend_h a (val4 p) (val4 q))) (maj c M (3 * W)).
Proof.
  intros Ha A01 Tp Tq HM Wp Wq HW. pose proof (bpow_gt_0 radix2 (-100)) as B0. pose proof (tame_w M p Tp) as Tp'. pose proof (tame_w M q Tq) as Tq'.
  pose proof eta64_pos as E0. pose proof eta_tiny as E1.
  pose proof (pap_sap 3 eta64 al a (proj1 A01) Ha) as Sa.
  assert (sap 3 0 (n1 : b64) 1 1) as S1. { split; [exact finite_1|]. rewrite val_1, Rabs_R1. split; [lra|]. rewrite Rminus_eq_0, Rabs_R0. pose proof (r_pow_ge1 3). lra. }
  pose proof (r_small 3 ltac:(lia)) as R3. pose proof (r_small 1 ltac:(lia)) as R1. pose proof (r_small 4 ltac:(lia)) as R4. rewrite pow_1 in R1.
  pose proof (r_pow_ge1 3). pose proof (r_pow_ge1 4). pose proof r64_gt1 as R0.
  assert (bpow radix2 10 <= bpow radix2 1023) as B10 by (apply bpow_le; lia). change (bpow radix2 10) with 1024 in B10.
  pose proof (tiny_small (-1000) ltac:(lia)) as Ts.
  assert (sap 4 (2 * eta64) (nsub n1 al) (1 - a) 2) as Sb.
  { apply (sap_major _ _ _ _ (1 + a)); [lra|]. apply (sap_weak (3 + 1) (r64 * (0 + eta64))); [lia|nra|]. apply sap_sub; try assumption; try lra. nra. }
  pose proof (hom64 c M p Tp HM) as Hp. pose proof (hom64 c M q Tq HM) as Hq.
  assert (0 <= val (w4 p) <= bpow radix2 100) as Wp' by lra. assert (0 <= val (w4 q) <= bpow radix2 100) as Wq' by lra.
  pose proof (maj_le c M _ HM Wp') as Mp. pose proof (maj_le c M _ HM Wq') as Mq.
  set (mp := maj c M (val (w4 p))) in *. set (mq := maj c M (val (w4 q))) in *.
  assert (16 * bpow radix2 200 <= bpow radix2 1023) as B200. { change 16 with (bpow radix2 4). rewrite <- bpow_plus. apply bpow_le. lia. }
  assert (bpow radix2 200 * eta64 = bpow radix2 (-875)) as B875. { unfold eta64. rewrite <- bpow_plus. reflexivity. }
  assert (eta64 <= bpow radix2 (-875)) as E875 by (apply bpow_le; lia).
  assert (mp * eta64 <= bpow radix2 (-875)) as Ep by (rewrite <- B875; apply Rmult_le_compat_r; lra).
  assert (mq * eta64 <= bpow radix2 (-875)) as Eq by (rewrite <- B875; apply Rmult_le_compat_r; lra).
  pose proof (bpow_gt_0 radix2 (-875)) as P875. pose proof (bpow_ge1 200 ltac:(lia)) as P200.
  assert (eta64 * eta64 <= eta64) as Ee by nra.
  assert (sap 5 (4 * bpow radix2 (-875)) (nmul al (co c (ToHomo p))) (a * co c (ToHomo (val4 p))) (a * mp)) as T1.
  { apply (sap_weak (3 + 1 + 1) (r64 * (r64 ^ 3 * a * eta64 + r64 ^ 1 * mp * eta64 + eta64 * eta64) + eta64)); [lia| |].
    - rewrite pow_1. assert (0 <= mp * eta64) by nra.
      assert (r64 ^ 3 * a * eta64 <= 11 / 10 * eta64) by (apply Rmult_le_compat_r; nra).
      assert (r64 * mp * eta64 <= 11 / 10 * bpow radix2 (-875)) by (rewrite Rmult_assoc; apply Rmult_le_compat; lra).
      assert (eta64 <= / 1000 * bpow radix2 (-875)).
      { apply (Rle_trans _ (bpow radix2 (-885))); [apply bpow_le; lia|]. replace (-885)%Z with (-10 + -875)%Z by lia. rewrite bpow_plus. change (bpow radix2 (-10)) with (/ 1024). lra. }
      assert (r64 * (r64 ^ 3 * a * eta64 + r64 * mp * eta64 + eta64 * eta64) <= 11 / 10 * (r64 ^ 3 * a * eta64 + r64 * mp * eta64 + eta64 * eta64)).
      { assert (0 <= r64 ^ 3 * a * eta64) by (apply Rmult_le_pos; [apply Rmult_le_pos|]; lra). assert (0 <= r64 * mp * eta64) by (apply Rmult_le_pos; [apply Rmult_le_pos|]; lra).
        assert (0 <= eta64 * eta64) by (apply Rmult_le_pos; lra). apply Rmult_le_compat_r; lra. }
      lra.
    - apply sap_mul; try assumption; try lra. rewrite pow_1. refine (Rle_trans _ ((11 / 10 + 1) * (11 / 10 * bpow radix2 200 + 1)) _ _ _); [|lra].
      apply Rmult_le_compat; nra. }
  assert (sap 6 (6 * bpow radix2 (-875)) (nmul (nsub n1 al) (co c (ToHomo q))) ((1 - a) * co c (ToHomo (val4 q))) (2 * mq)) as T2.
  { apply (sap_weak (4 + 1 + 1) (r64 * (r64 ^ 4 * 2 * eta64 + r64 ^ 1 * mq * (2 * eta64) + 2 * eta64 * eta64) + eta64)); [lia| |].
    - rewrite pow_1. assert (0 <= mq * eta64) by nra.
      assert (r64 ^ 4 * 2 * eta64 <= 22 / 10 * eta64) by (apply Rmult_le_compat_r; nra).
      assert (r64 * mq * (2 * eta64) <= 22 / 10 * bpow radix2 (-875)).
      { replace (r64 * mq * (2 * eta64)) with ((2 * r64) * (mq * eta64)) by ring. apply Rmult_le_compat; lra. }
      assert (eta64 <= / 1000 * bpow radix2 (-875)).
      { apply (Rle_trans _ (bpow radix2 (-885))); [apply bpow_le; lia|]. replace (-885)%Z with (-10 + -875)%Z by lia. rewrite bpow_plus. change (bpow radix2 (-10)) with (/ 1024). lra. }
      assert (r64 * (r64 ^ 4 * 2 * eta64 + r64 * mq * (2 * eta64) + 2 * eta64 * eta64) <= 11 / 10 * (r64 ^ 4 * 2 * eta64 + r64 * mq * (2 * eta64) + 2 * eta64 * eta64)).
      { assert (0 <= r64 ^ 4 * 2 * eta64) by (apply Rmult_le_pos; lra). assert (0 <= r64 * mq * (2 * eta64)) by (apply Rmult_le_pos; [apply Rmult_le_pos|]; lra).
        assert (0 <= 2 * eta64 * eta64) by (apply Rmult_le_pos; lra). apply Rmult_le_compat_r; lra. }
      lra.
    - apply sap_mul; try assumption; try lra. rewrite pow_1. refine (Rle_trans _ ((22 / 10 + 1) * (11 / 10 * bpow radix2 200 + 1)) _ _ _); [|lra].
      apply Rmult_le_compat; nra. }
  rewrite co_add, !co_scale.
  replace (co c (blend_h a (val4 p) (val4 q))) with (a * co c (ToHomo (val4 p)) + (1 - a) * co c (ToHomo (val4 q))) by (destruct c as [|[|[|]]]; reflexivity).
  apply (sap_major _ _ _ _ (a * mp + 2 * mq)).
  { assert (forall w, w <= W -> maj c M w <= maj c M W) as Mono by (intros w Hw; destruct c as [|[|[|]]]; cbn [maj]; nra).
    assert (maj c M (3 * W) = 3 * maj c M W) as -> by (destruct c as [|[|[|]]]; cbn [maj]; ring).
    pose proof (Mono _ Wp) as Mo1. pose proof (Mono _ Wq) as Mo2. fold mp in Mo1. fold mq in Mo2. nra. }
  apply (sap_weak (6 + 1) (r64 * (6 * bpow radix2 (-875) + 6 * bpow radix2 (-875)))); [lia| |].
  { replace (-870)%Z with (5 + -875)%Z by lia. rewrite bpow_plus. change (bpow radix2 5) with 32. nra. }
  apply sap_add; try lra.
  - apply (sap_weak 5 (4 * bpow radix2 (-875))); [lia|lra|exact T1].
  - exact T2.
  - pose proof (r_small 6 ltac:(lia)). pose proof (r_pow_ge1 6). pose proof (tiny_small (-875) ltac:(lia)). assert (0 <= a * mp <= bpow radix2 200) by nra.
    assert (r64 ^ 6 * (a * mp + 2 * mq) <= 11 / 10 * (3 * bpow radix2 200)) by (apply Rmult_le_compat; lra). lra.
Qed.

(** what the bounds amount to *)
Definition ins_eps (rho M : R) : R := 150 * rho / 2 ^ 53 * M + / 2 ^ 450.
Definition ins_eta (rho : R) : R := 64 * rho / 2 ^ 53.

Lemma blend_weight a p q rho : 0 <= a <= 1 -> 0 < w4 p -> 0 < w4 q -> w4 p <= rho * w4 q -> w4 q <= rho * w4 p -> 1 <= rho ->
  Rmax (w4 p) (w4 q) <= rho * w4 (blend_h a p q).
Proof.
  intros A Wp Wq H1 H2 R. change (w4 (blend_h a p q)) with (a * w4 p + (1 - a) * w4 q).
  apply Rmax_lub.
  - assert (a * w4 p <= a * (rho * w4 p)) by (apply Rmult_le_compat_l; nra). assert ((1 - a) * w4 p <= (1 - a) * (rho * w4 q)) by (apply Rmult_le_compat_l; lra). lra.
  - assert ((1 - a) * w4 q <= (1 - a) * (rho * w4 q)) by (apply Rmult_le_compat_l; nra). assert (a * w4 q <= a * (rho * w4 p)) by (apply Rmult_le_compat_l; lra). lra.
Qed.

Lemma blend64 (al : b64) a p q M rho : pap 3 eta64 al a -> 0 <= a <= 1 -> tame M p -> tame M q -> 0 <= M <= bpow radix2 100 ->
  1 <= rho <= 2 ^ 30 -> val (w4 p) <= rho * val (w4 q) -> val (w4 q) <= rho * val (w4 p) ->
  exists r, FromHomo (v4add (v4scale al (ToHomo p)) (v4scale (nsub n1 al) (ToHomo q))) = Ok r /\
    near_point (ins_eps rho M) (ins_eta rho) r (blend a (val4 p) (val4 q)).
Proof.
  intros Ha A01 Tp Tq HM HR Hpq Hqp. pose proof (tame_w M p Tp) as Tp'. pose proof (tame_w M q Tq) as Tq'. pose proof (bpow_gt_0 radix2 (-100)) as B0.
  set (W := Rmax (val (w4 p)) (val (w4 q))). set (w := w4 (blend_h a (val4 p) (val4 q))).
  assert (W <= rho * w) as HW. { apply (blend_weight a (val4 p) (val4 q) rho A01); cbn [w4 val4]; lra. }
  assert (val (w4 p) <= W) as Wp by apply Rmax_l. assert (val (w4 q) <= W) as Wq by apply Rmax_r.
  assert (W <= bpow radix2 100) as WB by (apply Rmax_lub; lra).
  assert (bpow radix2 (-100) <= w <= W) as Hw.
  { change w with (a * val (w4 p) + (1 - a) * val (w4 q)). split; nra. }
  pose proof (fun c => blend_hom64 al a p q M W c Ha A01 Tp Tq HM Wp Wq WB) as Sh.
  set (h := v4add (v4scale al (ToHomo p)) (v4scale (nsub n1 al) (ToHomo q))) in *.
  assert (r64 ^ 7 - 1 <= 21 * u64) as R7. { pose proof (r_pow_lin 7) as L. replace (INR 7) with 7 in L by (rewrite INR_IZR_INZ; reflexivity). pose proof u64_small. specialize (L ltac:(lra)). lra. }
  pose proof (r_pow_ge1 7) as R71. pose proof u64_pos as U0. pose proof u64_small as U1.
  set (t := bpow radix2 (-870)) in *. assert (0 < t) as T0 by apply bpow_gt_0.
  assert (forall c, sap 0 (63 * u64 * maj c M W + t) (co c h) (co c (blend_h a (val4 p) (val4 q))) (maj c M w)) as Sh'.
  { intros c. destruct (Sh c) as [F [_ E]]. split; [exact F|]. split.
    - pose proof Tp as [_ [_ [_ [_ [_ [X1 [X2 X3]]]]]]]. pose proof Tq as [_ [_ [_ [_ [_ [Y1 [Y2 Y3]]]]]]].
      assert (forall x y, Rabs x <= M -> Rabs y <= M -> Rabs (a * (x * val (w4 p)) + (1 - a) * (y * val (w4 q))) <= M * w) as Q.
      { intros x y Hx Hy. change w with (a * val (w4 p) + (1 - a) * val (w4 q)). apply Rabs_le_inv in Hx. apply Rabs_le_inv in Hy.
        assert (0 <= a * val (w4 p)) as Q1 by nra. assert (0 <= (1 - a) * val (w4 q)) as Q2 by nra.
        replace (a * (x * val (w4 p)) + (1 - a) * (y * val (w4 q))) with (x * (a * val (w4 p)) + y * ((1 - a) * val (w4 q))) by ring. apply Rabs_le. split; nra. }
      destruct c as [|[|[|]]]; cbn [maj]; try (apply Q; assumption). change (co (S (S (S n))) (blend_h a (val4 p) (val4 q))) with w. rewrite Rabs_pos_eq; lra.
    - cbn [pow]. rewrite Rminus_eq_0, Rmult_0_l, Rplus_0_l. refine (Rle_trans _ _ _ E _). apply Rplus_le_compat_r.
      assert (maj c M (3 * W) = 3 * maj c M W) as -> by (destruct c as [|[|[|]]]; cbn [maj]; ring).
      assert (0 <= maj c M W) by (destruct c as [|[|[|]]]; cbn [maj]; nra). nra. }
  assert (t / w <= bpow radix2 (-770)) as Tw.
  { apply (Rmult_le_reg_r w); [lra|]. unfold Rdiv. rewrite Rmult_assoc, Rinv_l, Rmult_1_r by lra.
    refine (Rle_trans _ (bpow radix2 (-770) * bpow radix2 (-100)) _ _ _); [rewrite <- bpow_plus; apply Rle_refl|apply Rmult_le_compat_l; [apply bpow_ge_0|lra]]. }
  assert (0 <= t / w) as Tw0 by (apply Rmult_le_pos; [lra|left; apply Rinv_0_lt_compat; lra]).
  assert (W / w <= rho) as Ww by (apply (Rmult_le_reg_r w); [lra|]; unfold Rdiv; rewrite Rmult_assoc, Rinv_l, Rmult_1_r by lra; lra).
  assert (0 <= W / w) as Ww0 by (apply Rmult_le_pos; [lra|left; apply Rinv_0_lt_compat; lra]).
  assert (/ 2 ^ 53 = u64) as Eu by (rewrite <- bpow_inv; reflexivity).
  assert (/ 2 ^ 450 = bpow radix2 (-450)) as Ev by (rewrite <- bpow_inv; reflexivity).
  assert (2 ^ 30 * u64 <= / 1000000) as RU. { rewrite <- Eu. lra. }
  assert (rho * u64 <= / 1000000) as RU' by nra. assert (0 <= rho * u64) as RU0 by nra.
  pose proof (Sh' 3%nat) as S3. cbn [co maj] in S3. change (w4 (blend_h a (val4 p) (val4 q))) with w in S3.
  pose proof (tiny_small (-770) ltac:(lia)) as Ts.
  assert (bpow radix2 (-770) <= / 1000 * u64) as Ts'.
  { apply (Rle_trans _ (bpow radix2 (-10 + -53))); [apply bpow_le; lia|]. rewrite bpow_plus. change (bpow radix2 (-10)) with (/ 1024). fold u64. lra. }
  pose proof (bpow_gt_0 radix2 (-770)) as P770. pose proof (bpow_ge1 100 ltac:(lia)) as P100.
  assert (bpow radix2 100 <= bpow radix2 1000) as B1000 by (apply bpow_le; lia).
  assert (63 * u64 * (W / w) + t / w <= 64 * (rho * u64)) as Hf.
  { assert (u64 * (W / w) <= u64 * rho) by (apply Rmult_le_compat_l; lra). assert (1 * u64 <= rho * u64) by (apply Rmult_le_compat_r; lra). lra. }
  assert (forall c, (c < 3)%nat -> exists s, ndiv (co c h) (w4 h) = Ok s /\ finite64 s /\ Rabs (val s - co c (blend_h a (val4 p) (val4 q)) / w) <= ins_eps rho M) as D.
  { intros c Hc. pose proof (Sh' c) as Sc. assert (forall y, maj c M y = M * y) as Em by (intros; destruct c as [|[|[|]]]; [reflexivity|reflexivity|reflexivity|lia]). rewrite !Em in Sc.
    assert ((63 * u64 * (M * W) + t) / w = 63 * u64 * M * (W / w) + t / w) as Ee by (field; lra).
    assert ((63 * u64 * W + t) / w = 63 * u64 * (W / w) + t / w) as Ef by (field; lra).
    assert (0 <= u64 * M) as UM0 by (apply Rmult_le_pos; lra).
    assert (u64 * M * (W / w) <= u64 * M * rho) as I1 by (apply Rmult_le_compat_l; assumption).
    assert (0 <= u64 * M * (W / w)) as I2 by (apply Rmult_le_pos; assumption).
    assert (u64 * M * rho <= / 1000000 * bpow radix2 100) as I3. { replace (u64 * M * rho) with ((rho * u64) * M) by ring. apply Rmult_le_compat; lra. }
    destruct (sap_div_big 0 (63 * u64 * (M * W) + t) (63 * u64 * W + t) (co c h) (w4 h) (co c (blend_h a (val4 p) (val4 q))) w (M * w) M Sc S3) as [s [E1 [F1 B1]]]; try lra.
    - assert (0 <= u64 * (M * W)) by (apply Rmult_le_pos; [lra|apply Rmult_le_pos; lra]). lra.
    - assert (0 <= u64 * W) by (apply Rmult_le_pos; lra). lra.
    - exists s. split; [exact E1|]. split; [exact F1|]. refine (Rle_trans _ _ _ B1 _). rewrite Ee, Ef. unfold ins_eps. unfold Rdiv. rewrite Eu, Ev. cbn [pow].
      assert (M * (t / w) <= bpow radix2 (-670)) as I4.
      { refine (Rle_trans _ (bpow radix2 100 * bpow radix2 (-770)) _ _ _); [apply Rmult_le_compat; lra|]. rewrite <- bpow_plus. apply Rle_refl. }
      assert (bpow radix2 (-670) <= / 1000 * bpow radix2 (-450)) as I5.
      { apply (Rle_trans _ (bpow radix2 (-10 + -450))); [apply bpow_le; lia|]. rewrite bpow_plus. change (bpow radix2 (-10)) with (/ 1024). pose proof (bpow_gt_0 radix2 (-450)). lra. }
      assert (bpow radix2 (-770) <= bpow radix2 (-670)) as I6 by (apply bpow_le; lia).
      assert (eta64 <= bpow radix2 (-670)) as I7 by (apply bpow_le; lia).
      assert (u64 * M <= u64 * M * rho) as I8. { rewrite <- (Rmult_1_r (u64 * M)) at 1. apply Rmult_le_compat_l; [exact UM0|apply HR]. }
      assert (M * (63 * u64 * (W / w) + t / w) = 63 * (u64 * M * (W / w)) + M * (t / w)) as I9 by ring.
      unfold Rdiv in *. pose proof (bpow_gt_0 radix2 (-450)). lra. }
  destruct (D 0%nat ltac:(lia)) as [t0 [E0 [F0 D0]]]. destruct (D 1%nat ltac:(lia)) as [t1 [E1 [F1 D1]]]. destruct (D 2%nat ltac:(lia)) as [t2 [E2 [F2 D2]]].
  cbn [co] in E0, E1, E2, D0, D1, D2. exists (Vec4 t0 t1 t2 (w4 h)). unfold FromHomo, v3div, head3. cbn [x3 y3 z3]. rewrite E0. cbn [bind]. rewrite E1. cbn [bind]. rewrite E2. cbn [bind].
  split; [reflexivity|]. unfold near_point. cbn [x4 y4 z4 w4].
  destruct S3 as [Fh [_ Eh]]. split; [exact F0|]. split; [exact F1|]. split; [exact F2|]. split; [exact Fh|]. split; [exact D0|]. split; [exact D1|]. split; [exact D2|].
  change (w4 (blend a (val4 p) (val4 q))) with w. refine (Rle_trans _ _ _ Eh _). cbn [pow]. unfold ins_eta, Rdiv. rewrite Eu.
  assert (63 * u64 * W + t = (63 * u64 * (W / w) + t / w) * w) as Q by (field; lra). rewrite Rminus_eq_0, Rmult_0_l, Rplus_0_l, Q. apply Rmult_le_compat_r; lra.
Qed.
