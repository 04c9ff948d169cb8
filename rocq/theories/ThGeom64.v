(** GeomSegment::GetCurve and GeomRect::GetSurface on doubles (C101, C102). *)
From Coq Require Import Reals ZArith List Lra Lia Bool SpecFloat.
From Flocq Require Import Core.
From Verif Require Import Outcome Num ModelCore ModelBasis ModelCurve ModelSurface SpecCore SpecBasis SpecCurve SpecSurface SpecErr SpecGeom64
  ThOutcome ThReal ThKnots ThKnots2 ThGrid ThVec ThSum ThSpline ThBasis ThCurve ThInsert ThCurveWit ThSurface ThSurface2 ThSurfWit ThGeom
  ThB64 ThRound ThErr ThDecide ThErrWit ThBBoxWit ThErrInsert3 ThErrInsSurf ThBBox64 ThUniform64.
Import ListNotations.
Open Scope Z_scope.

(** ** One coordinate *)
Definition tau : R := (/ 2 ^ 1000)%R.
Lemma eta_tau : (eta64 * 1152921504606846976 <= tau)%R.
Proof.
  unfold tau, eta64. change 1152921504606846976%R with (bpow radix2 60). rewrite <- bpow_plus.
  replace (/ 2 ^ 1000)%R with (bpow radix2 (-1000)); [apply bpow_le; lia|].
  change (-1000) with (- (1000)). rewrite bpow_opp. f_equal. rewrite <- (IZR_Zpower radix2) by lia. change (radix2 : Z) with 2.
  change (2 ^ 1000)%Z with (2 ^ Z.of_nat 1000)%Z. rewrite <- pow_IZR. reflexivity.
Qed.
Lemma M_ok x (M : R) : (Rabs x <= 8 * M + 8)%R -> (0 <= M <= 2 ^ 100)%R -> no_overflow x.
Proof.
  intros H HM. apply rnd64_big. eapply Rle_trans; [exact H|].
  assert (2 ^ 100 = bpow radix2 100)%R as E by (rewrite <- (IZR_Zpower radix2) by lia; change (2 ^ 100)%R with (2 ^ Z.to_nat 100)%R; rewrite pow_IZR; reflexivity).
  rewrite E in HM. apply Rle_trans with (bpow radix2 3 * (bpow radix2 100 + bpow radix2 100))%R.
  - change (bpow radix2 3) with 8%R. assert (bpow radix2 0 <= bpow radix2 100)%R as B by (apply bpow_le; lia). change (bpow radix2 0) with 1%R in B. lra.
  - replace (bpow radix2 3 * (bpow radix2 100 + bpow radix2 100))%R with (bpow radix2 1 * (bpow radix2 3 * bpow radix2 100))%R by (change (bpow radix2 1) with 2%R; ring).
    rewrite <- !bpow_plus. apply bpow_le. lia.
Qed.
Lemma err_of x y e : (Rabs (x - y) <= e)%R -> (Rabs x <= Rabs y + e)%R.
Proof. intros H. pose proof (Rabs_triang_inv x y). lra. Qed.
(** the product [i * ((b - a) / m)] *)
Section Coord.
  Variables (a b : b64) (M : R) (m i : Z).
  Hypothesis Fa : finite64 a.
  Hypothesis Fb : finite64 b.
  Hypothesis Ba : (Rabs (val a) <= M)%R.
  Hypothesis Bb : (Rabs (val b) <= M)%R.
  Hypothesis HM : (0 <= M <= 2 ^ 100)%R.
  Hypothesis Hm : 1 <= m <= 2 ^ 31.
  Hypothesis Hi : 0 <= i <= m.
  Definition delta64 : b64 := SFdiv 53 1024 (nsub b a) (nofZ m).
  Definition part64 : b64 := nmul (nofZ i) delta64.
  Let w := (IZR i / IZR m)%R.
  Let e := (val b - val a)%R.
  Lemma w_bounds : (0 <= w <= 1)%R.
  Proof.
    assert (0 < IZR m)%R as P by (apply IZR_lt; lia). assert (0 <= IZR i <= IZR m)%R as Q by (split; apply IZR_le; lia). unfold w. split.
    - apply Rmult_le_pos; [lra|]. left. apply Rinv_0_lt_compat; lra.
    - apply Rmult_le_reg_r with (IZR m); [exact P|]. unfold Rdiv. rewrite Rmult_assoc, Rinv_l by lra. lra.
  Qed.
  Lemma delta_div : ndiv (nsub b a) (nofZ m) = Ok delta64.
  Proof. reflexivity. Qed.
  Lemma part_ok : finite64 part64 /\ (Rabs (val part64 - w * e) <= (6 + / 64) * u64 * M + tau / 4)%R /\ (i = 0 -> val part64 = 0%R).
  Proof.
    pose proof u64_53 as U. pose proof eta64_pos as Ep. pose proof eta_tau as Et. pose proof w_bounds as Wb.
    assert (1 <= IZR m)%R as Pm by (apply IZR_le; lia). assert (0 <= IZR i <= 2147483648)%R as Qi by (split; apply IZR_le; lia).
    assert (Rabs e <= 2 * M)%R as Be by (apply Rabs_le; apply Rabs_le_inv in Ba, Bb; unfold e; lra).
    destruct (sub_round b a Fb Fa) as [Fd Vd]; [apply M_ok with M; [fold e; lra|exact HM]|]. fold e in Vd.
    pose proof (rnd64_err e) as Ed. rewrite <- Vd in Ed. set (d := val (nsub b a)) in *.
    assert (Rabs d <= Rabs e + (Rabs e * u64 + eta64))%R as Bd by (apply err_of; exact Ed).
    destruct (ofZ_val m ltac:(lia)) as [Fm Vm]. destruct (ofZ_val i ltac:(lia)) as [Fi Vi].
    assert (Rabs (d / IZR m) <= Rabs d)%R as Bq.
    { unfold Rdiv. rewrite Rabs_mult. rewrite <- (Rmult_1_r (Rabs d)) at 2. apply Rmult_le_compat_l; [apply Rabs_pos|].
      rewrite Rabs_pos_eq; [|left; apply Rinv_0_lt_compat; lra]. rewrite <- Rinv_1. apply Rinv_le_contravar; lra. }
    assert (Rabs d <= 3 * M + 1)%R as Bd3.
    { assert (0 <= Rabs e)%R by apply Rabs_pos. assert (tau <= 1)%R as T1.
      { unfold tau. rewrite <- Rinv_1. apply Rinv_le_contravar; [lra|]. apply pow_R1_Rle. lra. }
      rewrite U in *. lra. }
    destruct (div_round (nsub b a) (nofZ m) Fd Fm) as [q [Eq [Fq Vq]]].
    { rewrite Vm. lra. }
    { rewrite Vm. fold d. apply M_ok with M; [lra|exact HM]. }
    rewrite delta_div in Eq. assert (q = delta64) as -> by congruence. rewrite Vm in Vq. fold d in Vq.
    pose proof (rnd64_err (d / IZR m)) as Eq2. rewrite <- Vq in Eq2. set (kk := val delta64) in *.
    (* i * kk *)
    assert (Rabs (IZR i * kk - w * d) <= Rabs d * u64 + IZR i * eta64)%R as E2.
    { replace (IZR i * kk - w * d)%R with (IZR i * (kk - d / IZR m))%R by (unfold w, Rdiv; ring). rewrite Rabs_mult, (Rabs_pos_eq (IZR i)) by lra.
      eapply Rle_trans; [apply Rmult_le_compat_l; [lra|exact Eq2]|]. rewrite Rmult_plus_distr_l. apply Rplus_le_compat_r.
      replace (IZR i * (Rabs (d / IZR m) * u64))%R with (w * Rabs d * u64)%R.
      - pose proof (Rabs_pos d). apply Rmult_le_compat_r; [rewrite U; lra|]. rewrite <- (Rmult_1_l (Rabs d)) at 2. apply Rmult_le_compat_r; lra.
      - unfold Rdiv. rewrite Rabs_mult, (Rabs_pos_eq (/ IZR m)) by (left; apply Rinv_0_lt_compat; lra). unfold w, Rdiv. ring. }
    assert (Rabs (w * d) <= Rabs d)%R as Bwd.
    { rewrite Rabs_mult, (Rabs_pos_eq w) by lra. pose proof (Rabs_pos d). rewrite <- (Rmult_1_l (Rabs d)) at 2. apply Rmult_le_compat_r; lra. }
    assert (IZR i * eta64 <= 2147483648 * eta64)%R as Bi by (apply Rmult_le_compat_r; lra).
    assert (Rabs (IZR i * kk) <= Rabs d + (Rabs d * u64 + 2147483648 * eta64))%R as Bik.
    { pose proof (err_of _ _ _ E2). lra. }
    assert (tau <= 1)%R as T1.
    { unfold tau. rewrite <- Rinv_1. apply Rinv_le_contravar; [lra|]. apply pow_R1_Rle. lra. }
    destruct (mul_round (nofZ i) delta64 Fi Fq) as [Ft Vt].
    { rewrite Vi. fold kk. apply M_ok with M; [|exact HM]. rewrite U in *. lra. }
    change (nmul (nofZ i) delta64) with part64 in Ft, Vt. rewrite Vi in Vt. fold kk in Vt.
    split; [exact Ft|]. split.
    - pose proof (rnd64_err (IZR i * kk)) as E4. rewrite <- Vt in E4.
      assert (Rabs (w * d - w * e) <= Rabs e * u64 + eta64)%R as E5.
      { replace (w * d - w * e)%R with (w * (d - e))%R by ring. rewrite Rabs_mult, (Rabs_pos_eq w) by lra.
        pose proof (Rabs_pos (d - e)). eapply Rle_trans; [|exact Ed]. rewrite <- (Rmult_1_l (Rabs (d - e))) at 2. apply Rmult_le_compat_r; lra. }
      replace (val part64 - w * e)%R with ((val part64 - IZR i * kk) + (IZR i * kk - w * d) + (w * d - w * e))%R by ring.
      eapply Rle_trans; [apply Rabs_triang|]. eapply Rle_trans; [apply Rplus_le_compat_r, Rabs_triang|].
      pose proof (Rabs_pos d). pose proof (Rabs_pos e). rewrite U in *. lra.
    - intros ->. rewrite Vt, Rmult_0_l. apply round_0. typeclasses eauto.
  Qed.
End Coord.
Lemma tau_pos : (0 < tau)%R.
Proof. unfold tau. apply Rinv_0_lt_compat. apply pow_lt. lra. Qed.
Lemma tau_450 : (4 * tau <= / 2 ^ 450)%R.
Proof.
  unfold tau. replace 1000%nat with (2 + (450 + 548))%nat by reflexivity. rewrite !pow_add.
  assert (0 < 2 ^ 450)%R as P by (apply pow_lt; lra). assert (1 <= 2 ^ 548)%R as Q by (apply pow_R1_Rle; lra). set (A := (2 ^ 450)%R) in *. set (B := (2 ^ 548)%R) in *.
  replace (4 * / (2 ^ 2 * (A * B)))%R with (/ A * / B)%R by (field; lra).
  rewrite <- (Rmult_1_r (/ A)) at 2. apply Rmult_le_compat_l; [left; apply Rinv_0_lt_compat; lra|]. rewrite <- Rinv_1. apply Rinv_le_contravar; lra.
Qed.
Lemma tau_1 : (tau <= / 4)%R.
Proof. pose proof tau_450. assert (/ 2 ^ 450 <= 1)%R; [|lra]. rewrite <- Rinv_1. apply Rinv_le_contravar; [lra|]. apply pow_R1_Rle; lra. Qed.

Section Coord1.
  Variables (a b : b64) (M : R) (m i : Z).
  Hypothesis Ha : coord_ok M a.
  Hypothesis Hb : coord_ok M b.
  Hypothesis HM : (0 <= M <= 2 ^ 100)%R.
  Hypothesis Hm : 1 <= m <= 2 ^ 31.
  Hypothesis Hi : 0 <= i <= m.
  Definition along64 : b64 := nadd a (part64 a b m i).
  Lemma along_mid (w : R) : (0 <= w <= 1)%R -> (Rabs (val a + w * (val b - val a)) <= M)%R.
  Proof. intros Hw. destruct Ha as [_ Ba], Hb as [_ Bb]. apply Rabs_le. apply Rabs_le_inv in Ba, Bb. nra. Qed.
  Lemma along_ok : finite64 along64 /\ (Rabs (val along64 - (val a + IZR i / IZR m * (val b - val a))) <= (7 + / 32) * u64 * M + tau / 2)%R /\
    (i = 0 -> val along64 = val a).
  Proof.
    destruct Ha as [Fa Ba], Hb as [Fb Bb]. destruct (part_ok a b M m i Fa Fb Ba Bb HM Hm Hi) as [Ft [Et E0]].
    pose proof (along_mid _ (w_bounds m i Hm Hi)) as Bm. set (w := (IZR i / IZR m)%R) in *. set (t := val (part64 a b m i)) in *.
    pose proof u64_53 as U. pose proof eta64_pos as Ep. pose proof eta_tau as Etau. pose proof tau_1 as T1.
    assert (Rabs (val a + t - (val a + w * (val b - val a))) <= (6 + / 64) * u64 * M + tau / 4)%R as E1.
    { replace (val a + t - (val a + w * (val b - val a)))%R with (t - w * (val b - val a))%R by ring. exact Et. }
    pose proof (err_of _ _ _ E1) as B1.
    destruct (add_round a (part64 a b m i) Fa Ft) as [Fh Vh]; [apply M_ok with M; [fold t; rewrite U in *; lra|exact HM]|].
    change (nadd a (part64 a b m i)) with along64 in Fh, Vh. fold t in Vh.
    split; [exact Fh|]. split.
    - pose proof (rnd64_err (val a + t)) as E2. rewrite <- Vh in E2.
      replace (val along64 - (val a + w * (val b - val a)))%R with ((val along64 - (val a + t)) + (val a + t - (val a + w * (val b - val a))))%R by ring.
      eapply Rle_trans; [apply Rabs_triang|]. rewrite U in *. lra.
    - intros I0. rewrite Vh. rewrite (E0 I0), Rplus_0_r. apply rnd64_id. apply val_format. exact Fa.
  Qed.
End Coord1.
Section Coord2.
  Variables (a b d : b64) (M : R) (m i n j : Z).
  Hypothesis Ha : coord_ok M a.
  Hypothesis Hb : coord_ok M b.
  Hypothesis Hd : coord_ok M d.
  Hypothesis HM : (0 <= M <= 2 ^ 100)%R.
  Hypothesis Hm : 1 <= m <= 2 ^ 31.
  Hypothesis Hn : 1 <= n <= 2 ^ 31.
  Hypothesis Hi : 0 <= i <= m.
  Hypothesis Hj : 0 <= j <= n.
  Definition across64 : b64 := nadd (along64 a b m i) (part64 a d n j).
  Lemma across_ok : finite64 across64 /\
    (Rabs (val across64 - (val a + IZR i / IZR m * (val b - val a) + IZR j / IZR n * (val d - val a))) <= 17 * u64 * M + tau)%R /\
    (i = 0 -> j = 0 -> val across64 = val a).
  Proof.
    destruct (along_ok a b M m i Ha Hb HM Hm Hi) as [Fs [Es Es0]]. pose proof (along_mid a b M Ha Hb _ (w_bounds m i Hm Hi)) as Bm.
    destruct Ha as [Fa Ba], Hd as [Fd Bd]. destruct (part_ok a d M n j Fa Fd Ba Bd HM Hn Hj) as [Ft [Et Et0]]. pose proof (w_bounds n j Hn Hj) as Wj.
    set (w := (IZR i / IZR m)%R) in *. set (t := val (part64 a d n j)) in *. set (w2 := (IZR j / IZR n)%R) in *.
    pose proof u64_53 as U. pose proof eta64_pos as Ep. pose proof eta_tau as Etau. pose proof tau_1 as T1.
    assert (Rabs (w2 * (val d - val a)) <= 2 * M)%R as B2 by (apply Rabs_le; apply Rabs_le_inv in Ba, Bd; nra).
    set (E := (w2 * (val d - val a))%R) in *. set (A := (val a + w * (val b - val a))%R) in *. set (s := val (along64 a b m i)) in *.
    assert (Rabs (s + t - (A + E)) <= (13 + 3 / 64) * u64 * M + 3 / 4 * tau)%R as E1.
    { replace (s + t - (A + E))%R with ((s - A) + (t - E))%R by ring. eapply Rle_trans; [apply Rabs_triang|]. lra. }
    pose proof (err_of _ _ _ E1) as B1. pose proof (Rabs_triang A E) as B3.
    destruct (add_round (along64 a b m i) (part64 a d n j) Fs Ft) as [Fh Vh]; [apply M_ok with M; [fold s t; rewrite U in *; lra|exact HM]|].
    change (nadd (along64 a b m i) (part64 a d n j)) with across64 in Fh, Vh. fold s t in Vh.
    split; [exact Fh|]. split.
    - pose proof (rnd64_err (s + t)) as E2. rewrite <- Vh in E2.
      replace (val across64 - (A + E))%R with ((val across64 - (s + t)) + (s + t - (A + E)))%R by ring.
      eapply Rle_trans; [apply Rabs_triang|]. rewrite U in *. lra.
    - intros I0 J0. rewrite Vh, (Es0 I0), (Et0 J0), Rplus_0_r. apply rnd64_id. apply val_format. exact Fa.
  Qed.
End Coord2.

(** ** Sums of nearly linear coefficients *)
Lemma spl_near p l (P Q : Z -> R) eps x : clamped p l -> (0 <= x <= 1)%R -> (forall i, 0 <= i < len l - p - 1 -> (Rabs (P i - Q i) <= eps)%R) ->
  (Rabs (spl p l P x - spl p l Q x) <= eps)%R.
Proof.
  intros C Hx H.
  assert (spl p l P x <= spl p l (fun i => 1 * Q i + eps * 1) x)%R as A.
  { apply spl_le; [exact C|exact Hx|]. intros i Hi. specialize (H i Hi). apply Rabs_le_inv in H. lra. }
  assert (spl p l (fun i => 1 * Q i + (- eps) * 1) x <= spl p l P x)%R as B.
  { apply spl_le; [exact C|exact Hx|]. intros i Hi. specialize (H i Hi). apply Rabs_le_inv in H. lra. }
  rewrite (spl_lin p l 1 eps Q (fun _ => 1%R)), spl_const in A by assumption.
  rewrite (spl_lin p l 1 (- eps) Q (fun _ => 1%R)), spl_const in B by assumption. apply Rabs_le. lra.
Qed.
Lemma uniform64_apart p k : 0 <= p -> 0 <= k <= 2 ^ 31 -> apart (uniform64 p k).
Proof.
  intros Hp Hk i Hi L. rewrite len_uniform64 in L by assumption. rewrite !at_uniform64 by lia. intros Lt.
  destruct (Z.lt_ge_cases i p); [rewrite knotv_flat in Lt by lia; lra|].
  destruct (Z.lt_ge_cases (p + k) i); [rewrite knotv_flat in Lt by lia; lra|].
  pose proof (knotv_step p k Hk i ltac:(lia)) as A. apply Rabs_le_inv in A. destruct (g_bounds k Hk) as [G _]. rewrite u64_53 in A.
  apply Rle_trans with (/ 8589934592)%R; [|lra]. apply Rinv_le_contravar; [lra|].
  replace 8589934592%R with (2 ^ 33)%R by (compute; lra). apply Rle_pow; [lra|lia].
Qed.

(** ** The segment *)
Definition seg_pt (a b : vec3 b64) (m i : Z) : vec4 b64 :=
  Vec4 (along64 (x3 a) (x3 b) m i) (along64 (y3 a) (y3 b) m i) (along64 (z3 a) (z3 b) m i) n1.
Lemma v3div_64 (a : vec3 b64) s : v3div a s = Ok (Vec3 (SFdiv 53 1024 (x3 a) s) (SFdiv 53 1024 (y3 a) s) (SFdiv 53 1024 (z3 a) s)).
Proof. reflexivity. Qed.
Lemma segment64_make p n (a b : vec3 b64) : 1 <= p -> p + 1 <= n -> n + p + 1 <= 2 ^ 31 ->
  GeomSegment_GetCurve p n a b = Ok (Curve p (uniform64 p (n - p - 1)) (map (seg_pt a b (n - 1)) (zrange 0 n))).
Proof.
  intros P1 Hn HI. unfold GeomSegment_GetCurve. destruct (Z.leb_spec 1 p); [|lia]. cbn [assert_ bind].
  destruct (Z.leb_spec (p + 1) n); [|lia]. cbn [assert_ bind]. cbv zeta.
  rewrite Uniform64_eq by lia. cbn [bind]. replace (n + p + 1 - 2 * (p + 1)) with (n - p - 1) by lia.
  rewrite v3div_64. cbn [bind]. rewrite (tabulate_ok 0 n _ (seg_pt a b (n - 1))) by reflexivity. reflexivity.
Qed.
Lemma seg_pt_ok M a b m i : small3 M a -> small3 M b -> (0 <= M <= 2 ^ 100)%R -> 1 <= m <= 2 ^ 31 -> 0 <= i <= m ->
  near3 (8 / 2 ^ 53 * M + tau) (spot (seg_pt a b m i)) (lerp (val3 a) (val3 b) (IZR i / IZR m)) /\ (i = 0 -> val3 (spot (seg_pt a b m i)) = val3 a).
Proof.
  intros [Ax [Ay Az]] [Bx [By Bz]] HM Hm Hi.
  destruct (along_ok _ _ M m i Ax Bx HM Hm Hi) as [Fx [Ex Ox]]. destruct (along_ok _ _ M m i Ay By HM Hm Hi) as [Fy [Ey Oy]].
  destruct (along_ok _ _ M m i Az Bz HM Hm Hi) as [Fz [Ez Oz]]. pose proof tau_pos as T. rewrite u64_53 in *.
  split.
  - unfold near3, spot, lerp, val3. cbn [x3 y3 z3 seg_pt x4 y4 z4]. split; [exact Fx|]. split; [exact Fy|]. split; [exact Fz|].
    replace (2 ^ 53)%R with 9007199254740992%R by (compute; lra).
    split; [|split]; (eapply Rle_trans; [eassumption|]; lra).
  - intros I0. unfold val3, spot. cbn [x3 y3 z3 seg_pt x4 y4 z4]. rewrite (Ox I0), (Oy I0), (Oz I0). reflexivity.
Qed.
Lemma lerp_coord f3 (a b : vec3 R) t : f3 = x3 \/ f3 = y3 \/ f3 = z3 -> f3 (lerp a b t) = (f3 a + t * (f3 b - f3 a))%R.
Proof. intros [->|[->| ->]]; reflexivity. Qed.
Lemma p53 : (2 ^ 53 = 9007199254740992)%R.
Proof. compute. lra. Qed.
Lemma M99 M k : (0 <= M <= 2 ^ 98)%R -> (0 <= k <= 17)%R -> (0 <= 3 * M + (k / 2 ^ 53 * M + tau) <= 2 ^ 100)%R.
Proof.
  intros HM Hk. pose proof tau_pos. pose proof tau_1. replace (2 ^ 100)%R with (4 * 2 ^ 98)%R by (simpl; ring).
  assert (1 <= 2 ^ 98)%R by (apply pow_R1_Rle; lra). rewrite p53.
  assert (0 <= k / 9007199254740992 * M <= M / 4)%R as Q; [|lra]. split; [apply Rmult_le_pos; lra|].
  apply Rle_trans with (17 / 9007199254740992 * M)%R; [apply Rmult_le_compat_r; lra|lra].
Qed.
Lemma segment64_curve p n (a b : vec3 b64) M : 1 <= p -> p + 1 <= n -> n + p + 1 <= 2 ^ 31 -> small3 M a -> small3 M b -> (0 <= M <= 2 ^ 98)%R ->
  let c := Curve p (uniform64 p (n - p - 1)) (map (seg_pt a b (n - 1)) (zrange 0 n)) in
  sound_curve c /\ apart (Knots c) /\ len (ControlPoints c) = n /\ Forall (tame (M + (8 / 2 ^ 53 * M + tau))) (ControlPoints c).
Proof.
  intros P1 Hn HI Ha Hb HM c.
  assert (all_finite (Knots c)) as Fk by (apply uniform64_finite; lia). assert (clamped p (vals (Knots c))) as Ck by (apply uniform64_clamped; lia).
  assert (len (ControlPoints c) = n) as Ln by (apply len_map_zrange; lia).
  split; [split; [split; assumption|]; rewrite Ln; cbn [Knots Degree c]; rewrite len_uniform64 by lia; lia|].
  split; [apply uniform64_apart; lia|]. split; [exact Ln|].
  apply Forall_forall. intros q Hq. apply in_map_iff in Hq. destruct Hq as [i [<- Hi]]. apply In_zrange in Hi.
  assert (0 <= M <= 2 ^ 100)%R as HM' by (pose proof (Rle_pow 2 98 100 ltac:(lra) ltac:(lia)); lra).
  destruct (seg_pt_ok M a b (n - 1) i Ha Hb HM') as [[Fx [Fy [Fz [Ex [Ey Ez]]]]] _]; [lia|lia|]. pose proof (w_bounds (n - 1) i ltac:(lia) ltac:(lia)) as Wb.
  destruct Ha as [Ax [Ay Az]], Hb as [Bx [By Bz]].
  pose proof (along_mid _ _ M Ax Bx _ Wb) as Mx. pose proof (along_mid _ _ M Ay By _ Wb) as My. pose proof (along_mid _ _ M Az Bz _ Wb) as Mz.
  unfold tame. split; [exact Fx|]. split; [exact Fy|]. split; [exact Fz|]. split; [exact finite_1|].
  change (w4 (seg_pt a b (n - 1) i)) with (n1 : b64). rewrite val_1. split.
  { assert (1 <= 2 ^ 100)%R by (apply pow_R1_Rle; lra). split; [|lra]. rewrite <- Rinv_1. apply Rinv_le_contravar; lra. }
  split; [|split]; (eapply Rle_trans; [eapply err_of; eassumption|]; apply Rplus_le_compat_r; assumption).
Qed.
Lemma near3_trans e1 e2 e q r r' : near3 e1 q r -> (Rabs (x3 r - x3 r') <= e2)%R -> (Rabs (y3 r - y3 r') <= e2)%R -> (Rabs (z3 r - z3 r') <= e2)%R ->
  (e1 + e2 <= e)%R -> near3 e q r'.
Proof.
  intros [Fx [Fy [Fz [Ex [Ey Ez]]]]] Dx Dy Dz He. split; [exact Fx|]. split; [exact Fy|]. split; [exact Fz|].
  split; [|split]; (apply Rabs_le; apply Rabs_le_inv in Ex, Ey, Ez, Dx, Dy, Dz; lra).
Qed.
Lemma C101_lemma p n (a b : vec3 b64) M : 1 <= p <= 50 -> p + 1 <= n -> n + p + 1 <= 2 ^ 31 -> small3 M a -> small3 M b -> (0 <= M <= 2 ^ 98)%R ->
  exists c, GeomSegment_GetCurve p n a b = Ok c /\ sound_curve c /\ apart (Knots c) /\ Degree c = p /\ len (ControlPoints c) = n /\
    (forall i, 0 <= i < n -> exists q, vget (ControlPoints c) i = Ok q /\ val (w4 q) = 1%R /\
       near3 (8 / 2 ^ 53 * M + / 2 ^ 1000) (spot q) (lerp (val3 a) (val3 b) (IZR i / IZR (n - 1))) /\ (i = 0 -> val3 (spot q) = val3 a)) /\
    (forall x, finite64 x -> (0 <= val x <= 1)%R -> exists q s, Curve_Evaluate c x = Ok q /\ (0 <= s <= 1)%R /\
       near3 ((45 * (IZR p + 1) + 9) / 2 ^ 53 * M + / 2 ^ 449) q (lerp (val3 a) (val3 b) s) /\
       (val x = 0 -> s = 0)%R /\ (val x = 1 -> s = 1)%R /\ (n = p + 1 -> s = val x)).
Proof.
  intros P1 Hn HI Ha Hb HM. set (c := Curve p (uniform64 p (n - p - 1)) (map (seg_pt a b (n - 1)) (zrange 0 n))).
  destruct (segment64_curve p n a b M ltac:(lia) Hn HI Ha Hb HM) as [Sc [Ac [Ln Tc]]]. fold c in Sc, Ac, Ln, Tc.
  assert (0 <= M <= 2 ^ 100)%R as HM' by (pose proof (Rle_pow 2 98 100 ltac:(lra) ltac:(lia)); lra).
  exists c. split; [apply segment64_make; lia|]. split; [exact Sc|]. split; [exact Ac|]. split; [reflexivity|]. split; [exact Ln|]. split.
  - intros i Hi. exists (seg_pt a b (n - 1) i). split; [apply (vget_map_zrange _ n); lia|]. split; [exact val_1|]. apply seg_pt_ok; auto; lia.
  - intros x Fx Hx. set (M1 := (M + (8 / 2 ^ 53 * M + tau))%R) in *.
    assert (0 <= M1 <= 2 ^ 100)%R as HM1.
    { pose proof (M99 M 8 HM ltac:(lra)) as Q. pose proof tau_pos. unfold M1. split; [|lra].
      assert (0 <= 8 / 2 ^ 53 * M)%R; [|lra]. apply Rmult_le_pos; [rewrite p53; lra|lra]. }
    destruct (C66_lemma c M1 x Sc Ac ltac:(cbn; lia) Tc HM1 Fx Hx) as [q [Eq Nq]]. change (Degree c) with p in Nq.
    assert (clamped p (vals (Knots c))) as Ck by apply Sc.
    assert (len (vals (Knots c)) = n + p + 1) as Lk by (rewrite len_vals; cbn [Knots c]; rewrite len_uniform64; lia).
    set (g := fun i => (IZR i / IZR (n - 1))%R). set (s := spl p (vals (Knots c)) g (val x)).
    assert (s = seg_param p (vals (Knots c)) (val x)) as Es by (unfold s, seg_param; rewrite Lk; apply spl_ext; intros; unfold g; f_equal; f_equal; lia).
    exists q, s. split; [exact Eq|]. split; [rewrite Es; apply seg_param_bounds; auto; lia|]. split.
    + assert (wf_curve (curve_val c)) as W by (apply tame_wf with M1; assumption).
      assert (forall i, 0 <= i < n -> cp (curve_val c) i = val4 (seg_pt a b (n - 1) i)) as Gc.
      { intros i Hi. assert (vget (ControlPoints (curve_val c)) i = Ok (val4 (seg_pt a b (n - 1) i))) as V.
        { cbn [curve_val ControlPoints c]. rewrite map_map. exact (vget_map_zrange (fun i => val4 (seg_pt a b (n - 1) i)) n i Hi). }
        rewrite vget_cp in V by (cbn [curve_val ControlPoints]; rewrite len_map, Ln; lia). congruence. }
      assert (len (ControlPoints (curve_val c)) = n) as Lr by (cbn [curve_val ControlPoints]; rewrite len_map; exact Ln).
      assert (curve_den (curve_val c) (val x) = 1%R) as D.
      { unfold curve_den. rewrite <- (spl_const p (vals (Knots c)) 1 (val x) Ck Hx). unfold spl. rewrite Lr, Lk.
        replace (n + p + 1 - p - 1) with n by lia. apply zsum_ext. intros i Hi. rewrite Gc by assumption. unfold basis_fun.
        cbn [val4 w4 seg_pt]. rewrite val_1. reflexivity. }
      assert (forall (f : vec4 R -> R) (f3 : forall T, vec3 T -> T), (forall v, f (val4 v) = f3 R (val3 (spot v))) ->
        (forall i, 0 <= i < n -> (Rabs (f3 R (val3 (spot (seg_pt a b (n - 1) i))) - (f3 R (val3 a) + g i * (f3 R (val3 b) - f3 R (val3 a)))) <= 8 / 2 ^ 53 * M + tau)%R) ->
        (Rabs (curve_num (curve_val c) f (val x) / curve_den (curve_val c) (val x) - (f3 R (val3 a) + s * (f3 R (val3 b) - f3 R (val3 a)))) <= 8 / 2 ^ 53 * M + tau)%R) as Nm.
      { intros f f3 Hf Hn3. rewrite D. unfold Rdiv at 1. rewrite Rinv_1, Rmult_1_r.
        replace (f3 R (val3 a) + s * (f3 R (val3 b) - f3 R (val3 a)))%R with
          (spl p (vals (Knots c)) (fun i => f3 R (val3 a) * 1 + (f3 R (val3 b) - f3 R (val3 a)) * g i)%R (val x)).
        2:{ rewrite (spl_lin p _ _ _ (fun _ => 1%R) g), spl_const by assumption. fold s. ring. }
        replace (curve_num (curve_val c) f (val x)) with (spl p (vals (Knots c)) (fun i => f (cp (curve_val c) i)) (val x)).
        2:{ unfold curve_num, spl. rewrite Lr, Lk. replace (n + p + 1 - p - 1) with n by lia. apply zsum_ext. intros i Hi. rewrite Gc by assumption.
            unfold basis_fun. cbn [val4 w4 seg_pt]. rewrite val_1, Rmult_1_l. reflexivity. }
        apply spl_near; [exact Ck|exact Hx|]. rewrite Lk. intros i Hi. rewrite Gc, Hf by lia. specialize (Hn3 i ltac:(lia)).
        replace (f3 R (val3 a) * 1 + (f3 R (val3 b) - f3 R (val3 a)) * g i)%R with (f3 R (val3 a) + g i * (f3 R (val3 b) - f3 R (val3 a)))%R by ring. exact Hn3. }
      assert (forall i, 0 <= i < n -> near3 (8 / 2 ^ 53 * M + tau) (spot (seg_pt a b (n - 1) i)) (lerp (val3 a) (val3 b) (g i))) as Np by (intros i Hi; apply seg_pt_ok; auto; lia).
      eapply near3_trans; [exact Nq| | | |].
      * apply (Nm x4 (@x3)); [reflexivity|]. intros i Hi. destruct (Np i Hi) as [_ [_ [_ [E _]]]]. exact E.
      * apply (Nm y4 (@y3)); [reflexivity|]. intros i Hi. destruct (Np i Hi) as [_ [_ [_ [_ [E _]]]]]. exact E.
      * apply (Nm z4 (@z3)); [reflexivity|]. intros i Hi. destruct (Np i Hi) as [_ [_ [_ [_ [_ E]]]]]. exact E.
      * pose proof tau_450 as T. pose proof tau_pos as Tp. assert (1 <= IZR p <= 50)%R as Pp by (split; apply IZR_le; lia). unfold M1. rewrite p53.
        replace (/ 2 ^ 449)%R with (/ 2 ^ 450 + / 2 ^ 450)%R. 2:{ change (2 ^ 450)%R with (2 * 2 ^ 449)%R. assert (0 < 2 ^ 449)%R by (apply pow_lt; lra). field. }
        set (P := IZR p) in *. set (k := (45 * (P + 1) / 9007199254740992)%R). assert (0 <= k <= / 1000000000000)%R as Hk by (unfold k; lra).
        replace ((45 * (P + 1) + 9) / 9007199254740992)%R with (k + 9 / 9007199254740992)%R by (unfold k; field).
        assert (k * tau <= tau)%R by (rewrite <- (Rmult_1_l tau) at 2; apply Rmult_le_compat_r; lra).
        assert (k * M <= / 1000000000000 * M)%R by (apply Rmult_le_compat_r; lra). lra.
    + split; [|split].
      * intros E. rewrite Es, E. apply seg_param_0. exact Ck.
      * intros E. rewrite Es, E. apply seg_param_1; [exact Ck|lia].
      * intros ->. rewrite Es. unfold seg_param. rewrite Lk. replace (p + 1 + p + 1 - p - 2) with p by lia. apply bezier_precision; auto; lia.
Qed.

(** ** The rectangle *)
Lemma grid_freeze_ok64 (g : grid (option (vec4 b64))) nu nv f : grid_is g nu nv (fun i j => Some (f i j)) ->
  exists g', grid_freeze g = Ok g' /\ grid_is g' nu nv f.
Proof.
  intros G. pose proof (grid_is_ze _ _ _ _ G) as Z1. destruct G as [Gu [Gv [Hu [Hv [L _]]]]].
  destruct (freeze_spec (Values g) (fun k => f (k mod nu) (k / nu))) as [l' [E [L' G']]].
  - intros k Hk. rewrite L, Z.mul_comm in Hk. destruct (idx_ex _ _ _ Hu Hk) as [r [c [Hr [Hc ->]]]].
    assert ((r * nu + c) mod nu = c) as -> by (rewrite Z.add_comm, Z.mod_add by lia; apply Z.mod_small; lia).
    assert ((r * nu + c) / nu = r) as -> by (rewrite Z.add_comm, Z.div_add by lia; rewrite Z.div_small by lia; lia).
    apply vget_ze; [nia|]. apply Z1; assumption.
  - unfold grid_freeze. rewrite E. cbn [bind]. eexists. split; [reflexivity|]. unfold grid_is. cbn [UCount VCount Values].
    repeat split; auto; [lia|]. intros i j Hi Hj. pose proof (idx_range j i nv nu Hj Hi). specialize (G' (j * nu + i) ltac:(lia)).
    replace ((j * nu + i) mod nu) with i in G' by (rewrite Z.add_comm, Z.mod_add by lia; rewrite Z.mod_small; lia).
    replace ((j * nu + i) / nu) with j in G' by (rewrite Z.add_comm, Z.div_add by lia; rewrite Z.div_small; lia).
    unfold vget in G'. destruct (Z.ltb_spec (j * nu + i) 0); [lia|]. destruct (nth_error l' (Z.to_nat (j * nu + i))); congruence.
Qed.
Definition rect_pt (a b d : vec3 b64) (m n i j : Z) : vec4 b64 :=
  Vec4 (across64 (x3 a) (x3 b) (x3 d) m i n j) (across64 (y3 a) (y3 b) (y3 d) m i n j) (across64 (z3 a) (z3 b) (z3 d) m i n j) n1.
Lemma rect64_make p q n m (a b d e : vec3 b64) : 1 <= p -> 1 <= q -> p + 1 <= n -> q + 1 <= m -> n * m <= INT_MAX -> n + p + 1 <= 2 ^ 31 -> m + q + 1 <= 2 ^ 31 ->
  exists s, GeomRect_GetSurface p q n m a b d e = Ok s /\ DegreeU s = p /\ DegreeV s = q /\
    KnotsU s = uniform64 p (n - p - 1) /\ KnotsV s = uniform64 q (m - q - 1) /\
    grid_is (Net s) n m (rect_pt a b d (n - 1) (m - 1)).
Proof.
  intros P1 Q1 Hn Hm Fit Bn Bm. unfold GeomRect_GetSurface. destruct (Z.leb_spec 1 p); [|lia]. destruct (Z.leb_spec 1 q); [|lia].
  destruct (Z.leb_spec (p + 1) n); [|lia]. destruct (Z.leb_spec (q + 1) m); [|lia]. cbn [assert_ bind].
  rewrite !Uniform64_eq by lia. cbn [bind]. replace (n + p + 1 - 2 * (p + 1)) with (n - p - 1) by lia.
  replace (m + q + 1 - 2 * (q + 1)) with (m - q - 1) by lia.
  unfold grid_uninit. destruct (Grid_make_ok n m (@None (vec4 b64))) as [g0 [E0 G0]]; try lia. rewrite E0. cbn [bind].
  rewrite !v3div_64. cbn [bind].
  match goal with |- context [for_up 0 m (fun j net => for_up 0 n (fun i net' => @?bd j i net') net) g0] =>
    destruct (fill_rows g0 n m _ 0 n m (fun i j => Some (rect_pt a b d (n - 1) (m - 1) i j)) (fun i j net => bd j i net) G0) as [g1 [E1 G1]]; try lia
  end.
  - intros i j g' Hi Hj. reflexivity.
  - cbv beta zeta in E1. rewrite E1. cbn [bind].
    assert (grid_is g1 n m (fun i j => Some (rect_pt a b d (n - 1) (m - 1) i j))) as G2.
    { apply (grid_is_eq _ _ _ _ _ G1). intros i j Hi Hj. destruct (Z.leb_spec 0 i); [|lia]. destruct (Z.ltb_spec i n); [|lia].
      destruct (Z.ltb_spec j m); [|lia]. reflexivity. }
    destruct (grid_freeze_ok64 _ _ _ _ G2) as [g3 [E3 G3]]. rewrite E3. cbn [bind]. eexists. split; [reflexivity|]. auto.
Qed.
Lemma rect_pt_ok M a b d m n i j : small3 M a -> small3 M b -> small3 M d -> (0 <= M <= 2 ^ 100)%R -> 1 <= m <= 2 ^ 31 -> 1 <= n <= 2 ^ 31 -> 0 <= i <= m -> 0 <= j <= n ->
  near3 (17 / 2 ^ 53 * M + tau) (spot (rect_pt a b d m n i j)) (lerp2 (val3 a) (val3 b) (val3 d) (IZR i / IZR m) (IZR j / IZR n)) /\
  (i = 0 -> j = 0 -> val3 (spot (rect_pt a b d m n i j)) = val3 a).
Proof.
  intros [Ax [Ay Az]] [Bx [By Bz]] [Dx [Dy Dz]] HM Hm Hn Hi Hj.
  destruct (across_ok _ _ _ M m i n j Ax Bx Dx HM Hm Hn Hi Hj) as [Fx [Ex Ox]]. destruct (across_ok _ _ _ M m i n j Ay By Dy HM Hm Hn Hi Hj) as [Fy [Ey Oy]].
  destruct (across_ok _ _ _ M m i n j Az Bz Dz HM Hm Hn Hi Hj) as [Fz [Ez Oz]]. rewrite u64_53 in *.
  split.
  - unfold near3, spot, lerp2, val3. cbn [x3 y3 z3 rect_pt x4 y4 z4]. split; [exact Fx|]. split; [exact Fy|]. split; [exact Fz|]. rewrite p53.
    split; [|split]; (eapply Rle_trans; [eassumption|]; lra).
  - intros I0 J0. unfold val3, spot. cbn [x3 y3 z3 rect_pt x4 y4 z4]. rewrite (Ox I0 J0), (Oy I0 J0), (Oz I0 J0). reflexivity.
Qed.
Lemma across_mid a b d M x y : coord_ok M a -> coord_ok M b -> coord_ok M d -> (0 <= x <= 1)%R -> (0 <= y <= 1)%R ->
  (Rabs (val a + x * (val b - val a) + y * (val d - val a)) <= 3 * M)%R.
Proof.
  intros Ha Hb Hd Hx Hy. pose proof (along_mid a b M Ha Hb x Hx) as A. destruct Ha as [_ Ba], Hd as [_ Bd].
  apply Rabs_le. apply Rabs_le_inv in A, Ba, Bd. nra.
Qed.
Lemma spl2_near p q ku kv (P Q : Z -> Z -> R) eps u v : clamped p ku -> clamped q kv -> (0 <= u <= 1)%R -> (0 <= v <= 1)%R ->
  (forall i j, 0 <= i < len ku - p - 1 -> 0 <= j < len kv - q - 1 -> (Rabs (P i j - Q i j) <= eps)%R) ->
  (Rabs (spl q kv (fun j => spl p ku (fun i => P i j) u) v - spl q kv (fun j => spl p ku (fun i => Q i j) u) v) <= eps)%R.
Proof. intros Cu Cv Hu Hv H. apply spl_near; auto. intros j Hj. apply spl_near; auto. Qed.
Lemma spl2_lin p q ku kv c0 c1 c2 (g h : Z -> R) u v : clamped p ku -> clamped q kv -> (0 <= u <= 1)%R -> (0 <= v <= 1)%R ->
  spl q kv (fun j => spl p ku (fun i => c0 + g i * c1 + h j * c2)%R u) v = (c0 + spl p ku g u * c1 + spl q kv h v * c2)%R.
Proof.
  intros Cu Cv Hu Hv. transitivity (spl q kv (fun j => (c0 + spl p ku g u * c1) * 1 + c2 * h j)%R v).
  - apply spl_ext. intros j Hj. transitivity (spl p ku (fun i => (c0 + h j * c2) * 1 + c1 * g i)%R u).
    + apply spl_ext. intros. ring.
    + rewrite (spl_lin _ _ _ _ (fun _ => 1%R) g), spl_const by assumption. ring.
  - rewrite (spl_lin _ _ _ _ (fun _ => 1%R) h), spl_const by assumption. ring.
Qed.
Lemma grid_Forall {A} (g : grid A) n m f (P : A -> Prop) : grid_is g n m f -> (forall i j, 0 <= i < n -> 0 <= j < m -> P (f i j)) -> Forall P (Values g).
Proof.
  intros G H. destruct G as [Gu [Gv [Hu [Hv [L Z1]]]]]. apply Forall_forall. intros q Hq. apply In_nth_error in Hq. destruct Hq as [k Ek].
  assert (0 <= Z.of_nat k < m * n) as Hk.
  { assert (k < length (Values g))%nat by (apply nth_error_Some; congruence). unfold len in L. lia. }
  destruct (idx_ex _ _ _ Hu Hk) as [r [c [Hr [Hc E]]]]. specialize (Z1 c r Hc Hr). rewrite <- E, Nat2Z.id, Ek in Z1. injection Z1 as ->. apply H; assumption.
Qed.
Lemma grid_map {A B} (h : A -> B) g n m f : grid_is g n m f -> grid_is (Grid (UCount g) (VCount g) (map h (Values g))) n m (fun i j => h (f i j)).
Proof.
  intros [Gu [Gv [Hu [Hv [L Z1]]]]]. unfold grid_is. cbn [UCount VCount Values]. rewrite len_map. repeat split; auto.
  intros i j Hi Hj. exact (map_nth_error h _ _ (Z1 i j Hi Hj)).
Qed.
Lemma C102_lemma p q n m (a b d e : vec3 b64) M : 1 <= p <= 50 -> 1 <= q <= 50 -> p + 1 <= n -> q + 1 <= m -> n * m <= INT_MAX ->
  n + p + 1 <= 2 ^ 31 -> m + q + 1 <= 2 ^ 31 -> small3 M a -> small3 M b -> small3 M d -> (0 <= M <= 2 ^ 98)%R ->
  exists s, GeomRect_GetSurface p q n m a b d e = Ok s /\ sound_surface s /\ apart (KnotsU s) /\ apart (KnotsV s) /\ DegreeU s = p /\ DegreeV s = q /\
    UCount (Net s) = n /\ VCount (Net s) = m /\
    (forall i j, 0 <= i < n -> 0 <= j < m -> exists c, Grid_Get (Net s) i j = Ok c /\ val (w4 c) = 1%R /\
       near3 (17 / 2 ^ 53 * M + / 2 ^ 1000) (spot c) (lerp2 (val3 a) (val3 b) (val3 d) (IZR i / IZR (n - 1)) (IZR j / IZR (m - 1))) /\
       (i = 0 -> j = 0 -> val3 (spot c) = val3 a)) /\
    (forall u v, finite64 u -> (0 <= val u <= 1)%R -> finite64 v -> (0 <= val v <= 1)%R -> exists c x y, Surface_Evaluate s u v = Ok c /\
       (0 <= x <= 1)%R /\ (0 <= y <= 1)%R /\
       near3 ((135 * (IZR p + IZR q + 1) + 18) / 2 ^ 53 * M + / 2 ^ 449) c (lerp2 (val3 a) (val3 b) (val3 d) x y) /\
       (val u = 0 -> x = 0)%R /\ (val u = 1 -> x = 1)%R /\ (n = p + 1 -> x = val u) /\
       (val v = 0 -> y = 0)%R /\ (val v = 1 -> y = 1)%R /\ (m = q + 1 -> y = val v)).
Proof.
  intros P1 Q1 Hn Hm Fit Bn Bm Ha Hb Hd HM.
  destruct (rect64_make p q n m a b d e ltac:(lia) ltac:(lia) Hn Hm Fit Bn Bm) as [s [E [D1 [D2 [K1 [K2 G]]]]]].
  assert (0 <= M <= 2 ^ 100)%R as HM' by (pose proof (Rle_pow 2 98 100 ltac:(lra) ltac:(lia)); lra).
  assert (len (KnotsU s) = n + p + 1) as LU by (rewrite K1, len_uniform64; lia).
  assert (len (KnotsV s) = m + q + 1) as LV by (rewrite K2, len_uniform64; lia).
  assert (UCount (Net s) = n /\ VCount (Net s) = m) as [NU NV] by (split; apply G).
  assert (clamped p (vals (KnotsU s))) as CU by (rewrite K1; apply uniform64_clamped; lia).
  assert (clamped q (vals (KnotsV s))) as CV by (rewrite K2; apply uniform64_clamped; lia).
  assert (all_finite (KnotsU s)) as FU by (rewrite K1; apply uniform64_finite; lia).
  assert (all_finite (KnotsV s)) as FV by (rewrite K2; apply uniform64_finite; lia).
  assert (apart (KnotsU s)) as AU by (rewrite K1; apply uniform64_apart; lia).
  assert (apart (KnotsV s)) as AV by (rewrite K2; apply uniform64_apart; lia).
  assert (sound_surface s) as Ss.
  { unfold sound_surface, sound_knots. rewrite D1, D2, NU, NV, LU, LV. do 2 (split; [split; assumption|]). split; [lia|]. split; [lia|].
    destruct G as [Gu [Gv [_ [_ [L _]]]]]. exact L. }
  assert (forall i j, 0 <= i < n -> 0 <= j < m ->
    near3 (17 / 2 ^ 53 * M + tau) (spot (rect_pt a b d (n - 1) (m - 1) i j)) (lerp2 (val3 a) (val3 b) (val3 d) (IZR i / IZR (n - 1)) (IZR j / IZR (m - 1)))) as Np
    by (intros i j Hi Hj; apply rect_pt_ok; auto; lia).
  exists s. split; [exact E|]. split; [exact Ss|]. split; [exact AU|]. split; [exact AV|]. split; [exact D1|]. split; [exact D2|]. split; [exact NU|]. split; [exact NV|].
  split.
  - intros i j Hi Hj. exists (rect_pt a b d (n - 1) (m - 1) i j). split; [apply (Grid_Get_ok _ n m (rect_pt a b d (n - 1) (m - 1))); assumption|]. split; [exact val_1|]. apply rect_pt_ok; auto; lia.
  - intros u v Fu Hu Fv Hv. set (M1 := (3 * M + (17 / 2 ^ 53 * M + tau))%R).
    assert (0 <= M1 <= 2 ^ 100)%R as HM1 by (apply M99; [exact HM|lra]).
    assert (Forall (tame M1) (Values (Net s))) as Tc.
    { apply (grid_Forall _ _ _ _ _ G). intros i j Hi Hj. destruct (Np i j Hi Hj) as [Fx [Fy [Fz [Ex [Ey Ez]]]]].
      pose proof (w_bounds (n - 1) i ltac:(lia) ltac:(lia)) as W1. pose proof (w_bounds (m - 1) j ltac:(lia) ltac:(lia)) as W2.
      destruct Ha as [Ax [Ay Az]], Hb as [Bx [By Bz]], Hd as [Dx [Dy Dz]].
      pose proof (across_mid _ _ _ M _ _ Ax Bx Dx W1 W2) as Mx. pose proof (across_mid _ _ _ M _ _ Ay By Dy W1 W2) as My. pose proof (across_mid _ _ _ M _ _ Az Bz Dz W1 W2) as Mz.
      unfold tame. split; [exact Fx|]. split; [exact Fy|]. split; [exact Fz|]. split; [exact finite_1|].
      change (w4 (rect_pt a b d (n - 1) (m - 1) i j)) with (n1 : b64). rewrite val_1. split.
      { assert (1 <= 2 ^ 100)%R by (apply pow_R1_Rle; lra). split; [|lra]. rewrite <- Rinv_1. apply Rinv_le_contravar; lra. }
      split; [|split]; (eapply Rle_trans; [eapply err_of; eassumption|]; apply Rplus_le_compat_r; assumption). }
    destruct (C67_lemma s M1 u v Ss AU AV ltac:(lia) ltac:(lia) Tc HM1 Fu Hu Fv Hv) as [c [Eq Nq]]. rewrite D1, D2 in Nq.
    set (g := fun i => (IZR i / IZR (n - 1))%R). set (h := fun j => (IZR j / IZR (m - 1))%R).
    set (x := spl p (vals (KnotsU s)) g (val u)). set (y := spl q (vals (KnotsV s)) h (val v)).
    assert (x = seg_param p (vals (KnotsU s)) (val u)) as Ex by (unfold x, seg_param; rewrite len_vals, LU; apply spl_ext; intros; unfold g; f_equal; f_equal; lia).
    assert (y = seg_param q (vals (KnotsV s)) (val v)) as Ey by (unfold y, seg_param; rewrite len_vals, LV; apply spl_ext; intros; unfold h; f_equal; f_equal; lia).
    exists c, x, y. split; [exact Eq|]. split; [rewrite Ex; apply seg_param_bounds; auto; lia|]. split; [rewrite Ey; apply seg_param_bounds; auto; lia|].
    split.
    + assert (wf_surface (surface_val s)) as W by (apply tame_wf_surf with M1; assumption).
      assert (grid_is (Net (surface_val s)) n m (fun i j => val4 (rect_pt a b d (n - 1) (m - 1) i j))) as Gr by (apply (grid_map val4 (Net s)); exact G).
      rewrite surf_point_hsurf in Nq by exact W.
      assert (forall (f : vec4 R -> R) (P : Z -> Z -> R), (forall i j, 0 <= i < n -> 0 <= j < m -> f (ghp (surface_val s) i j) = P i j) ->
        hsurf (surface_val s) f (val u) (val v) = spl q (vals (KnotsV s)) (fun j => spl p (vals (KnotsU s)) (fun i => P i j) (val u)) (val v)) as Hs.
      { intros f P Hf. unfold hsurf. cbn [surface_val DegreeU DegreeV KnotsU KnotsV]. rewrite D1, D2. apply spl_ext. intros j Hj. rewrite len_vals, LV in Hj.
        apply spl_ext. intros i Hi. rewrite len_vals, LU in Hi. apply Hf; lia. }
      assert (hsurf (surface_val s) w4 (val u) (val v) = 1%R) as Dn.
      { rewrite (Hs w4 (fun i j => 1 + g i * 0 + h j * 0)%R).
        - rewrite (spl2_lin p q _ _ 1 0 0 g h) by assumption. ring.
        - intros i j Hi Hj. unfold ghp. rewrite (gp_grid _ _ _ _ i j Gr Hi Hj). cbn [ToHomo val4 w4 rect_pt]. rewrite val_1. ring. }
      assert (forall (f : vec4 R -> R) (f3 : forall T, vec3 T -> T), (forall i j, 0 <= i < n -> 0 <= j < m -> f (ghp (surface_val s) i j) = f3 R (val3 (spot (rect_pt a b d (n - 1) (m - 1) i j)))) ->
        (forall i j, 0 <= i < n -> 0 <= j < m -> (Rabs (f3 R (val3 (spot (rect_pt a b d (n - 1) (m - 1) i j))) - (f3 R (val3 a) + g i * (f3 R (val3 b) - f3 R (val3 a)) + h j * (f3 R (val3 d) - f3 R (val3 a)))) <= 17 / 2 ^ 53 * M + tau)%R) ->
        (Rabs (hsurf (surface_val s) f (val u) (val v) / hsurf (surface_val s) w4 (val u) (val v) - (f3 R (val3 a) + x * (f3 R (val3 b) - f3 R (val3 a)) + y * (f3 R (val3 d) - f3 R (val3 a)))) <= 17 / 2 ^ 53 * M + tau)%R) as Nm.
      { intros f f3 Hf H3. rewrite Dn. unfold Rdiv at 1. rewrite Rinv_1, Rmult_1_r. rewrite (Hs f _ Hf).
        unfold x, y. rewrite <- (spl2_lin p q (vals (KnotsU s)) (vals (KnotsV s)) _ _ _ g h (val u) (val v)) by assumption.
        apply spl2_near; auto. rewrite !len_vals, LU, LV. intros i j Hi Hj. apply H3; lia. }
      assert (forall i j, 0 <= i < n -> 0 <= j < m -> ghp (surface_val s) i j = val4 (rect_pt a b d (n - 1) (m - 1) i j)) as Gh.
      { intros i j Hi Hj. unfold ghp. rewrite (gp_grid _ _ _ _ i j Gr Hi Hj). unfold ToHomo, val4. cbn [x4 y4 z4 w4 rect_pt]. rewrite val_1. norm_R. f_equal; ring. }
      eapply near3_trans; [exact Nq| | | |].
      * apply (Nm x4 (@x3)); [intros; rewrite Gh by assumption; reflexivity|]. intros i j Hi Hj. destruct (Np i j Hi Hj) as [_ [_ [_ [R1 _]]]]. exact R1.
      * apply (Nm y4 (@y3)); [intros; rewrite Gh by assumption; reflexivity|]. intros i j Hi Hj. destruct (Np i j Hi Hj) as [_ [_ [_ [_ [R1 _]]]]]. exact R1.
      * apply (Nm z4 (@z3)); [intros; rewrite Gh by assumption; reflexivity|]. intros i j Hi Hj. destruct (Np i j Hi Hj) as [_ [_ [_ [_ [_ R1]]]]]. exact R1.
      * pose proof tau_450 as T. pose proof tau_pos as Tp. assert (1 <= IZR p <= 50)%R as Pp by (split; apply IZR_le; lia). assert (1 <= IZR q <= 50)%R as Pq by (split; apply IZR_le; lia).
        unfold M1. rewrite p53.
        replace (/ 2 ^ 449)%R with (/ 2 ^ 450 + / 2 ^ 450)%R. 2:{ change (2 ^ 450)%R with (2 * 2 ^ 449)%R. assert (0 < 2 ^ 449)%R by (apply pow_lt; lra). field. }
        set (P := IZR p) in *. set (Q := IZR q) in *. set (k := (45 * (P + Q + 1) / 9007199254740992)%R). assert (0 <= k <= / 1000000000000)%R as Hk by (unfold k; lra).
        replace ((135 * (P + Q + 1) + 18) / 9007199254740992)%R with (3 * k + 18 / 9007199254740992)%R by (unfold k; field).
        assert (k * tau <= tau)%R by (rewrite <- (Rmult_1_l tau) at 2; apply Rmult_le_compat_r; lra).
        assert (k * M <= / 1000000000000 * M)%R by (apply Rmult_le_compat_r; lra). lra.
    + rewrite Ex, Ey. repeat split.
      * intros ->. apply seg_param_0. exact CU.
      * intros ->. apply seg_param_1; [exact CU|lia].
      * intros ->. unfold seg_param. rewrite len_vals, LU. replace (p + 1 + p + 1 - p - 2) with p by lia. apply bezier_precision; auto; try lia. rewrite len_vals. lia.
      * intros ->. apply seg_param_0. exact CV.
      * intros ->. apply seg_param_1; [exact CV|lia].
      * intros ->. unfold seg_param. rewrite len_vals, LV. replace (q + 1 + q + 1 - q - 2) with q by lia. apply bezier_precision; auto; try lia. rewrite len_vals. lia.
Qed.
