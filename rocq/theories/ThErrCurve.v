(** Accuracy of Basis and Curve evaluation in binary64. *)
From Coq Require Import Reals ZArith List Lra Lia Psatz Floats.SpecFloat.
From Flocq Require Import Core.
From Verif Require Import Outcome Num ModelCore ModelBasis ModelCurve ModelSurface SpecCore SpecBasis SpecCurve SpecErr ThOutcome ThReal ThB64 ThRound ThVec ThKnots ThSum ThSpline ThBasis ThCurve ThCurveWit ThErr ThErrBasis ThErrSum.
Import ListNotations.
Open Scope R_scope.

Lemma bpow_pow n : bpow radix2 (Z.of_nat n) = 2 ^ n.
Proof. rewrite <- IZR_Zpower by lia. rewrite pow_IZR. reflexivity. Qed.
Lemma bpow_inv n : bpow radix2 (- Z.of_nat n) = / 2 ^ n.
Proof. rewrite bpow_opp, bpow_pow. reflexivity. Qed.

Definition bas64 (p : nat) (b : b64) (g : R) : Prop := sap (6 * p) (lev (nn p)) b g g /\ 0 <= g <= 1 /\ 0 <= val b.
Lemma Basis64_N p l x : all_finite l -> clamped p (vals l) -> apart l -> finite64 x -> 0 <= val x <= 1 -> (p <= 50)%Z ->
  exists i res, KnotVector_FindSpanIndex l p x = Ok i /\ Basis_Evaluate p l i x = Ok res /\ (p <= i <= len l - p - 2)%Z /\ len res = (p + 1)%Z /\
    (forall r, (0 <= r <= p)%Z -> exists b, vget res r = Ok b /\ bas64 (Z.to_nat p) b (N (kf (vals l)) (Z.to_nat p) (i - p + r) (val x))) /\
    (forall k, ~ (i - p <= k <= i)%Z -> N (kf (vals l)) (Z.to_nat p) k (val x) = 0).
Proof.
  intros Fl C Ap Fx Hx H50. pose proof (cl_degree _ _ C) as P0. destruct (Basis_Evaluate_N p (vals l) (val x) C Hx) as [i [_r [E1 [_ [_ [Hi [Sp [_ [_ Z0]]]]]]]]].
  rewrite len_vals in Hi. pose proof (clamped_mono _ _ C) as M. pose proof (clamped_le1 _ _ C) as L1.
  pose proof (span_bounds _ _ _ Sp) as Sb. pose proof (span_nonempty _ _ _ Sp) as Sn.
  assert (bpow radix2 (-900) <= kf (vals l) (i + 1)%Z - kf (vals l) i) as Gap.
  { change (-900)%Z with (- Z.of_nat 900)%Z. rewrite bpow_inv. rewrite !kf_at in * by (rewrite len_vals; lia). apply Ap; try lia. lra. }
  assert (forall k, 0 <= kf (vals l) k) as L0.
  { intros k. assert (kf (vals l) 0%Z = 0) as Z1.
    { rewrite kf_at by (rewrite len_vals; lia). apply (cl_zero _ _ C). lia. }
    destruct (Z_le_dec k 0); [rewrite kf_low by lia; lra|]. rewrite <- Z1. apply M. lia. }
  destruct (basis64 l i x Fl Fx M L1 L0 Sb Gap (Z.to_nat p)) as [res [E2 [Lr Gr]]]; try (rewrite nn_of; lia).
  rewrite nn_of in * by lia. exists i, res. split; [rewrite FindSpanIndex_b64 by assumption; exact E1|]. split; [exact E2|]. split; [lia|]. split; [exact Lr|].
  split; [|exact Z0]. intros r Hr. destruct (Gr r Hr) as [b [Eb Pb]]. exists b. split; [exact Eb|].
  rewrite (N_local _ i (val x) M L1 Sp). pose proof (B_unit l i x M Sb Gap (Z.to_nat p) (i - p + r)) as Bu.
  split; [|split; [exact Bu|apply Pb]]. apply pap_sap; [apply Bu|]. rewrite nn_of by lia. exact Pb.
Qed.

(** majorants of the homogeneous coordinates of a point of weight [w] *)
Definition maj (c : nat) (M w : R) : R := match c with 0%nat | 1%nat | 2%nat => M * w | _ => w end.
Lemma bpow_100 : bpow radix2 100 = 2 ^ 100. Proof. exact (bpow_pow 100). Qed.
Lemma bpow_m100 : bpow radix2 (-100) = / 2 ^ 100. Proof. exact (bpow_inv 100). Qed.
Lemma tame_w M p : tame M p -> bpow radix2 (-100) <= val (w4 p) <= bpow radix2 100.
Proof. intros [_ [_ [_ [_ [H _]]]]]. rewrite bpow_100, bpow_m100. exact H. Qed.
Lemma maj_le c M w : 0 <= M <= bpow radix2 100 -> 0 <= w <= bpow radix2 100 -> 0 <= maj c M w <= bpow radix2 200.
Proof.
  intros HM Hw. assert (bpow radix2 200 = bpow radix2 100 * bpow radix2 100) as E by (rewrite <- bpow_plus; reflexivity).
  pose proof (bpow_ge1 100 ltac:(lia)). rewrite E. destruct c as [|[|[|]]]; cbn [maj]; split; try lra; nra.
Qed.
Lemma sap_major k e xh x A A' : A <= A' -> sap k e xh x A -> sap k e xh x A'.
Proof. intros H [F [B E]]. split; [exact F|]. split; [lra|]. pose proof (r_pow_ge1 k). nra. Qed.
Lemma hom_mul (a w : b64) M : finite64 a -> finite64 w -> Rabs (val a) <= M -> 0 <= M <= bpow radix2 100 -> 0 <= val w <= bpow radix2 100 ->
  sap 1 eta64 (nmul a w) (val a * val w) (M * val w).
Proof.
  intros Fa Fw Ha HM Hw. pose proof (sap_exact a Fa) as Sa. pose proof (sap_exact w Fw) as Sw. rewrite (Rabs_pos_eq (val w)) in Sw by lra.
  apply (sap_major _ _ _ _ (Rabs (val a) * val w)); [apply Rmult_le_compat_r; lra|].
  apply (sap_weak (0 + 0 + 1) (r64 * (r64 ^ 0 * Rabs (val a) * 0 + r64 ^ 0 * val w * 0 + 0 * 0) + eta64)); [lia|lra|].
  apply sap_mul; try assumption; try lra. cbn [pow].
  assert (bpow radix2 200 = bpow radix2 100 * bpow radix2 100) as E by (rewrite <- bpow_plus; reflexivity).
  assert (bpow radix2 200 <= bpow radix2 1023) by (apply bpow_le; lia).
  assert (Rabs (val a) * val w <= bpow radix2 100 * bpow radix2 100) by (apply Rmult_le_compat; try lra; apply Rabs_pos). lra.
Qed.
Lemma hom64 c M p : tame M p -> 0 <= M <= bpow radix2 100 ->
  sap 1 eta64 (co c (ToHomo p)) (co c (ToHomo (val4 p))) (maj c M (val (w4 p))).
Proof.
  intros T HM. pose proof (tame_w M p T) as Tw. pose proof (bpow_gt_0 radix2 (-100)). destruct T as [F1 [F2 [F3 [F4 [_ [A1 [A2 A3]]]]]]].
  assert (0 <= val (w4 p) <= bpow radix2 100) by lra.
  destruct c as [|[|[|]]]; cbn [co maj]; try (apply hom_mul; assumption).
  change (w4 (ToHomo p)) with (w4 p). change (w4 (ToHomo (val4 p))) with (val (w4 p)).
  pose proof (sap_exact _ F4) as S. rewrite Rabs_pos_eq in S by lra. pose proof eta64_pos. apply (sap_weak 0 0); [lia|lra|exact S].
Qed.
Lemma lev_le j : (0 <= j <= 50)%Z -> 0 <= lev j <= bpow radix2 (-925).
Proof.
  intros H. pose proof (lev_bounds j H). pose proof eta64_pos. split; [lra|]. unfold lev, eta64. assert (8 ^ Z.to_nat j <= bpow radix2 150).
  { replace (bpow radix2 150) with (8 ^ 50). { apply Rle_pow; [lra|lia]. } rewrite pow_IZR. rewrite <- IZR_Zpower by lia. f_equal. }
  replace (bpow radix2 (-925)) with (bpow radix2 150 * bpow radix2 (-1075)) by (rewrite <- bpow_plus; reflexivity).
  pose proof (bpow_gt_0 radix2 (-1075)). nra.
Qed.
Lemma term64 p b g (h : b64) X A kh eh E : bas64 p b g -> (nn p <= 50)%Z -> sap kh eh h X A -> A <= bpow radix2 200 -> (-714 <= E <= -600)%Z -> (kh <= 900)%nat -> 0 <= eh <= bpow radix2 E ->
  sap (6 * p + kh + 1) (bpow radix2 (E + 3)) (nmul b h) (g * X) (g * A).
Proof.
  intros [Sb [Hg _]] Hp Sh HA HH Hk He. pose proof (lev_le (nn p) ltac:(pose proof (nn_nonneg p); lia)) as Lv.
  assert (bpow radix2 E <= 1) by (change 1 with (bpow radix2 0); apply bpow_le; lia).
  assert (bpow radix2 (-925) <= 1) by (change 1 with (bpow radix2 0); apply bpow_le; lia).
  apply (sap_term (6 * p) kh (lev (nn p)) eh b h g X A (bpow radix2 200)); try assumption; try lra.
  - split; [apply bpow_ge1; lia|apply bpow_le; lia].
  - unfold nn in *. lia.
  - lia.
  - assert (bpow radix2 200 * lev (nn p) <= bpow radix2 E).
    { refine (Rle_trans _ (bpow radix2 200 * bpow radix2 (-925)) _ _ _); [apply Rmult_le_compat_l; [apply bpow_ge_0|lra]|].
      rewrite <- bpow_plus. apply bpow_le. lia. }
    assert (eta64 <= bpow radix2 E) by (apply bpow_le; lia).
    replace (bpow radix2 (E + 3)) with (8 * bpow radix2 E) by (change 8 with (bpow radix2 3); rewrite <- bpow_plus; f_equal; lia). lra.
Qed.

(** the weighted sum of [n <= 51] terms *)
Lemma tail_small n E : (0 <= n <= 51)%Z -> 0 <= IZR n * (r64 ^ Z.to_nat n * bpow radix2 E) <= bpow radix2 (E + 6).
Proof.
  intros H. pose proof (r_1000 (Z.to_nat n) ltac:(lia)) as R1. pose proof (r_pow_ge1 (Z.to_nat n)). assert (0 <= IZR n <= 51) by (split; apply IZR_le; lia).
  pose proof (bpow_gt_0 radix2 E). replace (bpow radix2 (E + 6)) with (64 * bpow radix2 E) by (change 64 with (bpow radix2 6); rewrite <- bpow_plus; f_equal; lia).
  split; [apply Rmult_le_pos; [lra|nra]|]. assert (r64 ^ Z.to_nat n * bpow radix2 E <= 11 / 10 * bpow radix2 E) by nra.
  assert (0 <= r64 ^ Z.to_nat n * bpow radix2 E) by nra. nra.
Qed.
Lemma zsum_conv n g a lo hi : (forall i, (0 <= i < n)%Z -> 0 <= g i) -> zsum 0 n g = 1 -> (forall i, (0 <= i < n)%Z -> lo <= a i <= hi) -> lo <= zsum 0 n (fun i => g i * a i) <= hi.
Proof.
  intros G S A. split.
  - replace lo with (zsum 0 n (fun i => g i * lo)) by (rewrite zsum_scale_r, S; ring). apply zsum_le. intros i Hi. specialize (G i Hi). specialize (A i Hi). nra.
  - replace hi with (zsum 0 n (fun i => g i * hi)) by (rewrite zsum_scale_r, S; ring). apply zsum_le. intros i Hi. specialize (G i Hi). specialize (A i Hi). nra.
Qed.
(** final division, component by component *)
Lemma v3div64 k e (s : vec4 b64) (X A : nat -> R) M w : (k <= 900)%nat -> 0 <= e <= bpow radix2 (-690) -> 0 <= M <= bpow radix2 100 -> bpow radix2 (-100) <= w ->
  X 3%nat = w -> (forall c, sap k e (co c s) (X c) (maj c M w)) ->
  exists q, v3div (head3 s) (w4 s) = Ok q /\ near3 ((64 / 10 * INR k + 3) / 2 ^ 53 * M + / 2 ^ 450) q (Vec3 (X 0%nat / w) (X 1%nat / w) (X 2%nat / w)).
Proof.
  intros Hk He HM Hw Xw S. pose proof (bpow_gt_0 radix2 (-100)). assert (0 < w) as W by lra.
  assert (INR k * u64 <= / 1000000) as Ku.
  { pose proof u64_small. pose proof u64_pos. assert (INR k <= 900) by (replace 900 with (INR 900) by (rewrite INR_IZR_INZ; reflexivity); apply le_INR; exact Hk). pose proof (pos_INR k). nra. }
  pose proof (r_pow_lin k ltac:(lra)) as Rk. pose proof u64_pos as U0.
  assert (e / w <= bpow radix2 (-590)) as Hew.
  { apply (Rmult_le_reg_r w); [lra|]. unfold Rdiv. rewrite Rmult_assoc, Rinv_l, Rmult_1_r by lra.
    refine (Rle_trans _ (bpow radix2 (-590) * bpow radix2 (-100)) _ _ _); [rewrite <- bpow_plus; apply He|apply Rmult_le_compat_l; [apply bpow_ge_0|exact Hw]]. }
  assert (bpow radix2 (-590) <= / 1000) as Sm.
  { apply (Rle_trans _ (bpow radix2 (-10))); [apply bpow_le; lia|]. change (bpow radix2 (-10)) with (/ 1024). lra. }
  assert (M <= bpow radix2 1000) as HM' by (refine (Rle_trans _ _ _ (proj2 HM) _); apply bpow_le; lia).
  assert (0 <= e / w) as Hew0 by (apply Rmult_le_pos; [lra|left; apply Rinv_0_lt_compat; lra]).
  pose proof (S 3%nat) as S3. rewrite Xw in S3. cbn [co maj] in S3.
  assert (forall c, (c < 3)%nat -> exists t, ndiv (co c s) (w4 s) = Ok t /\ finite64 t /\ Rabs (val t - X c / w) <= (64 / 10 * INR k + 3) / 2 ^ 53 * M + / 2 ^ 450) as D.
  { intros c Hc. pose proof (S c) as Sc. assert (maj c M w = M * w) as Em by (destruct c as [|[|[|]]]; [reflexivity|reflexivity|reflexivity|lia]). rewrite Em in Sc.
    destruct (sap_div k e e (co c s) (w4 s) (X c) w (M * w) M Sc S3 W) as [t [E1 [F1 B1]]]; try lra.
    exists t. split; [exact E1|]. split; [exact F1|]. refine (Rle_trans _ _ _ B1 _).
    assert (/ 2 ^ 53 = u64) as Eu by (rewrite <- bpow_inv; reflexivity). replace ((64 / 10 * INR k + 3) / 2 ^ 53) with ((64 / 10 * INR k + 3) * u64) by (rewrite <- Eu; reflexivity).
    assert (/ 2 ^ 450 = bpow radix2 (-450)) as Ev by (rewrite <- bpow_inv; reflexivity). rewrite Ev.
    assert (M * (e / w) <= bpow radix2 (-490)).
    { refine (Rle_trans _ (bpow radix2 100 * bpow radix2 (-590)) _ _ _); [apply Rmult_le_compat; lra|]. rewrite <- bpow_plus. apply bpow_le. lia. }
    assert (eta64 <= bpow radix2 (-490)) by (apply bpow_le; lia).
    assert (bpow radix2 (-590) <= bpow radix2 (-490)) by (apply bpow_le; lia).
    assert (8 * bpow radix2 (-490) <= bpow radix2 (-450)).
    { change 8 with (bpow radix2 3). rewrite <- bpow_plus. apply bpow_le. lia. }
    assert (11 / 10 * (e / w + M * (e / w)) + eta64 <= bpow radix2 (-450)) by (pose proof (bpow_gt_0 radix2 (-490)); lra).
    assert ((21 / 10 * (r64 ^ k - 1) + 2 * u64) * M <= (64 / 10 * INR k + 3) * u64 * M).
    { apply Rmult_le_compat_r; [lra|]. pose proof (pos_INR k). assert (0 <= INR k * u64) by nra. lra. }
    lra. }
  destruct (D 0%nat ltac:(lia)) as [t0 [E0 [F0 B0]]]. destruct (D 1%nat ltac:(lia)) as [t1 [E1 [F1 B1]]]. destruct (D 2%nat ltac:(lia)) as [t2 [E2 [F2 B2]]].
  exists (Vec3 t0 t1 t2). cbn [co] in E0, E1, E2. unfold v3div, head3. cbn [x3 y3 z3]. rewrite E0. cbn [bind]. rewrite E1. cbn [bind]. rewrite E2. cbn [bind].
  split; [reflexivity|]. unfold near3. cbn [x3 y3 z3]. tauto.
Qed.

Lemma unit_assert64 (x : b64) : finite64 x -> 0 <= val x <= 1 -> (ngeb x n0 && nleb x n1)%bool = true.
Proof.
  intros F H. unfold ngeb. to_R. rewrite !SFleb_val by auto using finite_0, finite_1. rewrite val_0, val_1. apply andb_true_intro. rewrite !Rleb_true. exact H.
Qed.
Lemma vget_map {A C} (f : A -> C) l i : vget (map f l) i = bind (vget l i) (fun x => Ok (f x)).
Proof. unfold vget. destruct (i <? 0)%Z; [reflexivity|]. rewrite nth_error_map. destruct (nth_error l (Z.to_nat i)); reflexivity. Qed.
Lemma len_map {A C} (f : A -> C) l : len (map f l) = len l.
Proof. unfold len. rewrite map_length. reflexivity. Qed.
Lemma vget_tame M (l : list (vec4 b64)) k : Forall (tame M) l -> (0 <= k < len l)%Z -> exists p, vget l k = Ok p /\ tame M p.
Proof.
  intros F H. destruct (vget_ex l k H) as [p E]. exists p. split; [exact E|]. rewrite Forall_forall in F. apply F.
  unfold vget in E. destruct (k <? 0)%Z; [discriminate|]. destruct (nth_error l (Z.to_nat k)) eqn:En; [|discriminate]. injection E as ->. apply nth_error_In in En. exact En.
Qed.
Lemma zsum_window f lo n m : (0 <= n)%Z -> (0 <= lo)%Z -> (lo + n <= m)%Z -> (forall i, ~ (lo <= i < lo + n)%Z -> f i = 0) ->
  zsum 0 m f = zsum 0 n (fun i => f (lo + i)%Z).
Proof.
  intros Hn Hl Hm Z0. rewrite (zsum_support 0 m lo (lo + n)); try lia.
  - rewrite (zsum_shift 0 n lo). replace (0 + lo)%Z with lo by lia. replace (n + lo)%Z with (lo + n)%Z by lia. apply zsum_ext. intros. f_equal. lia.
  - intros. apply Z0. lia.
Qed.

Lemma Curve64_ok c M x : clamped (Degree c) (vals (Knots c)) -> all_finite (Knots c) -> apart (Knots c) -> (Degree c <= 50)%Z ->
  len (ControlPoints c) = (len (Knots c) - Degree c - 1)%Z -> Forall (tame M) (ControlPoints c) -> 0 <= M <= bpow radix2 100 ->
  finite64 x -> 0 <= val x <= 1 ->
  exists q, Curve_Evaluate c x = Ok q /\ near3 (45 * (IZR (Degree c) + 1) / 2 ^ 53 * M + / 2 ^ 450) q (curve_point (curve_val c) (val x)).
Proof.
  intros C Fk Ap H50 Cn T HM Fx Hx. pose proof (cl_degree _ _ C) as P0.
  destruct (Basis64_N _ _ x Fk C Ap Fx Hx H50) as [j [res [E1 [E2 [Hj [Lr [Gr Z0]]]]]]].
  unfold Curve_Evaluate. rewrite unit_assert64 by assumption. cbn [assert_ bind]. rewrite E1. cbn [bind]. rewrite E2. cbn [bind].
  rewrite Lr, Z.eqb_refl. cbn [assert_ bind]. set (p := Degree c) in *. set (lo := (j - p)%Z) in *.
  assert (forall i, (0 <= i < p + 1)%Z -> exists q, vget (ControlPoints c) (lo + i) = Ok q /\ tame M q /\ cp (curve_val c) (lo + i) = val4 q) as Gp.
  { intros i Hi. destruct (vget_tame M (ControlPoints c) (lo + i) T ltac:(lia)) as [q [Eq Tq]]. exists q. split; [exact Eq|]. split; [exact Tq|].
    assert (vget (ControlPoints (curve_val c)) (lo + i) = Ok (val4 q)) as E. { unfold curve_val. cbn [ControlPoints]. rewrite vget_map, Eq. reflexivity. }
    rewrite vget_cp in E; [congruence|]. unfold curve_val. cbn [ControlPoints]. rewrite len_map. lia. }
  set (g := fun i => basis_fun (curve_val c) (lo + i) (val x)).
  set (X := fun k i => g i * co k (hp (curve_val c) (lo + i))). set (A := fun k i => g i * maj k M (w4 (cp (curve_val c) (lo + i)))).
  destruct (sum_loop64 (fun i result => p0 <- vget (ControlPoints c) (lo + i) ;; b <- vget res i ;; Ok (v4add result (v4scale b (ToHomo p0))))%outcome (6 * Z.to_nat p + 2) (bpow radix2 (-711)) (p + 1) X A) as [s [Es Qs]].
  { lia. } { lia. } { split; [apply bpow_ge_0|]. change 1 with (bpow radix2 0). apply bpow_le. lia. }
  { intros i acc Hi. destruct (Gp i Hi) as [q [Eq [Tq Vq]]]. destruct (Gr i ltac:(lia)) as [b [Eb Bb]]. exists (ToHomo q), b. rewrite Eq. cbn [bind]. rewrite Eb. cbn [bind]. split; [reflexivity|].
    intros k. unfold X, A, hp. rewrite Vq. cbn [w4 val4]. pose proof (tame_w M q Tq) as Wq. pose proof (bpow_gt_0 radix2 (-100)).
    pose proof (maj_le k M (val (w4 q)) HM ltac:(lra)) as Mj. split.
    - replace (6 * Z.to_nat p + 2)%nat with (6 * Z.to_nat p + 1 + 1)%nat by lia. apply (term64 _ _ _ _ _ _ 1 eta64 (-714) Bb); try lia.
      + rewrite nn_of; lia.
      + apply hom64; assumption.
      + apply Mj.
      + split; [apply bpow_ge_0|apply bpow_le; lia].
    - destruct Bb as [_ [[B1 B2] _]]. change (g i) with (N (kf (vals (Knots c))) (Z.to_nat p) (lo + i) (val x)).
      assert (bpow radix2 200 <= bpow radix2 900) by (apply bpow_le; lia). nra. }
  rewrite Es. cbn [bind].
  assert (forall k, zsum 0 (p + 1) (X k) = zsum 0 (len (ControlPoints (curve_val c))) (fun i => basis_fun (curve_val c) i (val x) * co k (hp (curve_val c) i))) as EX.
  { intros k. symmetry. apply (zsum_window (fun i => basis_fun (curve_val c) i (val x) * co k (hp (curve_val c) i)) lo (p + 1)); try lia.
    - unfold curve_val. cbn [ControlPoints]. rewrite len_map. lia.
    - intros i Hi. unfold basis_fun. cbn [curve_val Knots Degree]. fold p. rewrite Z0 by lia. ring. }
  assert (zsum 0 (p + 1) g = 1) as Sg.
  { rewrite <- (basis_sum p (vals (Knots c)) (val x) C Hx). symmetry. apply (zsum_window (fun i => N (kf (vals (Knots c))) (Z.to_nat p) i (val x)) lo (p + 1)); try lia.
    - rewrite len_vals. lia.
    - intros i Hi. apply Z0. lia. }
  assert (forall i, (0 <= i < p + 1)%Z -> 0 <= g i) as Pg. { intros i Hi. destruct (Gr i ltac:(lia)) as [b [_ [_ [[B1 _] _]]]]. exact B1. }
  destruct (v3div64 (7 * Z.to_nat p + 3) (IZR (p + 1) * (r64 ^ Z.to_nat (p + 1) * bpow radix2 (-711))) s (fun k => zsum 0 (p + 1) (X k)) (fun k => zsum 0 (p + 1) (A k)) M (zsum 0 (p + 1) (A 3%nat)))
    as [q [Eq Nq]]; try assumption.
  { lia. }
  { pose proof (tail_small (p + 1) (-711) ltac:(lia)) as Ts. split; [lra|]. refine (Rle_trans _ _ _ (proj2 Ts) _). apply bpow_le. lia. }
  { apply (zsum_conv (p + 1) g (fun i => maj 3 M (w4 (cp (curve_val c) (lo + i)))) (bpow radix2 (-100)) (bpow radix2 100)); try assumption.
    intros i Hi. destruct (Gp i Hi) as [q [_ [Tq Vq]]]. rewrite Vq. cbn [maj w4 val4]. apply (tame_w M q Tq). }
  { reflexivity. }
  { intros k. replace (7 * Z.to_nat p + 3)%nat with (6 * Z.to_nat p + 2 + Z.to_nat (p + 1))%nat by lia.
    replace (maj k M (zsum 0 (p + 1) (A 3%nat))) with (zsum 0 (p + 1) (A k)); [apply Qs|].
    destruct k as [|[|[|]]]; cbn [maj]; try reflexivity; rewrite <- zsum_scale; apply zsum_ext; intros; unfold A; cbn [maj]; ring. }
  exists q. split; [exact Eq|].
  rewrite curve_point_hsum. unfold hsum. pose proof (EX 0%nat) as EX0. pose proof (EX 1%nat) as EX1. pose proof (EX 2%nat) as EX2. pose proof (EX 3%nat) as EX3. cbn [co] in EX0, EX1, EX2, EX3. rewrite <- EX0, <- EX1, <- EX2, <- EX3.
  replace (zsum 0 (p + 1) (X 3%nat)) with (zsum 0 (p + 1) (A 3%nat)) by (apply zsum_ext; intros; reflexivity).
  assert ((64 / 10 * INR (7 * Z.to_nat p + 3) + 3) / 2 ^ 53 * M <= 45 * (IZR p + 1) / 2 ^ 53 * M) as Le.
  { apply Rmult_le_compat_r; [lra|]. apply Rmult_le_compat_r; [left; apply Rinv_0_lt_compat, pow_lt; lra|].
    rewrite plus_INR, mult_INR, !INR_IZR_INZ, Z2Nat.id by lia. cbn [Z.of_nat Pos.of_succ_nat Pos.succ]. assert (0 <= IZR p) by (apply IZR_le; lia). lra. }
  destruct Nq as [N1 [N2 [N3 [N4 [N5 N6]]]]]. unfold near3. cbn [x3 y3 z3] in *. split; [exact N1|]. split; [exact N2|]. split; [exact N3|]. split; [lra|]. split; lra.
Qed.
