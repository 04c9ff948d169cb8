(** Rounding errors of binary64 operations, in relative form:
    fl(x) = x rho + zeta with rho within k roundings of 1. *)
From Coq Require Import Reals ZArith List Lra Lia Psatz Floats.SpecFloat.
From Flocq Require Import Core Relative Plus_error BinarySingleNaN.
From Verif Require Import Outcome Num ThReal ThB64 ThRound.
Open Scope R_scope.
Local Notation F := (FLT_exp (-1074) 53).
#[local] Instance prec53 : Prec_gt_0 53. Proof. reflexivity. Qed.

Definition u64 : R := bpow radix2 (-53).
Definition r64 : R := 1 + 2 * u64.
(** half the smallest positive double *)
Definition eta64 : R := bpow radix2 (-1075).
Lemma u64_pos : 0 < u64. Proof. apply bpow_gt_0. Qed.
Lemma u64_small : u64 <= / 1000000000000000.
Proof.
  unfold u64. change (bpow radix2 (-53)) with (/ IZR (Zpower_pos radix2 53)). apply Rinv_le; [lra|].
  apply IZR_le. vm_compute. discriminate.
Qed.
Lemma eta64_pos : 0 < eta64. Proof. apply bpow_gt_0. Qed.
Lemma r64_gt1 : 1 < r64. Proof. unfold r64. pose proof u64_pos. lra. Qed.

(** [rho] is within [k] roundings of 1 *)
Definition fac (k : nat) (rho : R) : Prop := / r64 ^ k <= rho <= r64 ^ k.
Lemma r_pow_pos k : 0 < r64 ^ k. Proof. apply pow_lt. pose proof r64_gt1. lra. Qed.
Lemma r_pow_ge1 k : 1 <= r64 ^ k. Proof. apply pow_R1_Rle. pose proof r64_gt1. lra. Qed.
Lemma r_pow_le k l : (k <= l)%nat -> r64 ^ k <= r64 ^ l. Proof. intros H. apply Rle_pow; [pose proof r64_gt1; lra|exact H]. Qed.
Lemma fac_pos k rho : fac k rho -> 0 < rho.
Proof. intros [H _]. pose proof (Rinv_0_lt_compat _ (r_pow_pos k)). lra. Qed.
Lemma fac_0 k : fac k 1.
Proof. split; [|apply r_pow_ge1]. rewrite <- Rinv_1. apply Rinv_le; [lra|apply r_pow_ge1]. Qed.
Lemma fac_le k l rho : (k <= l)%nat -> fac k rho -> fac l rho.
Proof. intros H [A B]. pose proof (r_pow_le k l H). split; [|lra]. pose proof (Rinv_le _ _ (r_pow_pos k) H0). lra. Qed.
Lemma fac_mul k l rho sig : fac k rho -> fac l sig -> fac (k + l) (rho * sig).
Proof.
  intros F1 F2. pose proof (fac_pos _ _ F1). pose proof (fac_pos _ _ F2). destruct F1 as [A B], F2 as [C D]. unfold fac. rewrite pow_add. split.
  - rewrite Rinv_mult. apply Rmult_le_compat; try assumption; left; apply Rinv_0_lt_compat, r_pow_pos.
  - apply Rmult_le_compat; lra.
Qed.
Lemma fac_inv k rho : fac k rho -> fac k (/ rho).
Proof.
  intros F1. pose proof (fac_pos _ _ F1) as P. destruct F1 as [A B]. split.
  - apply Rinv_le; assumption.
  - rewrite <- (Rinv_inv (r64 ^ k)). apply Rinv_le; [apply Rinv_0_lt_compat, r_pow_pos|exact A].
Qed.
Lemma fac_eps eps : Rabs eps <= u64 -> fac 1 (1 + eps).
Proof.
  intros H. apply Rabs_le_inv in H. pose proof u64_pos. pose proof u64_small. unfold fac, r64. rewrite pow_1. split; [|lra].
  apply (Rmult_le_reg_l (1 + 2 * u64)); [lra|]. rewrite Rinv_r by lra. nra.
Qed.
(** a non-negative combination of factors is a factor *)
Lemma fac_sum k rho sig x y : fac k rho -> fac k sig -> 0 <= x -> 0 <= y -> exists tau, fac k tau /\ x * rho + y * sig = (x + y) * tau.
Proof.
  intros [A B] [C D] Hx Hy. destruct (Req_dec (x + y) 0) as [E|E].
  - exists 1. split; [apply fac_0|]. assert (x = 0) as -> by lra. assert (y = 0) as -> by lra. ring.
  - exists ((x * rho + y * sig) / (x + y)). split; [|field; exact E]. assert (0 < x + y) by lra. split.
    + apply (Rmult_le_reg_r (x + y)); [assumption|]. unfold Rdiv. rewrite Rmult_assoc, Rinv_l by exact E. nra.
    + apply (Rmult_le_reg_r (x + y)); [assumption|]. unfold Rdiv. rewrite Rmult_assoc, Rinv_l by exact E. nra.
Qed.
Lemma r_pow_lin n : (INR n * u64 <= / 10) -> r64 ^ n <= 1 + 3 * INR n * u64.
Proof.
  pose proof u64_pos as P. induction n as [|n IH]; intros H; [cbn; lra|]. rewrite S_INR in H |- *. pose proof (pos_INR n).
  assert (r64 ^ n <= 1 + 3 * INR n * u64) as H1 by (apply IH; nra). cbn [pow]. unfold r64 at 1. nra.
Qed.
Lemma fac_abs k rho : fac k rho -> INR k * u64 <= / 10 -> Rabs (rho - 1) <= 3 * INR k * u64.
Proof.
  intros [A B] H. pose proof (r_pow_lin k H) as L. pose proof (r_pow_pos k). pose proof (pos_INR k). pose proof u64_pos. apply Rabs_le. split; [|lra].
  assert (0 <= INR k * u64) by nra. assert (1 - 3 * INR k * u64 <= / r64 ^ k); [|lra].
  apply (Rmult_le_reg_r (r64 ^ k)); [assumption|]. rewrite Rinv_l by lra. nra.
Qed.

(** * Rounding *)
Lemma rnd64_rel x : exists eps eta, Rabs eps <= u64 /\ Rabs eta <= eta64 /\ rnd64 x = x * (1 + eps) + eta.
Proof.
  destruct (error_N_FLT radix2 (-1074) 53 ltac:(reflexivity) (fun n => negb (Z.even n)) x) as [eps [eta [H1 [H2 [_ H3]]]]].
  exists eps, eta. split; [|split; [|exact H3]].
  - refine (Rle_trans _ _ _ H1 _). right. change (/ 2) with (bpow radix2 (-1)). rewrite <- bpow_plus. reflexivity.
  - refine (Rle_trans _ _ _ H2 _). right. change (/ 2) with (bpow radix2 (-1)). rewrite <- bpow_plus. reflexivity.
Qed.
Lemma rnd64_big x : Rabs x <= bpow radix2 1023 -> no_overflow x.
Proof.
  intros H. assert (generic_format radix2 F (bpow radix2 1023)) as G.
  { apply generic_format_bpow. vm_compute. discriminate. }
  apply Rabs_le_inv in H. apply (bounded_no_overflow (- bpow radix2 1023) (bpow radix2 1023)); try assumption.
  - apply generic_format_opp. exact G.
  - rewrite Rabs_Ropp, Rabs_pos_eq by apply bpow_ge_0. apply bpow_lt. reflexivity.
  - rewrite Rabs_pos_eq by apply bpow_ge_0. apply bpow_lt. reflexivity.
Qed.

(** * Operations *)
(** [xh] computes [x >= 0] up to [k] roundings and an absolute error [e] *)
Definition app (k : nat) (e : R) (xh x : R) : Prop := exists rho, fac k rho /\ Rabs (xh - x * rho) <= e.
Definition ap (k : nat) (e : R) (xh : b64) (x : R) : Prop := finite64 xh /\ app k e (val xh) x.
Lemma app_weak k e l f xh x : (k <= l)%nat -> e <= f -> app k e xh x -> app l f xh x.
Proof. intros H1 H2 [rho [F1 H]]. exists rho. split; [apply (fac_le k); assumption|lra]. Qed.
Lemma ap_weak k e l f xh x : (k <= l)%nat -> e <= f -> ap k e xh x -> ap l f xh x.
Proof. intros H1 H2 [A B]. split; [exact A|apply (app_weak k e); assumption]. Qed.
Lemma app_bound k e xh x : 0 <= x -> app k e xh x -> Rabs xh <= x * r64 ^ k + e.
Proof.
  intros X [rho [F1 H]]. pose proof (fac_pos _ _ F1). destruct F1 as [_ B]. pose proof (Rabs_triang (xh - x * rho) (x * rho)) as T.
  replace (xh - x * rho + x * rho) with xh in T by ring. rewrite (Rabs_pos_eq (x * rho)) in T by nra. nra.
Qed.
Lemma app_lower k xh x : 0 <= x -> app k 0 xh x -> x / r64 ^ k <= xh.
Proof.
  intros X [rho [[A _] H]]. pose proof (Rabs_pos (xh - x * rho)). assert (xh - x * rho = 0) as E. { destruct (Req_dec (xh - x * rho) 0) as [|N]; [assumption|]. pose proof (Rabs_pos_lt _ N). lra. }
  replace xh with (x * rho) by lra. unfold Rdiv. apply Rmult_le_compat_l; assumption.
Qed.
Lemma plus_rel x y : generic_format radix2 F x -> generic_format radix2 F y -> exists rho, fac 1 rho /\ rnd64 (x + y) = (x + y) * rho.
Proof.
  intros Fx Fy. destruct (FLT_plus_error_N_ex radix2 (-1074) 53 (fun n => negb (Z.even n)) x y Fx Fy) as [eps [H E]].
  exists (1 + eps). split; [|exact E]. apply fac_eps. refine (Rle_trans _ _ _ H _).
  assert (u_ro radix2 53 = u64) as -> by (unfold u_ro; change (/ 2) with (bpow radix2 (-1)); rewrite <- bpow_plus; reflexivity).
  pose proof u64_pos. apply (Rmult_le_reg_r (1 + u64)); [lra|]. unfold Rdiv. rewrite Rmult_assoc, Rinv_l by lra. nra.
Qed.
Lemma sub_exact (a b : b64) : finite64 a -> finite64 b -> Rabs (val a - val b) <= bpow radix2 1023 -> ap 1 0 (nsub a b) (val a - val b).
Proof.
  intros Fa Fb H. destruct (sub_round a b Fa Fb (rnd64_big _ H)) as [Fi E]. split; [exact Fi|]. rewrite E.
  destruct (plus_rel (val a) (- val b) (val_format a Fa) (generic_format_opp _ _ _ (val_format b Fb))) as [rho [F1 E1]].
  exists rho. split; [exact F1|]. unfold Rminus at 1. change (val a + - val b) with (val a - val b) in E1. rewrite E1. right. rewrite Rplus_opp_r. apply Rabs_R0.
Qed.
Lemma ap_add k e f (a b : b64) x y : ap k e a x -> ap k f b y -> 0 <= x -> 0 <= y -> (x + y) * r64 ^ k + (e + f) <= bpow radix2 1023 ->
  ap (k + 1) ((e + f) * r64) (nadd a b) (x + y).
Proof.
  intros [Fa Aa] [Fb Ab] X Y Bd. pose proof (app_bound _ _ _ _ X Aa) as B1. pose proof (app_bound _ _ _ _ Y Ab) as B2.
  destruct (add_round a b Fa Fb) as [Fi E]. { apply rnd64_big. pose proof (Rabs_triang (val a) (val b)). lra. }
  split; [exact Fi|]. rewrite E. destruct (plus_rel (val a) (val b) (val_format a Fa) (val_format b Fb)) as [rho [F1 E1]]. rewrite E1.
  destruct Aa as [r1 [G1 H1]], Ab as [r2 [G2 H2]]. destruct (fac_sum k r1 r2 x y G1 G2 X Y) as [tau [G3 E3]].
  exists (tau * rho). split; [apply fac_mul; assumption|]. rewrite <- Rmult_assoc, <- E3.
  replace ((val a + val b) * rho - (x * r1 + y * r2) * rho) with (((val a - x * r1) + (val b - y * r2)) * rho) by ring.
  pose proof (fac_pos _ _ F1). destruct F1 as [_ U]. rewrite pow_1 in U. rewrite Rabs_mult, (Rabs_pos_eq rho) by lra.
  pose proof (Rabs_triang (val a - x * r1) (val b - y * r2)) as T. pose proof (Rabs_pos (val a - x * r1 + (val b - y * r2))). apply Rmult_le_compat; lra.
Qed.
Lemma ap_mul k l e f (a b : b64) x y : ap k e a x -> ap l f b y -> 0 <= x -> 0 <= y -> 0 <= e -> 0 <= f ->
  (x * r64 ^ k + e) * (y * r64 ^ l + f) <= bpow radix2 1023 ->
  ap (k + l + 1) ((x * r64 ^ k * f + y * r64 ^ l * e + e * f) * r64 + eta64) (nmul a b) (x * y).
Proof.
  intros [Fa Aa] [Fb Ab] X Y E0 F0 Bd. pose proof (app_bound _ _ _ _ X Aa) as B1. pose proof (app_bound _ _ _ _ Y Ab) as B2.
  destruct (mul_round a b Fa Fb) as [Fi E].
  { apply rnd64_big. rewrite Rabs_mult. refine (Rle_trans _ _ _ _ Bd). apply Rmult_le_compat; try apply Rabs_pos; assumption. }
  split; [exact Fi|]. rewrite E. destruct (rnd64_rel (val a * val b)) as [eps [eta [He [Hn E1]]]]. rewrite E1.
  destruct Aa as [r1 [G1 H1]], Ab as [r2 [G2 H2]]. pose proof (fac_eps _ He) as F1. set (rho := 1 + eps) in *.
  exists (r1 * r2 * rho). split; [apply fac_mul; [apply fac_mul; assumption|exact F1]|].
  set (d1 := val a - x * r1) in *. set (d2 := val b - y * r2) in *.
  replace (val a * val b * rho + eta - x * y * (r1 * r2 * rho)) with ((x * r1 * d2 + y * r2 * d1 + d1 * d2) * rho + eta) by (unfold d1, d2; ring).
  pose proof (fac_pos _ _ F1) as P1. pose proof (fac_pos _ _ G1) as P2. pose proof (fac_pos _ _ G2) as P3. destruct F1 as [_ U]. rewrite pow_1 in U. destruct G1 as [_ U1], G2 as [_ U2].
  pose proof (Rabs_triang ((x * r1 * d2 + y * r2 * d1 + d1 * d2) * rho) eta) as T. rewrite Rabs_mult, (Rabs_pos_eq rho) in T by lra.
  pose proof (Rabs_triang (x * r1 * d2 + y * r2 * d1) (d1 * d2)) as T1. pose proof (Rabs_triang (x * r1 * d2) (y * r2 * d1)) as T2.
  rewrite (Rabs_mult d1 d2) in T1. rewrite (Rabs_mult (x * r1) d2), (Rabs_mult (y * r2) d1), (Rabs_mult x r1), (Rabs_mult y r2) in T2. rewrite (Rabs_pos_eq x), (Rabs_pos_eq y), (Rabs_pos_eq r1), (Rabs_pos_eq r2) in T2 by lra.
  pose proof (Rabs_pos d1). pose proof (Rabs_pos d2).
  assert (x * r1 * Rabs d2 <= x * r64 ^ k * f) as I1 by (apply Rmult_le_compat; nra).
  assert (y * r2 * Rabs d1 <= y * r64 ^ l * e) as I2 by (apply Rmult_le_compat; nra).
  assert (Rabs d1 * Rabs d2 <= e * f) as I3 by (apply Rmult_le_compat; lra).
  assert (Rabs (x * r1 * d2 + y * r2 * d1 + d1 * d2) * rho <= (x * r64 ^ k * f + y * r64 ^ l * e + e * f) * r64) by (apply Rmult_le_compat; try lra; apply Rabs_pos).
  lra.
Qed.
Lemma ap_div k l e (a b : b64) x y : ap k e a x -> ap l 0 b y -> 0 <= x -> 0 < y -> 0 <= e ->
  (x * r64 ^ k + e) * r64 ^ l / y <= bpow radix2 1023 ->
  exists q, ndiv a b = Ok q /\ ap (k + l + 1) (e * r64 ^ (l + 1) / y + eta64) q (x / y).
Proof.
  intros [Fa Aa] [Fb Ab] X Y E0 Bd. pose proof (app_bound _ _ _ _ X Aa) as B1. pose proof (app_lower _ _ _ (Rlt_le _ _ Y) Ab) as B2.
  assert (0 < y / r64 ^ l) as P0 by (apply Rdiv_lt_0_compat; [exact Y|apply r_pow_pos]).
  destruct Aa as [r1 [G1 H1]], Ab as [r2 [G2 H2]]. pose proof (fac_pos _ _ G2) as P3.
  assert (val b = y * r2) as Eb. { pose proof (Rabs_pos (val b - y * r2)). destruct (Req_dec (val b - y * r2) 0) as [|N]; [apply Rminus_diag_uniq; assumption|]. pose proof (Rabs_pos_lt _ N). exfalso. lra. }
  assert (/ (y * r2) <= r64 ^ l / y) as Iv. { rewrite <- Eb. replace (r64 ^ l / y) with (/ (y / r64 ^ l)) by (pose proof (r_pow_pos l); unfold Rdiv; rewrite Rinv_mult, Rinv_inv; ring). apply Rinv_le; assumption. }
  assert (0 < y * r2) as Py by nra. pose proof (Rinv_0_lt_compat _ Py) as Pi.
  destruct (div_round a b Fa Fb) as [q [Eq [Fi E]]]. { lra. }
  { apply rnd64_big. unfold Rdiv. rewrite Rabs_mult, Eb, (Rabs_pos_eq (/ (y * r2))) by lra. refine (Rle_trans _ _ _ _ Bd). unfold Rdiv at 1. rewrite Rmult_assoc. apply Rmult_le_compat; try apply Rabs_pos; lra. }
  exists q. split; [exact Eq|]. split; [exact Fi|]. rewrite E. destruct (rnd64_rel (val a / val b)) as [eps [eta [He [Hn E1]]]]. rewrite E1, Eb. clear E E1.
  pose proof (fac_eps _ He) as F1. set (rho := 1 + eps) in *. exists (r1 * / r2 * rho).
  split; [apply fac_mul; [apply fac_mul; [assumption|apply fac_inv; assumption]|exact F1]|].
  set (d1 := val a - x * r1) in *. replace (val a / (y * r2) * rho + eta - x / y * (r1 * / r2 * rho)) with (d1 * / (y * r2) * rho + eta) by (unfold d1; field; lra).
  pose proof (fac_pos _ _ F1) as P1. destruct F1 as [_ U]. rewrite pow_1 in U.
  pose proof (Rabs_triang (d1 * / (y * r2) * rho) eta) as T. rewrite !Rabs_mult, (Rabs_pos_eq rho), (Rabs_pos_eq (/ (y * r2))) in T by lra.
  assert (Rabs d1 * / (y * r2) <= e * (r64 ^ l / y)) as I1 by (apply Rmult_le_compat; try lra; apply Rabs_pos).
  assert (Rabs d1 * / (y * r2) * rho <= e * (r64 ^ l / y) * r64) as I2. { apply Rmult_le_compat; try lra. apply Rmult_le_pos; [apply Rabs_pos|lra]. }
  replace (e * r64 ^ (l + 1) / y) with (e * (r64 ^ l / y) * r64) by (rewrite pow_add, pow_1; field; lra). lra.
Qed.
(** ** signs *)
Lemma rnd64_nonneg x : 0 <= x -> 0 <= rnd64 x.
Proof. intros H. rewrite <- (rnd64_id 0) by apply generic_format_0. apply rnd64_le. exact H. Qed.
(** as [ap], and the computed value is not negative *)
Definition pap (k : nat) (e : R) (xh : b64) (x : R) : Prop := ap k e xh x /\ 0 <= val xh.
Lemma pap_weak k e l f xh x : (k <= l)%nat -> e <= f -> pap k e xh x -> pap l f xh x.
Proof. intros H1 H2 [A B]. split; [apply (ap_weak k e); assumption|exact B]. Qed.
Lemma pap_abs k e xh x : 0 <= x -> pap k e xh x -> val xh <= x * r64 ^ k + e.
Proof. intros X [[_ A] B]. pose proof (app_bound _ _ _ _ X A). pose proof (Rle_abs (val xh)). lra. Qed.
Lemma pap_sub (a b : b64) : finite64 a -> finite64 b -> val b <= val a -> val a - val b <= bpow radix2 1023 -> pap 1 0 (nsub a b) (val a - val b).
Proof.
  intros Fa Fb H Bd. assert (Rabs (val a - val b) <= bpow radix2 1023) as H1 by (rewrite Rabs_pos_eq; lra).
  split; [apply sub_exact; assumption|]. destruct (sub_round a b Fa Fb (rnd64_big _ H1)) as [_ ->]. apply rnd64_nonneg. lra.
Qed.
Lemma pap_add k e f (a b : b64) x y : pap k e a x -> pap k f b y -> 0 <= x -> 0 <= y -> (x + y) * r64 ^ k + (e + f) <= bpow radix2 1023 ->
  pap (k + 1) ((e + f) * r64) (nadd a b) (x + y).
Proof.
  intros Aa Ab X Y Bd. pose proof (pap_abs _ _ _ _ X Aa) as B1. pose proof (pap_abs _ _ _ _ Y Ab) as B2. destruct Aa as [Aa Pa], Ab as [Ab Pb]. split; [apply ap_add; assumption|].
  destruct (add_round a b (proj1 Aa) (proj1 Ab)) as [_ ->]; [|apply rnd64_nonneg; lra]. apply rnd64_big. rewrite Rabs_pos_eq; lra.
Qed.
Lemma pap_mul k l e f (a b : b64) x y : pap k e a x -> pap l f b y -> 0 <= x -> 0 <= y -> 0 <= e -> 0 <= f ->
  (x * r64 ^ k + e) * (y * r64 ^ l + f) <= bpow radix2 1023 ->
  pap (k + l + 1) ((x * r64 ^ k * f + y * r64 ^ l * e + e * f) * r64 + eta64) (nmul a b) (x * y).
Proof.
  intros Aa Ab X Y E0 F0 Bd. pose proof (pap_abs _ _ _ _ X Aa) as B1. pose proof (pap_abs _ _ _ _ Y Ab) as B2. destruct Aa as [Aa Pa], Ab as [Ab Pb]. split; [apply ap_mul; assumption|].
  assert (0 <= val a * val b) as P by (apply Rmult_le_pos; assumption).
  destruct (mul_round a b (proj1 Aa) (proj1 Ab)) as [_ ->]; [|apply rnd64_nonneg; exact P].
  apply rnd64_big. rewrite Rabs_pos_eq by exact P. refine (Rle_trans _ _ _ _ Bd). apply Rmult_le_compat; assumption.
Qed.
Lemma pap_div k l e (a b : b64) x y : pap k e a x -> pap l 0 b y -> 0 <= x -> 0 < y -> 0 <= e ->
  (x * r64 ^ k + e) * r64 ^ l / y <= bpow radix2 1023 ->
  exists q, ndiv a b = Ok q /\ pap (k + l + 1) (e * r64 ^ (l + 1) / y + eta64) q (x / y).
Proof.
  intros Aa Ab X Y E0 Bd. pose proof (pap_abs _ _ _ _ X Aa) as B1. destruct Aa as [Aa Pa], Ab as [Ab Pb]. destruct (ap_div k l e a b x y Aa Ab X Y E0 Bd) as [q [E A]].
  exists q. split; [exact E|]. split; [exact A|]. pose proof (app_lower _ _ _ (Rlt_le _ _ Y) (proj2 Ab)) as B2.
  assert (0 < y / r64 ^ l) as P0 by (apply Rdiv_lt_0_compat; [exact Y|apply r_pow_pos]). assert (0 < val b) as Pb' by lra.
  assert (0 <= val a / val b) as P by (apply Rmult_le_pos; [assumption|left; apply Rinv_0_lt_compat; exact Pb']).
  destruct (div_round a b (proj1 Aa) (proj1 Ab)) as [q' [E' [_ V]]]; [lra| |].
  - apply rnd64_big. rewrite Rabs_pos_eq by exact P. refine (Rle_trans _ _ _ _ Bd). unfold Rdiv. rewrite (Rmult_assoc _ (r64 ^ l)). apply Rmult_le_compat; try assumption; [left; apply Rinv_0_lt_compat; exact Pb'|].
    replace (r64 ^ l * / y) with (/ (y / r64 ^ l)) by (unfold Rdiv; rewrite Rinv_mult, Rinv_inv; ring). apply Rinv_le; assumption.
  - rewrite E' in E. injection E as <-. rewrite V. apply rnd64_nonneg. exact P.
Qed.
