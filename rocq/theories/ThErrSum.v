(** Accuracy of weighted sums and of the final division in binary64. *)
From Coq Require Import Reals ZArith List Lra Lia Psatz Floats.SpecFloat.
From Flocq Require Import Core.
From Verif Require Import Outcome Num ModelCore ModelBasis ModelCurve SpecCore SpecBasis ThOutcome ThReal ThB64 ThRound ThVec ThKnots ThSum ThSpline ThBasis ThErr ThErrBasis.
Import ListNotations.
Open Scope R_scope.

(** [xh] computes [x] with an error of [k] roundings relative to [A >= |x|] and [e] absolute *)
Definition sap (k : nat) (e : R) (xh : b64) (x A : R) : Prop :=
  finite64 xh /\ Rabs x <= A /\ Rabs (val xh - x) <= (r64 ^ k - 1) * A + e.
Lemma sap_A k e xh x A : sap k e xh x A -> 0 <= A.
Proof. intros [_ [H _]]. pose proof (Rabs_pos x). lra. Qed.
Lemma sap_weak k e l f xh x A : (k <= l)%nat -> e <= f -> sap k e xh x A -> sap l f xh x A.
Proof.
  intros H1 H2 S. pose proof (sap_A _ _ _ _ _ S) as A0. destruct S as [F [B E]]. split; [exact F|]. split; [exact B|].
  pose proof (r_pow_le k l H1). nra.
Qed.
Lemma sap_bound k e xh x A : sap k e xh x A -> Rabs (val xh) <= r64 ^ k * A + e.
Proof.
  intros [_ [B E]]. replace (val xh) with ((val xh - x) + x) by ring. pose proof (Rabs_triang (val xh - x) x). lra.
Qed.
Lemma sap_exact (b : b64) : finite64 b -> sap 0 0 b (val b) (Rabs (val b)).
Proof.
  intros F. split; [exact F|]. split; [lra|]. unfold Rminus. rewrite Rplus_opp_r, Rabs_R0. simpl. lra.
Qed.
Lemma pap_sap k e xh x : 0 <= x -> pap k e xh x -> sap k e xh x x.
Proof.
  intros P [[F [rho [Hr E]]] _]. split; [exact F|]. split; [rewrite Rabs_pos_eq; lra|].
  pose proof (r_pow_ge1 k) as G. pose proof (r_pow_pos k) as G'. destruct Hr as [R1 R2].
  assert (Rabs (x * rho - x) <= (r64 ^ k - 1) * x) as T.
  { assert (1 - (r64 ^ k - 1) <= / r64 ^ k).
    { apply (Rmult_le_reg_r (r64 ^ k)); [exact G'|]. rewrite Rinv_l by lra. nra. }
    apply Rabs_le. unfold Rdiv in *. nra. }
  replace (val xh - x) with ((val xh - x * rho) + (x * rho - x)) by ring.
  pose proof (Rabs_triang (val xh - x * rho) (x * rho - x)). lra.
Qed.
Lemma r64_2u : r64 - 1 = 2 * u64. Proof. unfold r64. ring. Qed.
Lemma rnd64_err x : Rabs (rnd64 x - x) <= (r64 - 1) * Rabs x + eta64.
Proof.
  destruct (rnd64_rel x) as [eps [eta [H1 [H2 H3]]]]. rewrite H3. replace (x * (1 + eps) + eta - x) with (x * eps + eta) by ring.
  pose proof (Rabs_triang (x * eps) eta). rewrite Rabs_mult in H. rewrite r64_2u. pose proof (Rabs_pos x). pose proof u64_pos. nra.
Qed.
Lemma sap_add k e f (a b : b64) x y A B : sap k e a x A -> sap k f b y B -> 0 <= e -> 0 <= f ->
  r64 ^ k * (A + B) + (e + f) <= bpow radix2 1023 -> sap (k + 1) (r64 * (e + f)) (nadd a b) (x + y) (A + B).
Proof.
  intros Sa Sb He Hf O. pose proof (sap_A _ _ _ _ _ Sa). pose proof (sap_A _ _ _ _ _ Sb).
  pose proof (sap_bound _ _ _ _ _ Sa) as Ba. pose proof (sap_bound _ _ _ _ _ Sb) as Bb.
  destruct Sa as [Fa [Xa Ea]], Sb as [Fb [Xb Eb]].
  assert (Rabs (val a + val b) <= r64 ^ k * (A + B) + (e + f)) as T by (pose proof (Rabs_triang (val a) (val b)); lra).
  destruct (add_round a b Fa Fb (rnd64_big _ (Rle_trans _ _ _ T O))) as [F E]. split; [exact F|].
  split; [pose proof (Rabs_triang x y); lra|]. rewrite E.
  destruct (plus_rel (val a) (val b) (val_format _ Fa) (val_format _ Fb)) as [rho [R1 R2]]. rewrite R2.
  assert (Rabs (rho - 1) <= r64 - 1) as T1.
  { destruct R1 as [R1 R3]. rewrite pow_1 in *. pose proof r64_gt1. assert (1 - (r64 - 1) <= / r64).
    { apply (Rmult_le_reg_r r64); [lra|]. rewrite Rinv_l by lra. nra. } apply Rabs_le. lra. }
  replace ((val a + val b) * rho - (x + y)) with ((val a - x) + (val b - y) + (val a + val b) * (rho - 1)) by ring.
  pose proof (Rabs_triang (val a - x + (val b - y)) ((val a + val b) * (rho - 1))) as T2.
  pose proof (Rabs_triang (val a - x) (val b - y)) as T3. rewrite (Rabs_mult (val a + val b)) in T2.
  rewrite Nat.add_1_r. cbn [pow]. pose proof r64_gt1.
  assert (Rabs (val a + val b) * Rabs (rho - 1) <= (r64 ^ k * (A + B) + (e + f)) * (r64 - 1)).
  { apply Rmult_le_compat; try assumption; apply Rabs_pos. }
  nra.
Qed.
Lemma sap_mul k l e f (a b : b64) x y A B : sap k e a x A -> sap l f b y B -> 0 <= e -> 0 <= f ->
  (r64 ^ k * A + e) * (r64 ^ l * B + f) <= bpow radix2 1023 ->
  sap (k + l + 1) (r64 * (r64 ^ k * A * f + r64 ^ l * B * e + e * f) + eta64) (nmul a b) (x * y) (A * B).
Proof.
  intros Sa Sb He Hf O. pose proof (sap_A _ _ _ _ _ Sa). pose proof (sap_A _ _ _ _ _ Sb).
  pose proof (sap_bound _ _ _ _ _ Sa) as Ba. pose proof (sap_bound _ _ _ _ _ Sb) as Bb.
  destruct Sa as [Fa [Xa Ea]], Sb as [Fb [Xb Eb]].
  assert (Rabs (val a * val b) <= (r64 ^ k * A + e) * (r64 ^ l * B + f)) as T.
  { rewrite Rabs_mult. apply Rmult_le_compat; try assumption; apply Rabs_pos. }
  destruct (mul_round a b Fa Fb (rnd64_big _ (Rle_trans _ _ _ T O))) as [F E]. split; [exact F|].
  split; [rewrite Rabs_mult; apply Rmult_le_compat; try assumption; apply Rabs_pos|]. rewrite E.
  pose proof (rnd64_err (val a * val b)) as R1.
  replace (rnd64 (val a * val b) - x * y) with ((rnd64 (val a * val b) - val a * val b) + (val a * (val b - y) + (val a - x) * y)) by ring.
  pose proof (Rabs_triang (rnd64 (val a * val b) - val a * val b) (val a * (val b - y) + (val a - x) * y)) as T1.
  pose proof (Rabs_triang (val a * (val b - y)) ((val a - x) * y)) as T2. rewrite (Rabs_mult (val a)), (Rabs_mult (val a - x)) in T2.
  pose proof r64_gt1 as G.
  assert (Rabs (val a) * Rabs (val b - y) <= (r64 ^ k * A + e) * ((r64 ^ l - 1) * B + f)) as T3 by (apply Rmult_le_compat; try assumption; apply Rabs_pos).
  assert (Rabs (val a - x) * Rabs y <= ((r64 ^ k - 1) * A + e) * B) as T4 by (apply Rmult_le_compat; try assumption; apply Rabs_pos).
  assert ((r64 - 1) * Rabs (val a * val b) <= (r64 - 1) * ((r64 ^ k * A + e) * (r64 ^ l * B + f))) as T5 by (apply Rmult_le_compat_l; [lra|exact T]).
  rewrite !pow_add, pow_1.
  refine (Rle_trans _ ((r64 - 1) * ((r64 ^ k * A + e) * (r64 ^ l * B + f)) + eta64 + (r64 ^ k * A + e) * ((r64 ^ l - 1) * B + f) + ((r64 ^ k - 1) * A + e) * B) _ _ _); [lra|].
  right. ring.
Qed.

Lemma r_1000 k : (k <= 1000)%nat -> r64 ^ k <= 11 / 10.
Proof.
  intros H. pose proof (r_pow_le k 1000 H). assert (INR 1000 = 1000) as E by (rewrite INR_IZR_INZ; reflexivity). pose proof u64_small. pose proof u64_pos.
  pose proof (r_pow_lin 1000) as L. rewrite E in L. assert (1000 * u64 <= / 10) by lra. specialize (L H3). lra.
Qed.
(** the division at the end *)
Lemma sap_div_big k e f (a b : b64) x w A M : sap k e a x A -> sap k f b w w -> 0 < w -> 0 <= M -> A <= M * w -> 0 <= e -> 0 <= f ->
  r64 ^ k - 1 <= / 1000 -> f / w <= / 1000 -> e / w <= bpow radix2 1000 -> M <= bpow radix2 1000 ->
  exists t, ndiv a b = Ok t /\ finite64 t /\
    Rabs (val t - x / w) <= (21 / 10 * (r64 ^ k - 1) + 2 * u64) * M + 11 / 10 * (e / w + M * (f / w)) + eta64.
Proof.
  intros [Fa [Xa Ea]] [Fb [_ Eb]] W M0 HA He Hf Hd Hg Hh HM.
  set (d := r64 ^ k - 1) in *. assert (0 <= d) as D0 by (unfold d; pose proof (r_pow_ge1 k); lra).
  set (g := f / w) in *. set (h := e / w) in *.
  assert (f = g * w) as Ef by (unfold g; field; lra). assert (e = h * w) as Ee by (unfold h; field; lra).
  assert (0 <= g) as G0 by (unfold g; apply Rmult_le_pos; [lra|left; apply Rinv_0_lt_compat; lra]).
  assert (0 <= h) as H0 by (unfold h; apply Rmult_le_pos; [lra|left; apply Rinv_0_lt_compat; lra]).
  clearbody d g h.
  assert (Rabs (val a - x) <= w * (d * M + h)) as Ea' by nra.
  assert (Rabs (val b - w) <= w * (d + g)) as Eb' by nra.
  assert (w * (998 / 1000) <= val b) as Bw by (apply Rabs_le_inv in Eb'; nra).
  assert (0 < val b) as Bp by nra.
  assert (Rabs (val a / val b - x / w) <= 51 / 50 * (2 * d * M + h + M * g)) as T1.
  { replace (val a / val b - x / w) with (((val a - x) + x / w * (w - val b)) / val b) by (field; lra).
    unfold Rdiv at 1. rewrite Rabs_mult, (Rabs_inv (val b)), (Rabs_pos_eq (val b)) by lra.
    assert (Rabs (val a - x + x / w * (w - val b)) <= w * (2 * d * M + h + M * g)).
    { pose proof (Rabs_triang (val a - x) (x / w * (w - val b))) as T. rewrite (Rabs_mult (x / w)) in T.
      rewrite (Rabs_minus_sym w) in T. assert (Rabs (x / w) <= M).
      { unfold Rdiv. rewrite Rabs_mult, (Rabs_inv w), (Rabs_pos_eq w) by lra. apply (Rmult_le_reg_r w); [lra|]. rewrite Rmult_assoc, Rinv_l by lra. lra. }
      assert (Rabs (x / w) * Rabs (val b - w) <= M * (w * (d + g))) by (apply Rmult_le_compat; try assumption; apply Rabs_pos).
      nra. }
    apply (Rmult_le_reg_r (val b)); [lra|]. rewrite Rmult_assoc, Rinv_l by lra. rewrite Rmult_1_r.
    refine (Rle_trans _ _ _ H _). assert (0 <= 2 * d * M + h + M * g) by nra. nra. }
  assert (Rabs (x / w) <= M) as T2.
  { unfold Rdiv. rewrite Rabs_mult, (Rabs_inv w), (Rabs_pos_eq w) by lra. apply (Rmult_le_reg_r w); [lra|]. rewrite Rmult_assoc, Rinv_l by lra. lra. }
  assert (Rabs (val a / val b) <= M + 51 / 50 * (2 * d * M + h + M * g)) as T3.
  { replace (val a / val b) with ((val a / val b - x / w) + x / w) by ring. pose proof (Rabs_triang (val a / val b - x / w) (x / w)). lra. }
  assert (no_overflow (val a / val b)) as NO.
  { apply rnd64_big. refine (Rle_trans _ _ _ T3 _). assert (1 <= bpow radix2 1000) by (apply bpow_ge1; lia).
    assert (4 * bpow radix2 1000 <= bpow radix2 1023).
    { change 4 with (bpow radix2 2). rewrite <- bpow_plus. apply bpow_le. lia. }
    assert (d * M <= / 1000 * M) by nra. assert (M * g <= M * / 1000) by nra. lra. }
  destruct (div_round a b Fa Fb ltac:(lra) NO) as [t [Et [Ft Vt]]]. exists t. split; [exact Et|]. split; [exact Ft|]. rewrite Vt.
  pose proof (rnd64_err (val a / val b)) as R. rewrite r64_2u in R.
  replace (rnd64 (val a / val b) - x / w) with ((rnd64 (val a / val b) - val a / val b) + (val a / val b - x / w)) by ring.
  pose proof (Rabs_triang (rnd64 (val a / val b) - val a / val b) (val a / val b - x / w)).
  pose proof u64_pos as U0. pose proof u64_small as U1.
  assert (2 * u64 * Rabs (val a / val b) <= 2 * u64 * M + / 1000 * (2 * d * M + h + M * g)).
  { assert (0 <= 2 * d * M + h + M * g) by nra. nra. }
  assert (0 <= d * M) by nra. assert (0 <= M * g) by nra. lra.
Qed.
Lemma sap_div k e f (a b : b64) x w A M : sap k e a x A -> sap k f b w w -> 0 < w -> 0 <= M -> A <= M * w -> 0 <= e -> 0 <= f ->
  r64 ^ k - 1 <= / 1000 -> f / w <= / 1000 -> e / w <= 1 -> M <= bpow radix2 1000 ->
  exists t, ndiv a b = Ok t /\ finite64 t /\
    Rabs (val t - x / w) <= (21 / 10 * (r64 ^ k - 1) + 2 * u64) * M + 11 / 10 * (e / w + M * (f / w)) + eta64.
Proof.
  intros. assert (1 <= bpow radix2 1000) by (apply bpow_ge1; lia). apply (sap_div_big k e f a b x w A M); try assumption; lra.
Qed.

(** * Weighted sums of homogeneous points *)
Definition co (c : nat) {T} (v : vec4 T) : T := match c with 0%nat => x4 v | 1%nat => y4 v | 2%nat => z4 v | _ => w4 v end.
Lemma co_add c (a b : vec4 b64) : co c (v4add a b) = nadd (co c a) (co c b).
Proof. destruct c as [|[|[|]]]; reflexivity. Qed.
Lemma co_scale c (s : b64) (a : vec4 b64) : co c (v4scale s a) = nmul s (co c a).
Proof. destruct c as [|[|[|]]]; reflexivity. Qed.
Lemma co_zero c : co c (v4zero : vec4 b64) = n0.
Proof. destruct c as [|[|[|]]]; reflexivity. Qed.

Lemma sap_term kb kh eb eh (b h : b64) g X A H e' : sap kb eb b g g -> sap kh eh h X A -> 0 <= g <= 1 -> A <= H -> 1 <= H <= bpow radix2 900 ->
  0 <= eb <= 1 -> 0 <= eh <= 1 -> (kb <= 999)%nat -> (kh <= 999)%nat -> 3 * eh + 3 * (H * eb) + eta64 <= e' ->
  sap (kb + kh + 1) e' (nmul b h) (g * X) (g * A).
Proof.
  intros Sb Sh Hg HA HH Heb Heh Kb Kh He. pose proof (sap_A _ _ _ _ _ Sh) as A0.
  pose proof (r_1000 kb ltac:(lia)) as R1. pose proof (r_1000 kh ltac:(lia)) as R2. pose proof (r_1000 1 ltac:(lia)) as R3. rewrite pow_1 in R3.
  pose proof (r_pow_ge1 kb). pose proof (r_pow_ge1 kh). pose proof r64_gt1.
  assert (r64 ^ kb * g <= 11 / 10) as B1 by nra. assert (r64 ^ kh * A <= 11 / 10 * H) as B2 by nra.
  assert (0 <= r64 ^ kb * g) as B3 by nra. assert (0 <= r64 ^ kh * A) as B4 by nra.
  apply (sap_weak (kb + kh + 1) (r64 * (r64 ^ kb * g * eh + r64 ^ kh * A * eb + eb * eh) + eta64)).
  - lia.
  - assert (r64 ^ kb * g * eh <= 11 / 10 * eh) by nra. assert (r64 ^ kh * A * eb <= 11 / 10 * H * eb) by nra. assert (eb * eh <= eh) by nra.
    assert (0 <= H * eb) by nra.
    assert (r64 ^ kb * g * eh + r64 ^ kh * A * eb + eb * eh <= 21 / 10 * eh + 11 / 10 * (H * eb)) by lra.
    assert (r64 * (r64 ^ kb * g * eh + r64 ^ kh * A * eb + eb * eh) <= 11 / 10 * (21 / 10 * eh + 11 / 10 * (H * eb))).
    { apply Rmult_le_compat; try lra. assert (0 <= r64 ^ kb * g * eh) by nra. assert (0 <= r64 ^ kh * A * eb) by nra. nra. }
    lra.
  - apply sap_mul; try assumption; try lra. assert (8 * bpow radix2 900 <= bpow radix2 1023).
    { change 8 with (bpow radix2 3). rewrite <- bpow_plus. apply bpow_le. lia. }
    assert (r64 ^ kb * g + eb <= 3) by lra. assert (r64 ^ kh * A + eh <= 5 / 2 * H) by lra.
    refine (Rle_trans _ (3 * (5 / 2 * H)) _ _ _); [apply Rmult_le_compat; lra|]. lra.
Qed.

Lemma sum_loop64 (body : Z -> vec4 b64 -> outcome (vec4 b64)) K e n (X A : nat -> Z -> R) :
  (0 <= n <= 51)%Z -> (K <= 900)%nat -> 0 <= e <= 1 ->
  (forall i acc, (0 <= i < n)%Z -> exists h b, body i acc = Ok (v4add acc (v4scale b h)) /\
    forall c, sap K e (nmul b (co c h)) (X c i) (A c i) /\ A c i <= bpow radix2 900) ->
  exists s, for_up 0 n body v4zero = Ok s /\
    forall c, sap (K + Z.to_nat n) (IZR n * (r64 ^ Z.to_nat n * e)) (co c s) (zsum 0 n (X c)) (zsum 0 n (A c)).
Proof.
  intros Hn HK He Hb.
  edestruct (for_up_inv (fun i s => forall c, sap (K + Z.to_nat i) (IZR i * (r64 ^ Z.to_nat i * e)) (co c s) (zsum 0 i (X c)) (zsum 0 i (A c)) /\
      zsum 0 i (A c) <= IZR i * bpow radix2 900) 0%Z n body v4zero) as [s [E Q]].
  - lia.
  - intros c. rewrite !zsum_empty by lia. rewrite co_zero. split; [|lra]. apply (sap_weak 0 0); [lia|lra|].
    pose proof (sap_exact n0 finite_0) as S. rewrite val_0, Rabs_R0 in S. exact S.
  - intros i s Hi Q. destruct (Hb i s Hi) as [h [b [E T]]]. rewrite E. eexists. split; [reflexivity|].
    intros c. destruct (Q c) as [Q1 Q2]. destruct (T c) as [T1 T2].
    rewrite !(zsum_last' 0 i) by lia. split.
    + rewrite co_add, co_scale. replace (Z.to_nat (i + 1)) with (S (Z.to_nat i)) by lia.
      assert (0 <= IZR i <= 51) as Bi by (split; apply IZR_le; lia).
      pose proof (r_pow_ge1 (Z.to_nat i)) as R1. pose proof (r_1000 (Z.to_nat i) ltac:(lia)) as R1'. pose proof (r_1000 (K + Z.to_nat i) ltac:(lia)) as R2. pose proof r64_gt1.
      assert (0 <= r64 ^ Z.to_nat i * e <= 11 / 10) as B1 by nra.
      assert (0 <= IZR i * (r64 ^ Z.to_nat i * e) <= 57) as B2 by nra.
      apply (sap_weak (K + Z.to_nat i + 1) (r64 * (IZR i * (r64 ^ Z.to_nat i * e) + e))); [lia| |].
      * cbn [pow]. rewrite plus_IZR. assert (e <= r64 ^ Z.to_nat i * e) by nra. nra.
      * apply sap_add; [exact Q1|apply (sap_weak K e); [lia|lra|exact T1]|lra|lra|].
        pose proof (sap_A _ _ _ _ _ Q1). pose proof (sap_A _ _ _ _ _ T1).
        assert (1 <= bpow radix2 900) by (apply bpow_ge1; lia).
        assert (256 * bpow radix2 900 <= bpow radix2 1023).
        { change 256 with (bpow radix2 8). rewrite <- bpow_plus. apply bpow_le. lia. }
        assert (zsum 0 i (A c) + A c i <= 52 * bpow radix2 900) by nra.
        assert (r64 ^ (K + Z.to_nat i) * (zsum 0 i (A c) + A c i) <= 11 / 10 * (52 * bpow radix2 900)).
        { apply Rmult_le_compat; try lra. left. apply r_pow_pos. }
        lra.
    + rewrite plus_IZR. lra.
  - exists s. split; [exact E|]. intros c. apply Q.
Qed.
