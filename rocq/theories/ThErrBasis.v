(** Accuracy of the basis functions computed in binary64. *)
From Coq Require Import Reals ZArith List Lra Lia Psatz Floats.SpecFloat.
From Flocq Require Import Core.
From Verif Require Import Outcome Num ModelCore ModelBasis SpecCore SpecBasis ThOutcome ThReal ThB64 ThRound ThVec ThKnots ThSum ThSpline ThBasis ThErr.
Import ListNotations.
Open Scope R_scope.

Lemma bpow_ge1 n : (0 <= n)%Z -> 1 <= bpow radix2 n.
Proof. intros H. change 1 with (bpow radix2 0). apply bpow_le. exact H. Qed.
Lemma two_bpow n : 2 * bpow radix2 n = bpow radix2 (n + 1).
Proof. rewrite bpow_plus. change (bpow radix2 1) with 2. ring. Qed.
(** one step of the inner loop *)
Lemma basis_step k e (n rt lf sv : b64) Nv Rt L Sv :
  pap k e n Nv -> pap 1 0 rt Rt -> pap 1 0 lf L -> pap (k + 5) (7 / 2 * e) sv Sv ->
  0 <= Nv <= 1 -> 0 <= Rt <= 1 -> 0 <= L <= 1 -> 0 <= Sv <= 1 -> bpow radix2 (-900) <= Rt + L -> eta64 <= e -> e <= 1 -> r64 ^ (k + 10) <= 11 / 10 ->
  exists t, ndiv n (nadd rt lf) = Ok t /\ pap (k + 6) (8 * e) (nadd sv (nmul rt t)) (Sv + Rt * (Nv / (Rt + L))) /\
    pap (k + 5) (7 / 2 * e) (nmul lf t) (L * (Nv / (Rt + L))).
Proof.
  intros An Ar Al As Hn Hr Hl Hs Gap He1 He2 Rk. pose proof eta64_pos as Et.
  assert (forall m, (m <= k + 10)%nat -> r64 ^ m <= 11 / 10) as Rm by (intros m Hm; pose proof (r_pow_le m (k + 10) Hm); lra).
  pose proof r64_gt1 as R1. pose proof (Rm 1%nat ltac:(lia)) as R2. rewrite pow_1 in R2.
  assert (0 < bpow radix2 (-900)) as Gp by apply bpow_gt_0. set (D := Rt + L) in *.
  assert (bpow radix2 1023 = 8 * bpow radix2 1020) as B0. { replace 8 with (bpow radix2 3) by reflexivity. rewrite <- bpow_plus. reflexivity. }
  pose proof (bpow_ge1 1020 ltac:(lia)) as B1.
  assert (/ D <= bpow radix2 900) as ID. { replace (bpow radix2 900) with (/ bpow radix2 (-900)) by (rewrite <- bpow_opp; reflexivity). apply Rinv_le; assumption. }
  assert (0 < D) as Dp by lra. pose proof (Rinv_0_lt_compat _ Dp) as IDp.
  assert (16 * bpow radix2 900 <= bpow radix2 1023) as Big. { replace 16 with (bpow radix2 4) by reflexivity. rewrite <- bpow_plus. apply bpow_le. lia. }
  pose proof (bpow_ge1 900 ltac:(lia)) as B9.
  assert (pap 2 0 (nadd rt lf) D) as Ad.
  { apply (pap_weak (1 + 1) ((0 + 0) * r64)); [lia|lra|]. apply pap_add; try assumption; try lra. rewrite pow_1. fold D. assert (D <= 2) by (unfold D; lra). nra. }
  assert (0 <= e) as E0 by lra.
  destruct (pap_div k 2 e n (nadd rt lf) Nv D An Ad ltac:(lra) Dp E0) as [t [Et' At]].
  { pose proof (Rm k ltac:(lia)) as Q1. pose proof (Rm 2%nat ltac:(lia)) as Q2. pose proof (r_pow_ge1 2) as Q3. pose proof (r_pow_ge1 k) as Q4. unfold Rdiv.
    assert ((Nv * r64 ^ k + e) * r64 ^ 2 <= 4) as I1. { assert (Nv * r64 ^ k + e <= 3) by nra. assert (0 <= Nv * r64 ^ k + e) by nra. nra. }
    assert (0 <= (Nv * r64 ^ k + e) * r64 ^ 2) by (apply Rmult_le_pos; nra). nra. }
  exists t. split; [exact Et'|]. set (T := Nv / D) in *. set (f := e * r64 ^ (2 + 1) / D + eta64) in *.
  assert (0 <= T) as T0 by (unfold T, Rdiv; apply Rmult_le_pos; lra).
  assert (T <= bpow radix2 900) as T1. { unfold T, Rdiv. nra. }
  pose proof (Rm 3%nat ltac:(lia)) as R3. pose proof (r_pow_ge1 3) as R3'. change (2 + 1)%nat with 3%nat in f.
  assert (0 <= f) as F0. { unfold f, Rdiv. assert (0 <= e * r64 ^ 3 * / D) by (apply Rmult_le_pos; [nra|lra]). lra. }
  assert (f <= 2 * bpow radix2 900 + 1) as F1. { unfold f, Rdiv. assert (0 <= e * r64 ^ 3 <= 2) by nra. assert (e * r64 ^ 3 * / D <= 2 * bpow radix2 900) by nra. lra. }
  (* the two products *)
  assert (forall (a : b64) A, pap 1 0 a A -> 0 <= A <= 1 -> A <= D -> pap (k + 5) (7 / 2 * e) (nmul a t) (A * T)) as Pm.
  { intros a A Aa HA HD. apply (pap_weak (1 + (k + 2 + 1) + 1) ((A * r64 ^ 1 * f + T * r64 ^ (k + 2 + 1) * 0 + 0 * f) * r64 + eta64)); [lia| |].
    - rewrite pow_1. assert (A * f <= e * r64 ^ 3 + eta64) as I1.
      { unfold f. replace (A * (e * r64 ^ 3 / D + eta64)) with (e * r64 ^ 3 * (A / D) + A * eta64) by (field; lra).
        assert (A / D <= 1). { apply (Rmult_le_reg_r D); [assumption|]. unfold Rdiv. rewrite Rmult_assoc, Rinv_l by lra. lra. }
        assert (0 <= e * r64 ^ 3) by nra. nra. }
      assert (0 <= A * f) by nra. assert (r64 * r64 <= 5 / 4) by nra. assert (A * r64 * f * r64 <= 5 / 4 * (e * r64 ^ 3 + eta64)) as I2.
      { replace (A * r64 * f * r64) with ((A * f) * (r64 * r64)) by ring. nra. } nra.
    - apply pap_mul; try assumption; try lra. rewrite pow_1. pose proof (Rm (k + 2 + 1)%nat ltac:(lia)) as Q1. pose proof (r_pow_ge1 (k + 2 + 1)) as Q2.
      assert (0 <= T * r64 ^ (k + 2 + 1) + f) by nra. assert (T * r64 ^ (k + 2 + 1) + f <= 5 * bpow radix2 900) by nra.
      assert (0 <= A * r64 + 0 <= 2) by nra. nra. }
  pose proof (Pm rt Rt Ar Hr ltac:(unfold D; lra)) as P1. pose proof (Pm lf L Al Hl ltac:(unfold D; lra)) as P2. split; [|exact P2].
  assert (0 <= Rt * T <= 1) as RT.
  { split; [nra|]. unfold T. replace (Rt * (Nv / D)) with (Nv * (Rt / D)) by (field; lra). assert (0 <= Rt / D <= 1); [|nra]. split; [unfold Rdiv; nra|].
    apply (Rmult_le_reg_r D); [assumption|]. unfold Rdiv. rewrite Rmult_assoc, Rinv_l by lra. unfold D. lra. }
  apply (pap_weak (k + 5 + 1) ((7 / 2 * e + 7 / 2 * e) * r64)); [lia|nra|]. apply pap_add; try assumption; try lra.
  pose proof (Rm (k + 5)%nat ltac:(lia)). pose proof (r_pow_ge1 (k + 5)). nra.
Qed.

(** bounds for the levels used *)
Definition lev (j : Z) : R := 8 ^ Z.to_nat j * eta64.
Lemma lev_bounds j : (0 <= j <= 50)%Z -> eta64 <= lev j <= 1.
Proof.
  intros H. unfold lev. pose proof eta64_pos. split.
  - assert (1 <= 8 ^ Z.to_nat j) by (apply pow_R1_Rle; lra). nra.
  - assert (8 ^ Z.to_nat j <= 8 ^ 50) by (apply Rle_pow; [lra|lia]).
    assert (8 ^ 50 * eta64 <= 1); [|nra]. unfold eta64. replace (8 ^ 50) with (bpow radix2 150).
    + rewrite <- bpow_plus. change 1 with (bpow radix2 0). apply bpow_le. lia.
    + change 8 with (IZR 8). rewrite pow_IZR. rewrite <- IZR_Zpower by lia. f_equal.
Qed.
Lemma lev_S j : (0 <= j)%Z -> lev (j + 1) = 8 * lev j.
Proof. intros H. unfold lev. replace (Z.to_nat (j + 1)) with (S (Z.to_nat j)) by lia. cbn [pow]. ring. Qed.
Lemma r_310 k : (k <= 310)%nat -> r64 ^ k <= 11 / 10.
Proof.
  intros H. pose proof (r_pow_le k 310 H). assert (INR 310 = 310) as E by (cbn; lra). pose proof u64_small. pose proof u64_pos.
  pose proof (r_pow_lin 310) as L. rewrite E in L. assert (310 * u64 <= / 10) by lra. specialize (L H3). lra.
Qed.
Lemma vget64 l k : all_finite l -> (0 <= k < len l)%Z -> exists b, vget l k = Ok b /\ finite64 b /\ val b = kf (vals l) k.
Proof.
  intros F H. pose proof (vget_vals l k) as V. rewrite vget_kf in V by (rewrite len_vals; exact H).
  destruct (vget l k) as [b| | | | |] eqn:E; try discriminate. exists b. split; [reflexivity|]. split; [apply (vget_finite l k); assumption|].
  cbn [bind] in V. congruence.
Qed.
Lemma pap_exact (b : b64) : finite64 b -> 0 <= val b -> pap 0 0 b (val b).
Proof. intros F P. split; [|exact P]. split; [exact F|]. exists 1. split; [apply fac_0|]. right. rewrite Rmult_1_r. unfold Rminus. rewrite Rplus_opp_r. apply Rabs_R0. Qed.

Section Basis64.
  Variables (l : list b64) (i : Z) (x : b64).
  Hypothesis Fl : all_finite l.
  Hypothesis Fx : finite64 x.
  Let U := kf (vals l).
  Hypothesis M : mono U.
  Hypothesis L1 : forall k, U k <= 1.
  Hypothesis L0 : forall k, 0 <= U k.
  Hypothesis Hx : U i <= val x <= U (i + 1)%Z.
  Hypothesis Gap : bpow radix2 (-900) <= U (i + 1)%Z - U i.
  Lemma span_pos64 : U i < U (i + 1)%Z.
  Proof. pose proof (bpow_gt_0 radix2 (-900)). lra. Qed.
  Lemma B_unit p k : 0 <= B U i p k (val x) <= 1.
  Proof.
    pose proof span_pos64 as Sp. split; [apply B_nonneg; assumption|]. destruct (Z_le_dec (i - nn p) k) as [A|A]; [destruct (Z_le_dec k i) as [A'|A']|].
    - rewrite <- (B_sum U i M Sp p (val x)). rewrite (zsum_split k) by lia. rewrite (zsum_first k) by lia.
      assert (0 <= zsum (i - nn p) k (fun k => B U i p k (val x))) by (apply zsum_nonneg; intros; apply B_nonneg; assumption).
      assert (0 <= zsum (k + 1) (i + 1) (fun k => B U i p k (val x))) by (apply zsum_nonneg; intros; apply B_nonneg; assumption). lra.
    - rewrite B_support by lia. lra.
    - rewrite B_support by lia. lra.
  Qed.
  Definition lr64 (j : Z) (lft rgt : list b64) : Prop :=
    (forall k, (1 <= k < j)%Z -> exists b, vget lft k = Ok b /\ pap 1 0 b (val x - U (i + 1 - k)%Z)) /\
    (forall k, (1 <= k < j)%Z -> exists b, vget rgt k = Ok b /\ pap 1 0 b (U (i + k)%Z - val x)).
  Lemma basis64 p : (nn p <= i)%Z -> (i + nn p < len l)%Z -> (nn p <= 50)%Z ->
    exists res, Basis_Evaluate (nn p) l i x = Ok res /\ len res = (nn p + 1)%Z /\
      forall r, (0 <= r <= nn p)%Z -> exists b, vget res r = Ok b /\ pap (6 * p) (lev (nn p)) b (B U i p (i - nn p + r) (val x)).
  Proof.
    intros Hp Hi H50. pose proof (nn_nonneg p) as P0. pose proof span_pos64 as Sp. unfold Basis_Evaluate.
    assert (1 <= bpow radix2 1023) as Big by (apply bpow_ge1; lia).
    destruct (vmake_spec (nn p + 1) (n0 : b64)) as [result [E [Lr Gr]]]; [lia|]. rewrite E; cbn [bind]; clear E.
    destruct (vset_spec result 0 (n1 : b64)) as [result1 [E [Lr1 [G1 _]]]]; [lia|]. rewrite E; cbn [bind]; clear E.
    edestruct (for_up_inv (fun j st => let '(result, lft, rgt) := st in
        len result = (nn p + 1)%Z /\ len lft = (nn p + 1)%Z /\ len rgt = (nn p + 1)%Z /\ lr64 j lft rgt /\
        forall r, (0 <= r < j)%Z -> exists b, vget result r = Ok b /\ pap (6 * Z.to_nat (j - 1)) (lev (j - 1)) b (B U i (Z.to_nat (j - 1)) (i - (j - 1) + r) (val x)))
      1%Z (nn p + 1)%Z) as [st [E Q]]; cycle 3.
    - rewrite E; cbn [bind]. destruct st as [[res lft] rgt]. destruct Q as [Q1 [Q2 [Q3 [Q4 Q5]]]].
      exists res. split; [reflexivity|]. split; [exact Q1|]. intros r Hr. destruct (Q5 r ltac:(lia)) as [b [Eb Pb]]. exists b. split; [exact Eb|].
      replace (nn p + 1 - 1)%Z with (nn p) in Pb by lia. replace (Z.to_nat (nn p)) with p in Pb by (unfold nn; lia). exact Pb.
    - lia.
    - split; [lia|]. split; [lia|]. split; [lia|]. split; [split; intros; lia|].
      intros r Hr. assert (r = 0%Z) as -> by lia. exists n1. split; [exact G1|]. replace (1 - 1)%Z with 0%Z by lia. cbn [Z.to_nat Nat.mul B].
      destruct (Z.eqb_spec (i - 0 + 0) i); [|lia]. pose proof (lev_bounds 0 ltac:(lia)). pose proof eta64_pos.
      apply (pap_weak 0 0); [lia|lra|]. rewrite <- val_1. apply pap_exact; [apply finite_1|rewrite val_1; lra].
    - intros j [[res lft] rgt] Hj [Q1 [Q2 [Q3 [[Q4 Q5] Q6]]]].
      destruct (vget64 l (i + 1 - j) Fl ltac:(lia)) as [kl [El [Fkl Vkl]]]. rewrite El. cbn [bind].
      destruct (vset_spec lft j (nsub x kl)) as [lft' [E [L' [G2 G3]]]]; [lia|]. rewrite E; cbn [bind]; clear E.
      destruct (vget64 l (i + j) Fl ltac:(lia)) as [kr [Er [Fkr Vkr]]]. rewrite Er. cbn [bind].
      destruct (vset_spec rgt j (nsub kr x)) as [rgt' [E [L'' [G4 G5]]]]; [lia|]. rewrite E; cbn [bind]; clear E.
      assert (lr64 (j + 1) lft' rgt') as [A1 A2].
      { fold U in Vkl, Vkr. pose proof (M (i + 1 - j)%Z i ltac:(lia)) as M1. pose proof (M (i + 1)%Z (i + j)%Z ltac:(lia)) as M2.
        pose proof (L0 (i + 1 - j)%Z) as Z1. pose proof (L1 (i + j)%Z) as Z2. pose proof (L1 (i + 1)%Z). pose proof (L0 i).
        split; intros k Hk; (destruct (Z.eq_dec k j) as [->|Ne]).
        - exists (nsub x kl). split; [exact G2|]. rewrite <- Vkl. apply pap_sub; try assumption; lra.
        - rewrite G3 by lia. apply Q4; lia.
        - exists (nsub kr x). split; [exact G4|]. rewrite <- Vkr. apply pap_sub; try assumption; lra.
        - rewrite G5 by lia. apply Q5; lia. }
      assert (exists q, Z.to_nat j = S q /\ Z.to_nat (j - 1) = q /\ nn q = (j - 1)%Z) as [q [Eq [Eq' Eq'']]].
      { exists (Z.to_nat (j - 1)). unfold nn. lia. }
      pose proof (lev_bounds (j - 1) ltac:(lia)) as Lv.
      edestruct (for_up_inv (fun r st => let '(res, saved) := st in
          len res = (nn p + 1)%Z /\ (pap (6 * q + 5) (7 / 2 * lev (j - 1)) saved (term1 (vals l) i (val x) (Z.to_nat j) (i - j + r)) /\
            0 <= term1 (vals l) i (val x) (Z.to_nat j) (i - j + r) <= 1) /\
          (forall r', (0 <= r' < r)%Z -> exists b, vget res r' = Ok b /\ pap (6 * S q) (lev j) b (B U i (Z.to_nat j) (i - j + r') (val x))) /\
          (forall r', (r <= r' < j)%Z -> exists b, vget res r' = Ok b /\ pap (6 * q) (lev (j - 1)) b (B U i q (i - (j - 1) + r') (val x))))
        0%Z j) as [st [E Q]]; cycle 3.
      + rewrite E; cbn [bind]. destruct st as [res' saved]. destruct Q as [W1 [[W2 W2'] [W3 W4]]].
        destruct (vset_spec res' j saved) as [res'' [E2 [L3 [G6 G7]]]]; [lia|]. rewrite E2; cbn [bind].
        eexists. split; [reflexivity|]. split; [lia|]. split; [lia|]. split; [lia|]. split; [split; assumption|].
        replace (j + 1 - 1)%Z with j by lia. intros r Hr. destruct (Z.eq_dec r j) as [->|Ne].
        * exists saved. split; [exact G6|]. replace (B U i (Z.to_nat j) (i - j + j) (val x)) with (term1 (vals l) i (val x) (Z.to_nat j) (i - j + j)).
          -- rewrite Eq in *. replace j with (j - 1 + 1)%Z at 1 by lia. rewrite lev_S by lia. apply (pap_weak (6 * q + 5) (7 / 2 * lev (j - 1))); [lia|pose proof eta64_pos; lra|exact W2].
          -- rewrite Eq. cbn [B term1]. fold U. rewrite (B_support U i q (i - j + j + 1)) by lia. ring.
        * rewrite G7 by lia. rewrite Eq in *. apply W3; lia.
      + lia.
      + split; [lia|]. split.
        * rewrite Eq. cbn [term1]. fold U. rewrite B_support by lia. rewrite Rmult_0_r. split; [|lra]. apply (pap_weak 0 0); [lia|pose proof eta64_pos; lra|].
          rewrite <- val_0. apply pap_exact; [apply finite_0|rewrite val_0; lra].
        * split; [intros; lia|]. intros r' Hr'. rewrite Eq' in Q6. apply Q6; lia.
      + intros r [res' saved] Hr [W1 [[W2 W2'] [W3 W4]]].
        destruct (W4 r ltac:(lia)) as [n [En Pn]]. rewrite En. cbn [bind].
        destruct (A2 (r + 1)%Z ltac:(lia)) as [rt [Ert Prt]]. rewrite Ert. cbn [bind].
        destruct (A1 (j - r)%Z ltac:(lia)) as [lf [Elf Plf]]. rewrite Elf. cbn [bind].
        replace (i + 1 - (j - r))%Z with (i - j + r + 1)%Z in Plf by lia. replace (i + (r + 1))%Z with (i - j + r + j + 1)%Z in Prt by lia.
        replace (i - (j - 1) + r)%Z with (i - j + r + 1)%Z in Pn by lia. set (ii := (i - j + r)%Z) in *.
        pose proof (M (ii + 1)%Z i ltac:(lia)) as M1. pose proof (M (i + 1)%Z (ii + j + 1)%Z ltac:(lia)) as M2.
        pose proof (L0 (ii + 1)%Z) as Z1. pose proof (L1 (ii + j + 1)%Z) as Z2.
        assert (U (ii + j + 1)%Z - val x + (val x - U (ii + 1)%Z) = U (ii + j + 1)%Z - U (ii + 1)%Z) as ED by ring.
        assert (0 < U (ii + j + 1)%Z - U (ii + 1)%Z) as D by lra.
        destruct (basis_step (6 * q) (lev (j - 1)) n rt lf saved _ _ _ _ Pn Prt Plf W2) as [t [Et [P1 P2]]]; try lra; try assumption.
        { apply B_unit. } { apply r_310. unfold nn in *. lia. }
        rewrite Et. cbn [bind]. rewrite ED in P1, P2.
        destruct (vset_spec res' r (nadd saved (nmul rt t))) as [res'' [E2 [L3 [G6 G7]]]]; [lia|].
        rewrite E2; cbn [bind]. eexists. split; [reflexivity|]. split; [lia|]. split; [|split].
        * rewrite Eq. cbn [term1]. fold U. replace (i - j + (r + 1))%Z with (ii + 1)%Z by lia.
          rewrite nn_S, Eq''. replace (ii + 1 + (j - 1 + 1))%Z with (ii + j + 1)%Z by lia.
          rewrite ratio_ok by lra. pose proof (B_unit q (ii + 1)%Z) as Bu. split.
          -- replace ((val x - U (ii + 1)%Z) / (U (ii + j + 1)%Z - U (ii + 1)%Z) * B U i q (ii + 1) (val x)) with ((val x - U (ii + 1)%Z) * (B U i q (ii + 1) (val x) / (U (ii + j + 1)%Z - U (ii + 1)%Z))) by (field; lra).
             exact P2.
          -- assert (0 <= (val x - U (ii + 1)%Z) / (U (ii + j + 1)%Z - U (ii + 1)%Z) <= 1); [|nra]. split.
             ++ apply Rmult_le_pos; [lra|left; apply Rinv_0_lt_compat; exact D].
             ++ apply (Rmult_le_reg_r (U (ii + j + 1)%Z - U (ii + 1)%Z)); [exact D|]. unfold Rdiv. rewrite Rmult_assoc, Rinv_l by lra. lra.
        * intros r' Hr'. destruct (Z.eq_dec r' r) as [->|Ne].
          -- exists (nadd saved (nmul rt t)). split; [exact G6|]. replace (6 * S q)%nat with (6 * q + 6)%nat by lia. replace j with (j - 1 + 1)%Z at 1 by lia. rewrite lev_S by lia.
             replace (B U i (Z.to_nat j) (i - j + r) (val x)) with (term1 (vals l) i (val x) (Z.to_nat j) ii + (U (ii + j + 1)%Z - val x) * (B U i q (ii + 1) (val x) / (U (ii + j + 1)%Z - U (ii + 1)%Z))); [exact P1|].
             fold ii. rewrite Eq. cbn [B term1]. fold U. rewrite nn_S, Eq''. replace (ii + (j - 1 + 1) + 1)%Z with (ii + j + 1)%Z by lia.
             rewrite (ratio_ok (U (ii + j + 1)%Z - val x)) by lra. field. lra.
          -- rewrite G7 by lia. apply W3; lia.
        * intros r' Hr'. rewrite G7 by lia. apply W4; lia.
  Qed.
End Basis64.
