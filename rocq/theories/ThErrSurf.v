(** Accuracy of Surface evaluation in binary64. *)
From Coq Require Import Reals ZArith List Lra Lia Psatz Floats.SpecFloat.
From Flocq Require Import Core.
From Verif Require Import Outcome Num ModelCore ModelBasis ModelCurve ModelSurface SpecCore SpecBasis SpecCurve SpecSurface SpecErr ThOutcome ThReal ThB64 ThRound ThVec ThKnots ThGrid ThSum ThSpline ThBasis ThCurve ThSurface ThCurveWit ThSurfWit ThErr ThErrBasis ThErrSum ThErrCurve.
Import ListNotations.
Open Scope R_scope.

Definition unit4 : vec4 b64 := Vec4 n0 n0 n0 n1.
Lemma unit4_val : val4 unit4 = Vec4 0 0 0 1.
Proof. unfold val4, unit4. cbn [x4 y4 z4 w4]. rewrite val_0, val_1. reflexivity. Qed.
Definition gpb (s : surface b64) (i j : Z) : vec4 b64 := nth (Z.to_nat (j * UCount (Net s) + i)) (Values (Net s)) unit4.
Lemma gpb_val s i j : val4 (gpb s i j) = gp (surface_val s) i j.
Proof. unfold gp, gpb, surface_val. cbn [Net UCount Values]. rewrite <- unit4_val. rewrite map_nth. reflexivity. Qed.
Lemma gpb_tame s M i j : 0 <= M -> Forall (tame M) (Values (Net s)) -> tame M (gpb s i j).
Proof.
  intros HM F. unfold gpb. destruct (nth_in_or_default (Z.to_nat (j * UCount (Net s) + i)) (Values (Net s)) unit4) as [I|E].
  - rewrite Forall_forall in F. apply F. exact I.
  - rewrite E. unfold tame, unit4. cbn [x4 y4 z4 w4]. rewrite val_0, val_1, Rabs_R0. pose proof finite_0. pose proof finite_1.
    assert (1 <= 2 ^ 100) by (apply pow_R1_Rle; lra). assert (/ 2 ^ 100 <= 1) by (rewrite <- Rinv_1; apply Rinv_le_contravar; lra). tauto.
Qed.
Lemma spl_window p l j x P : clamped p l -> (p <= j <= len l - p - 2)%Z ->
  (forall k, ~ (j - p <= k <= j)%Z -> N (kf l) (Z.to_nat p) k x = 0) ->
  zsum 0 (p + 1) (fun i => N (kf l) (Z.to_nat p) (j - p + i) x * P (j - p + i)%Z) = spl p l P x.
Proof.
  intros C Hj Z0. pose proof (cl_degree _ _ C). unfold spl. symmetry.
  apply (zsum_window (fun i => N (kf l) (Z.to_nat p) i x * P i) (j - p) (p + 1)); try lia. intros i Hi. rewrite Z0 by lia. ring.
Qed.
Lemma spl_between p l P x lo hi : clamped p l -> 0 <= x <= 1 -> (forall i, (0 <= i < len l - p - 1)%Z -> lo <= P i <= hi) -> lo <= spl p l P x <= hi.
Proof.
  intros C Hx H. split.
  - rewrite <- (spl_const p l lo x C Hx). apply spl_le; try assumption. intros. apply H; assumption.
  - rewrite <- (spl_const p l hi x C Hx). apply spl_le; try assumption. intros. apply H; assumption.
Qed.

Lemma spl_scale p l a P x : spl p l (fun i => a * P i) x = a * spl p l P x.
Proof. unfold spl. rewrite <- zsum_scale. apply zsum_ext. intros. ring. Qed.

Lemma Surface64_ok s M u v : clamped (DegreeU s) (vals (KnotsU s)) -> clamped (DegreeV s) (vals (KnotsV s)) ->
  all_finite (KnotsU s) -> all_finite (KnotsV s) -> apart (KnotsU s) -> apart (KnotsV s) -> (DegreeU s <= 50)%Z -> (DegreeV s <= 50)%Z ->
  UCount (Net s) = (len (KnotsU s) - DegreeU s - 1)%Z -> VCount (Net s) = (len (KnotsV s) - DegreeV s - 1)%Z ->
  len (Values (Net s)) = (UCount (Net s) * VCount (Net s))%Z -> Forall (tame M) (Values (Net s)) -> 0 <= M <= bpow radix2 100 ->
  finite64 u -> 0 <= val u <= 1 -> finite64 v -> 0 <= val v <= 1 ->
  exists q, Surface_Evaluate s u v = Ok q /\
    near3 (45 * (IZR (DegreeU s) + IZR (DegreeV s) + 1) / 2 ^ 53 * M + / 2 ^ 450) q (surf_point (surface_val s) (val u) (val v)).
Proof.
  intros CU CV FU FV AU AV HU HV NU NV LV T HM Fu Hu Fv Hv. pose proof (cl_degree _ _ CU) as P0. pose proof (cl_degree _ _ CV) as Q0.
  destruct (Basis64_N _ _ u FU CU AU Fu Hu HU) as [iu [ru [E1 [E2 [Hj [Lr [Gr Z0]]]]]]].
  destruct (Basis64_N _ _ v FV CV AV Fv Hv HV) as [iv [rv [F1 [F2 [Hj' [Lr' [Gr' Z0']]]]]]].
  assert (wf_surface (surface_val s)) as W.
  { constructor; try assumption; cbn [surface_val DegreeU DegreeV KnotsU KnotsV Net UCount VCount Values]; rewrite ?len_vals, ?len_map; try assumption.
    unfold positive_weights. apply Forall_forall. intros p Ip. apply in_map_iff in Ip. destruct Ip as [p' [<- Ip]]. rewrite Forall_forall in T.
    pose proof (tame_w M p' (T p' Ip)) as Tw. pose proof (bpow_gt_0 radix2 (-100)). cbn [val4 w4]. lra. }
  assert (forall i j, (0 <= i < UCount (Net s))%Z -> (0 <= j < VCount (Net s))%Z -> Grid_Get (Net s) i j = Ok (gpb s i j)) as GG.
  { intros i j Hi Hjj. pose proof (cl_len _ _ CU) as LU. pose proof (cl_len _ _ CV) as LV'. rewrite len_vals in LU, LV'.
    pose proof (grid_is_ex unit4 (UCount (Net s)) (VCount (Net s)) (Values (Net s)) ltac:(lia) ltac:(lia) LV) as G.
    apply (Grid_Get_ok _ (UCount (Net s)) (VCount (Net s)) (gpb s)); try assumption. }
  unfold Surface_Evaluate. rewrite !unit_assert64 by assumption. cbn [assert_ bind].
  rewrite E1. cbn [bind]. rewrite F1. cbn [bind]. rewrite E2. cbn [bind]. rewrite F2. cbn [bind].
  rewrite Lr, Lr', !Z.eqb_refl. cbn [assert_ bind]. cbv zeta.
  set (p := DegreeU s) in *. set (q := DegreeV s) in *. set (sr := surface_val s) in *.
  assert (forall i j, tame M (gpb s i j)) as TT by (intros; apply gpb_tame; [lra|assumption]).
  pose proof (bpow_gt_0 radix2 (-100)) as B100.
  set (IX := fun k j => spl p (vals (KnotsU s)) (fun i => co k (ghp sr i j)) (val u)).
  set (IA := fun k j => spl p (vals (KnotsU s)) (fun i => maj k M (val (w4 (gpb s i j)))) (val u)).
  assert (forall k j, 0 <= IA k j <= bpow radix2 200) as IAb.
  { intros k j. apply spl_between; try assumption. intros i Hi. apply maj_le; [exact HM|]. pose proof (tame_w M _ (TT i j)). lra. }
  assert (forall j, (0 <= j < q + 1)%Z -> exists r,
    for_up 0 (p + 1) (fun i tmp =>
       p0 <- Grid_Get (Net s) (iu - p + i) (iv - q + j) ;; b <- vget ru i ;;
       Ok (v4add tmp (v4scale b (ToHomo p0))))%outcome v4zero = Ok r /\
    forall k, sap (7 * Z.to_nat p + 3) (bpow radix2 (-705)) (co k r) (IX k (iv - q + j)%Z) (IA k (iv - q + j)%Z)) as Inner.
  { intros j Hjj.
    destruct (sum_loop64 (fun i tmp => p0 <- Grid_Get (Net s) (iu - p + i) (iv - q + j) ;; b <- vget ru i ;; Ok (v4add tmp (v4scale b (ToHomo p0))))%outcome
      (6 * Z.to_nat p + 2) (bpow radix2 (-711)) (p + 1) (fun k i => N (kf (vals (KnotsU s))) (Z.to_nat p) (iu - p + i) (val u) * co k (ghp sr (iu - p + i) (iv - q + j)))
      (fun k i => N (kf (vals (KnotsU s))) (Z.to_nat p) (iu - p + i) (val u) * maj k M (val (w4 (gpb s (iu - p + i) (iv - q + j)))))) as [r [Er Qr]].
    { lia. } { lia. } { split; [apply bpow_ge_0|]. change 1 with (bpow radix2 0). apply bpow_le. lia. }
    { intros i acc Hi. destruct (Gr i ltac:(lia)) as [b [Eb Bb]]. exists (ToHomo (gpb s (iu - p + i) (iv - q + j))), b. rewrite GG by lia. cbn [bind]. rewrite Eb. cbn [bind]. split; [reflexivity|].
      intros k. pose proof (tame_w M _ (TT (iu - p + i)%Z (iv - q + j)%Z)) as Wq.
      pose proof (maj_le k M (val (w4 (gpb s (iu - p + i) (iv - q + j)))) HM ltac:(lra)) as Mj. split.
      - replace (6 * Z.to_nat p + 2)%nat with (6 * Z.to_nat p + 1 + 1)%nat by lia. apply (term64 _ _ _ _ _ _ 1 eta64 (-714) Bb); try lia.
        + rewrite nn_of; lia.
        + unfold ghp. fold sr. unfold sr. rewrite <- gpb_val. apply hom64; [apply TT|exact HM].
        + apply Mj.
        + split; [apply bpow_ge_0|apply bpow_le; lia].
      - destruct Bb as [_ [[B1 B2] _]]. assert (bpow radix2 200 <= bpow radix2 900) by (apply bpow_le; lia). nra. }
    exists r. split; [exact Er|]. intros k. specialize (Qr k). unfold IX, IA.
    rewrite <- (spl_window p (vals (KnotsU s)) iu (val u) (fun i => co k (ghp sr i (iv - q + j)))); [|assumption|rewrite len_vals; lia|assumption].
    rewrite <- (spl_window p (vals (KnotsU s)) iu (val u) (fun i => maj k M (val (w4 (gpb s i (iv - q + j)))))); [|assumption|rewrite len_vals; lia|assumption].
    apply (sap_weak (6 * Z.to_nat p + 2 + Z.to_nat (p + 1)) (IZR (p + 1) * (r64 ^ Z.to_nat (p + 1) * bpow radix2 (-711)))); [lia|apply (tail_small (p + 1) (-711)); lia|exact Qr]. }
  destruct (sum_loop64 (fun j result =>
        tmp <- for_up 0 (p + 1) (fun i tmp =>
            p0 <- Grid_Get (Net s) (iu - p + i) (iv - q + j) ;;
            b <- vget ru i ;;
            Ok (v4add tmp (v4scale b (ToHomo p0)))) v4zero ;;
        b <- vget rv j ;;
        Ok (v4add result (v4scale b tmp)))%outcome (6 * Z.to_nat q + (7 * Z.to_nat p + 3) + 1) (bpow radix2 (-702)) (q + 1)
      (fun k j => N (kf (vals (KnotsV s))) (Z.to_nat q) (iv - q + j) (val v) * IX k (iv - q + j)%Z)
      (fun k j => N (kf (vals (KnotsV s))) (Z.to_nat q) (iv - q + j) (val v) * IA k (iv - q + j)%Z)) as [r [Er Qr]].
  { lia. } { lia. } { split; [apply bpow_ge_0|]. change 1 with (bpow radix2 0). apply bpow_le. lia. }
  { intros j acc Hjj. destruct (Inner j Hjj) as [t [Et Qt]]. destruct (Gr' j ltac:(lia)) as [b [Eb Bb]]. exists t, b. rewrite Et. cbn [bind]. rewrite Eb. cbn [bind]. split; [reflexivity|].
    intros k. pose proof (IAb k (iv - q + j)%Z) as Ib. split.
    - apply (term64 _ _ _ _ _ _ (7 * Z.to_nat p + 3) (bpow radix2 (-705)) (-705) Bb); try lia.
      + rewrite nn_of; lia.
      + apply Qt.
      + apply Ib.
      + split; [apply bpow_ge_0|lra].
    - destruct Bb as [_ [[B1 B2] _]]. assert (bpow radix2 200 <= bpow radix2 900) by (apply bpow_le; lia). nra. }
  rewrite Er. cbn [bind].
  assert (forall k, zsum 0 (q + 1) (fun j => N (kf (vals (KnotsV s))) (Z.to_nat q) (iv - q + j) (val v) * IX k (iv - q + j)%Z) = hsurf sr (co k) (val u) (val v)) as EX.
  { intros k. rewrite (spl_window q (vals (KnotsV s)) iv (val v) (IX k)); [reflexivity|assumption|rewrite len_vals; lia|assumption]. }
  assert (forall k, zsum 0 (q + 1) (fun j => N (kf (vals (KnotsV s))) (Z.to_nat q) (iv - q + j) (val v) * IA k (iv - q + j)%Z) = spl q (vals (KnotsV s)) (IA k) (val v)) as EA.
  { intros k. apply spl_window; [assumption|rewrite len_vals; lia|assumption]. }
  destruct (v3div64 (7 * Z.to_nat p + 7 * Z.to_nat q + 5) (IZR (q + 1) * (r64 ^ Z.to_nat (q + 1) * bpow radix2 (-702))) r (fun k => hsurf sr (co k) (val u) (val v)) (fun k => 0) M (spl q (vals (KnotsV s)) (IA 3%nat) (val v)))
    as [a [Ea Na]]; try assumption.
  { lia. }
  { pose proof (tail_small (q + 1) (-702) ltac:(lia)) as Ts. split; [lra|]. refine (Rle_trans _ _ _ (proj2 Ts) _). apply bpow_le. lia. }
  { apply (spl_between q (vals (KnotsV s)) (IA 3%nat) (val v) (bpow radix2 (-100)) (bpow radix2 100)); try assumption. intros j _.
    apply spl_between; try assumption. intros i _. apply (tame_w M _ (TT i j)). }
  { unfold hsurf. apply spl_ext. intros j _. apply spl_ext. intros i _. unfold ghp, sr. rewrite <- gpb_val. reflexivity. }
  { intros k. replace (7 * Z.to_nat p + 7 * Z.to_nat q + 5)%nat with (6 * Z.to_nat q + (7 * Z.to_nat p + 3) + 1 + Z.to_nat (q + 1))%nat by lia.
    specialize (Qr k). rewrite EX, EA in Qr. refine (sap_major _ _ _ _ _ _ _ Qr). right.
    destruct k as [|[|[|]]]; cbn [maj]; try reflexivity; unfold IA; cbn [maj];
      (rewrite <- spl_scale; apply spl_ext; intros j _; rewrite <- spl_scale; apply spl_ext; intros i _; reflexivity). }
  exists a. split; [exact Ea|]. fold sr. rewrite (surf_point_hsurf sr) by exact W.
  assert (spl q (vals (KnotsV s)) (IA 3%nat) (val v) = hsurf sr w4 (val u) (val v)) as Ew.
  { unfold hsurf. apply spl_ext. intros j _. apply spl_ext. intros i _. unfold ghp, sr. rewrite <- gpb_val. reflexivity. }
  rewrite Ew in Na.
  assert ((64 / 10 * INR (7 * Z.to_nat p + 7 * Z.to_nat q + 5) + 3) / 2 ^ 53 * M <= 45 * (IZR p + IZR q + 1) / 2 ^ 53 * M) as Le.
  { apply Rmult_le_compat_r; [lra|]. apply Rmult_le_compat_r; [left; apply Rinv_0_lt_compat, pow_lt; lra|].
    rewrite !plus_INR, !mult_INR, !INR_IZR_INZ, !Z2Nat.id by lia. cbn [Z.of_nat Pos.of_succ_nat Pos.succ]. assert (0 <= IZR p) by (apply IZR_le; lia). assert (0 <= IZR q) by (apply IZR_le; lia). lra. }
  destruct Na as [N1 [N2 [N3 [N4 [N5 N6]]]]]. unfold near3. cbn [x3 y3 z3] in *.
  change (hsurf sr (co 0)) with (hsurf sr x4) in *. change (hsurf sr (co 1)) with (hsurf sr y4) in *. change (hsurf sr (co 2)) with (hsurf sr z4) in *.
  split; [exact N1|]. split; [exact N2|]. split; [exact N3|]. split; [lra|]. split; lra.
Qed.
