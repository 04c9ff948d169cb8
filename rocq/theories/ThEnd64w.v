(** Witnesses for C115. *)
From Coq Require Import Reals QArith ZArith List Lra Lia Bool Floats.SpecFloat.
From Flocq Require Import Core IEEE754.BinarySingleNaN.
From Verif Require Import Outcome Num ModelCore ModelCurve SpecCore SpecBasis SpecErr SpecGeom64 SpecEnd64 ThReal ThB64 ThCoreWit ThCurveWit ThDecide ThErrWit ThBBoxWit.
Import ListNotations.
Open Scope R_scope.

Definition mildb (p : vec4 b64) : bool :=
  finb (w4 p) && (finb (x4 p) && finb (nmul (x4 p) (w4 p))) && (finb (y4 p) && finb (nmul (y4 p) (w4 p))) && (finb (z4 p) && finb (nmul (z4 p) (w4 p))).
Lemma mildb_ok l : forallb mildb l = true -> Forall mild l.
Proof.
  rewrite forallb_forall. intros H. apply Forall_forall. intros q Hq. specialize (H q Hq). unfold mildb in H. rewrite !andb_true_iff, !finb_spec in H.
  destruct H as [[[A [B C]] [D E]] [F G]]. split; [exact A|]. split; [split; assumption|]. split; split; assumption.
Qed.
(** 2^-1021, the smallest positive normal double, and the double after it *)
Definition tiny21 : b64 := S754_finite false 4503599627370496 (-1073).
Definition tiny22 : b64 := S754_finite false 4503599627370496 (-1074).
Lemma tiny22_val : val tiny22 = bpow radix2 (-1022).
Proof. unfold tiny22, val, SF2R, Defs.F2R. cbn [Defs.Fnum Defs.Fexp SpecFloat.cond_Zopp Zaux.cond_Zopp]. replace (-1022)%Z with (52 + -1074)%Z by lia. rewrite bpow_plus. f_equal. Qed.
Lemma tiny21_val : val tiny21 = bpow radix2 (-1021).
Proof. unfold tiny21, val, SF2R, Defs.F2R. cbn [Defs.Fnum Defs.Fexp SpecFloat.cond_Zopp Zaux.cond_Zopp]. replace (-1021)%Z with (52 + -1073)%Z by lia. rewrite bpow_plus. f_equal. Qed.
Lemma ordinary_zero : ordinary dz. Proof. left. apply val_dz. Qed.
Lemma ordinary_big a : SFleb tiny21 a = true -> finb a = true -> ordinary a.
Proof.
  rewrite finb_spec. intros H F. right. rewrite SFleb_val in H by (assumption || (apply finb_spec; vm_compute; reflexivity)). rewrite Rleb_true in H. rewrite tiny21_val in H.
  pose proof (Rle_abs (val a)). lra.
Qed.
Lemma ordinary_neg a : SFleb a (SFopp tiny21) = true -> finb a = true -> ordinary a.
Proof.
  rewrite finb_spec. intros H F. right. rewrite SFleb_val in H by (assumption || (apply finb_spec; vm_compute; reflexivity)). rewrite Rleb_true in H.
  assert (val (SFopp tiny21) = - bpow radix2 (-1021)) as E.
  { rewrite <- tiny21_val. unfold tiny21, val, SF2R, Defs.F2R. cbn [SFopp negb Defs.Fnum Defs.Fexp SpecFloat.cond_Zopp Zaux.cond_Zopp Z.opp]. change (Z.neg 4503599627370496) with (- Z.pos 4503599627370496)%Z. rewrite opp_IZR. ring. }
  rewrite E in H. pose proof (Rle_abs (- val a)) as A. rewrite Rabs_Ropp in A. lra.
Qed.

(** knots 0 0 49/64 1 1: the double nearest 1/(49/64), times 49/64, is below one *)
Definition gap_knots : list b64 := [dz; dz; dq (49 # 64); done_; done_].
(** end points at (1/10, 2^-1021, 0) and (-3, 0, 1/3), middle weight 1/2 *)
Definition gap_curve : curve b64 := Curve 1 gap_knots [Vec4 (dq (1 # 10)) tiny21 dz done_; pt 1 1 0 (1 # 2); pt (-3) 0 (1 # 3) 1].
Lemma gap_low : / 2 ^ 900 <= at_ (vals gap_knots) 2.
Proof.
  change (at_ (vals gap_knots) 2) with (val (dq (49 # 64))).
  apply Rle_trans with (val dhalf).
  - rewrite val_dhalf. unfold Rdiv. rewrite Rmult_1_l. apply Rinv_le; [lra|]. rewrite <- (pow_1 2) at 1. apply Rle_pow; [lra|lia].
  - assert (SFleb dhalf (dq (49 # 64)) = true) as H by (vm_compute; reflexivity). rewrite SFleb_val in H by (apply finb_spec; vm_compute; reflexivity). apply Rleb_true in H. exact H.
Qed.
Lemma gap_ok : sound_curve gap_curve /\ / 2 ^ 900 <= at_ (vals (Knots gap_curve)) (Degree gap_curve + 1) /\ Forall mild (ControlPoints gap_curve) /\
  plain_end (Vec4 (dq (1 # 10)) tiny21 dz done_) /\ plain_end (pt (-3) 0 (1 # 3) 1).
Proof.
  split; [split; [apply soundb_ok; vm_compute; reflexivity|reflexivity]|]. split; [exact gap_low|]. split; [apply mildb_ok; vm_compute; reflexivity|].
  split; (split; [exact val_done|]); (split; [|split]); try exact ordinary_zero; try (apply ordinary_big; vm_compute; reflexivity); apply ordinary_neg; vm_compute; reflexivity.
Qed.

Lemma C115_weight_lemma : exists (c : curve b64) first x q, sound_curve c /\ / 2 ^ 900 <= at_ (vals (Knots c)) (Degree c + 1) /\ Forall mild (ControlPoints c) /\
  nth_error (ControlPoints c) 0 = Some first /\ 1 < val (w4 first) <= 3 /\ ordinary (x4 first) /\ ordinary (y4 first) /\ ordinary (z4 first) /\ finite64 x /\ val x = 0 /\
  Curve_Evaluate c x = Ok q /\ val3 (spot first) <> val3 q.
Proof.
  exists (Curve 1 [dz; dz; done_; done_] [pt (1 # 10) 0 0 3; pt 1 0 0 1]). eexists. exists dz. eexists.
  split; [split; [apply soundb_ok; vm_compute; reflexivity|reflexivity]|].
  split. { change (/ 2 ^ 900 <= val done_). rewrite val_done. rewrite <- Rinv_1. apply Rinv_le; [lra|]. apply pow_R1_Rle. lra. }
  split; [apply mildb_ok; vm_compute; reflexivity|]. split; [reflexivity|].
  split. { assert (SFltb done_ (dq 3) = true) as A by (vm_compute; reflexivity). rewrite SFltb_val in A by (apply finb_spec; vm_compute; reflexivity). rewrite val_done in A. apply Rltb_true in A. split; [exact A|].
    cbn [w4 pt]. replace (dq 3) with (S754_finite false 6755399441055744 (-51)) by (vm_compute; reflexivity). unfold val, SF2R, Defs.F2R. cbn [Defs.Fnum Defs.Fexp SpecFloat.cond_Zopp Zaux.cond_Zopp]. unfold Raux.bpow. simpl Zaux.radix_val. change (Z.pow_pos 2 51) with 2251799813685248%Z. lra. }
  split; [apply ordinary_big; vm_compute; reflexivity|]. split; [exact ordinary_zero|]. split; [exact ordinary_zero|].
  split; [apply finb_spec; vm_compute; reflexivity|]. split; [apply val_dz|]. split; [vm_compute; reflexivity|].
  intros E. apply (f_equal x3) in E. cbn [val3 spot x3 x4 pt] in E.
  match type of E with val ?a = val ?b => assert (SFltb a b = true) as A by (vm_compute; reflexivity); rewrite SFltb_val in A by (apply finb_spec; vm_compute; reflexivity); apply Rltb_true in A end. lra.
Qed.
Lemma C115_tiny_lemma : exists (c : curve b64) first x q, sound_curve c /\ / 2 ^ 900 <= at_ (vals (Knots c)) (Degree c + 1) /\ Forall mild (ControlPoints c) /\
  nth_error (ControlPoints c) 0 = Some first /\ val (w4 first) = 1 /\ val (x4 first) = bpow radix2 (-1022) /\ val (y4 first) = 0 /\ val (z4 first) = 0 /\ finite64 x /\ val x = 0 /\
  Curve_Evaluate c x = Ok q /\ val3 (spot first) <> val3 q.
Proof.
  exists (Curve 1 gap_knots [Vec4 tiny22 dz dz done_; pt 1 1 0 1; pt 2 0 0 1]). eexists. exists dz. eexists.
  split; [split; [apply soundb_ok; vm_compute; reflexivity|reflexivity]|]. split; [exact gap_low|].
  split; [apply mildb_ok; vm_compute; reflexivity|]. split; [reflexivity|]. split; [exact val_done|]. split; [exact tiny22_val|]. split; [exact val_dz|]. split; [exact val_dz|].
  split; [apply finb_spec; vm_compute; reflexivity|]. split; [apply val_dz|]. split; [vm_compute; reflexivity|].
  intros E. apply (f_equal x3) in E. cbn [val3 spot x3 x4 pt] in E.
  match type of E with val ?a = val ?b => assert (SFltb a b = true) as A by (vm_compute; reflexivity); rewrite SFltb_val in A by (apply finb_spec; vm_compute; reflexivity); apply Rltb_true in A end. lra.
Qed.
