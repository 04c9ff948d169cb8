(** Concrete cases for C117. *)
From Coq Require Import Reals QArith ZArith List Lra Lia Psatz Bool Floats.SpecFloat.
From Flocq Require Import Core IEEE754.BinarySingleNaN.
From Verif Require Import Outcome Num ModelCore ModelCurve ModelSurface SpecCore SpecBasis SpecErr SpecGeom64 SpecEnd64 SpecCorner64 SpecEndRel
  ThReal ThB64 ThRound ThCoreWit ThCurveWit ThDecide ThErrWit ThBBoxWit ThEnd64w ThCorner64w.
Import ListNotations.
Open Scope R_scope.

Definition bandb (a : b64) : bool :=
  finb a && ((SFleb (dq (1 # 16)) a && SFleb a (dq 16)) || (SFleb (dq (-16)) a && SFleb a (dq (-1 # 16)))).
Lemma band_val : val (dq (1 # 16)) = / 16 /\ val (dq 16) = 16 /\ val (dq (-16)) = - 16 /\ val (dq (-1 # 16)) = - / 16.
Proof.
  replace (dq (1 # 16)) with (S754_finite false 4503599627370496 (-56)) by (vm_compute; reflexivity). replace (dq 16) with (S754_finite false 4503599627370496 (-48)) by (vm_compute; reflexivity).
  replace (dq (-16)) with (S754_finite true 4503599627370496 (-48)) by (vm_compute; reflexivity). replace (dq (-1 # 16)) with (S754_finite true 4503599627370496 (-56)) by (vm_compute; reflexivity).
  unfold val, SF2R, Defs.F2R. cbn [Defs.Fnum Defs.Fexp SpecFloat.cond_Zopp Zaux.cond_Zopp Z.opp]. unfold Raux.bpow. simpl Zaux.radix_val. change (Z.pow_pos 2 56) with 72057594037927936%Z. change (Z.pow_pos 2 48) with 281474976710656%Z.
  split; [|split; [|split]]. all: rewrite ?opp_IZR; lra.
Qed.
Lemma bandb_ok a : bandb a = true -> / 16 <= Rabs (val a) <= 16.
Proof.
  unfold bandb. rewrite andb_true_iff, orb_true_iff, !andb_true_iff, finb_spec. intros [F H]. rewrite !SFleb_val in H by (assumption || (apply finb_spec; vm_compute; reflexivity)). rewrite !Rleb_true in H.
  destruct band_val as [V1 [V2 [V3 V4]]]. rewrite V1, V2, V3, V4 in H. destruct H as [H|H]; [rewrite Rabs_pos_eq by lra; lra|]. rewrite Rabs_left1 by lra. lra.
Qed.
Definition zerob (a : b64) : bool := match a with S754_zero _ => true | _ => false end.
Definition sturdyb (p : vec4 b64) : bool := bandb (w4 p) && (zerob (x4 p) || bandb (x4 p)) && (zerob (y4 p) || bandb (y4 p)) && (zerob (z4 p) || bandb (z4 p)).
Lemma sturdyb_ok p : sturdyb p = true -> sturdy p.
Proof.
  unfold sturdyb. rewrite !andb_true_iff. intros [[[W X] Y] Z0]. apply bandb_ok in W.
  assert (bpow radix2 (-1021) <= / 256) as S1 by (change (/ 256) with (bpow radix2 (-8)); apply bpow_le; lia). assert (16 <= bpow radix2 1022) as S2 by (change 16 with (bpow radix2 4); apply bpow_le; lia).
  assert (forall a, zerob a || bandb a = true -> sturdy1 (w4 p) a) as H.
  { intros a. rewrite orb_true_iff. intros [H|H]; [left; destruct a; try discriminate; reflexivity|]. apply bandb_ok in H. right. rewrite Rabs_mult. split; [lra|]. eapply Rle_trans; [exact S1|]. nra. }
  split; [lra|]. split; [apply H; exact X|]. split; apply H; assumption.
Qed.

(** end weights 3 and -1/10 *)
Definition heavy_curve : curve b64 := Curve 1 gap_knots [pt (1 # 10) 0 (-7) 3; pt 1 1 0 (1 # 2); pt (-3) 5 (1 # 3) (-1 # 10)].
Lemma heavy_ok : sound_curve heavy_curve /\ Forall mild (ControlPoints heavy_curve) /\ end_of 1 gap_knots dz 0 (at_ (vals gap_knots) 2) /\
  end_of 1 gap_knots done_ 2 (rnd64 (1 - at_ (vals gap_knots) 2)) /\ sturdy (pt (1 # 10) 0 (-7) 3) /\ sturdy (pt (-3) 5 (1 # 3) (-1 # 10)).
Proof.
  split; [split; [apply soundb_ok; vm_compute; reflexivity|reflexivity]|]. split; [apply mildb_ok; vm_compute; reflexivity|]. split; [apply corner_ends|].
  split; [split; [apply finb_spec; vm_compute; reflexivity|right; split; [exact val_done|split; reflexivity]]|]. split; apply sturdyb_ok; vm_compute; reflexivity.
Qed.
Definition heavy_surface : surface b64 := Surface 1 1 gap_knots gap_knots
  (Grid 3 3 [pt 3 0 0 (1 # 3); pt 1 0 0 1; pt 2 0 0 5; pt 0 1 0 1; pt 1 1 0 1; pt 2 1 0 1; pt 0 2 0 (-3); pt 1 2 0 1; pt (1 # 7) 2 0 (7 # 10)]).
Lemma heavy_surface_ok : sound_surface heavy_surface /\ Forall mild (Values (Net heavy_surface)) /\ sturdy (pt 0 2 0 (-3)).
Proof.
  split; [split; [apply soundb_ok; vm_compute; reflexivity|]; split; [apply soundb_ok; vm_compute; reflexivity|]; split; [reflexivity|]; split; reflexivity|].
  split; [apply mildb_ok; vm_compute; reflexivity|]. apply sturdyb_ok. vm_compute. reflexivity.
Qed.
