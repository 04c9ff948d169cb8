(** Witnesses for C116. *)
From Coq Require Import Reals QArith ZArith List Lra Lia Bool Floats.SpecFloat.
From Flocq Require Import Core.
From Verif Require Import Outcome Num ModelCore ModelCurve ModelSurface SpecCore SpecBasis SpecErr SpecGeom64 SpecEnd64 SpecCorner64
  ThReal ThB64 ThRound ThCoreWit ThCurveWit ThDecide ThErrWit ThBBoxWit ThEnd64w.
Import ListNotations.
Open Scope R_scope.

Lemma C116_power_lemma : forall k : nat, (k <= 900)%nat -> undone (/ 2 ^ k).
Proof.
  intros k Hk. unfold undone. assert (0 < 2 ^ k) as P by (apply pow_lt; lra). replace (1 / / 2 ^ k) with (2 ^ k) by (field; lra).
  rewrite (rnd64_id (2 ^ k)).
  - replace (/ 2 ^ k * 2 ^ k) with 1 by (field; lra). apply rnd64_id. change 1 with (bpow radix2 0). apply generic_format_bpow. vm_compute. discriminate.
  - replace (2 ^ k) with (bpow radix2 (Z.of_nat k)) by (rewrite <- bpow_powerRZ || idtac; symmetry; rewrite bpow_powerRZ, <- pow_powerRZ; reflexivity). apply generic_format_bpow. unfold FLT_exp. lia.
Qed.

(** knots with a first span of 49/64 in one direction, a single span in the other *)
Definition corner_surface : surface b64 := Surface 1 1 gap_knots [dz; dz; done_; done_]
  (Grid 3 2 [pt (3) (1 # 10) 0 1; pt 1 1 0 (1 # 2); pt (-3) 0 (1 # 3) 1; pt 3 (1 # 10) 1 1; pt 1 1 1 (1 # 2); pt (-3) 0 (1 # 7) 1]).
Lemma corner_ends : end_of 1 gap_knots dz 0 (at_ (vals gap_knots) 2) /\ end_of 1 [dz; dz; done_; done_] done_ 1 1 /\ undone 1.
Proof.
  split; [split; [apply finb_spec; vm_compute; reflexivity|left; split; [apply val_dz|]; split; [reflexivity|]; split; [reflexivity|exact gap_low]]|].
  split.
  - split; [apply finb_spec; vm_compute; reflexivity|]. right. split; [exact val_done|]. split; [reflexivity|]. change (1 = rnd64 (1 - val dz)). rewrite val_dz, Rminus_0_r.
    symmetry. apply rnd64_id. change 1 with (bpow radix2 0). apply generic_format_bpow. vm_compute. discriminate.
  - pose proof (C116_power_lemma 0 ltac:(lia)) as H. cbn [pow] in H. rewrite Rinv_1 in H. exact H.
Qed.
Lemma corner_ok : sound_surface corner_surface /\ Forall mild (Values (Net corner_surface)) /\ plain_end (pt 3 (1 # 10) 1 1).
Proof.
  split; [split; [apply soundb_ok; vm_compute; reflexivity|]; split; [apply soundb_ok; vm_compute; reflexivity|]; split; [reflexivity|]; split; reflexivity|].
  split; [apply mildb_ok; vm_compute; reflexivity|]. split; [exact val_done|]. split; [|split]; apply ordinary_big; vm_compute; reflexivity.
Qed.
Lemma C116_two_spans_lemma : exists (s : surface b64) u v du dv corner q, sound_surface s /\ Forall mild (Values (Net s)) /\
  end_of (DegreeU s) (KnotsU s) u 0 du /\ end_of (DegreeV s) (KnotsV s) v 0 dv /\
  nth_error (Values (Net s)) 0 = Some corner /\ plain_end corner /\ Surface_Evaluate s u v = Ok q /\ val3 q <> val3 (spot corner).
Proof.
  exists (Surface 1 1 gap_knots gap_knots (Grid 3 3 [pt 3 0 0 1; pt 1 0 0 1; pt 2 0 0 1; pt 0 1 0 1; pt 1 1 0 1; pt 2 1 0 1; pt 0 2 0 1; pt 1 2 0 1; pt 2 2 0 1])), dz, dz.
  do 4 eexists. split; [split; [apply soundb_ok; vm_compute; reflexivity|]; split; [apply soundb_ok; vm_compute; reflexivity|]; split; [reflexivity|]; split; reflexivity|].
  split; [apply mildb_ok; vm_compute; reflexivity|]. split; [apply corner_ends|]. split; [apply corner_ends|]. split; [reflexivity|].
  split; [split; [exact val_done|]; split; [apply ordinary_big; vm_compute; reflexivity|]; split; exact ordinary_zero|]. split; [vm_compute; reflexivity|].
  intros E. apply (f_equal x3) in E. cbn [val3 spot x3 x4 pt] in E.
  match type of E with val ?a = val ?b => assert (SFltb a b = true) as A by (vm_compute; reflexivity); rewrite SFltb_val in A by (apply finb_spec; vm_compute; reflexivity); apply Rltb_true in A end. lra.
Qed.
