(** Witnesses for C96-C98. *)
From Coq Require Import Reals QArith ZArith List Lra Lia Floats.SpecFloat.
From Verif Require Import Outcome Num ModelCore ModelCurve SpecCore SpecBasis SpecCurve SpecBezier SpecErr SpecErrIns SpecBox64
  ThOutcome ThReal ThB64 ThCoreWit ThCurveWit ThDecide ThErrWit.
Import ListNotations.
Open Scope Z_scope.
Lemma vals_err : vals err_knots = [0; 0; 0; 1 / 2; 1; 1; 1]%R.
Proof. unfold err_knots, vals. cbn [map]. rewrite val_dz, val_dhalf, val_done. reflexivity. Qed.
Lemma err_extract : interior_multiplicity_le (Degree err_curve) (vals (Knots err_curve)) /\ distinct_knots (vals (Knots err_curve)) [0; 1 / 2; 1]%R /\
  1 = Degree err_curve * (len [0; 1 / 2; 1]%R - 2) - (len (Knots err_curve) - 2 * Degree err_curve - 2).
Proof.
  change (Degree err_curve) with 2. change (Knots err_curve) with err_knots. split; [|split; [|reflexivity]]; rewrite vals_err.
  - intros t Ht. unfold count. cbn [count_occ].
    repeat match goal with |- context [Req_EM_T ?a ?b] => destruct (Req_EM_T a b); try lra end; lia.
  - split.
    + intros i j Hi Hj. cbn in Hj. assert ((i = 0 /\ j = 1) \/ (i = 0 /\ j = 2) \/ (i = 1 /\ j = 2)) as [[-> ->]|[[-> ->]|[-> ->]]] by lia; [change (0 < 1 / 2)%R|change (0 < 1)%R|change (1 / 2 < 1)%R]; lra.
    + intros t. cbn. intuition lra.
Qed.
Lemma unit_box_halvable : halvable_box (BBox (Vec3 0 0 0)%R (Vec3 1 1 1)%R).
Proof.
  assert (halvable 0) as H0. { exists dz. split; [split; reflexivity|]. split; [exact val_dz|left; reflexivity]. }
  assert (halvable 1) as H1. { exists done_. split; [split; reflexivity|]. split; [exact val_done|right]. rewrite Rabs_R1. rewrite <- Rinv_1. apply Rinv_le_contravar; [lra|]. apply pow_R1_Rle. lra. }
  intros g [->|[->| ->]]; split; assumption.
Qed.
