(** A concrete case for the accuracy of knot insertion (C90, C91). *)
From Coq Require Import Reals ZArith QArith List Lra Lia Bool SpecFloat.
From Flocq Require Import Core BinarySingleNaN.
From Verif Require Import Outcome Num ModelCore ModelBasis ModelCurve ModelSurface SpecCore SpecBasis SpecCurve SpecErr SpecErrIns
  ThOutcome ThReal ThB64 ThCoreWit ThCurveWit ThDecide ThErrWit.
Import ListNotations.
Open Scope Z_scope.
Lemma v_1 : val (dq 1) = 1%R.
Proof. replace (dq 1) with done_ by (vm_compute; reflexivity). apply val_done. Qed.
Lemma v_12 : val (dq (1 # 2)) = (1 / 2)%R.
Proof. replace (dq (1 # 2)) with dhalf by (vm_compute; reflexivity). apply val_dhalf. Qed.
Lemma v_34 : val (dq (3 # 4)) = (3 / 4)%R.
Proof. replace (dq (3 # 4)) with (S754_finite false 6755399441055744 (-53)) by (vm_compute; reflexivity). unfold val, SF2R, Defs.F2R. simpl. lra. Qed.
Lemma v_14 : val (dq (1 # 4)) = (1 / 4)%R.
Proof. replace (dq (1 # 4)) with (S754_finite false 4503599627370496 (-54)) by (vm_compute; reflexivity). unfold val, SF2R, Defs.F2R. simpl. lra. Qed.
Lemma err_weights : weights_in (1 / 2) 1 (ControlPoints err_curve).
Proof.
  unfold weights_in, err_curve, pt. cbn [ControlPoints].
  repeat (apply List.Forall_cons; [cbn [w4]; rewrite ?v_1, ?v_12, ?v_34; lra|]). apply List.Forall_nil.
Qed.
Lemma quarter_inner : inner64 (dq (1 # 4)).
Proof. split; [apply finb_spec; reflexivity|]. rewrite v_14. lra. Qed.
Lemma quarter_knots c : Curve_InsertKnot_list err_curve [dq (1 # 4)] = Ok c -> Knots c = [dz; dz; dz; dq (1 # 4); dhalf; done_; done_; done_].
Proof.
  intros E. assert (match Curve_InsertKnot_list err_curve [dq (1 # 4)] with Ok c => Some (Knots c) | _ => None end = Some [dz; dz; dz; dq (1 # 4); dhalf; done_; done_; done_]) as H by (vm_compute; reflexivity).
  rewrite E in H. congruence.
Qed.
Lemma quarter_apart c : Curve_InsertKnot_list err_curve [dq (1 # 4)] = Ok c -> apart (Knots c).
Proof.
  intros E. rewrite (quarter_knots c E). assert (/ 2 ^ 900 <= / 4)%R as S. { apply Rinv_le; [lra|]. replace 4%R with (2 ^ 2)%R by ring. apply Rle_pow; [lra|lia]. }
  assert (vals [dz; dz; dz; dq (1 # 4); dhalf; done_; done_; done_] = [0; 0; 0; 1 / 4; 1 / 2; 1; 1; 1]%R) as E1 by (unfold vals; cbn [map]; rewrite val_dz, val_dhalf, val_done, v_14; reflexivity).
  intros i H0 H1; rewrite E1; generalize dependent (/ 2 ^ 900)%R; intros e S; unfold len in H1; cbn in H1.
  assert (i = 0 \/ i = 1 \/ i = 2 \/ i = 3 \/ i = 4 \/ i = 5 \/ i = 6) as [->|[->|[->|[->|[->|[->| ->]]]]]] by lia; unfold at_; simpl; intros; lra.
Qed.
