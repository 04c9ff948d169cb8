(** Concrete cases for exactly when degree elevation succeeds (C106). *)
From Coq Require Import Reals QArith ZArith List Lia Lra Bool SpecFloat.
From Verif Require Import Outcome Num ModelCore ModelCurve ModelSurface SpecCore SpecBasis SpecCurve SpecBezier SpecElevate SpecErr
  ThOutcome ThReal ThB64 ThKnots ThCoreWit ThCurveWit ThDecide ThErrWit ThErrInsertWit ThElevateWit ThElevSurf ThElev64Wit.
Import ListNotations.
Open Scope Z_scope.

Ltac far := intros x y [Ix [Iy [Lt _]]] A; unfold close in A; apply Rabs_def2 in A; cbn [In] in Ix, Iy;
  repeat (destruct Ix as [<-|Ix]; [repeat (destruct Iy as [<-|Iy]; [lra|]); contradiction|]); contradiction.
(** degree 0, one interior knot *)
Definition step64 : curve b64 := Curve 0 (map dq [0; 1 # 2; 1]%Q) (repeat (Vec4 S754_nan dz done_ dz) 2).
Lemma dz_0 : dq 0 = dz. Proof. vm_compute. reflexivity. Qed.
Lemma C106_cases_lemma :
  (sound_curve nan_deg10 /\ spread (vals (Knots nan_deg10)) /\ exists d, Curve_ElevateDegree nan_deg10 1 = Ok d) /\
  (sound_curve line64 /\ spread (vals (Knots line64)) /\ Curve_ElevateDegree line64 29 = Undefined IntOverflow) /\
  (sound_curve jump64 /\ spread (vals (Knots jump64)) /\ Curve_ElevateDegree jump64 1 = Undefined OutOfBounds) /\
  (sound_curve nan_four /\ spread (vals (Knots nan_four)) /\ Curve_ElevateDegree nan_four 2 = Undefined OutOfBounds) /\
  (sound_curve step64 /\ spread (vals (Knots step64)) /\ Curve_ElevateDegree step64 1 = Throw LengthError).
Proof.
  split; [|split; [|split; [|split]]].
  - destruct nan_deg10_ok as [S [_ [_ [_ [Sp _]]]]]. split; [exact S|]. split; [exact Sp|].
    destruct (Curve_ElevateDegree nan_deg10 1) as [d| | | | |] eqn:E; [eauto|..]; vm_compute in E; discriminate.
  - split; [split; [apply soundb_ok; vm_compute; reflexivity|reflexivity]|]. split; [|vm_compute; reflexivity].
    unfold line64, vals. cbn [Knots map]. rewrite dz_0, val_dz, v_1. far.
  - split; [split; [apply soundb_ok; vm_compute; reflexivity|reflexivity]|]. split; [|vm_compute; reflexivity].
    unfold jump64, vals. cbn [Knots map]. rewrite dz_0, val_dz, v_1, v_12. far.
  - split; [split; [apply soundb_ok; vm_compute; reflexivity|reflexivity]|]. split; [|vm_compute; reflexivity].
    unfold nan_four, four64, vals. cbn [Knots map]. rewrite dz_0, val_dz, v_1, v_12, v_14, v_34. far.
  - split; [split; [apply soundb_ok; vm_compute; reflexivity|reflexivity]|]. split; [|vm_compute; reflexivity].
    unfold step64, vals. cbn [Knots map]. rewrite dz_0, val_dz, v_1, v_12. far.
Qed.
Lemma C106_surface_lemma : sound_surface bez_surface /\ spread (vals (KnotsU bez_surface)) /\ spread (vals (KnotsV bez_surface)) /\
  (UCount (Net bez_surface) + 2) * (VCount (Net bez_surface) + 2) <= INT_MAX /\
  1 <= DegreeU bez_surface /\ UCount (Net bez_surface) = DegreeU bez_surface + 1 /\ VCount (Net bez_surface) <> DegreeV bez_surface + 1.
Proof.
  destruct bez_surface_ok as [H1 [H2 [H3 [_ [H5 [_ H7]]]]]]. split; [exact H1|]. split; [|repeat (split; [assumption || (cbn; lia)|]); assumption].
  unfold bez_surface, vals. cbn [KnotsU map]. rewrite dz_0, val_dz, v_1. far.
Qed.
