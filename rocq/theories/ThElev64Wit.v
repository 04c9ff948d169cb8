(** Concrete cases for degree elevation on doubles (C105). *)
From Coq Require Import Reals QArith ZArith List Lia Lra Bool SpecFloat.
From Verif Require Import Outcome Num ModelCore ModelCurve ModelSurface SpecCore SpecBasis SpecCurve SpecBezier SpecElevate SpecErr
  ThOutcome ThReal ThB64 ThKnots ThCoreWit ThCurveWit ThDecide ThErrWit ThErrInsertWit ThElevateWit ThElevSurf.
Import ListNotations.
Open Scope Z_scope.

(** degree 10, multiplicities 1 then 3, and points that are not numbers *)
Definition nan_deg10 : curve b64 := Curve 10 (Knots deg10) (repeat (Vec4 S754_nan (S754_infinity true) S754_nan dz) 15).
Definition bez_surface : surface b64 := Surface 2 10 (map dq [0; 0; 0; 1; 1; 1]%Q) (Knots deg10) (Grid 3 15 (repeat (Vec4 S754_nan dz done_ dz) 45)).
Lemma deg10_vals : vals (Knots deg10) = (repeat 0 11 ++ [1/2; 3/4; 3/4; 3/4] ++ repeat 1 11)%R.
Proof.
  unfold deg10, vals. cbn [Knots repeat Datatypes.app map]. rewrite v_1, v_12, v_34. replace (dq 0) with dz by (vm_compute; reflexivity). rewrite val_dz. reflexivity.
Qed.
Lemma deg10_in x : In x (vals (Knots deg10)) -> In x [0; 1/2; 3/4; 1]%R.
Proof. rewrite deg10_vals. cbn [repeat Datatypes.app In]. intuition auto. Qed.
Lemma deg10_sound : sound_knots 10 (Knots deg10).
Proof. apply soundb_ok. vm_compute. reflexivity. Qed.
Lemma deg10_mult : interior_multiplicity_le 10 (vals (Knots deg10)).
Proof. apply multb_ok. vm_compute. reflexivity. Qed.
Lemma deg10_spread : spread (vals (Knots deg10)).
Proof.
  intros x y [Ix [Iy [Lt _]]] A. unfold close in A. apply Rabs_def2 in A. apply deg10_in in Ix. apply deg10_in in Iy. cbn [In] in Ix, Iy.
  repeat (destruct Ix as [<-|Ix]; [repeat (destruct Iy as [<-|Iy]; [lra|]); contradiction|]). contradiction.
Qed.
Lemma deg10_spans : spans (vals (Knots deg10)) <= 3.
Proof.
  unfold spans. pose proof (NoDup_incl_length (NoDup_nodup Req_EM_T (vals (Knots deg10))) (l' := [0; 1/2; 3/4; 1]%R)) as H.
  assert (incl (nodup Req_EM_T (vals (Knots deg10))) [0; 1/2; 3/4; 1]%R) as I by (intros x Hx; apply nodup_In in Hx; apply deg10_in; exact Hx).
  specialize (H I). unfold len. cbn [length] in H. lia.
Qed.
Lemma nan_deg10_ok : sound_curve nan_deg10 /\ 1 <= Degree nan_deg10 /\ Degree nan_deg10 + 1 <= 29 /\
  interior_multiplicity_le (Degree nan_deg10) (vals (Knots nan_deg10)) /\ spread (vals (Knots nan_deg10)) /\
  len (ControlPoints nan_deg10) + 1 * spans (vals (Knots nan_deg10)) <= 2 * (len (ControlPoints nan_deg10) - 1 + 1).
Proof.
  split; [split; [exact deg10_sound|reflexivity]|]. split; [cbn; lia|]. split; [cbn; lia|]. split; [exact deg10_mult|]. split; [exact deg10_spread|].
  pose proof deg10_spans. change (Knots nan_deg10) with (Knots deg10). change (len (ControlPoints nan_deg10)) with 15. lia.
Qed.
Lemma bez_surface_ok : sound_surface bez_surface /\ UCount (Net bez_surface) = DegreeU bez_surface + 1 /\ VCount (Net bez_surface) <> DegreeV bez_surface + 1 /\
  interior_multiplicity_le (DegreeV bez_surface) (vals (KnotsV bez_surface)) /\ spread (vals (KnotsV bez_surface)) /\
  VCount (Net bez_surface) + 1 * spans (vals (KnotsV bez_surface)) <= 2 * (VCount (Net bez_surface) - 1 + 1) /\
  (UCount (Net bez_surface) + 2) * (VCount (Net bez_surface) + 2) <= INT_MAX.
Proof.
  split. { split; [apply soundb_ok; vm_compute; reflexivity|]. split; [exact deg10_sound|]. repeat split. }
  split; [reflexivity|]. split; [discriminate|]. split; [exact deg10_mult|]. split; [exact deg10_spread|]. split; [|vm_compute; discriminate].
  pose proof deg10_spans. change (KnotsV bez_surface) with (Knots deg10). change (VCount (Net bez_surface)) with 15. lia.
Qed.
(** same knots, other points *)
Definition nan_four : curve b64 := Curve 1 (Knots four64) (repeat (Vec4 S754_nan S754_nan S754_nan S754_nan) 5).
Lemma nan_four_ok : Degree four64 = Degree nan_four /\ Knots four64 = Knots nan_four /\ len (ControlPoints four64) = len (ControlPoints nan_four) /\ ControlPoints four64 <> ControlPoints nan_four.
Proof. repeat split. vm_compute. discriminate. Qed.
Lemma C105_buffer_lemma : exists (c : curve b64) t, sound_curve c /\ 1 <= Degree c /\ 1 <= t /\
  interior_multiplicity_le (Degree c) (vals (Knots c)) /\ Curve_ElevateDegree c t = Undefined OutOfBounds.
Proof.
  exists nan_four, 2. split; [split; [apply soundb_ok; vm_compute; reflexivity|reflexivity]|]. split; [cbn; lia|]. split; [lia|].
  split; [apply multb_ok; vm_compute; reflexivity|]. vm_compute. reflexivity.
Qed.
