(** Concrete cases for knot removal in doubles. *)
From Coq Require Import Reals ZArith QArith List Lia Lra Bool SpecFloat.
From Verif Require Import Outcome Num ModelCore ModelAlgo ModelCurve ModelSurface SpecCore SpecBasis SpecCurve SpecErr SpecRows SpecRemove
  ThOutcome ThVec ThB64 ThCoreWit ThCurveWit ThDecide ThErrWit ThRemove2 ThRemove3 ThRemoveWit ThSurfRemove2 ThRows ThSafeRem2 ThRemRows ThRemRows2.
Import ListNotations.
Open Scope Z_scope.

(** a knot vector with a double knot in the middle *)
Definition twin : list b64 := [dz; dz; dz; dhalf; dhalf; done_; done_; done_].
(** a curve over it whose points hold a NaN and an infinity *)
Definition nan_hat : curve b64 := Curve 2 twin [pt 0 0 0 1; Vec4 S754_nan dz dz done_; pt 2 2 0 0; Vec4 (S754_infinity true) dz dz done_; pt 5 0 0 1].
Lemma twin_vals : vals twin = [0; 0; 0; 1 / 2; 1 / 2; 1; 1; 1]%R.
Proof. unfold vals, twin. cbn [map]. rewrite val_dz, val_dhalf, val_done. reflexivity. Qed.
Lemma twin_ok : sound_knots 2 twin /\ inner64 dhalf /\ separated (val dhalf) (vals twin) /\ count (val dhalf) (vals twin) = 2 /\ in_span (vals twin) 4 (val dhalf).
Proof.
  split; [apply soundb_ok; vm_compute; reflexivity|]. split; [split; [apply finb_spec; reflexivity|rewrite val_dhalf; lra]|]. rewrite twin_vals, val_dhalf.
  split; [apply separated_ex; simpl; intros v H; repeat destruct H as [<-|H]; try contradiction; lra|].
  split.
  - unfold count. simpl. repeat match goal with |- context [Req_EM_T ?a ?b] => destruct (Req_EM_T a b); try (exfalso; lra) end. reflexivity.
  - left. change (1 / 2 <= 1 / 2 < 1)%R. lra.
Qed.
Lemma bezier_ok : sound_curve bezier64 /\ inner64 dhalf /\ separated (val dhalf) (vals (Knots bezier64)) /\ count (val dhalf) (vals (Knots bezier64)) = 0 /\ in_span (vals (Knots bezier64)) 2 (val dhalf).
Proof.
  split; [split; [apply soundb_ok; vm_compute; reflexivity|reflexivity]|]. split; [apply twin_ok|].
  assert (vals (Knots bezier64) = [0; 0; 0; 1; 1; 1]%R) as -> by (unfold vals, bezier64; cbn [map Knots]; rewrite val_dz, val_done; reflexivity). rewrite val_dhalf.
  split; [apply separated_ex; simpl; intros v H; repeat destruct H as [<-|H]; try contradiction; lra|].
  split; [apply count_none; simpl; intros v H; repeat destruct H as [<-|H]; try contradiction; lra|]. left. change (0 <= 1 / 2 < 1)%R. lra.
Qed.
Lemma extrude_sound : sound_surface (extrudeU nan_hat) /\ sound_surface (extrudeV nan_hat).
Proof. split; (split; [apply soundb_ok; vm_compute; reflexivity|]; split; [apply soundb_ok; vm_compute; reflexivity|]; split; [reflexivity|]; split; reflexivity). Qed.
Lemma extrude_rows :
  (forall j l, line_u (Net (extrudeU nan_hat)) j l -> exists c' t, Curve_RemoveKnot (Curve 2 twin l) dhalf 1 dhalf = Ok (c', t)) /\
  (forall i l, line_v (Net (extrudeV nan_hat)) i l -> exists c' t, Curve_RemoveKnot (Curve 2 twin l) dhalf 1 dhalf = Ok (c', t)).
Proof.
  destruct twin_ok as [A [B [C [D _]]]]. split; intros j l [_ [L _]]; (destruct (C94_knot_lemma (Curve 2 twin l) dhalf 1 dhalf) as [c' [t [E _]]]; [split; [exact A|exact L]|exact B|exact C| | | |eauto]);
    cbn [Degree Knots]; rewrite D; lia.
Qed.
