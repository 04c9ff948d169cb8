(** Concrete cases for the line-by-line properties (C92, C93). *)
From Coq Require Import Reals ZArith QArith List Lra Lia Bool SpecFloat.
From Flocq Require Import Core BinarySingleNaN.
From Verif Require Import Outcome Num ModelCore ModelBasis ModelCurve ModelSurface SpecCore SpecBasis SpecCurve SpecErr SpecErrIns SpecRows
  ThOutcome ThReal ThB64 ThCoreWit ThCurveWit ThDecide ThErrWit ThErrInsertWit ThRows ThRows2.
Import ListNotations.
Open Scope Z_scope.
(** a net with a NaN and an infinity in it *)
Definition nan_surface : surface b64 := Surface 2 1 err_knots [dz; dz; done_; done_]
  (Grid 4 2 [pt 1 0 0 1; Vec4 S754_nan dz dz (S754_infinity true); pt 0 0 0 0; pt (-1) 0 0 1;
             pt 1 0 1 1; pt 1 1 1 (1 # 2); pt (-1) 1 1 (3 # 4); pt (-1) 0 1 1]).
Lemma nan_surface_ok : sound_surface nan_surface.
Proof.
  split; [apply soundb_ok; vm_compute; reflexivity|]. split; [apply soundb_ok; vm_compute; reflexivity|]. split; [reflexivity|]. split; reflexivity.
Qed.
Lemma nan_lines : line_u (Net nan_surface) 0 [pt 1 0 0 1; Vec4 S754_nan dz dz (S754_infinity true); pt 0 0 0 0; pt (-1) 0 0 1] /\
  line_v (Net nan_surface) 1 [Vec4 S754_nan dz dz (S754_infinity true); pt 1 1 1 (1 # 2)].
Proof.
  unfold line_u, line_v, nan_surface. cbn [Net UCount VCount Values]. split; (split; [lia|]; split; [reflexivity|]).
  - intros i Hi. assert (i = 0 \/ i = 1 \/ i = 2 \/ i = 3) as [->|[->|[->| ->]]] by lia; reflexivity.
  - intros i Hi. assert (i = 0 \/ i = 1) as [->| ->] by lia; reflexivity.
Qed.
Lemma nan_rows_insert :
  (forall j l, line_u (Net nan_surface) j l -> exists c', Curve_InsertKnot (Curve 2 err_knots l) (dq (1 # 4)) = Ok c') /\
  (forall i l, line_v (Net nan_surface) i l -> exists c', Curve_InsertKnot (Curve 1 [dz; dz; done_; done_] l) (dq (1 # 4)) = Ok c').
Proof.
  destruct nan_surface_ok as [S1 [S2 _]]. split.
  - intros j l [_ [L _]]. destruct (insert_once64 2 err_knots (dq (1 # 4)) l S1) as [l' [p' [E _]]]; [exact L|lia|exact quarter_inner|]. eauto.
  - intros j l [_ [L _]]. destruct (insert_once64 1 [dz; dz; done_; done_] (dq (1 # 4)) l S2) as [l' [p' [E _]]]; [exact L|lia|exact quarter_inner|]. eauto.
Qed.
Lemma err_weights_s : weights_in (1 / 2) 1 (Values (Net err_surface)).
Proof.
  unfold weights_in, err_surface, pt. cbn [Net Values].
  repeat (apply List.Forall_cons; [cbn [w4]; rewrite ?v_1, ?v_12, ?v_34; lra|]). apply List.Forall_nil.
Qed.
Lemma surface_apart jk : (forall s, Surface_InsertKnotU_list jk err_surface [dq (1 # 4)] = Ok s -> apart (KnotsU s)) /\
  (forall s, Surface_InsertKnotV_list err_surface [dq (1 # 4)] = Ok s -> apart (KnotsV s)).
Proof.
  assert (/ 2 ^ 900 <= / 4)%R as S. { apply Rinv_le; [lra|]. replace 4%R with (2 ^ 2)%R by ring. apply Rle_pow; [lra|lia]. }
  split; intros s E.
  - cbn [Surface_InsertKnotU_list foldM] in E. unfold Surface_InsertKnotU_list in E. cbn [foldM] in E. bindinv E. injection E as ->. unfold Surface_InsertKnotU in E0. bindinv E0. destruct a as [l k]. do 3 bindinv E0.
    injection E0 as <-. cbn [KnotsU]. assert (l = [dz; dz; dz; dq (1 # 4); dhalf; done_; done_; done_]) as ->.
    { assert (match KnotVector_InsertKnot (KnotsU err_surface) (dq (1 # 4)) 1 with Ok (l, _) => Some l | _ => None end = Some [dz; dz; dz; dq (1 # 4); dhalf; done_; done_; done_]) as H by (vm_compute; reflexivity).
      rewrite E1 in H. congruence. }
    assert (vals [dz; dz; dz; dq (1 # 4); dhalf; done_; done_; done_] = [0; 0; 0; 1 / 4; 1 / 2; 1; 1; 1]%R) as V1 by (unfold vals; cbn [map]; rewrite val_dz, val_dhalf, val_done, v_14; reflexivity).
    intros i H0 H1; rewrite V1; generalize dependent (/ 2 ^ 900)%R; intros e S; unfold len in H1; cbn in H1.
    assert (i = 0 \/ i = 1 \/ i = 2 \/ i = 3 \/ i = 4 \/ i = 5 \/ i = 6) as [->|[->|[->|[->|[->|[->| ->]]]]]] by lia; unfold at_; simpl; intros; lra.
  - unfold Surface_InsertKnotV_list in E. cbn [foldM] in E. bindinv E. injection E as ->. unfold Surface_InsertKnotV in E0. bindinv E0. destruct a as [l k]. do 3 bindinv E0.
    injection E0 as <-. cbn [KnotsV]. assert (l = [dz; dz; dq (1 # 4); done_; done_]) as ->.
    { assert (match KnotVector_InsertKnot (KnotsV err_surface) (dq (1 # 4)) 1 with Ok (l, _) => Some l | _ => None end = Some [dz; dz; dq (1 # 4); done_; done_]) as H by (vm_compute; reflexivity).
      rewrite E1 in H. congruence. }
    assert (vals [dz; dz; dq (1 # 4); done_; done_] = [0; 0; 1 / 4; 1; 1]%R) as V1 by (unfold vals; cbn [map]; rewrite val_dz, val_done, v_14; reflexivity).
    intros i H0 H1; rewrite V1; generalize dependent (/ 2 ^ 900)%R; intros e S; unfold len in H1; cbn in H1.
    assert (i = 0 \/ i = 1 \/ i = 2 \/ i = 3) as [->|[->|[->| ->]]] by lia; unfold at_; simpl; intros; lra.
Qed.
