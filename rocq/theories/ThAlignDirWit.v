(** Witnesses for C104. *)
From Coq Require Import Reals QArith ZArith List Lra Lia Bool Permutation SpecFloat.
From Verif Require Import Outcome Num ModelCore ModelBasis ModelCurve ModelSurface SpecCore SpecBasis SpecCurve SpecSurface SpecAlign SpecErr SpecRows SpecGeom64 SpecReverse64
  ThOutcome ThReal ThB64 ThCoreWit ThCurveWit ThSurfWit ThDecide ThBBoxWit ThSurfRemove2 ThAlignWit ThErrWit ThGeom64Wit.
Import ListNotations.
Open Scope Z_scope.

(** an exact edge dominated by y whose rounded coordinates tie *)
Definition tie64 : surface b64 := patch64 (0, 1 # 1152921504606846976)%Q (1, -1)%Q (5, 1 # 1152921504606846976)%Q (6, -1)%Q.
Lemma v_tiny : val (dq (1 # 1152921504606846976)) = (/ 1152921504606846976)%R. Proof. val_one. Qed.
Lemma v_6 : val (dq 6) = 6%R. Proof. val_one. Qed.
Lemma tie_val : surface_val tie64 = patchR (0, / 1152921504606846976)%R (1, -1)%R (5, / 1152921504606846976)%R (6, -1)%R.
Proof. unfold tie64, patch64, patchR, surface_val, pt. cbn [DegreeU DegreeV KnotsU KnotsV Net UCount VCount Values map fst snd]. unfold val4, vals, flat64. cbn [map x4 y4 z4 w4]. rewrite ?val_dz, ?val_done, v_0, v_1, v_5, v_6, v_m1, v_tiny. reflexivity. Qed.
Lemma C104_tie_lemma : exists s : surface b64, sound_surface s /\ Forall (fun p => small3 6 (spot p)) (Values (Net s)) /\
  (forall side, clearly_long (edgeU (surface_val s) side) /\ clearly_long (edgeV (surface_val s) side)) /\
  dominated_by (edgeU (surface_val s) false) YAxis /\ clearly_dominated (edgeV (surface_val s) false) XAxis /\
  forall acos_ sort_, (forall l, Permutation (sort_ l) l) -> Surface_AlignParameterDomain acos_ sort_ s YAxis XAxis = Ok s /\
  forall side, (coord YAxis (edgeU (surface_val s) side) < 0)%R.
Proof.
  exists tie64. split.
  { split; [apply soundb_ok; vm_compute; reflexivity|]. split; [apply soundb_ok; vm_compute; reflexivity|]. repeat split; reflexivity. }
  split.
  { assert (coord_ok 6 (dq 0) /\ coord_ok 6 (dq 1) /\ coord_ok 6 (dq 5) /\ coord_ok 6 (dq 6) /\ coord_ok 6 (dq (-1)) /\ coord_ok 6 (dq (1 # 1152921504606846976))) as [C0 [C1 [C5 [C6 [Cm Ct]]]]].
    { unfold coord_ok. rewrite v_0, v_1, v_5, v_6, v_m1, v_tiny. repeat (split; [split; [apply finb_spec; reflexivity|rabs; lra]|]). split; [apply finb_spec; reflexivity|rabs; lra]. }
    unfold tie64, patch64. cbn [Net Values fst snd]. repeat (apply Forall_cons || apply Forall_nil); unfold small3, spot, pt; cbn [x3 y3 z3 x4 y4 z4]; auto. }
  rewrite tie_val.
  destruct (patch_edges (0, / 1152921504606846976)%R (1, -1)%R (5, / 1152921504606846976)%R (6, -1)%R) as [E1 [E2 [E3 E4]]]. rewrite E1, E3. cbn [fst snd] in *.
  split; [intros []; split; rewrite ?E1, ?E2, ?E3, ?E4; exists XAxis; cbn; rabs; lra|].
  split; [intros []; [| congruence |]; intros _; cbn; rabs; lra|].
  split; [intros []; [congruence| |]; intros _; cbn; rabs; lra|].
  intros acos_ sort_ P. split.
  - unfold Surface_AlignParameterDomain.
    match goal with |- (if ?c then _ else _) = _ => change c with false end. cbv iota zeta.
    repeat match goal with |- context [Grid_Get ?g ?i ?j] => let r := eval vm_compute in (Grid_Get g i j) in change (Grid_Get g i j) with r; cbn [bind] end.
    match goal with |- context [sort_ [?a; ?b; ?c]] => destruct (rearranged64 sort_ a b c P) as [e1 [m1 [e2 [m2 [e3 [m3 Es]]]]]] end.
    rewrite Es. destruct m1, m2; vm_compute; reflexivity.
  - intros []; rewrite ?E1, ?E2; cbn; lra.
Qed.
(** the patch of C53: u along -y, v along -x *)
Lemma C104_ex_lemma : full_grid (Net turned64) /\ UCount (Net turned64) * VCount (Net turned64) <= INT_MAX /\ sound_surface turned64 /\
  Forall (tame 2) (Values (Net turned64)) /\ Forall (fun p => small3 (2 ^ 100) (spot p)) (Values (Net turned64)) /\
  on_grid53 (vals (KnotsU turned64)) /\ on_grid53 (vals (KnotsV turned64)) /\
  (forall side, clearly_long (edgeU (surface_val turned64) side) /\ clearly_long (edgeV (surface_val turned64) side)) /\
  clearly_dominated (edgeU (surface_val turned64) false) YAxis /\ clearly_dominated (edgeV (surface_val turned64) false) XAxis /\
  (0 < coord YAxis (edgeU (surface_val turned64) false) * coord YAxis (edgeU (surface_val turned64) true))%R /\
  (0 < coord XAxis (edgeV (surface_val turned64) false) * coord XAxis (edgeV (surface_val turned64) true))%R.
Proof.
  split; [unfold full_grid; cbn; lia|]. split; [cbn; unfold INT_MAX; lia|]. split.
  { split; [apply soundb_ok; vm_compute; reflexivity|]. split; [apply soundb_ok; vm_compute; reflexivity|]. repeat split; reflexivity. }
  assert (1 <= 2 ^ 100)%R as P1 by (apply pow_R1_Rle; lra). assert (2 <= 2 ^ 100)%R as P2 by (pose proof (Rle_pow 2 1 100 ltac:(lra) ltac:(lia)); lra).
  assert (/ 2 ^ 100 <= 1)%R as P3 by (rewrite <- Rinv_1; apply Rinv_le_contravar; lra).
  split.
  { unfold turned64, patch64. cbn [Net Values fst snd]. repeat (apply Forall_cons || apply Forall_nil); unfold tame, pt; cbn [x4 y4 z4 w4]; rewrite ?v_0, ?v_1, ?v_2, ?v_m2;
      (repeat (split; [apply finb_spec; reflexivity|])); (split; [lra|]); repeat split; rabs; lra. }
  split.
  { unfold turned64, patch64. cbn [Net Values fst snd]. repeat (apply Forall_cons || apply Forall_nil); unfold small3, coord_ok, spot, pt; cbn [x3 y3 z3 x4 y4 z4 w4]; rewrite ?v_0, ?v_1, ?v_2, ?v_m2;
      repeat split; try reflexivity; rabs; lra. }
  assert (on_grid53 (vals (KnotsU turned64))) as G.
  { assert ((2 ^ 53)%R = IZR 9007199254740992) as P by (rewrite (pow_IZR 2 53); reflexivity). unfold turned64, patch64, flat64, vals, on_grid53. cbn [KnotsU map]. rewrite val_dz, val_done, P.
    repeat (constructor; [first [exists 0; lra | exists 9007199254740992; lra]|]). constructor. }
  split; [exact G|]. split; [exact G|]. rewrite turned_val.
  destruct (patch_edges (1, 2)%R (1, 0)%R (-2, 2)%R (-2, 0)%R) as [E1 [E2 [E3 E4]]]. rewrite E1, E2, E3, E4. cbn [fst snd] in *.
  assert (/ 2 ^ 50 <= 1)%R as P5 by (rewrite <- Rinv_1; apply Rinv_le_contravar; [lra|apply pow_R1_Rle; lra]).
  split; [intros []; split; rewrite ?E1, ?E2, ?E3, ?E4; [exists YAxis|exists XAxis|exists YAxis|exists XAxis]; cbn -[pow]; rabs; lra|].
  split; [intros []; [| congruence |]; intros _; cbn -[pow]; rabs; lra|].
  split; [intros []; [congruence| |]; intros _; cbn -[pow]; rabs; lra|]. cbn. lra.
Qed.
