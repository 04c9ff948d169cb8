(** Accuracy of evaluating refined surfaces in binary64. *)
From Coq Require Import Reals ZArith List Lra Lia Psatz Floats.SpecFloat Permutation.
From Flocq Require Import Core.
From Verif Require Import Outcome Num ModelCore ModelBasis ModelCurve ModelSurface SpecCore SpecBasis SpecCurve SpecSurface SpecErr SpecErrIns SpecRows ThOutcome ThReal ThB64 ThRound ThVec ThCurveWit ThErr ThErrBasis ThErrSum ThErrCurve ThErrSurf ThSurfWit ThBBoxWit ThErrInsert ThErrInsert4 ThRows ThRows2 ThErrInsSurf.
Import ListNotations.
Open Scope R_scope.

Lemma eval_surf (s s' : surface b64) M E u v : sound_surface s -> sound_surface s' -> DegreeU s' = DegreeU s -> DegreeV s' = DegreeV s ->
  apart (KnotsU s) -> apart (KnotsV s) -> apart (KnotsU s') -> apart (KnotsV s') -> (DegreeU s <= 50)%Z -> (DegreeV s <= 50)%Z ->
  Forall (tame M) (Values (Net s)) -> Forall (tame (2 * M + / 2 ^ 400)) (Values (Net s')) -> 0 <= M <= 2 ^ 98 ->
  finite64 u -> 0 <= val u <= 1 -> finite64 v -> 0 <= val v <= 1 ->
  within3 (E / 2 ^ 53 * M + / 2 ^ 390) (surf_point (surface_val s') (val u) (val v)) (surf_point (surface_val s) (val u) (val v)) ->
  exists q q', Surface_Evaluate s u v = Ok q /\ Surface_Evaluate s' u v = Ok q' /\
    within3 ((E + 135 * (IZR (DegreeU s) + IZR (DegreeV s) + 1)) / 2 ^ 53 * M + / 2 ^ 380) (val3 q') (val3 q).
Proof.
  intros [[F1 C1] [[F2 C2] [N1 [N2 L]]]] [[F1' C1'] [[F2' C2'] [N1' [N2' L']]]] D1 D2 A1 A2 A1' A2' H1 H2 T T' HM Fu Hu Fv Hv W.
  assert (0 < / 2 ^ 400) as T0 by (apply Rinv_0_lt_compat, pow_lt; lra). assert (/ 2 ^ 400 <= / 1000) as T1. { rewrite <- bpow_inv. apply tiny_small. lia. }
  destruct (Surface64_ok s M u v C1 C2 F1 F2 A1 A2 H1 H2 N1 N2 L T ltac:(rewrite bpow_100; lra) Fu Hu Fv Hv) as [q [E1 Q1]].
  destruct (Surface64_ok s' (2 * M + / 2 ^ 400) u v C1' C2' F1' F2' A1' A2' ltac:(lia) ltac:(lia) N1' N2' L' T' ltac:(rewrite bpow_100; lra) Fu Hu Fv Hv) as [q' [E2 Q2]].
  exists q, q'. split; [exact E1|]. split; [exact E2|]. eapply within_weak; [|exact (near_within _ _ _ _ _ _ _ Q1 Q2 W)].
  rewrite D1, D2. set (g := IZR (DegreeU s) + IZR (DegreeV s) + 1). assert (0 <= g <= 101) as Dr.
  { pose proof (cl_degree _ _ C1). pose proof (cl_degree _ _ C2). unfold g. assert (0 <= IZR (DegreeU s) <= 50) by (split; apply IZR_le; lia). assert (0 <= IZR (DegreeV s) <= 50) by (split; apply IZR_le; lia). lra. }
  set (w := / 2 ^ 53). assert (0 < w <= / 1000000) as V0. { split; [apply Rinv_0_lt_compat, pow_lt; lra|]. unfold w. lra. }
  set (t := / 2 ^ 400) in *. unfold Rdiv. fold w.
  assert (/ 2 ^ 390 = 1024 * t) as -> by (unfold t; replace 400%nat with (390 + 10)%nat by reflexivity; rewrite pow_add; field; split; apply pow_nonzero; lra).
  assert (/ 2 ^ 380 = 1048576 * t) as -> by (unfold t; replace 400%nat with (380 + 20)%nat by reflexivity; rewrite pow_add; field; split; apply pow_nonzero; lra).
  assert (/ 2 ^ 450 <= t) as Q. { unfold t. apply Rinv_le; [apply pow_lt; lra|]. apply Rle_pow; [lra|lia]. }
  assert (45 * g * w * t <= t). { rewrite <- (Rmult_1_l t) at 2. apply Rmult_le_compat_r; [lra|]. nra. }
  lra.
Qed.

Lemma C93_surface_lemma : forall (s : surface b64) us M lo hi rho, sound_surface s -> Forall (tame M) (Values (Net s)) -> 0 <= M <= 2 ^ 98 ->
  weights_in lo hi (Values (Net s)) -> / 2 ^ 99 <= lo -> hi <= 2 ^ 99 -> hi <= rho * lo -> rho <= 2 ^ 29 -> INR (length us) * rho <= 2 ^ 35 -> Forall inner64 us ->
  ((1 <= DegreeU s)%Z -> forall junk, exists s', Surface_InsertKnotU_list junk s us = Ok s' /\
    forall u v, 0 <= u <= 1 -> 0 <= v <= 1 -> within3 (1600 * INR (length us) * rho / 2 ^ 53 * M + / 2 ^ 390) (surf_point (surface_val s') u v) (surf_point (surface_val s) u v)) /\
  ((1 <= DegreeV s)%Z -> exists s', Surface_InsertKnotV_list s us = Ok s' /\
    forall u v, 0 <= u <= 1 -> 0 <= v <= 1 -> within3 (1600 * INR (length us) * rho / 2 ^ 53 * M + / 2 ^ 390) (surf_point (surface_val s') u v) (surf_point (surface_val s) u v)).
Proof.
  intros s us M lo hi rho S T HM W L Hh H Hr Hn Iu. split.
  - intros P jk. destruct (surfaceU_final s us M lo hi rho S T HM W L Hh H Hr Hn Iu jk P) as [s' [E [_ [_ [_ Q]]]]]. eauto.
  - intros P. destruct (surfaceV_final s us M lo hi rho S T HM W L Hh H Hr Hn Iu P) as [s' [E [_ [_ [_ Q]]]]]. eauto.
Qed.
Lemma C93_evaluate_lemma : forall (s : surface b64) us M lo hi rho, sound_surface s -> apart (KnotsU s) -> apart (KnotsV s) -> (DegreeU s <= 50)%Z -> (DegreeV s <= 50)%Z ->
  Forall (tame M) (Values (Net s)) -> 0 <= M <= 2 ^ 98 ->
  weights_in lo hi (Values (Net s)) -> / 2 ^ 99 <= lo -> hi <= 2 ^ 99 -> hi <= rho * lo -> rho <= 2 ^ 29 -> INR (length us) * rho <= 2 ^ 35 -> Forall inner64 us ->
  ((1 <= DegreeU s)%Z -> forall junk, exists s', Surface_InsertKnotU_list junk s us = Ok s' /\
    (apart (KnotsU s') -> forall u v, finite64 u -> 0 <= val u <= 1 -> finite64 v -> 0 <= val v <= 1 -> exists q q', Surface_Evaluate s u v = Ok q /\ Surface_Evaluate s' u v = Ok q' /\
      within3 ((1600 * INR (length us) * rho + 135 * (IZR (DegreeU s) + IZR (DegreeV s) + 1)) / 2 ^ 53 * M + / 2 ^ 380) (val3 q') (val3 q))) /\
  ((1 <= DegreeV s)%Z -> exists s', Surface_InsertKnotV_list s us = Ok s' /\
    (apart (KnotsV s') -> forall u v, finite64 u -> 0 <= val u <= 1 -> finite64 v -> 0 <= val v <= 1 -> exists q q', Surface_Evaluate s u v = Ok q /\ Surface_Evaluate s' u v = Ok q' /\
      within3 ((1600 * INR (length us) * rho + 135 * (IZR (DegreeU s) + IZR (DegreeV s) + 1)) / 2 ^ 53 * M + / 2 ^ 380) (val3 q') (val3 q))).
Proof.
  intros s us M lo hi rho S A1 A2 H1 H2 T HM W L Hh H Hr Hn Iu. split.
  - intros P jk. destruct (surfaceU_final s us M lo hi rho S T HM W L Hh H Hr Hn Iu jk P) as [s' [E [S' [[_ [D1 [D2 [K _]]]] [T' Q]]]]]. exists s'. split; [exact E|].
    intros A' u v Fu Hu Fv Hv. apply eval_surf; try assumption; [rewrite K; assumption|apply Q; assumption].
  - intros P. destruct (surfaceV_final s us M lo hi rho S T HM W L Hh H Hr Hn Iu P) as [s' [E [S' [[_ [D1 [D2 [K _]]]] [T' Q]]]]]. exists s'. split; [exact E|].
    intros A' u v Fu Hu Fv Hv. apply eval_surf; try assumption; [rewrite K; assumption|apply Q; assumption].
Qed.

(** ** Lines of a surface, in doubles *)
Lemma C92_double_lemma : forall (s : surface b64) us, sound_surface s -> Forall inner64 us ->
  ((1 <= DegreeU s)%Z -> forall junk, exists s', Surface_InsertKnotU_list junk s us = Ok s' /\ UCount (Net s') = (UCount (Net s) + len us)%Z /\ VCount (Net s') = VCount (Net s) /\
    forall j l, line_u (Net s) j l -> exists l', line_u (Net s') j l' /\ Curve_InsertKnot_list (Curve (DegreeU s) (KnotsU s) l) us = Ok (Curve (DegreeU s') (KnotsU s') l')) /\
  ((1 <= DegreeV s)%Z -> exists s', Surface_InsertKnotV_list s us = Ok s' /\ UCount (Net s') = UCount (Net s) /\ VCount (Net s') = (VCount (Net s) + len us)%Z /\
    forall i l, line_v (Net s) i l -> exists l', line_v (Net s') i l' /\ Curve_InsertKnot_list (Curve (DegreeV s) (KnotsV s) l) us = Ok (Curve (DegreeV s') (KnotsV s') l')).
Proof.
  intros s us S F. split.
  - intros P jk. destruct (insertU_fold64 jk us s S P F) as [s' [E [_ [_ [D1 [D2 [K [N1 [N2 R]]]]]]]]]. exists s'. rewrite D1. auto.
  - intros P. destruct (insertV_fold64 us s S P F) as [s' [E [_ [_ [D1 [D2 [K [N1 [N2 R]]]]]]]]]. exists s'. rewrite D2. auto.
Qed.
Lemma C92_list_lemma : forall (c : curve b64) us, sound_curve c -> (1 <= Degree c)%Z -> Forall inner64 us -> Curve_InsertKnot_list c us = foldM Curve_InsertKnot us c.
Proof. intros c us S P F. apply (insert_list64 c us S P F). Qed.
