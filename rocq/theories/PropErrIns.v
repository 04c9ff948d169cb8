(** Property theorems: accuracy of knot insertion in IEEE-754 binary64 (C90,
    C91).  [curve_val] and [vals] read doubles as the real numbers they denote;
    [curve_point] is the exact curve of the specification. *)
From Coq Require Import Reals ZArith QArith List Lra Lia.
From Verif Require Import Outcome Num ModelCore ModelBasis ModelCurve SpecCore SpecBasis SpecCurve SpecErr SpecErrIns
  ThB64 ThCoreWit ThCurveWit ThDecide ThBBoxWit ThErrWit ThErrInsert4 ThErrInsertWit.
Import ListNotations.
Open Scope Z_scope.

(** * C90: one insertion, against the same insertion in exact arithmetic *)
Theorem C90_points : forall (c : curve b64) u M lo hi rho, sound_curve c -> 1 <= Degree c -> Forall (tame M) (ControlPoints c) -> (0 <= M <= 2 ^ 100)%R ->
  weights_in lo hi (ControlPoints c) -> (0 < lo)%R -> (hi <= rho * lo)%R -> (rho <= 2 ^ 30)%R -> inner64 u ->
  exists c' d, Curve_InsertKnot c u = Ok c' /\ Curve_InsertKnot (curve_val c) (val u) = Ok d /\ Degree c' = Degree d /\ vals (Knots c') = Knots d /\
    List.Forall2 (near_point (150 * rho / 2 ^ 53 * M + / 2 ^ 450) (64 * rho / 2 ^ 53)) (ControlPoints c') (ControlPoints d).
Proof. exact C90_points_lemma. Qed.
Print Assumptions C90_points.
Theorem C90_curve : forall (c : curve b64) u M lo hi rho, sound_curve c -> 1 <= Degree c -> Forall (tame M) (ControlPoints c) -> (0 <= M <= 2 ^ 100)%R ->
  weights_in lo hi (ControlPoints c) -> (/ 2 ^ 99 <= lo)%R -> (hi <= 2 ^ 99)%R -> (hi <= rho * lo)%R -> (rho <= 2 ^ 30)%R -> inner64 u ->
  exists c', Curve_InsertKnot c u = Ok c' /\
    forall x, (0 <= x <= 1)%R -> within3 (280 * rho / 2 ^ 53 * M + / 2 ^ 450) (curve_point (curve_val c') x) (curve_point (curve_val c) x).
Proof. exact C90_curve_lemma. Qed.
Print Assumptions C90_curve.
Example C90_ex : sound_curve err_curve /\ 1 <= Degree err_curve /\ Forall (tame 1) (ControlPoints err_curve) /\ weights_in (1 / 2) 1 (ControlPoints err_curve) /\
  (/ 2 ^ 99 <= 1 / 2)%R /\ (1 <= 2 ^ 99)%R /\ (1 <= 2 * (1 / 2))%R /\ (2 <= 2 ^ 30)%R /\ inner64 (dq (1 # 4)).
Proof.
  split; [apply err_curve_ok|]. split; [discriminate|]. split; [apply err_curve_ok|]. split; [exact err_weights|]. repeat (split; [lra|]). exact quarter_inner.
Qed.

(** * C91: a list of insertions, and evaluation before and after *)
Theorem C91_curve : forall (c : curve b64) us M lo hi rho, sound_curve c -> Forall (tame M) (ControlPoints c) -> (0 <= M <= 2 ^ 98)%R ->
  weights_in lo hi (ControlPoints c) -> (/ 2 ^ 99 <= lo)%R -> (hi <= 2 ^ 99)%R -> (hi <= rho * lo)%R -> (rho <= 2 ^ 29)%R -> (INR (length us) * rho <= 2 ^ 43)%R -> Forall inner64 us ->
  exists c', Curve_InsertKnot_list c us = Ok c' /\
    forall x, (0 <= x <= 1)%R -> within3 (1200 * INR (length us) * rho / 2 ^ 53 * M + / 2 ^ 390) (curve_point (curve_val c') x) (curve_point (curve_val c) x).
Proof. exact C91_curve_lemma. Qed.
Print Assumptions C91_curve.
Theorem C91_evaluate : forall (c : curve b64) us M lo hi rho, sound_curve c -> apart (Knots c) -> Degree c <= 50 -> Forall (tame M) (ControlPoints c) -> (0 <= M <= 2 ^ 98)%R ->
  weights_in lo hi (ControlPoints c) -> (/ 2 ^ 99 <= lo)%R -> (hi <= 2 ^ 99)%R -> (hi <= rho * lo)%R -> (rho <= 2 ^ 29)%R -> (INR (length us) * rho <= 2 ^ 43)%R -> Forall inner64 us ->
  exists c', Curve_InsertKnot_list c us = Ok c' /\ (apart (Knots c') -> forall x, finite64 x -> (0 <= val x <= 1)%R ->
    exists q q', Curve_Evaluate c x = Ok q /\ Curve_Evaluate c' x = Ok q' /\
      within3 ((1200 * INR (length us) * rho + 135 * (IZR (Degree c) + 1)) / 2 ^ 53 * M + / 2 ^ 380) (val3 q') (val3 q)).
Proof. exact C91_evaluate_lemma. Qed.
Print Assumptions C91_evaluate.
Example C91_ex : sound_curve err_curve /\ apart (Knots err_curve) /\ Degree err_curve <= 50 /\ Forall (tame 1) (ControlPoints err_curve) /\ weights_in (1 / 2) 1 (ControlPoints err_curve) /\
  (1 <= 2 * (1 / 2))%R /\ (2 <= 2 ^ 29)%R /\ (INR (length [dq (1 # 4)]) * 2 <= 2 ^ 43)%R /\ Forall inner64 [dq (1 # 4)] /\
  (forall c', Curve_InsertKnot_list err_curve [dq (1 # 4)] = Ok c' -> apart (Knots c')).
Proof.
  split; [apply err_curve_ok|]. split; [apply err_apart|]. split; [discriminate|]. split; [apply err_curve_ok|]. split; [exact err_weights|]. split; [lra|]. split; [lra|]. split; [cbn; lra|].
  split; [repeat constructor; apply quarter_inner|]. exact quarter_apart.
Qed.
