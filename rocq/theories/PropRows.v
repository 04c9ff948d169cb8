(** Property theorems: knot insertion into surfaces works line by line (C92)
    and its accuracy in IEEE-754 binary64 (C93).  [line_u g j l] says that [l]
    is the line of cells (0,j), (1,j), ... of the net; [surface_val] reads
    doubles as the real numbers they denote. *)
From Coq Require Import Reals ZArith QArith List Lra Lia.
From Verif Require Import Outcome Num ModelCore ModelBasis ModelCurve ModelSurface SpecCore SpecBasis SpecCurve SpecSurface SpecErr SpecErrIns SpecRows
  ThB64 ThCoreWit ThCurveWit ThDecide ThBBoxWit ThSurfWit ThErrWit ThErrInsertWit ThRows ThErrInsSurf2 ThRowsWit.
Import ListNotations.
Open Scope Z_scope.

(** * C92: in any arithmetic, Surface::InsertKnotU/V is Curve::InsertKnot on every line *)
Theorem C92_linesU : forall T (NT : Num T) junk (s : surface T) u, full_grid (Net s) -> 1 <= DegreeU s -> 1 <= VCount (Net s) ->
  (forall j l, line_u (Net s) j l -> exists c', Curve_InsertKnot (Curve (DegreeU s) (KnotsU s) l) u = Ok c') ->
  exists s', Surface_InsertKnotU junk s u = Ok s' /\ full_grid (Net s') /\ DegreeU s' = DegreeU s /\ DegreeV s' = DegreeV s /\ KnotsV s' = KnotsV s /\
    UCount (Net s') = UCount (Net s) + 1 /\ VCount (Net s') = VCount (Net s) /\
    forall j l, line_u (Net s) j l -> exists l', line_u (Net s') j l' /\ Curve_InsertKnot (Curve (DegreeU s) (KnotsU s) l) u = Ok (Curve (DegreeU s) (KnotsU s') l').
Proof. exact @surface_insertU_ok. Qed.
Print Assumptions C92_linesU.
Theorem C92_linesV : forall T (NT : Num T) (s : surface T) u, full_grid (Net s) -> 1 <= DegreeV s -> 1 <= UCount (Net s) ->
  (forall i l, line_v (Net s) i l -> exists c', Curve_InsertKnot (Curve (DegreeV s) (KnotsV s) l) u = Ok c') ->
  exists s', Surface_InsertKnotV s u = Ok s' /\ full_grid (Net s') /\ DegreeU s' = DegreeU s /\ DegreeV s' = DegreeV s /\ KnotsU s' = KnotsU s /\
    UCount (Net s') = UCount (Net s) /\ VCount (Net s') = VCount (Net s) + 1 /\
    forall i l, line_v (Net s) i l -> exists l', line_v (Net s') i l' /\ Curve_InsertKnot (Curve (DegreeV s) (KnotsV s) l) u = Ok (Curve (DegreeV s) (KnotsV s') l').
Proof. exact @surface_insertV_ok. Qed.
Print Assumptions C92_linesV.
(** on doubles no line can fail, whatever bits its points hold *)
Theorem C92_double : forall (s : surface b64) us, sound_surface s -> Forall inner64 us ->
  (1 <= DegreeU s -> forall junk, exists s', Surface_InsertKnotU_list junk s us = Ok s' /\ UCount (Net s') = UCount (Net s) + len us /\ VCount (Net s') = VCount (Net s) /\
    forall j l, line_u (Net s) j l -> exists l', line_u (Net s') j l' /\ Curve_InsertKnot_list (Curve (DegreeU s) (KnotsU s) l) us = Ok (Curve (DegreeU s') (KnotsU s') l')) /\
  (1 <= DegreeV s -> exists s', Surface_InsertKnotV_list s us = Ok s' /\ UCount (Net s') = UCount (Net s) /\ VCount (Net s') = VCount (Net s) + len us /\
    forall i l, line_v (Net s) i l -> exists l', line_v (Net s') i l' /\ Curve_InsertKnot_list (Curve (DegreeV s) (KnotsV s) l) us = Ok (Curve (DegreeV s') (KnotsV s') l')).
Proof. exact C92_double_lemma. Qed.
Print Assumptions C92_double.
(** Curve::InsertKnot of a list is, bit for bit, the insertion of its knots one after the other *)
Theorem C92_list : forall (c : curve b64) us, sound_curve c -> 1 <= Degree c -> Forall inner64 us -> Curve_InsertKnot_list c us = foldM Curve_InsertKnot us c.
Proof. exact C92_list_lemma. Qed.
Print Assumptions C92_list.
Example C92_ex : sound_surface nan_surface /\ sound_curve nan_curve /\ Forall inner64 [dq (1 # 4); dq (1 # 3)] /\
  line_u (Net nan_surface) 0 [pt 1 0 0 1; Vec4 SpecFloat.S754_nan dz dz (SpecFloat.S754_infinity true); pt 0 0 0 0; pt (-1) 0 0 1] /\
  line_v (Net nan_surface) 1 [Vec4 SpecFloat.S754_nan dz dz (SpecFloat.S754_infinity true); pt 1 1 1 (1 # 2)] /\
  (forall j l, line_u (Net nan_surface) j l -> exists c', Curve_InsertKnot (Curve 2 err_knots l) (dq (1 # 4)) = Ok c') /\
  (forall i l, line_v (Net nan_surface) i l -> exists c', Curve_InsertKnot (Curve 1 [dz; dz; done_; done_] l) (dq (1 # 4)) = Ok c').
Proof.
  split; [exact nan_surface_ok|]. split; [apply err_curve_ok|]. split; [repeat constructor; first [apply quarter_inner|apply third_inner]|].
  split; [apply nan_lines|]. split; [apply nan_lines|]. exact nan_rows_insert.
Qed.

(** * C93: how far inserting knots in doubles moves a surface, and its evaluation before and after *)
Theorem C93_surface : forall (s : surface b64) us M lo hi rho, sound_surface s -> Forall (tame M) (Values (Net s)) -> (0 <= M <= 2 ^ 98)%R ->
  weights_in lo hi (Values (Net s)) -> (/ 2 ^ 99 <= lo)%R -> (hi <= 2 ^ 99)%R -> (hi <= rho * lo)%R -> (rho <= 2 ^ 29)%R -> (INR (length us) * rho <= 2 ^ 35)%R -> Forall inner64 us ->
  (1 <= DegreeU s -> forall junk, exists s', Surface_InsertKnotU_list junk s us = Ok s' /\
    forall u v, (0 <= u <= 1)%R -> (0 <= v <= 1)%R -> within3 (1600 * INR (length us) * rho / 2 ^ 53 * M + / 2 ^ 390) (surf_point (surface_val s') u v) (surf_point (surface_val s) u v)) /\
  (1 <= DegreeV s -> exists s', Surface_InsertKnotV_list s us = Ok s' /\
    forall u v, (0 <= u <= 1)%R -> (0 <= v <= 1)%R -> within3 (1600 * INR (length us) * rho / 2 ^ 53 * M + / 2 ^ 390) (surf_point (surface_val s') u v) (surf_point (surface_val s) u v)).
Proof. exact C93_surface_lemma. Qed.
Print Assumptions C93_surface.
Theorem C93_evaluate : forall (s : surface b64) us M lo hi rho, sound_surface s -> apart (KnotsU s) -> apart (KnotsV s) -> DegreeU s <= 50 -> DegreeV s <= 50 ->
  Forall (tame M) (Values (Net s)) -> (0 <= M <= 2 ^ 98)%R ->
  weights_in lo hi (Values (Net s)) -> (/ 2 ^ 99 <= lo)%R -> (hi <= 2 ^ 99)%R -> (hi <= rho * lo)%R -> (rho <= 2 ^ 29)%R -> (INR (length us) * rho <= 2 ^ 35)%R -> Forall inner64 us ->
  (1 <= DegreeU s -> forall junk, exists s', Surface_InsertKnotU_list junk s us = Ok s' /\
    (apart (KnotsU s') -> forall u v, finite64 u -> (0 <= val u <= 1)%R -> finite64 v -> (0 <= val v <= 1)%R -> exists q q', Surface_Evaluate s u v = Ok q /\ Surface_Evaluate s' u v = Ok q' /\
      within3 ((1600 * INR (length us) * rho + 135 * (IZR (DegreeU s) + IZR (DegreeV s) + 1)) / 2 ^ 53 * M + / 2 ^ 380) (val3 q') (val3 q))) /\
  (1 <= DegreeV s -> exists s', Surface_InsertKnotV_list s us = Ok s' /\
    (apart (KnotsV s') -> forall u v, finite64 u -> (0 <= val u <= 1)%R -> finite64 v -> (0 <= val v <= 1)%R -> exists q q', Surface_Evaluate s u v = Ok q /\ Surface_Evaluate s' u v = Ok q' /\
      within3 ((1600 * INR (length us) * rho + 135 * (IZR (DegreeU s) + IZR (DegreeV s) + 1)) / 2 ^ 53 * M + / 2 ^ 380) (val3 q') (val3 q))).
Proof. exact C93_evaluate_lemma. Qed.
Print Assumptions C93_evaluate.
Example C93_ex : sound_surface err_surface /\ apart (KnotsU err_surface) /\ apart (KnotsV err_surface) /\ DegreeU err_surface <= 50 /\ DegreeV err_surface <= 50 /\
  Forall (tame 1) (Values (Net err_surface)) /\ weights_in (1 / 2) 1 (Values (Net err_surface)) /\ (1 <= 2 * (1 / 2))%R /\ (2 <= 2 ^ 29)%R /\
  (INR (length [dq (1 # 4)]) * 2 <= 2 ^ 35)%R /\ Forall inner64 [dq (1 # 4)] /\ 1 <= DegreeU err_surface /\ 1 <= DegreeV err_surface /\
  (forall s', Surface_InsertKnotU_list v4zero err_surface [dq (1 # 4)] = Ok s' -> apart (KnotsU s')) /\ (forall s', Surface_InsertKnotV_list err_surface [dq (1 # 4)] = Ok s' -> apart (KnotsV s')).
Proof.
  split; [apply err_surface_ok|]. split; [apply err_apart|]. split; [apply err_apart|]. split; [discriminate|]. split; [discriminate|]. split; [apply err_surface_ok|]. split; [exact err_weights_s|].
  split; [lra|]. split; [lra|]. split; [cbn; lra|]. split; [repeat constructor; apply quarter_inner|]. split; [discriminate|]. split; [discriminate|]. exact (surface_apart v4zero).
Qed.
