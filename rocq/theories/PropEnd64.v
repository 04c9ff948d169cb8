(** C115: a curve of doubles starts and ends at its control points. *)
From Coq Require Import Reals QArith ZArith List Lra Lia Floats.SpecFloat.
From Flocq Require Import Core.
From Verif Require Import Outcome Num ModelCore ModelCurve SpecCore SpecBasis SpecErr SpecGeom64 SpecEnd64 ThB64 ThCoreWit ThDecide ThBBoxWit ThEnd64b ThEnd64w.
Import ListNotations.
Open Scope R_scope.

(** * C115 *)
Theorem C115_start : forall (c : curve b64) x first, sound_curve c -> / 2 ^ 900 <= at_ (vals (Knots c)) (Degree c + 1) -> Forall mild (ControlPoints c) ->
  nth_error (ControlPoints c) 0 = Some first -> plain_end first -> finite64 x -> val x = 0 ->
  exists q, Curve_Evaluate c x = Ok q /\ finite64 (x3 q) /\ finite64 (y3 q) /\ finite64 (z3 q) /\ val3 q = val3 (spot first).
Proof. exact C115_start_lemma. Qed.
Print Assumptions C115_start.
Example C115_start_ex : sound_curve gap_curve /\ / 2 ^ 900 <= at_ (vals (Knots gap_curve)) (Degree gap_curve + 1) /\ Forall mild (ControlPoints gap_curve) /\
  nth_error (ControlPoints gap_curve) 0 = Some (Vec4 (dq (1 # 10)) tiny21 dz done_) /\ plain_end (Vec4 (dq (1 # 10)) tiny21 dz done_) /\
  Curve_Evaluate gap_curve dz = Ok (Vec3 (dq (1 # 10)) tiny21 dz).
Proof. split; [apply gap_ok|]. split; [apply gap_ok|]. split; [apply gap_ok|]. split; [reflexivity|]. split; [apply gap_ok|vm_compute; reflexivity]. Qed.

Theorem C115_finish : forall (c : curve b64) x final, sound_curve c -> Forall mild (ControlPoints c) ->
  nth_error (ControlPoints c) (length (ControlPoints c) - 1) = Some final -> plain_end final -> finite64 x -> val x = 1 ->
  exists q, Curve_Evaluate c x = Ok q /\ finite64 (x3 q) /\ finite64 (y3 q) /\ finite64 (z3 q) /\ val3 q = val3 (spot final).
Proof. exact C115_finish_lemma. Qed.
Print Assumptions C115_finish.
Example C115_finish_ex : sound_curve gap_curve /\ Forall mild (ControlPoints gap_curve) /\
  nth_error (ControlPoints gap_curve) (length (ControlPoints gap_curve) - 1) = Some (pt (-3) 0 (1 # 3) 1) /\ plain_end (pt (-3) 0 (1 # 3) 1) /\
  Curve_Evaluate gap_curve done_ = Ok (Vec3 (dq (-3)) dz (dq (1 # 3))).
Proof. split; [apply gap_ok|]. split; [apply gap_ok|]. split; [reflexivity|]. split; [apply gap_ok|vm_compute; reflexivity]. Qed.

(** a first weight of three is enough to miss the first control point *)
Theorem C115_weight : exists (c : curve b64) first x q, sound_curve c /\ / 2 ^ 900 <= at_ (vals (Knots c)) (Degree c + 1) /\ Forall mild (ControlPoints c) /\
  nth_error (ControlPoints c) 0 = Some first /\ 1 < val (w4 first) <= 3 /\ ordinary (x4 first) /\ ordinary (y4 first) /\ ordinary (z4 first) /\ finite64 x /\ val x = 0 /\
  Curve_Evaluate c x = Ok q /\ val3 (spot first) <> val3 q.
Proof. exact C115_weight_lemma. Qed.
Print Assumptions C115_weight.

(** so is a coordinate of 2^-1022: the bound 2^-1021 cannot be lowered by one binade *)
Theorem C115_tiny : exists (c : curve b64) first x q, sound_curve c /\ / 2 ^ 900 <= at_ (vals (Knots c)) (Degree c + 1) /\ Forall mild (ControlPoints c) /\
  nth_error (ControlPoints c) 0 = Some first /\ val (w4 first) = 1 /\ val (x4 first) = bpow radix2 (-1022) /\ val (y4 first) = 0 /\ val (z4 first) = 0 /\ finite64 x /\ val x = 0 /\
  Curve_Evaluate c x = Ok q /\ val3 (spot first) <> val3 q.
Proof. exact C115_tiny_lemma. Qed.
Print Assumptions C115_tiny.
