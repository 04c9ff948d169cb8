(** Property theorems: crossings with planes and monotonicity (C88, C89). *)
From Coq Require Import Reals ZArith List Sorted.
From Verif Require Import Outcome Num ModelCore ModelCurve SpecCore SpecBasis SpecCurve SpecVar ThCurveWit ThVar.
Import ListNotations.
Open Scope Z_scope.

(** * C88.  Variation diminishing: when the curve visits the two sides of a plane
    alternately at m parameters, so do m control points, in order and on the same sides. *)
Theorem C88_variation : forall c a b d e xs ys, wf_curve c -> Sorted Rlt xs ->
  Forall2 (fun x y => Curve_Evaluate c x = Ok y) xs ys -> alternating (map (side a b d e) ys) ->
  exists is, Sorted Z.lt is /\ Forall2 (fun y i => 0 <= i < len (ControlPoints c) /\
    same_sign (side a b d e y) (side a b d e (head3 (cp c i)))) ys is.
Proof. exact C88_lemma. Qed.
Print Assumptions C88_variation.
Example C88_ex : wf_curve curve_ex /\ Sorted Rlt [0; 1/2; 1]%R /\
  Forall2 (fun x y => Curve_Evaluate curve_ex x = Ok y) [0; 1/2; 1]%R [Vec3 0 0 0; Vec3 2 1 0; Vec3 3 0 1]%R /\
  alternating (map (side 0 1 0 (1/2)) [Vec3 0 0 0; Vec3 2 1 0; Vec3 3 0 1]%R).
Proof. exact C88_ex_lemma. Qed.
(** Inserting knots adds no crossings to the control polygon. *)
Theorem C88_insertion : forall c us c' a b d e is', wf_curve c -> Forall (fun u => 0 < u < 1)%R us -> Curve_InsertKnot_list c us = Ok c' ->
  Sorted Z.lt is' -> Forall (fun i => 0 <= i < len (ControlPoints c')) is' -> alternating (map (fun i => side a b d e (head3 (cp c' i))) is') ->
  exists is, Sorted Z.lt is /\ Forall2 (fun i' i => 0 <= i < len (ControlPoints c) /\
    same_sign (side a b d e (head3 (cp c' i'))) (side a b d e (head3 (cp c i)))) is' is.
Proof. exact C88_insertion_lemma. Qed.
Print Assumptions C88_insertion.
Example C88_insertion_ex : exists c', wf_curve curve_ex /\ Forall (fun u => 0 < u < 1)%R [1/4; 3/4]%R /\ Curve_InsertKnot_list curve_ex [1/4; 3/4]%R = Ok c' /\
  Sorted Z.lt [0; 7] /\ Forall (fun i => 0 <= i < len (ControlPoints c')) [0; 7] /\ alternating (map (fun i => side 1 0 0 1 (head3 (cp c' i))) [0; 7]).
Proof. exact C88_insertion_ex_lemma. Qed.

(** * C89.  When the control points do not go back in some direction, neither does the
    curve, whatever the weights. *)
Theorem C89_monotone : forall c a b d x y p q, wf_curve c ->
  (forall i j, 0 <= i <= j -> j < len (ControlPoints c) ->
     (a * x4 (cp c i) + b * y4 (cp c i) + d * z4 (cp c i) <= a * x4 (cp c j) + b * y4 (cp c j) + d * z4 (cp c j))%R) ->
  (x <= y)%R -> Curve_Evaluate c x = Ok p -> Curve_Evaluate c y = Ok q ->
  (a * x3 p + b * y3 p + d * z3 p <= a * x3 q + b * y3 q + d * z3 q)%R.
Proof. exact C89_lemma. Qed.
Print Assumptions C89_monotone.
Example C89_ex : wf_curve curve_ex /\
  (forall i j, 0 <= i <= j -> j < len (ControlPoints curve_ex) ->
     (1 * x4 (cp curve_ex i) + 0 * y4 (cp curve_ex i) + 0 * z4 (cp curve_ex i) <= 1 * x4 (cp curve_ex j) + 0 * y4 (cp curve_ex j) + 0 * z4 (cp curve_ex j))%R) /\
  (0 <= 1/2)%R /\ Curve_Evaluate curve_ex 0%R = Ok (Vec3 0 0 0)%R /\ Curve_Evaluate curve_ex (1/2)%R = Ok (Vec3 2 1 0)%R.
Proof. exact C89_ex_lemma. Qed.
