(** C110: GetBoundingBox under translations, renamings of the axes and weight factors. *)
From Coq Require Import Reals ZArith QArith List.
From Verif Require Import Outcome Num ModelCore ModelCurve SpecCore SpecBasis SpecCurve SpecMove ThDecide ThB64 ThCurveWit ThBoxMove ThBoxMoveWit.
Import ListNotations.
Open Scope Z_scope.

(** The box moves with the curve: every curve, malformed ones included, every [epsilon], every outcome.
    A curve without segments has the default box at the origin wherever it is. *)
Theorem C110_box : forall s b k, k <> 0%R -> (forall a a', s a = s a' -> a = a') -> forall fuel (c d : curve R) epsilon,
  curve_by (axes_point s b k) c d ->
  same_outcome (fun B C => axes_box s b B C \/ (B = BoundingBox_default /\ C = BoundingBox_default /\ Curve_ExtractBezier c = Ok []))
    (Curve_GetBoundingBox fuel c epsilon) (Curve_GetBoundingBox fuel d epsilon).
Proof. exact box_so. Qed.
Print Assumptions C110_box.
(** Mirrored curves do not get mirrored boxes: [ExpandToInclude] forgets the old maximum but keeps the minimum. *)
Theorem C110_mirror_refuted : exists (c d : curve b64) eps B C, curve_by mirrored c d /\ finite64 eps /\
  Curve_GetBoundingBox 9 c eps = Ok B /\ Curve_GetBoundingBox 9 d eps = Ok C /\ nltb (y3 (Max C)) (nopp (y3 (Min B))) = true.
Proof. exact C110_mirror_lemma. Qed.
Print Assumptions C110_mirror_refuted.
(** The same curve traversed backwards gets another box. *)
Theorem C110_backwards_refuted : exists (c : curve b64) eps B C, finite64 eps /\ Knots c = map dq [0; 0; 0; 1; 1; 1]%Q /\
  Curve_GetBoundingBox 9 c eps = Ok B /\ Curve_GetBoundingBox 9 (Curve (Degree c) (Knots c) (rev (ControlPoints c))) eps = Ok C /\ nltb (y3 (Min B)) (y3 (Min C)) = true.
Proof. exact C110_backwards_lemma. Qed.
Print Assumptions C110_backwards_refuted.
Example C110_ex : (forall a a', cyc a = cyc a' -> a = a') /\ wf_curve curve_ex /\
  curve_by (axes_point cyc (Vec3 1 2 3)%R 5) curve_ex (Curve (Degree curve_ex) (Knots curve_ex) (map cyc_point (ControlPoints curve_ex))).
Proof. exact C110_ex_lemma. Qed.
