(** Property theorems: knot removal in doubles.  Which calls stay inside their
    arrays (C94), and how surfaces are treated line by line (C95).
    [sound_curve] asks only for a clamped vector of finite knots and matching
    sizes: the control points may hold any bits. *)
From Coq Require Import Reals ZArith List Lia Permutation SpecFloat.
From Verif Require Import Outcome Num ModelCore ModelAlgo ModelCurve ModelSurface SpecCore SpecBasis SpecCurve SpecErr SpecRows SpecRemove
  ThB64 ThCoreWit ThDecide ThRemoveWit ThSurfRemove2 ThSafeRem2 ThRemRows ThRemRows2 ThRemRowsWit.
Import ListNotations.
Open Scope Z_scope.

(** * C94: which removals on a curve of doubles are memory safe *)
Theorem C94_safe : forall (c : curve b64) u r times tol, sound_curve c -> inner64 u -> separated (val u) (vals (Knots c)) ->
  0 <= r < len (Knots c) - 1 -> in_span (vals (Knots c)) r (val u) -> 1 <= times ->
  count (val u) (vals (Knots c)) <= Degree c + 2 -> Degree c + times <= r ->
  r - count (val u) (vals (Knots c)) + times <= len (ControlPoints c) - 1 -> 2 * times <= Degree c + count (val u) (vals (Knots c)) ->
  exists c' t, Curve_RemoveKnot c u times tol = Ok (c', t) /\ 0 <= t <= times /\ Degree c' = Degree c /\
    (t = 0 -> Knots c' = Knots c /\ len (ControlPoints c') = len (ControlPoints c)) /\
    (t <> 0 -> Knots c' = firstn (Z.to_nat (r + 1 - times)) (Knots c) ++ skipn (Z.to_nat (r + 1)) (Knots c) /\
       len (ControlPoints c') = len (ControlPoints c) - times).
Proof. exact C94_safe_lemma. Qed.
Print Assumptions C94_safe.
(** when already the first attempt does not fit, the call leaves its arrays:
    for [times = 1] the two theorems leave no case open *)
Theorem C94_out : forall (c : curve b64) u r times tol, sound_curve c -> inner64 u -> separated (val u) (vals (Knots c)) ->
  0 <= r < len (Knots c) - 1 -> in_span (vals (Knots c)) r (val u) -> 1 <= times ->
  ~ (count (val u) (vals (Knots c)) <= Degree c + 2 /\ Degree c + 1 <= r /\
     r - count (val u) (vals (Knots c)) + 1 <= len (ControlPoints c) - 1 /\ 2 <= Degree c + count (val u) (vals (Knots c))) ->
  Curve_RemoveKnot c u times tol = Undefined OutOfBounds.
Proof. exact C94_out_lemma. Qed.
Print Assumptions C94_out.
(** removing knots that are there keeps the curve sound *)
Theorem C94_knot : forall (c : curve b64) u times tol, sound_curve c -> inner64 u -> separated (val u) (vals (Knots c)) ->
  1 <= times <= count (val u) (vals (Knots c)) -> count (val u) (vals (Knots c)) <= Degree c + 1 -> 2 * times <= Degree c + count (val u) (vals (Knots c)) ->
  exists c' t, Curve_RemoveKnot c u times tol = Ok (c', t) /\ 0 <= t <= times /\ Degree c' = Degree c /\ sound_curve c' /\
    (t = 0 -> Knots c' = Knots c) /\
    (t <> 0 -> Permutation (vals (Knots c)) (repeat (val u) (Z.to_nat times) ++ vals (Knots c'))).
Proof. exact C94_knot_lemma. Qed.
Print Assumptions C94_knot.
Example C94_ex : (sound_curve nan_hat /\ inner64 dhalf /\ separated (val dhalf) (vals (Knots nan_hat)) /\ count (val dhalf) (vals (Knots nan_hat)) = 2 /\
    in_span (vals (Knots nan_hat)) 4 (val dhalf) /\ Degree nan_hat + 2 <= 4 /\ 4 - 2 + 2 <= len (ControlPoints nan_hat) - 1) /\
  (sound_curve bezier64 /\ inner64 dhalf /\ separated (val dhalf) (vals (Knots bezier64)) /\ count (val dhalf) (vals (Knots bezier64)) = 0 /\
    in_span (vals (Knots bezier64)) 2 (val dhalf) /\ ~ Degree bezier64 + 1 <= 2).
Proof.
  destruct twin_ok as [A [B [C [D E]]]]. destruct bezier_ok as [A' [B' [C' [D' E']]]]. split.
  - split; [split; [exact A|reflexivity]|]. split; [exact B|]. split; [exact C|]. split; [exact D|]. split; [exact E|]. cbn. lia.
  - split; [exact A'|]. split; [exact B'|]. split; [exact C'|]. split; [exact D'|]. split; [exact E'|]. cbn. lia.
Qed.

(** * C95: in any arithmetic, Surface::RemoveKnotU/V is Curve::RemoveKnot on every line, or nothing *)
Theorem C95_linesU : forall T (NT : Num T) (s : surface T) u times tol, full_grid (Net s) -> andb (ngtb u n0) (nltb u n1) = true -> 1 <= times ->
  1 <= VCount (Net s) -> times <= UCount (Net s) -> UCount (Net s) * VCount (Net s) <= INT_MAX ->
  (forall j l, line_u (Net s) j l -> exists c' t, Curve_RemoveKnot (Curve (DegreeU s) (KnotsU s) l) u times tol = Ok (c', t)) ->
  exists s' t, Surface_RemoveKnotU s u times tol = Ok (s', t) /\
    (t = 0 /\ s' = s /\
       ~ (exists t0, t0 <> 0 /\ forall j l, line_u (Net s) j l -> exists c', Curve_RemoveKnot (Curve (DegreeU s) (KnotsU s) l) u times tol = Ok (c', t0)) \/
     t <> 0 /\ full_grid (Net s') /\ DegreeU s' = DegreeU s /\ DegreeV s' = DegreeV s /\ KnotsV s' = KnotsV s /\
       UCount (Net s') = UCount (Net s) - times /\ VCount (Net s') = VCount (Net s) /\
       forall j l, line_u (Net s) j l -> exists l', line_u (Net s') j l' /\
         Curve_RemoveKnot (Curve (DegreeU s) (KnotsU s) l) u times tol = Ok (Curve (DegreeU s) (KnotsU s') l', t)).
Proof. exact @removeU_lines. Qed.
Print Assumptions C95_linesU.
Theorem C95_linesV : forall T (NT : Num T) (s : surface T) u times tol, full_grid (Net s) -> andb (ngtb u n0) (nltb u n1) = true -> 1 <= times ->
  1 <= UCount (Net s) -> times <= VCount (Net s) -> UCount (Net s) * VCount (Net s) <= INT_MAX ->
  (forall i l, line_v (Net s) i l -> exists c' t, Curve_RemoveKnot (Curve (DegreeV s) (KnotsV s) l) u times tol = Ok (c', t)) ->
  exists s' t, Surface_RemoveKnotV s u times tol = Ok (s', t) /\
    (t = 0 /\ s' = s /\
       ~ (exists t0, t0 <> 0 /\ forall i l, line_v (Net s) i l -> exists c', Curve_RemoveKnot (Curve (DegreeV s) (KnotsV s) l) u times tol = Ok (c', t0)) \/
     t <> 0 /\ full_grid (Net s') /\ DegreeU s' = DegreeU s /\ DegreeV s' = DegreeV s /\ KnotsU s' = KnotsU s /\
       UCount (Net s') = UCount (Net s) /\ VCount (Net s') = VCount (Net s) - times /\
       forall i l, line_v (Net s) i l -> exists l', line_v (Net s') i l' /\
         Curve_RemoveKnot (Curve (DegreeV s) (KnotsV s) l) u times tol = Ok (Curve (DegreeV s) (KnotsV s') l', t)).
Proof. exact @removeV_lines. Qed.
Print Assumptions C95_linesV.
(** on doubles no line can fail while there are knots to remove *)
Theorem C95_doubleU : forall (s : surface b64) u times tol, sound_surface s -> inner64 u -> separated (val u) (vals (KnotsU s)) ->
  1 <= times <= count (val u) (vals (KnotsU s)) -> count (val u) (vals (KnotsU s)) <= DegreeU s + 1 -> 2 * times <= DegreeU s + count (val u) (vals (KnotsU s)) ->
  UCount (Net s) * VCount (Net s) <= INT_MAX ->
  exists s' t, Surface_RemoveKnotU s u times tol = Ok (s', t) /\ 0 <= t <= times /\ sound_surface s' /\ (t = 0 -> s' = s) /\
    (t <> 0 -> Permutation (vals (KnotsU s)) (repeat (val u) (Z.to_nat times) ++ vals (KnotsU s'))).
Proof. exact C95_doubleU_lemma. Qed.
Print Assumptions C95_doubleU.
Theorem C95_doubleV : forall (s : surface b64) u times tol, sound_surface s -> inner64 u -> separated (val u) (vals (KnotsV s)) ->
  1 <= times <= count (val u) (vals (KnotsV s)) -> count (val u) (vals (KnotsV s)) <= DegreeV s + 1 -> 2 * times <= DegreeV s + count (val u) (vals (KnotsV s)) ->
  UCount (Net s) * VCount (Net s) <= INT_MAX ->
  exists s' t, Surface_RemoveKnotV s u times tol = Ok (s', t) /\ 0 <= t <= times /\ sound_surface s' /\ (t = 0 -> s' = s) /\
    (t <> 0 -> Permutation (vals (KnotsV s)) (repeat (val u) (Z.to_nat times) ++ vals (KnotsV s'))).
Proof. exact C95_doubleV_lemma. Qed.
Print Assumptions C95_doubleV.
Example C95_ex : sound_surface (extrudeU nan_hat) /\ sound_surface (extrudeV nan_hat) /\ KnotsU (extrudeU nan_hat) = twin /\ KnotsV (extrudeV nan_hat) = twin /\
  inner64 dhalf /\ separated (val dhalf) (vals twin) /\ count (val dhalf) (vals twin) = 2 /\
  UCount (Net (extrudeU nan_hat)) * VCount (Net (extrudeU nan_hat)) <= INT_MAX /\ andb (ngtb dhalf (n0 : b64)) (nltb dhalf n1) = true /\
  (forall j l, line_u (Net (extrudeU nan_hat)) j l -> exists c' t, Curve_RemoveKnot (Curve 2 twin l) dhalf 1 dhalf = Ok (c', t)) /\
  (forall i l, line_v (Net (extrudeV nan_hat)) i l -> exists c' t, Curve_RemoveKnot (Curve 2 twin l) dhalf 1 dhalf = Ok (c', t)).
Proof.
  destruct twin_ok as [A [B [C [D E]]]]. split; [apply extrude_sound|]. split; [apply extrude_sound|]. split; [reflexivity|]. split; [reflexivity|].
  split; [exact B|]. split; [exact C|]. split; [exact D|]. split; [discriminate|]. split; [reflexivity|]. exact extrude_rows.
Qed.
