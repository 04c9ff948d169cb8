(** Property theorems: knot removal on curves (C35-C39). *)
From Coq Require Import Reals ZArith List Lra Lia Permutation.
From Verif Require Import Outcome Num ModelCore ModelCurve SpecCore SpecBasis SpecCurve
  ThB64 ThCoreWit ThCurveWit ThRemove3 ThRemoveWit.
Import ListNotations.
Open Scope Z_scope.

(** * C35.  Full claim: for every well-formed curve removing undoes inserting.
    The code needs degree >= 1 and a resulting multiplicity of at most degree + 1;
    outside that it reads out of bounds (refutation below). *)
Theorem C35_roundtrip_partial : forall (c : curve R) u tol, wf_curve c -> 1 <= Degree c -> (0 < u < 1)%R -> separated u (Knots c) ->
  count u (Knots c) <= Degree c -> (0 <= tol)%R ->
  exists c', Curve_InsertKnot c u = Ok c' /\ Curve_RemoveKnot c' u 1 tol = Ok (c, 1).
Proof. exact C35_lemma. Qed.
Print Assumptions C35_roundtrip_partial.
Theorem C35_roundtrip_times_partial : forall (c : curve R) u n tol, wf_curve c -> (0 < u < 1)%R -> separated u (Knots c) -> 1 <= n ->
  count u (Knots c) + n <= Degree c + 1 -> n <= Degree c + count u (Knots c) -> (0 <= tol)%R ->
  exists c', Curve_InsertKnot_times c u n = Ok c' /\ Curve_RemoveKnot c' u n tol = Ok (c, n).
Proof. exact C35_times_lemma. Qed.
Print Assumptions C35_roundtrip_times_partial.
Example C35_ex : wf_curve curve_ex /\ (0 < 1/4 < 1)%R /\ separated (1/4) (Knots curve_ex) /\ 1 <= 2 /\
  count (1/4) (Knots curve_ex) + 2 <= Degree curve_ex + 1 /\ 2 <= Degree curve_ex + count (1/4) (Knots curve_ex) /\ (0 <= 0)%R.
Proof. exact C35_times_ex_lemma. Qed.
Theorem C35_roundtrip_refuted :
  (exists (c c' : curve b64) u, wf_curve (curve_val c) /\ (0 < val u < 1)%R /\ Degree c = 0 /\
     Curve_InsertKnot_times c u 1 = Ok c' /\ Curve_RemoveKnot c' u 1 dz = Undefined OutOfBounds) /\
  (exists (c c' : curve b64) u, wf_curve (curve_val c) /\ (0 < val u < 1)%R /\ count (val u) (Knots (curve_val c)) = Degree c + 2 /\
     Curve_InsertKnot c u = Ok c' /\ Curve_RemoveKnot c' u 1 dz = Undefined OutOfBounds).
Proof. exact C35_refuted_lemma. Qed.
Print Assumptions C35_roundtrip_refuted.

(** * C36.  Full claim: a refused removal returns the original curve.  The code
    leaves the control points in homogeneous form. *)
Theorem C36_refused_refuted : exists (c : curve b64) u c' x, wf_curve (curve_val c) /\ (0 < val u < 1)%R /\ In (val u) (vals (Knots c)) /\
  Curve_RemoveKnot c u 1 dz = Ok (c', 0) /\ c' <> c /\ Curve_Evaluate c' x <> Curve_Evaluate c x.
Proof. exact C36_refuted_lemma. Qed.
Print Assumptions C36_refused_refuted.
(** What holds: degree and knots are kept, the points are the homogeneous ones,
    so polynomial curves (all weights 1) are unchanged. *)
Theorem C36_refused_partial : forall (c : curve R) u times tol c', Curve_RemoveKnot c u times tol = Ok (c', 0) ->
  Degree c' = Degree c /\ Knots c' = Knots c /\ ControlPoints c' = map ToHomo (ControlPoints c) /\
  (Forall (fun q => w4 q = 1%R) (ControlPoints c) -> c' = c).
Proof. exact C36_lemma. Qed.
Print Assumptions C36_refused_partial.

(** * C37.  Full claim: exactly the reported number of knots disappears.  The
    code shrinks by [times], not by the reported count. *)
Theorem C37_count_refuted : exists (c : curve b64) u times c' t, wf_curve (curve_val c) /\ (0 < val u < 1)%R /\
  Curve_RemoveKnot c u times dz = Ok (c', t) /\ 0 < t < times /\
  len (Knots c') <> len (Knots c) - t /\ len (ControlPoints c') <> len (ControlPoints c) - t.
Proof. exact C37_refuted_lemma. Qed.
Print Assumptions C37_count_refuted.
(** What holds, for every number type: the report is between 0 and [times]; with
    0 the sizes are unchanged, otherwise both shrink by [times]. *)
Theorem C37_count_partial : forall (T : Type) (NT : Num T) (c : curve T) u times tol c' t, Curve_RemoveKnot c u times tol = Ok (c', t) ->
  Degree c' = Degree c /\ 0 <= t <= times /\
  (t = 0 -> Knots c' = Knots c /\ ControlPoints c' = map ToHomo (ControlPoints c)) /\
  (t <> 0 -> len (Knots c') = len (Knots c) - times /\ len (ControlPoints c') = len (ControlPoints c) - times).
Proof. exact @RemoveKnot_count. Qed.
Print Assumptions C37_count_partial.
Example C37_ex : exists c' t, Curve_RemoveKnot hat64 dhalf 2 dz = Ok (c', t).
Proof. do 2 eexists. vm_compute. reflexivity. Qed.

(** * C38.  Full claim: an exactly removed knot leaves a well-formed curve with
    one knot fewer and the same points.  Everything but positivity of the weights holds. *)
Theorem C38_exact_partial : forall (c : curve R) u times c', wf_curve c -> (0 < u < 1)%R -> separated u (Knots c) ->
  1 <= times <= count u (Knots c) -> count u (Knots c) <= Degree c + 1 -> 2 * times <= Degree c + count u (Knots c) ->
  Curve_RemoveKnot c u times 0%R = Ok (c', times) ->
  Degree c' = Degree c /\ clamped (Degree c') (Knots c') /\ len (ControlPoints c') = len (Knots c') - Degree c' - 1 /\
  Permutation (Knots c) (repeat u (Z.to_nat times) ++ Knots c') /\
  forall x, Curve_Evaluate c' x = Curve_Evaluate c x.
Proof. exact C38_lemma. Qed.
Print Assumptions C38_exact_partial.
Example C38_ex : exists c c', wf_curve c /\ (0 < 1/4 < 1)%R /\ separated (1/4) (Knots c) /\
  1 <= 1 <= count (1/4) (Knots c) /\ count (1/4) (Knots c) <= Degree c + 1 /\ 2 * 1 <= Degree c + count (1/4) (Knots c) /\
  Curve_RemoveKnot c (1/4)%R 1 0%R = Ok (c', 1).
Proof. exact C38_ex_lemma. Qed.
Theorem C38_weights_refuted : exists (c : curve b64) u c', wf_curve (curve_val c) /\ (0 < val u < 1)%R /\
  Curve_RemoveKnot c u 1 dz = Ok (c', 1) /\ ~ positive_weights (ControlPoints (curve_val c')).
Proof. exact C38_refuted_lemma. Qed.
Print Assumptions C38_weights_refuted.

(** * C39.  Full claim: removing a value that is not a knot reports 0 and touches
    nothing out of range.  Both parts fail. *)
Theorem C39_not_a_knot_refuted :
  (exists (c : curve b64) u, wf_curve (curve_val c) /\ (0 < val u < 1)%R /\ ~ In (val u) (vals (Knots c)) /\
     Curve_RemoveKnot c u 1 dz = Undefined OutOfBounds) /\
  (exists (c : curve b64) u c' x, wf_curve (curve_val c) /\ (0 < val u < 1)%R /\ ~ In (val u) (vals (Knots c)) /\
     Curve_RemoveKnot c u 1 dz = Ok (c', 1) /\ Curve_Evaluate c' x <> Curve_Evaluate c x).
Proof. exact C39_refuted_lemma. Qed.
Print Assumptions C39_not_a_knot_refuted.
(** What holds: degree >= 2 and a span that is neither the first nor the last:
    no out-of-range access. *)
Theorem C39_not_a_knot_partial : forall (c : curve R) u tol r, wf_curve c -> 2 <= Degree c -> (0 < u < 1)%R ->
  (forall v, In v (Knots c) -> (1 / 1000000 <= Rabs (v - u))%R) ->
  in_span (Knots c) r u -> Degree c + 1 <= r <= len (Knots c) - Degree c - 3 ->
  (exists c' t, Curve_RemoveKnot c u 1 tol = Ok (c', t) /\ 0 <= t <= 1) \/ Curve_RemoveKnot c u 1 tol = NotFinite.
Proof. exact C39_lemma. Qed.
Print Assumptions C39_not_a_knot_partial.
Example C39_ex : wf_curve curve_ex39 /\ 2 <= Degree curve_ex39 /\ (0 < 1/2 < 1)%R /\
  (forall v, In v (Knots curve_ex39) -> (1 / 1000000 <= Rabs (v - 1/2))%R) /\ in_span (Knots curve_ex39) 3 (1/2) /\
  Degree curve_ex39 + 1 <= 3 <= len (Knots curve_ex39) - Degree curve_ex39 - 3.
Proof. exact C39_ex_lemma. Qed.
