(** Witnesses for the Bezier extraction (C42). *)
From Coq Require Import Reals ZArith List Lra Lia.
From Verif Require Import Outcome Num ModelCore ModelCurve SpecCore SpecBasis SpecCurve SpecBezier
  ThOutcome ThReal ThB64 ThKnots ThDecide ThCoreWit ThCurveWit ThBezier ThBezier2.
Import ListNotations.
Open Scope Z_scope.

Lemma C42_ex_lemma : wf_curve curve_ex /\ 1 <= Degree curve_ex /\ interior_multiplicity_le (Degree curve_ex) (Knots curve_ex).
Proof.
  split; [exact curve_ex_wf|]. split; [cbn; lia|]. intros t Ht. cbn [curve_ex Degree Knots]. unfold count.
  cbn [count_occ]. repeat match goal with |- context [Req_EM_T ?a ?b] => destruct (Req_EM_T a b) end; try lra; lia.
Qed.
Lemma C42_degree_zero_lemma : exists c : curve b64, wf_curve (curve_val c) /\ Degree c = 0 /\
  interior_multiplicity_le 0 (Knots (curve_val c)) /\
  forall fuel, extract_cut fuel (Degree c) (ControlPoints c) 0 = OutOfFuel.
Proof.
  exists point64. split; [apply point64_wf|]. split; [reflexivity|]. split.
  - intros t Ht. unfold count. cbn [curve_val point64 Knots vals map]. rewrite ?val_dz, ?val_done.
    cbn [count_occ]. repeat match goal with |- context [Req_EM_T ?a ?b] => destruct (Req_EM_T a b) end; try lra; lia.
  - cbn [point64 Degree ControlPoints]. apply (cut_degree_zero [dz; done_]); [vm_compute; reflexivity|discriminate].
Qed.
Definition poly_ex : curve R :=
  Curve 2 (Knots curve_ex) [Vec4 0 0 0 1; Vec4 1 0 0 1; Vec4 1 1 0 1; Vec4 2 (-1) 0 1; Vec4 2 2 1 1; Vec4 3 0 1 1]%R.
Lemma C43_ex_lemma : wf_curve poly_ex /\ 1 <= Degree poly_ex /\ interior_multiplicity_le (Degree poly_ex) (Knots poly_ex) /\ unit_weights poly_ex.
Proof.
  pose proof C42_ex_lemma as [[C N _] [D I]]. split; [|split; [exact D|split; [exact I|]]].
  - constructor; [exact C|reflexivity|]. unfold positive_weights, poly_ex. cbn [ControlPoints]. repeat (apply Forall_cons; [cbn [w4]; lra|]). apply Forall_nil.
  - unfold unit_weights, poly_ex. cbn [ControlPoints]. repeat (apply Forall_cons; [reflexivity|]). apply Forall_nil.
Qed.
