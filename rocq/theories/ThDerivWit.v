(** Witnesses for the derivative theorems. *)
From Coq Require Import Reals ZArith List Lra Lia.
From Verif Require Import Outcome Num ModelCore ModelBasis ModelCurve ModelSurface SpecCore SpecBasis SpecCurve SpecSurface
  ThReal ThB64 ThCoreWit ThCurveWit ThSurfWit.
Import ListNotations.
Open Scope Z_scope.

Lemma C49_refuted_lemma : exists (s : surface b64) ou ov, wf_surface (surface_val s) /\ 0 <= ou <= 29 /\ 0 <= ov <= 29 /\
  Surface_EvaluateAll s dhalf dhalf ou ov = Undefined IntOverflow.
Proof.
  exists point64s, 18, 18. split; [exact point64s_wf|]. split; [lia|]. split; [lia|]. vm_compute. reflexivity.
Qed.
Lemma C31_overflow_lemma : exists (c : curve b64) order, wf_curve (curve_val c) /\ order = 30 /\
  Curve_EvaluateAll c dhalf order = Undefined IntOverflow.
Proof.
  exists point64, 30. split; [exact point64_wf|]. split; [reflexivity|]. vm_compute. reflexivity.
Qed.
