(** Property theorems: derivatives of basis functions, curves and surfaces
    (C16, C17, C31, C49). *)
From Coq Require Import Reals ZArith List Lra Lia.
From Coquelicot Require Import Coquelicot.
From Verif Require Import Outcome Num ModelCore ModelBasis ModelCurve ModelSurface SpecCore SpecBasis SpecCurve SpecSurface SpecDeriv
  ThReal ThB64 ThVec ThCoreWit ThCurveWit ThSurfWit ThDerivs ThDerivs2 ThDerivWit.
Import ListNotations.
Open Scope Z_scope.

(** * C16 *)
Theorem C16_derivatives : forall p (l : list R) x order, clamped p l -> (0 <= x <= 1)%R -> 0 <= order ->
  exists j m, Basis_EvaluateAll_kv p l x order = Ok m /\ in_span l j x /\ p <= j <= len l - p - 2 /\
    mrows m = order + 1 /\ mcols m = p + 1 /\
    forall k r, 0 <= k <= order -> 0 <= r <= p -> exists v, mget m k r = Ok v /\
      piece_derivative (N (kf l) (Z.to_nat p) (j - p + r)) (at_ l j) (at_ l (j + 1)) (Z.to_nat k) x v /\
      ((at_ l j < x < at_ l (j + 1))%R -> is_derive_n (N (kf l) (Z.to_nat p) (j - p + r)) (Z.to_nat k) x v).
Proof. exact C16_lemma. Qed.
Print Assumptions C16_derivatives.
Theorem C16_row0 : forall p (l : list R) x order, clamped p l -> (0 <= x <= 1)%R -> 0 <= order ->
  exists m b, Basis_EvaluateAll_kv p l x order = Ok m /\ Basis_Evaluate_kv p l x = Ok b /\ len b = p + 1 /\
    forall r, 0 <= r <= p -> mget m 0 r = vget b r.
Proof. exact C16_row0_lemma. Qed.
Print Assumptions C16_row0.
Theorem C16_single : forall p (l : list R) x order k, clamped p l -> (0 <= x <= 1)%R -> 0 <= k <= order ->
  exists m d, Basis_EvaluateAll_kv p l x order = Ok m /\ Basis_EvaluateDerivative_kv p l x k = Ok d /\ len d = p + 1 /\
    forall r, 0 <= r <= p -> mget m k r = vget d r.
Proof. exact C16_single_lemma. Qed.
Print Assumptions C16_single.
Example C16_ex : clamped 2 [0; 0; 0; 1/3; 1/2; 1/2; 1; 1; 1]%R /\ (0 <= 1/4 <= 1)%R /\ 0 <= 2.
Proof. split; [exact clamped_ex|]. split; [lra|lia]. Qed.

(** * C17 *)
Theorem C17_above_degree : forall p (l : list R) x order, clamped p l -> (0 <= x <= 1)%R -> 0 <= order ->
  exists m, Basis_EvaluateAll_kv p l x order = Ok m /\ mrows m = order + 1 /\ mcols m = p + 1 /\
    forall k r, p < k <= order -> 0 <= r <= p -> mget m k r = Ok 0%R.
Proof. exact C17_lemma. Qed.
Print Assumptions C17_above_degree.
Example C17_ex : clamped 2 [0; 0; 0; 1/3; 1/2; 1/2; 1; 1; 1]%R /\ (0 <= 1/2 <= 1)%R /\ 2 < 3 <= 7.
Proof. split; [exact clamped_ex|]. split; [lra|lia]. Qed.

(** * C31 *)
Theorem C31_derivatives : forall c x order, wf_curve c -> (0 <= x <= 1)%R -> 0 <= order <= 29 ->
  exists j res, in_span (Knots c) j x /\ Curve_EvaluateAll c x order = Ok res /\ len res = order + 1 /\
    vget res 0 = Curve_Evaluate c x /\
    forall k, 0 <= k <= order -> exists v, vget res k = Ok v /\ Curve_EvaluateDerivative c x k = Ok v /\
      piece_derivative3 (curve_point c) (at_ (Knots c) j) (at_ (Knots c) (j + 1)) (Z.to_nat k) x v /\
      ((at_ (Knots c) j < x < at_ (Knots c) (j + 1))%R -> is_derive_n3 (curve_point c) (Z.to_nat k) x v).
Proof. exact C31_lemma. Qed.
Print Assumptions C31_derivatives.
Example C31_ex : wf_curve curve_ex /\ (0 <= 1/4 <= 1)%R.
Proof. split; [exact curve_ex_wf|lra]. Qed.
(** the bound on the order cannot be dropped *)
Theorem C31_order_bound_sharp : exists (c : curve b64) order, wf_curve (curve_val c) /\ order = 30 /\
  Curve_EvaluateAll c dhalf order = Undefined IntOverflow.
Proof. exact C31_overflow_lemma. Qed.
Print Assumptions C31_order_bound_sharp.

(** * C49: for orders whose products of binomial coefficients fit an int *)
Theorem C49_partials_partial : forall s u v ou ov, wf_surface s -> (0 <= u <= 1)%R -> (0 <= v <= 1)%R ->
  0 <= ou <= 29 -> 0 <= ov <= 29 -> binomials_fit ou ov ->
  exists ju jv res, in_span (KnotsU s) ju u /\ in_span (KnotsV s) jv v /\ Surface_EvaluateAll s u v ou ov = Ok res /\
    UCount res = ou + 1 /\ VCount res = ov + 1 /\ Grid_Get res 0 0 = Surface_Evaluate s u v /\
    forall k l, 0 <= k <= ou -> 0 <= l <= ov -> exists r, Grid_Get res k l = Ok r /\ Surface_EvaluateDerivative s u v k l = Ok r /\
      piece_partial3 (surf_point s) (at_ (KnotsU s) ju) (at_ (KnotsU s) (ju + 1)) (at_ (KnotsV s) jv) (at_ (KnotsV s) (jv + 1))
        (Z.to_nat k) (Z.to_nat l) u v r /\
      ((at_ (KnotsU s) ju < u < at_ (KnotsU s) (ju + 1))%R -> (at_ (KnotsV s) jv < v < at_ (KnotsV s) (jv + 1))%R ->
        is_partial3 (surf_point s) (Z.to_nat k) (Z.to_nat l) u v r).
Proof. exact C49_lemma. Qed.
Print Assumptions C49_partials_partial.
Theorem C49_small_orders : forall a b, 0 <= a -> 0 <= b -> a + b <= 29 -> binomials_fit a b.
Proof. exact binomials_fit_29. Qed.
Print Assumptions C49_small_orders.
Example C49_ex : wf_surface surf_ex /\ binomials_fit 3 2.
Proof. split; [exact surf_ex_wf|]. apply binomials_fit_29; lia. Qed.
Theorem C49_overflow_refuted : exists (s : surface b64) ou ov, wf_surface (surface_val s) /\ 0 <= ou <= 29 /\ 0 <= ov <= 29 /\
  Surface_EvaluateAll s dhalf dhalf ou ov = Undefined IntOverflow.
Proof. exact C49_refuted_lemma. Qed.
Print Assumptions C49_overflow_refuted.
