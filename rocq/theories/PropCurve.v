(** Theorems about basis functions, curve evaluation and knot insertion. *)
From Coq Require Import Reals ZArith List Lra Lia Permutation.
From Verif Require Import Outcome Num ModelCore ModelBasis ModelCurve SpecCore SpecBasis SpecCurve
  ThCurve ThB64 ThCoreWit ThCurveWit.
Import ListNotations.
Open Scope Z_scope.

(** * C14 *)
Theorem C14_basis : forall p (l : list R) x, clamped p l -> (0 <= x <= 1)%R ->
  exists i res, Basis_Evaluate_kv p l x = Ok res /\ in_span l i x /\ p <= i <= len l - p - 2 /\ len res = p + 1 /\
    (forall r, 0 <= r <= p -> nth_error res (Z.to_nat r) = Some (N (kf l) (Z.to_nat p) (i - p + r) x)) /\
    (forall k, ~ (i - p <= k <= i) -> N (kf l) (Z.to_nat p) k x = 0%R).
Proof. exact C14_lemma. Qed.
Print Assumptions C14_basis.
Example C14_ex : clamped 2 [0; 0; 0; 1/3; 1/2; 1/2; 1; 1; 1]%R.
Proof. exact clamped_ex. Qed.

(** * C15 *)
Theorem C15_partition_of_unity : forall p (l : list R) x res, clamped p l -> (0 <= x <= 1)%R ->
  Basis_Evaluate_kv p l x = Ok res ->
  Forall (fun b => 0 <= b <= 1)%R res /\ fold_right Rplus 0%R res = 1%R.
Proof. exact C15_lemma. Qed.
Print Assumptions C15_partition_of_unity.
Example C15_ex : exists res, Basis_Evaluate_kv 2 [0; 0; 0; 1/3; 1/2; 1/2; 1; 1; 1]%R (1/4)%R = Ok res.
Proof. destruct (C14_lemma 2 _ (1/4)%R clamped_ex ltac:(lra)) as [i [res [E _]]]. exists res. exact E. Qed.

(** * C27 *)
Theorem C27_evaluate : forall c x, wf_curve c ->
  ((0 <= x <= 1)%R -> (0 < curve_den c x)%R /\ Curve_Evaluate c x = Ok (curve_point c x)) /\
  (~ (0 <= x <= 1)%R -> Curve_Evaluate c x = AssertFail).
Proof. exact C27_lemma. Qed.
Print Assumptions C27_evaluate.
Example C27_ex : wf_curve curve_ex.
Proof. exact curve_ex_wf. Qed.

(** * C28 *)
Theorem C28_end_points : forall c, wf_curve c -> exists p q,
  nth_error (ControlPoints c) 0 = Some p /\
  nth_error (ControlPoints c) (Z.to_nat (len (ControlPoints c) - 1)) = Some q /\
  Curve_Evaluate c 0%R = Ok (Vec3 (x4 p) (y4 p) (z4 p)) /\ Curve_Evaluate c 1%R = Ok (Vec3 (x4 q) (y4 q) (z4 q)).
Proof. exact end_points. Qed.
Print Assumptions C28_end_points.
Example C28_ex : wf_curve curve_ex /\ Curve_Evaluate curve_ex 1%R = Ok (Vec3 3 0 1)%R.
Proof.
  split; [exact curve_ex_wf|]. destruct (end_points _ curve_ex_wf) as [p [q [_ [E [_ F]]]]].
  rewrite F. simpl in E. inversion E. reflexivity.
Qed.

(** * C29 *)
Theorem C29_half_space : forall c x a b d e q, wf_curve c ->
  (forall i, 0 <= i < len (ControlPoints c) -> basis_fun c i x <> 0%R ->
     (a * x4 (cp c i) + b * y4 (cp c i) + d * z4 (cp c i) <= e)%R) ->
  Curve_Evaluate c x = Ok q -> (a * x3 q + b * y3 q + d * z3 q <= e)%R.
Proof. exact C29_lemma. Qed.
Print Assumptions C29_half_space.
Theorem C29_box : forall c x (b : bbox R) q, wf_curve c ->
  Forall (fun p => in_box (Vec3 (x4 p) (y4 p) (z4 p)) b) (ControlPoints c) ->
  Curve_Evaluate c x = Ok q -> in_box q b.
Proof. exact C29_box_lemma. Qed.
Print Assumptions C29_box.
Example C29_ex : wf_curve curve_ex /\
  Forall (fun p => in_box (Vec3 (x4 p) (y4 p) (z4 p)) (BBox (Vec3 0 0 0) (Vec3 3 2 1))%R) (ControlPoints curve_ex).
Proof. split; [exact curve_ex_wf|]. unfold curve_ex. cbn [ControlPoints]. repeat (apply Forall_cons; [unfold in_box, le3; simpl; lra|]). apply Forall_nil. Qed.

(** * C30 *)
Theorem C30_transform : forall c m x q, wf_curve c -> Curve_Evaluate c x = Ok q ->
  Curve_Evaluate (Curve_Transform c m) x = Ok (mat_apply m q) /\
  Degree (Curve_Transform c m) = Degree c /\ Knots (Curve_Transform c m) = Knots c /\
  map w4 (ControlPoints (Curve_Transform c m)) = map w4 (ControlPoints c).
Proof. exact C30_lemma. Qed.
Print Assumptions C30_transform.
Example C30_ex : wf_curve curve_ex /\ exists q, Curve_Evaluate curve_ex (1/4)%R = Ok q.
Proof. split; [exact curve_ex_wf|]. eexists. apply C27_lemma; [exact curve_ex_wf|lra]. Qed.

(** * C33.  [refines c d us]: [d] is well-formed, of the same degree, has exactly
    the knots [us] and as many control points more than [c], and evaluates to
    the same outcome for every parameter. *)
Theorem C33_insert_partial : forall c u, wf_curve c -> 1 <= Degree c ->
  ((0 < u < 1)%R -> exists c', Curve_InsertKnot c u = Ok c' /\ refines c c' [u]) /\
  (~ (0 < u < 1)%R -> Curve_InsertKnot c u = AssertFail).
Proof. exact C33_lemma. Qed.
Print Assumptions C33_insert_partial.
(** For curves of degree 0 a zero point (weight 0) is inserted. *)
Theorem C33_degree_0_refuted : exists (c : curve b64) u c' q,
  wf_curve (curve_val c) /\ Degree c = 0 /\ (0 < val u < 1)%R /\
  Curve_Evaluate c dz = Ok (Vec3 done_ done_ dz) /\
  Curve_InsertKnot c u = Ok c' /\ Curve_Evaluate c' dz = Ok q /\ nan3 q.
Proof. exact C33_refuted_lemma. Qed.
Print Assumptions C33_degree_0_refuted.
Example C33_ex : wf_curve curve_ex /\ 1 <= Degree curve_ex /\ (0 < 1/3 < 1)%R.
Proof. split; [exact curve_ex_wf|]. simpl. split; [lia|lra]. Qed.

(** * C34 *)
Theorem C34_list : forall c us, wf_curve c -> Forall (fun u => 0 < u < 1)%R us ->
  exists c', Curve_InsertKnot_list c us = Ok c' /\ refines c c' us /\
    (1 <= Degree c -> foldM Curve_InsertKnot us c = Ok c').
Proof. exact C34_lemma. Qed.
Print Assumptions C34_list.
Theorem C34_times : forall c u n, wf_curve c -> (0 < u < 1)%R -> 0 <= n ->
  exists c', Curve_InsertKnot_times c u n = Ok c' /\ refines c c' (repeat u (Z.to_nat n)).
Proof. exact C34_times_lemma. Qed.
Print Assumptions C34_times.
Theorem C34_outside : forall c us u vs, wf_curve c -> Forall (fun u => 0 < u < 1)%R us -> ~ (0 <= u <= 1)%R ->
  Curve_InsertKnot_list c (us ++ u :: vs) = AssertFail.
Proof. exact C34_outside_lemma. Qed.
Print Assumptions C34_outside.
(** The knot 1 is accepted and destroys the end of the curve. *)
Theorem C34_end_knot_refuted : exists (c : curve b64) c' q, wf_curve (curve_val c) /\ 1 <= Degree c /\
  Curve_Evaluate c done_ = Ok (Vec3 done_ dz dz) /\
  Curve_InsertKnot_list c [done_] = Ok c' /\ Curve_Evaluate c' done_ = Ok q /\ nan3 q.
Proof. exact C34_refuted_lemma. Qed.
Print Assumptions C34_end_knot_refuted.
Example C34_ex : wf_curve curve_ex /\ Forall (fun u => 0 < u < 1)%R [1/2; 1/3; 1/2; 9/10]%R.
Proof. split; [exact curve_ex_wf|]. repeat (apply Forall_cons; [lra|]). apply Forall_nil. Qed.
