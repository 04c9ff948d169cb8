(** Property theorems: accuracy and safety of the code in IEEE-754 binary64
    (C65-C69).  [curve_val], [surface_val] and [vals] read doubles as the real
    numbers they denote; [N], [curve_point] and [surf_point] are the exact
    functions of the specification. *)
From Coq Require Import Reals ZArith QArith List Lra Lia Permutation.
From Verif Require Import Outcome Num ModelCore ModelBasis ModelCurve ModelSurface SpecCore SpecBasis SpecCurve SpecSurface SpecDeriv SpecSearch SpecErr
  ThB64 ThCoreWit ThCurveWit ThSurfWit ThDecide ThDerivs2 ThErrWit.
Import ListNotations.
Open Scope Z_scope.

(** * C65 *)
Theorem C65_basis_accuracy : forall p (l : list b64) x, sound_knots p l -> apart l -> p <= 50 -> finite64 x -> (0 <= val x <= 1)%R ->
  exists i res, KnotVector_FindSpanIndex l p x = Ok i /\ Basis_Evaluate p l i x = Ok res /\ p <= i <= len l - p - 2 /\ len res = p + 1 /\
    (forall k, 0 <= k <= p -> exists b, vget res k = Ok b /\ finite64 b /\ (0 <= val b)%R /\
       (Rabs (val b - N (kf (vals l)) (Z.to_nat p) (i - p + k) (val x)) <= 18 * IZR p / 2 ^ 53 * N (kf (vals l)) (Z.to_nat p) (i - p + k) (val x) + / 2 ^ 900)%R) /\
    (forall k, ~ i - p <= k <= i -> N (kf (vals l)) (Z.to_nat p) k (val x) = 0%R).
Proof. exact C65_lemma. Qed.
Print Assumptions C65_basis_accuracy.
Example C65_ex : sound_knots 2 err_knots /\ apart err_knots /\ finite64 (dq (1 # 3)) /\ (0 <= val (dq (1 # 3)) <= 1)%R.
Proof.
  split; [apply soundb_ok; vm_compute; reflexivity|]. split; [apply err_apart|]. destruct third_inner as [[F H] _]. split; [exact F|lra].
Qed.

(** * C66 *)
Theorem C66_curve_accuracy : forall (c : curve b64) M x, sound_curve c -> apart (Knots c) -> Degree c <= 50 -> Forall (tame M) (ControlPoints c) -> (0 <= M <= 2 ^ 100)%R ->
  finite64 x -> (0 <= val x <= 1)%R ->
  exists q, Curve_Evaluate c x = Ok q /\ near3 (45 * (IZR (Degree c) + 1) / 2 ^ 53 * M + / 2 ^ 450) q (curve_point (curve_val c) (val x)).
Proof. exact C66_lemma. Qed.
Print Assumptions C66_curve_accuracy.
Example C66_ex : sound_curve err_curve /\ apart (Knots err_curve) /\ Degree err_curve <= 50 /\ Forall (tame 1) (ControlPoints err_curve) /\
  finite64 (dq (1 # 3)) /\ (0 <= val (dq (1 # 3)) <= 1)%R.
Proof.
  split; [apply err_curve_ok|]. split; [apply err_apart|]. split; [discriminate|]. split; [apply err_curve_ok|]. destruct third_inner as [[F H] _]. split; [exact F|lra].
Qed.

(** * C67 *)
Theorem C67_surface_accuracy : forall (s : surface b64) M u v, sound_surface s -> apart (KnotsU s) -> apart (KnotsV s) -> DegreeU s <= 50 -> DegreeV s <= 50 ->
  Forall (tame M) (Values (Net s)) -> (0 <= M <= 2 ^ 100)%R -> finite64 u -> (0 <= val u <= 1)%R -> finite64 v -> (0 <= val v <= 1)%R ->
  exists q, Surface_Evaluate s u v = Ok q /\
    near3 (45 * (IZR (DegreeU s) + IZR (DegreeV s) + 1) / 2 ^ 53 * M + / 2 ^ 450) q (surf_point (surface_val s) (val u) (val v)).
Proof. exact C67_lemma. Qed.
Print Assumptions C67_surface_accuracy.
Example C67_ex : sound_surface err_surface /\ apart (KnotsU err_surface) /\ apart (KnotsV err_surface) /\ Forall (tame 1) (Values (Net err_surface)) /\
  finite64 (dq (1 # 3)) /\ (0 <= val (dq (1 # 3)) <= 1)%R.
Proof.
  split; [apply err_surface_ok|]. split; [apply err_apart|]. split; [apply err_apart|]. split; [apply err_surface_ok|]. destruct third_inner as [[F H] _]. split; [exact F|lra].
Qed.

(** * C68: curves whose control points may hold any bit pattern *)
Theorem C68_evaluate_safe : forall (c : curve b64) x, sound_curve c ->
  (in_unit x -> (exists q, Curve_Evaluate c x = Ok q) /\
     (forall order, 0 <= order <= 29 -> (exists l, Curve_EvaluateAll c x order = Ok l /\ len l = order + 1) /\ (exists q, Curve_EvaluateDerivative c x order = Ok q))) /\
  (~ in_unit x -> Curve_Evaluate c x = AssertFail /\ forall order, Curve_EvaluateAll c x order = AssertFail /\ Curve_EvaluateDerivative c x order = AssertFail).
Proof. exact C68_curve_lemma. Qed.
Print Assumptions C68_evaluate_safe.
Theorem C68_insert_safe : forall (c : curve b64) u, sound_curve c -> inner64 u ->
  exists c', Curve_InsertKnot c u = Ok c' /\ sound_curve c' /\ Degree c' = Degree c /\ Permutation (Knots c') (u :: Knots c).
Proof. exact C68_insert1_lemma. Qed.
Print Assumptions C68_insert_safe.
Theorem C68_insert_list_safe : forall (c : curve b64) us, sound_curve c -> Forall inner64 us ->
  exists c', Curve_InsertKnot_list c us = Ok c' /\ sound_curve c' /\ Degree c' = Degree c /\ Permutation (Knots c') (us ++ Knots c).
Proof. exact C68_insert_lemma. Qed.
Print Assumptions C68_insert_list_safe.
Theorem C68_search_safe : forall (c : curve b64) P, sound_curve c ->
  (forall eps mx, finite64 eps -> (0 <= val eps)%R -> exists u, Curve_BinarySearchParameter c P eps mx = Ok u /\ finite64 u /\ (0 <= val u <= 1)%R) /\
  (forall n init eps mx, nleb mx (nofZ (Z.of_nat n)) = true ->
     (exists u, Curve_SearchParameter n c P init eps mx = Ok u) \/ Curve_SearchParameter n c P init eps mx = AssertFail).
Proof. exact C68_search_lemma. Qed.
Print Assumptions C68_search_safe.
Example C68_ex : sound_curve nan_curve /\ in_unit (dq (1 # 3)) /\ Forall inner64 [dq (1 # 3); dq (1 # 3)].
Proof. split; [apply err_curve_ok|]. split; [apply third_inner|]. repeat constructor; apply third_inner. Qed.

(** * C69: the same for surfaces *)
Theorem C69_evaluate_safe : forall (s : surface b64) u v, sound_surface s ->
  (in_unit u -> in_unit v -> (exists q, Surface_Evaluate s u v = Ok q) /\
     (forall ou ov, 0 <= ou <= 29 -> 0 <= ov <= 29 -> binomials_fit ou ov ->
        (exists g, Surface_EvaluateAll s u v ou ov = Ok g /\ UCount g = ou + 1 /\ VCount g = ov + 1 /\ len (Values g) = (ou + 1) * (ov + 1)) /\
        (exists q, Surface_EvaluateDerivative s u v ou ov = Ok q))) /\
  (~ (in_unit u /\ in_unit v) -> Surface_Evaluate s u v = AssertFail /\
     forall ou ov, Surface_EvaluateAll s u v ou ov = AssertFail /\ Surface_EvaluateDerivative s u v ou ov = AssertFail).
Proof. exact C69_surface_lemma. Qed.
Print Assumptions C69_evaluate_safe.
Theorem C69_insert_list_safe : forall (s : surface b64) us, sound_surface s -> Forall inner64 us ->
  (forall junk, exists s', Surface_InsertKnotU_list junk s us = Ok s' /\ sound_surface s' /\ DegreeU s' = DegreeU s /\ DegreeV s' = DegreeV s /\
     Permutation (KnotsU s') (us ++ KnotsU s) /\ KnotsV s' = KnotsV s) /\
  (exists s', Surface_InsertKnotV_list s us = Ok s' /\ sound_surface s' /\ DegreeU s' = DegreeU s /\ DegreeV s' = DegreeV s /\
     KnotsU s' = KnotsU s /\ Permutation (KnotsV s') (us ++ KnotsV s)).
Proof. exact C69_insert_lemma. Qed.
Print Assumptions C69_insert_list_safe.
Theorem C69_search_safe : forall (s : surface b64) P, sound_surface s ->
  (forall n d k eps mx, 0 <= d <= 1 -> in_unit k -> finite64 eps -> (0 <= val eps)%R -> nltb (nofZ (Z.of_nat n)) mx = false ->
     exists u v, Surface_BinarySearchParameterOn n s P d k eps mx = Ok (u, v) /\ in_unit u /\ in_unit v /\ (d = 0 -> u = k) /\ (d = 1 -> v = k)) /\
  (forall n a b eps mx, nleb mx (nofZ (Z.of_nat n)) = true ->
     (exists uv, Surface_SearchParameter n s P a b eps mx = Ok uv) \/ Surface_SearchParameter n s P a b eps mx = AssertFail) /\
  (forall n d k i eps mx, nleb mx (nofZ (Z.of_nat n)) = true ->
     (exists uv, Surface_SearchParameterOn n s P d k i eps mx = Ok uv) \/ Surface_SearchParameterOn n s P d k i eps mx = AssertFail).
Proof. exact C69_search_lemma. Qed.
Print Assumptions C69_search_safe.
Example C69_ex : sound_surface err_surface /\ in_unit (dq (1 # 3)) /\ Forall inner64 [dq (1 # 3); dq (1 # 3)] /\ binomials_fit 2 3.
Proof. split; [apply err_surface_ok|]. split; [apply third_inner|]. split; [repeat constructor; apply third_inner|apply binomials_fit_29; lia]. Qed.
