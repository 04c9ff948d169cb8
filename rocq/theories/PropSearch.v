(** Property theorems: parameter searches on curves and surfaces (C44, C45, C54).

    The first argument of a search is the number of iterations it may use: a
    search that needs more is [OutOfFuel], any other outcome is the one of the
    code. An evaluation outside [[0,1]] is [AssertFail] (C27, C46), so an [Ok]
    outcome says that every evaluation was made inside. *)
From Coq Require Import Reals ZArith List Lra Lia.
From Verif Require Import Outcome Num ModelCore ModelCurve ModelSurface SpecCore SpecBasis SpecCurve SpecSurface SpecSearch
  ThReal ThB64 ThCoreWit ThCurveWit ThSurfWit ThSearch ThSearch64 ThSearchWit.
Import ListNotations.
Open Scope Z_scope.

(** * C44 *)
Theorem C44_search : forall c P init eps mx, wf_curve c -> unit_interval init ->
  (forall n, (mx <= INR n)%R -> exists u, Curve_SearchParameter n c P init eps mx = Ok u /\ unit_interval u) /\
  (forall n n' u u', Curve_SearchParameter n c P init eps mx = Ok u -> Curve_SearchParameter n' c P init eps mx = Ok u' -> u' = u) /\
  (forall n u, (eps <= dbl_max)%R -> (INR n < mx)%R -> Curve_SearchParameter n c P init eps mx = Ok u ->
     unit_interval u /\ (dist3 (curve_point c u) P < eps)%R) /\
  ((mx <= 0)%R -> Curve_SearchParameter 0 c P init eps mx = Ok init).
Proof. exact C44_lemma. Qed.
Print Assumptions C44_search.
(** In binary64, for every curve and every bit pattern of the arguments: what is
    returned is in the domain, and no more iterations than the bound are used. *)
Theorem C44_search_b64 : forall (c : curve b64) P init eps mx, in_unit init ->
  (forall n u, Curve_SearchParameter n c P init eps mx = Ok u -> in_unit u) /\
  (forall n n', (n <= n')%nat -> nleb mx (nofZ (Z.of_nat n)) = true ->
     Curve_SearchParameter n' c P init eps mx = Curve_SearchParameter n c P init eps mx).
Proof. exact C44_b64_lemma. Qed.
Print Assumptions C44_search_b64.
(** But it may evaluate at NaN: infinite gradients of a far target cancel to
    NaN, which [std::clamp] leaves as it is. *)
Theorem C44_nan_refuted : exists (c : curve b64) P init eps mx, wf_curve (curve_val c) /\ in_unit init /\
  finite64 (x3 P) /\ finite64 (y3 P) /\ finite64 (z3 P) /\ finite64 eps /\
  Curve_SearchParameter 10 c P init eps mx = AssertFail /\
  (exists v : b64, neqb v v = false /\ nclamp v n0 n1 = v /\ Curve_Evaluate c v = AssertFail).
Proof. exact C44_refuted_lemma. Qed.
Print Assumptions C44_nan_refuted.
Example C44_ex : wf_curve curve_ex /\ unit_interval (1/4)%R /\ (1/1000 <= dbl_max)%R /\ (INR 3 < 7/2)%R /\ (7/2 <= INR 4)%R /\
  in_unit dhalf /\ @nleb b64 _ (nofZ 7) (nofZ (Z.of_nat 7)) = true.
Proof.
  split; [exact curve_ex_wf|]. split; [unfold unit_interval; lra|]. split; [unfold dbl_max; apply Rle_trans with 1%R; [lra|apply IZR_le; discriminate]|].
  split; [cbn [INR]; lra|]. split; [cbn [INR]; lra|]. split; [split; reflexivity|reflexivity].
Qed.

(** * C45: the bracketing for [epsilon > 0] *)
Theorem C45_binary_search_partial : forall c P eps mx, wf_curve c -> (0 <= eps)%R ->
  exists u, Curve_BinarySearchParameter c P eps mx = Ok u /\ unit_interval u /\
    ((0 < eps)%R -> forall m, strictly_unimodal (fun x => dist3 (curve_point c x) P) m ->
       (dist3 (curve_point c u) P < eps \/ Rabs (u - m) <= Rmax eps ((1 / 2) ^ (Z.to_nat mx + 1)))%R).
Proof. exact C45_lemma. Qed.
Print Assumptions C45_binary_search_partial.
Theorem C45_binary_search_b64 : forall (c : curve b64) P eps mx u, finite64 eps -> (0 <= val eps)%R ->
  Curve_BinarySearchParameter c P eps mx = Ok u -> finite64 u /\ (0 <= val u <= 1)%R.
Proof. exact C45_b64_lemma. Qed.
Print Assumptions C45_binary_search_b64.
(** With [epsilon = 0] the search always answers 1/2. *)
Theorem C45_zero_epsilon : forall c P mx, wf_curve c -> Curve_BinarySearchParameter c P 0%R mx = Ok (1 / 2)%R.
Proof. exact C45_zero_lemma. Qed.
Print Assumptions C45_zero_epsilon.
Theorem C45_zero_epsilon_refuted : exists (c : curve R) P m mx u, wf_curve c /\ strictly_unimodal (fun x => dist3 (curve_point c x) P) m /\ 0 <= mx /\
  Curve_BinarySearchParameter c P 0%R mx = Ok u /\
  ~ (dist3 (curve_point c u) P <= 0 \/ Rabs (u - m) <= Rmax 0 ((1 / 2) ^ (Z.to_nat mx + 1)))%R.
Proof. exact C45_refuted_lemma. Qed.
Print Assumptions C45_zero_epsilon_refuted.
Example C45_ex : exists c : curve R, wf_curve c /\ strictly_unimodal (fun x => dist3 (curve_point c x) (Vec3 (1/3) 0 0)%R) (1/3)%R.
Proof. exact C45_ex_lemma. Qed.

(** * C54 *)
Theorem C54_search : forall s P a b eps mx, wf_surface s -> unit_square (a, b) ->
  (forall n, (mx <= INR n)%R -> exists uv, Surface_SearchParameter n s P a b eps mx = Ok uv /\ unit_square uv) /\
  (forall n n' uv uv', Surface_SearchParameter n s P a b eps mx = Ok uv -> Surface_SearchParameter n' s P a b eps mx = Ok uv' -> uv' = uv) /\
  (forall n u v, (eps <= dbl_max)%R -> (INR n < mx)%R -> Surface_SearchParameter n s P a b eps mx = Ok (u, v) ->
     unit_square (u, v) /\ (dist3 (surf_point s u v) P < eps)%R).
Proof. exact C54_search_lemma. Qed.
Print Assumptions C54_search.
Theorem C54_search_on : forall s P d k init eps mx, wf_surface s -> 0 <= d <= 1 -> unit_interval k -> unit_interval init ->
  (forall n, (mx <= INR n)%R -> exists u v, Surface_SearchParameterOn n s P d k init eps mx = Ok (u, v)) /\
  (forall n n' uv uv', Surface_SearchParameterOn n s P d k init eps mx = Ok uv -> Surface_SearchParameterOn n' s P d k init eps mx = Ok uv' -> uv' = uv) /\
  (forall n u v, Surface_SearchParameterOn n s P d k init eps mx = Ok (u, v) ->
     unit_square (u, v) /\ (d = 0 -> u = k) /\ (d = 1 -> v = k) /\
     ((eps <= dbl_max)%R -> (INR n < mx)%R -> (dist3 (surf_point s u v) P < eps)%R)).
Proof. exact C54_on_lemma. Qed.
Print Assumptions C54_search_on.
(** An early stop of the bisection is within epsilon, or has narrowed the
    interval below epsilon around a point no neighbour of which is nearer. *)
Theorem C54_binary_search_on_partial : forall s P d k eps mx, wf_surface s -> 0 <= d <= 1 -> unit_interval k -> (0 <= eps)%R ->
  (forall n, (mx <= INR n)%R -> exists u v, Surface_BinarySearchParameterOn n s P d k eps mx = Ok (u, v) /\
     unit_square (u, v) /\ (d = 0 -> u = k) /\ (d = 1 -> v = k)) /\
  (forall n u v, (INR n < mx)%R -> Surface_BinarySearchParameterOn n s P d k eps mx = Ok (u, v) ->
     (dist3 (surf_point s u v) P < eps)%R \/
     exists a b, (0 <= a <= 1)%R /\ (0 <= b <= 1)%R /\ (b - a < eps)%R /\
       (d = 0 -> (a <= v <= b)%R /\ (dist3 (surf_point s u v) P <= Rmin (dist3 (surf_point s u a) P) (dist3 (surf_point s u b) P))%R) /\
       (d = 1 -> (a <= u <= b)%R /\ (dist3 (surf_point s u v) P <= Rmin (dist3 (surf_point s a v) P) (dist3 (surf_point s b v) P))%R)).
Proof. exact C54_binary_lemma. Qed.
Print Assumptions C54_binary_search_on_partial.
Theorem C54_early_stop_refuted : exists (s : surface b64) P k eps mx n u v q, wf_surface (surface_val s) /\ in_unit k /\ finite64 eps /\ (0 <= val eps)%R /\
  nltb (nofZ (Z.of_nat n)) mx = true /\ Surface_BinarySearchParameterOn n s P 0 k eps mx = Ok (u, v) /\
  Surface_Evaluate s u v = Ok q /\ nltb (v3norm (v3sub q P)) eps = false /\ v3norm (v3sub q P) = b64_of_Z 100.
Proof. exact C54_early_lemma. Qed.
Print Assumptions C54_early_stop_refuted.
Theorem C54_search_b64 : forall (s : surface b64) P eps mx,
  (forall n a b u v, Surface_SearchParameter n s P a b eps mx = Ok (u, v) -> in_unit u /\ in_unit v) /\
  (forall n a b n', (n <= n')%nat -> nleb mx (nofZ (Z.of_nat n)) = true ->
     Surface_SearchParameter n' s P a b eps mx = Surface_SearchParameter n s P a b eps mx) /\
  (forall d k init, 0 <= d <= 1 -> in_unit k -> in_unit init ->
     (forall n u v, Surface_SearchParameterOn n s P d k init eps mx = Ok (u, v) ->
        in_unit u /\ in_unit v /\ (d = 0 -> u = k) /\ (d = 1 -> v = k)) /\
     (forall n n', (n <= n')%nat -> nleb mx (nofZ (Z.of_nat n)) = true ->
        Surface_SearchParameterOn n' s P d k init eps mx = Surface_SearchParameterOn n s P d k init eps mx)).
Proof. exact C54_b64_lemma. Qed.
Print Assumptions C54_search_b64.
Theorem C54_binary_search_b64 : forall (s : surface b64) P d k eps mx n u v, finite64 eps -> (0 <= val eps)%R -> 0 <= d <= 1 ->
  Surface_BinarySearchParameterOn n s P d k eps mx = Ok (u, v) ->
  (d = 0 -> u = k /\ finite64 v /\ (0 <= val v <= 1)%R) /\ (d = 1 -> v = k /\ finite64 u /\ (0 <= val u <= 1)%R).
Proof. exact C54_binary_b64_lemma. Qed.
Print Assumptions C54_binary_search_b64.
Theorem C54_nan_refuted : exists (s : surface b64) P a b eps mx, wf_surface (surface_val s) /\ in_unit a /\ in_unit b /\
  finite64 (x3 P) /\ finite64 (y3 P) /\ finite64 (z3 P) /\ finite64 eps /\
  Surface_SearchParameter 10 s P a b eps mx = AssertFail /\ Surface_SearchParameterOn 10 s P 1 b a eps mx = AssertFail.
Proof. exact C54_refuted_lemma. Qed.
Print Assumptions C54_nan_refuted.
Example C54_ex : wf_surface surf_ex /\ unit_square (1/4, 1/3)%R /\ 0 <= 1 <= 1 /\ unit_interval (1/4)%R /\ (0 <= 1/100)%R.
Proof. split; [exact surf_ex_wf|]. unfold unit_square, unit_interval. cbn. split; [lra|]. split; [lia|lra]. Qed.
