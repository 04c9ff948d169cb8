(** The accuracy statements in final form, and concrete cases (C65, C66, C67, C68). *)
From Coq Require Import Reals ZArith QArith List Lra Lia Bool SpecFloat Permutation.
From Flocq Require Import Core IEEE754.BinarySingleNaN.
From Verif Require Import Outcome Num ModelCore ModelBasis ModelCurve ModelSurface SpecCore SpecBasis SpecCurve SpecSurface SpecDeriv SpecErr SpecSearch
  ThOutcome ThReal ThVec ThKnots ThSum ThB64 ThCoreWit ThCurveWit ThSurfWit ThDecide ThBasis ThErr ThErrBasis ThErrSum ThErrCurve ThErrSurf ThSafe ThSafe2 ThSafe3 ThSafe4.
Import ListNotations.
Open Scope Z_scope.

Lemma C65_lemma : forall p (l : list b64) x, sound_knots p l -> apart l -> p <= 50 -> finite64 x -> (0 <= val x <= 1)%R ->
  exists i res, KnotVector_FindSpanIndex l p x = Ok i /\ Basis_Evaluate p l i x = Ok res /\ p <= i <= len l - p - 2 /\ len res = p + 1 /\
    (forall k, 0 <= k <= p -> exists b, vget res k = Ok b /\ finite64 b /\ (0 <= val b)%R /\
       (Rabs (val b - N (kf (vals l)) (Z.to_nat p) (i - p + k) (val x)) <= 18 * IZR p / 2 ^ 53 * N (kf (vals l)) (Z.to_nat p) (i - p + k) (val x) + / 2 ^ 900)%R) /\
    (forall k, ~ i - p <= k <= i -> N (kf (vals l)) (Z.to_nat p) k (val x) = 0%R).
Proof.
  intros p l x [Fl C] Ap H50 Fx Hx. pose proof (cl_degree _ _ C) as P0. destruct (Basis64_N p l x Fl C Ap Fx Hx H50) as [i [res [E1 [E2 [Hi [Lr [Gr Z0]]]]]]].
  exists i, res. split; [exact E1|]. split; [exact E2|]. split; [exact Hi|]. split; [exact Lr|]. split; [|exact Z0].
  intros k Hk. destruct (Gr k Hk) as [b [Eb [[Fb [_ Sb]] [Hg Pb]]]]. exists b. split; [exact Eb|]. split; [exact Fb|]. split; [exact Pb|].
  eapply Rle_trans; [exact Sb|]. rewrite nn_of by lia.
  assert (INR (6 * Z.to_nat p) = 6 * IZR p)%R as En by (rewrite mult_INR, INR_IZR_INZ, INR_IZR_INZ, Z2Nat.id by lia; reflexivity).
  assert (0 <= IZR p <= 50)%R as Pr by (split; apply IZR_le; lia).
  assert (u64 = / 2 ^ 53)%R as Eu by (unfold u64; apply (bpow_inv 53)).
  assert (/ 2 ^ 53 <= / 10000)%R as Us by (apply Rinv_le; lra). assert (0 < / 2 ^ 53)%R as Up by (apply Rinv_0_lt_compat; lra).
  assert (r64 ^ (6 * Z.to_nat p) - 1 <= 18 * IZR p / 2 ^ 53)%R as Rl.
  { pose proof (r_pow_lin (6 * Z.to_nat p)) as L. rewrite En, Eu in L. specialize (L ltac:(nra)). unfold Rdiv. lra. }
  pose proof (lev_le p ltac:(lia)) as Lv. assert (bpow radix2 (-925) <= / 2 ^ 900)%R as Lb.
  { rewrite <- (bpow_inv 900). apply bpow_le. lia. }
  apply Rplus_le_compat; [|lra]. apply Rmult_le_compat_r; [apply Hg|exact Rl].
Qed.

Lemma M_bpow M : (0 <= M <= 2 ^ 100)%R -> (0 <= M <= bpow radix2 100)%R.
Proof. rewrite bpow_100. auto. Qed.
Lemma C66_lemma : forall (c : curve b64) M x, sound_curve c -> apart (Knots c) -> Degree c <= 50 -> Forall (tame M) (ControlPoints c) -> (0 <= M <= 2 ^ 100)%R ->
  finite64 x -> (0 <= val x <= 1)%R ->
  exists q, Curve_Evaluate c x = Ok q /\ near3 (45 * (IZR (Degree c) + 1) / 2 ^ 53 * M + / 2 ^ 450) q (curve_point (curve_val c) (val x)).
Proof. intros c M x [[Fl C] Sn] Ap Hd Ft HM Fx Hx. apply Curve64_ok; auto using M_bpow. Qed.
Lemma C67_lemma : forall (s : surface b64) M u v, sound_surface s -> apart (KnotsU s) -> apart (KnotsV s) -> DegreeU s <= 50 -> DegreeV s <= 50 ->
  Forall (tame M) (Values (Net s)) -> (0 <= M <= 2 ^ 100)%R -> finite64 u -> (0 <= val u <= 1)%R -> finite64 v -> (0 <= val v <= 1)%R ->
  exists q, Surface_Evaluate s u v = Ok q /\
    near3 (45 * (IZR (DegreeU s) + IZR (DegreeV s) + 1) / 2 ^ 53 * M + / 2 ^ 450) q (surf_point (surface_val s) (val u) (val v)).
Proof. intros s M u v [[Fu Cu] [[Fv Cv] [Nu [Nv L]]]] Au Av Hdu Hdv Ft HM Fu' Hu Fv' Hv. apply Surface64_ok; auto using M_bpow. Qed.

(** ** C68 *)
Lemma C68_curve_lemma : forall (c : curve b64) x, sound_curve c ->
  (in_unit x -> (exists q, Curve_Evaluate c x = Ok q) /\
     (forall order, 0 <= order <= 29 -> (exists l, Curve_EvaluateAll c x order = Ok l /\ len l = order + 1) /\ (exists q, Curve_EvaluateDerivative c x order = Ok q))) /\
  (~ in_unit x -> Curve_Evaluate c x = AssertFail /\ forall order, Curve_EvaluateAll c x order = AssertFail /\ Curve_EvaluateDerivative c x order = AssertFail).
Proof.
  intros c x S. split.
  - intros Hx. split; [destruct (Curve_Evaluate_any c x S Hx) as [q [E _]]; eauto|]. intros o Ho. split; [exact (Curve_All_any c x S o Ho Hx)|].
    destruct (Curve_Derivative_any c x S o Ho Hx) as [q [E _]]. eauto.
  - intros N. split; [apply Curve_Evaluate_out, N|]. intros o. split; [apply Curve_All_out, N|apply Curve_Derivative_out, N].
Qed.
Lemma C68_insert_lemma : forall (c : curve b64) us, sound_curve c -> Forall inner64 us ->
  exists c', Curve_InsertKnot_list c us = Ok c' /\ sound_curve c' /\ Degree c' = Degree c /\ Permutation (Knots c') (us ++ Knots c).
Proof. intros c us S Hu. destruct (Curve_InsertKnot_list64 c us S Hu) as [c' [E [S' [D [P _]]]]]. eauto 10. Qed.
Lemma C68_insert1_lemma : forall (c : curve b64) u, sound_curve c -> inner64 u ->
  exists c', Curve_InsertKnot c u = Ok c' /\ sound_curve c' /\ Degree c' = Degree c /\ Permutation (Knots c') (u :: Knots c).
Proof. intros c u S Hu. destruct (Curve_InsertKnot64 c u S Hu) as [c' [E [S' [D [P _]]]]]. eauto 10. Qed.
Lemma C68_search_lemma : forall (c : curve b64) P, sound_curve c ->
  (forall eps mx, finite64 eps -> (0 <= val eps)%R -> exists u, Curve_BinarySearchParameter c P eps mx = Ok u /\ finite64 u /\ (0 <= val u <= 1)%R) /\
  (forall n init eps mx, nleb mx (nofZ (Z.of_nat n)) = true ->
     (exists u, Curve_SearchParameter n c P init eps mx = Ok u) \/ Curve_SearchParameter n c P init eps mx = AssertFail).
Proof.
  intros c P S. split; [intros eps mx Fe He; exact (Curve_Binary_any c P eps mx S Fe He)|]. intros n init eps mx Hm. exact (Curve_Search_safe n c P init eps mx S Hm).
Qed.
Lemma C69_surface_lemma : forall (s : surface b64) u v, sound_surface s ->
  (in_unit u -> in_unit v -> (exists q, Surface_Evaluate s u v = Ok q) /\
     (forall ou ov, 0 <= ou <= 29 -> 0 <= ov <= 29 -> binomials_fit ou ov ->
        (exists g, Surface_EvaluateAll s u v ou ov = Ok g /\ UCount g = ou + 1 /\ VCount g = ov + 1 /\ len (Values g) = (ou + 1) * (ov + 1)) /\
        (exists q, Surface_EvaluateDerivative s u v ou ov = Ok q))) /\
  (~ (in_unit u /\ in_unit v) -> Surface_Evaluate s u v = AssertFail /\
     forall ou ov, Surface_EvaluateAll s u v ou ov = AssertFail /\ Surface_EvaluateDerivative s u v ou ov = AssertFail).
Proof.
  intros s u v S. split.
  - intros Hu Hv. split; [destruct (Surface_Evaluate_any s u v S Hu Hv) as [q [E _]]; eauto|]. intros ou ov Ho Ho' Fit.
    split; [exact (Surface_All_any s u v S ou ov Ho Ho' Fit Hu Hv)|]. destruct (Surface_Derivative_any s u v S ou ov Ho Ho' Fit Hu Hv) as [q [E _]]. eauto.
  - intros N. split; [apply Surface_Evaluate_out, N|]. intros ou ov. split; [apply Surface_All_out, N|apply Surface_Derivative_out, N].
Qed.
Lemma C69_insert_lemma : forall (s : surface b64) us, sound_surface s -> Forall inner64 us ->
  (forall junk, exists s', Surface_InsertKnotU_list junk s us = Ok s' /\ sound_surface s' /\ DegreeU s' = DegreeU s /\ DegreeV s' = DegreeV s /\
     Permutation (KnotsU s') (us ++ KnotsU s) /\ KnotsV s' = KnotsV s) /\
  (exists s', Surface_InsertKnotV_list s us = Ok s' /\ sound_surface s' /\ DegreeU s' = DegreeU s /\ DegreeV s' = DegreeV s /\
     KnotsU s' = KnotsU s /\ Permutation (KnotsV s') (us ++ KnotsV s)).
Proof.
  intros s us S Hu. split.
  - intros jk. destruct (Surface_InsertU_list64 jk us Hu s S) as [s' [E [S' [D [D' [P [_ [_ K']]]]]]]]. exists s'. split; [exact E|]. split; [exact S'|]. split; [exact D|]. split; [exact D'|]. split; [exact P|exact (K' eq_refl)].
  - destruct (Surface_InsertV_list64 us Hu s S) as [s' [E [S' [D [D' [_ [P [K' _]]]]]]]]. exists s'. split; [exact E|]. split; [exact S'|]. split; [exact D|]. split; [exact D'|]. split; [exact (K' eq_refl)|exact P].
Qed.
Lemma C69_search_lemma : forall (s : surface b64) P, sound_surface s ->
  (forall n d k eps mx, 0 <= d <= 1 -> in_unit k -> finite64 eps -> (0 <= val eps)%R -> nltb (nofZ (Z.of_nat n)) mx = false ->
     exists u v, Surface_BinarySearchParameterOn n s P d k eps mx = Ok (u, v) /\ in_unit u /\ in_unit v /\ (d = 0 -> u = k) /\ (d = 1 -> v = k)) /\
  (forall n a b eps mx, nleb mx (nofZ (Z.of_nat n)) = true ->
     (exists uv, Surface_SearchParameter n s P a b eps mx = Ok uv) \/ Surface_SearchParameter n s P a b eps mx = AssertFail) /\
  (forall n d k i eps mx, nleb mx (nofZ (Z.of_nat n)) = true ->
     (exists uv, Surface_SearchParameterOn n s P d k i eps mx = Ok uv) \/ Surface_SearchParameterOn n s P d k i eps mx = AssertFail).
Proof.
  intros s P S. split; [|split].
  - intros n d k eps mx Hd Hk Fe He Hm. destruct (Surface_BinaryOn_any s S n P d k eps mx Hd Hk Fe He Hm) as [[u v] [E [H0 H1]]]. cbn [fst snd] in *. exists u, v. split; [exact E|].
    assert (d = 0 \/ d = 1) as [->| ->] by lia.
    + destruct (H0 eq_refl) as [-> [Fv Hv]]. split; [exact Hk|]. split; [apply val_in_unit; assumption|]. split; [reflexivity|discriminate].
    + destruct (H1 eq_refl) as [-> [Fv Hv]]. split; [apply val_in_unit; assumption|]. split; [exact Hk|]. split; [discriminate|reflexivity].
  - intros. apply Surface_Search_safe; assumption.
  - intros. apply Surface_SearchOn_safe; assumption.
Qed.

(** ** Concrete cases *)
Definition soundb (p : Z) (l : list b64) : bool := clampedb p l.
Lemma soundb_ok p l : soundb p l = true -> sound_knots p l.
Proof.
  intros H. split; [|apply clampedb_ok, H]. unfold soundb, clampedb in H. rewrite !andb_true_iff, !forallb_forall in H. destruct H as [[[[[[[A B] F] V] Z0] Fi] La] One].
  apply Forall_forall. intros x Hx. apply finb_spec. apply F. exact Hx.
Qed.
Definition err_knots : list b64 := [dz; dz; dz; dhalf; done_; done_; done_].
Definition dmone : b64 := dq (-1).
Lemma val_dmone : val dmone = (-1)%R.
Proof.
  replace dmone with (S754_finite true 4503599627370496 (-52)) by (vm_compute; reflexivity). unfold val, SF2R, Defs.F2R. cbn [Defs.Fnum Defs.Fexp SpecFloat.cond_Zopp Zaux.cond_Zopp Z.opp].
  unfold Raux.bpow. simpl Zaux.radix_val. change (Z.pow_pos 2 52) with 4503599627370496. rewrite opp_IZR. lra.
Qed.
Lemma err_apart : apart err_knots /\ apart [dz; dz; done_; done_].
Proof.
  assert (/ 2 ^ 900 <= / 2)%R as S. { apply Rinv_le; [lra|]. rewrite <- (pow_1 2) at 1. apply Rle_pow; [lra|lia]. }
  assert (vals err_knots = [0; 0; 0; 1 / 2; 1; 1; 1]%R) as E1 by (unfold err_knots, vals; cbn [map]; rewrite val_dz, val_dhalf, val_done; reflexivity).
  assert (vals [dz; dz; done_; done_] = [0; 0; 1; 1]%R) as E2 by (unfold vals; cbn [map]; rewrite val_dz, val_done; reflexivity).
  split; intros i H0 H1; rewrite ?E1, ?E2; generalize dependent (/ 2 ^ 900)%R; intros e S; unfold len in H1; cbn in H1.
  - assert (i = 0 \/ i = 1 \/ i = 2 \/ i = 3 \/ i = 4 \/ i = 5) as [->|[->|[->|[->|[->| ->]]]]] by lia; unfold at_; simpl; intros; lra.
  - assert (i = 0 \/ i = 1 \/ i = 2) as [->|[->| ->]] by lia; unfold at_; simpl; intros; lra.
Qed.
Definition tameb (q : vec4 b64) : bool :=
  finb (x4 q) && finb (y4 q) && finb (z4 q) && finb (w4 q) && SFleb dhalf (w4 q) && SFleb (w4 q) done_ &&
  SFleb dmone (x4 q) && SFleb (x4 q) done_ && SFleb dmone (y4 q) && SFleb (y4 q) done_ && SFleb dmone (z4 q) && SFleb (z4 q) done_.
Lemma tameb_ok l : forallb tameb l = true -> Forall (tame 1) l.
Proof.
  rewrite forallb_forall. intros H. apply Forall_forall. intros q Hq. specialize (H q Hq). unfold tameb in H. rewrite !andb_true_iff, !finb_spec in H.
  destruct H as [[[[[[[[[[[F1 F2] F3] F4] W1] W2] X1] X2] Y1] Y2] Z1] Z2].
  assert (finite64 dmone) as Fm by (apply finb_spec; reflexivity).
  rewrite SFleb_val in * by (assumption || apply finite_dhalf || apply finite_done). rewrite Rleb_true in *. rewrite ?val_dhalf, ?val_done, ?val_dmone in *.
  assert (/ 2 ^ 100 <= / 2)%R by (apply Rinv_le; lra). assert (1 <= 2 ^ 100)%R by lra.
  split; [exact F1|]. split; [exact F2|]. split; [exact F3|]. split; [exact F4|]. split; [lra|]. split; [|split]; apply Rabs_le; lra.
Qed.
(** a rational spline with weights 1, 1/2, 3/4, 1 *)
Definition err_curve : curve b64 := Curve 2 err_knots [pt 1 0 0 1; pt 1 1 0 (1 # 2); pt (-1) 1 (1 # 3) (3 # 4); pt (-1) 0 0 1].
Definition err_surface : surface b64 := Surface 2 1 err_knots [dz; dz; done_; done_]
  (Grid 4 2 [pt 1 0 0 1; pt 1 1 0 (1 # 2); pt (-1) 1 (1 # 3) (3 # 4); pt (-1) 0 0 1;
             pt 1 0 1 1; pt 1 1 1 (1 # 2); pt (-1) 1 1 (3 # 4); pt (-1) 0 1 1]).
(** soundness says nothing about the control points: here one is NaN *)
Definition nan_curve : curve b64 := Curve 2 err_knots [pt 1 0 0 1; Vec4 S754_nan dz dz (S754_infinity true); pt 0 0 0 0; pt (-1) 0 0 1].
Lemma err_curve_ok : sound_curve err_curve /\ Forall (tame 1) (ControlPoints err_curve) /\ sound_curve nan_curve.
Proof.
  split; [|split].
  - split; [apply soundb_ok; vm_compute; reflexivity|reflexivity].
  - apply tameb_ok. vm_compute. reflexivity.
  - split; [apply soundb_ok; vm_compute; reflexivity|reflexivity].
Qed.
Lemma err_surface_ok : sound_surface err_surface /\ Forall (tame 1) (Values (Net err_surface)).
Proof.
  split; [|apply tameb_ok; vm_compute; reflexivity]. split; [apply soundb_ok; vm_compute; reflexivity|]. split; [apply soundb_ok; vm_compute; reflexivity|]. split; [reflexivity|]. split; reflexivity.
Qed.
Lemma third_inner : inner64 (dq (1 # 3)) /\ in_unit (dq (1 # 3)).
Proof. split; [|split; reflexivity]. split; [apply finb_spec; reflexivity|apply innerb_ok; vm_compute; reflexivity]. Qed.
