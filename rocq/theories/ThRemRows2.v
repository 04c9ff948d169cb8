(** Knot removal from surfaces in doubles. *)
From Coq Require Import Reals ZArith List Lia Lra Bool Permutation.
From Verif Require Import Outcome Num ModelCore ModelAlgo ModelCurve ModelSurface SpecCore SpecBasis SpecCurve SpecErr SpecRows
  ThOutcome ThReal ThVec ThB64 ThKnots ThSum ThSpline ThBasis ThCurve ThInsert ThRemove2 ThRemove3 ThSurfRemove ThRows ThSafeRem ThSafeRem2 ThRemRows.
Import ListNotations.
Open Scope Z_scope.

Lemma removable p (l : list b64) u times : sound_knots p l -> inner64 u -> times <= count (val u) (vals l) -> times <= len l - p - 1.
Proof.
  intros [Fl C] [Fu Hu] T. destruct (clamped_span _ _ (val u) C ltac:(lra)) as [r [_ [Hr Sr]]]. rewrite len_vals in Hr. pose proof (cl_degree _ _ C) as P0.
  assert (knot_span p (vals l) r (val u)) as K. { split; [rewrite len_vals; lia|]. destruct Sr as [Q|Q]; [exact Q|lra]. }
  pose proof (count_span _ _ _ _ C K Hu) as [S0 [S1 _]]. cbv zeta in *. lia.
Qed.
Lemma sound_full (s : surface b64) : sound_surface s -> full_grid (Net s) /\ 1 <= UCount (Net s) /\ 1 <= VCount (Net s).
Proof.
  intros [[_ C1] [[_ C2] [E1 [E2 E3]]]]. pose proof (cl_len _ _ C1) as L1. pose proof (cl_len _ _ C2) as L2. rewrite len_vals in L1, L2.
  pose proof (cl_degree _ _ C1). pose proof (cl_degree _ _ C2). unfold full_grid. repeat split; lia.
Qed.
Lemma C95_doubleU_lemma (s : surface b64) u times tol : sound_surface s -> inner64 u -> separated (val u) (vals (KnotsU s)) ->
  1 <= times <= count (val u) (vals (KnotsU s)) -> count (val u) (vals (KnotsU s)) <= DegreeU s + 1 -> 2 * times <= DegreeU s + count (val u) (vals (KnotsU s)) ->
  UCount (Net s) * VCount (Net s) <= INT_MAX ->
  exists s' t, Surface_RemoveKnotU s u times tol = Ok (s', t) /\ 0 <= t <= times /\ sound_surface s' /\ (t = 0 -> s' = s) /\
    (t <> 0 -> Permutation (vals (KnotsU s)) (repeat (val u) (Z.to_nat times) ++ vals (KnotsU s'))).
Proof.
  intros Ss Iu Sep T1 S2 C3 Im. destruct (sound_full _ Ss) as [F [U1 V1]]. pose proof Ss as [Su [Sv [Eu [Ev El]]]].
  assert (forall j l, line_u (Net s) j l -> exists c' t, Curve_RemoveKnot (Curve (DegreeU s) (KnotsU s) l) u times tol = Ok (c', t) /\ 0 <= t <= times /\ sound_curve c' /\
    (t <> 0 -> Permutation (vals (KnotsU s)) (repeat (val u) (Z.to_nat times) ++ vals (Knots c')))) as Cl.
  { intros j l [_ [Ll _]]. destruct (C94_knot_lemma (Curve (DegreeU s) (KnotsU s) l) u times tol) as [c' [t [E [Ht [_ [Sc [_ P]]]]]]]; cbn [Degree Knots ControlPoints]; try assumption.
    { split; [exact Su|]. cbn [Degree Knots ControlPoints]. lia. } exists c', t. auto. }
  pose proof (removable _ _ _ times Su Iu ltac:(lia)) as Tn.
  destruct (removeU_lines s u times tol F (remove_asserts u Iu) ltac:(lia) V1 ltac:(lia) Im) as [s' [t [E [[-> [-> _]]|[Nt [F' [A1 [A2 [A3 [A4 [A5 A]]]]]]]]]]].
  - intros j l Ll. destruct (Cl j l Ll) as [c' [t [E _]]]. eauto.
  - exists s, 0. split; [exact E|]. split; [lia|]. split; [exact Ss|]. split; [reflexivity|congruence].
  - exists s', t. split; [exact E|]. pose proof (full_is _ F) as G. pose proof (line_u_ex _ _ _ _ 0 G ltac:(lia)) as L0. destruct (A _ _ L0) as [l' [Ll' Ec]].
    destruct (Cl _ _ L0) as [c' [t' [Ec' [Ht [[Sk Sn] P]]]]]. rewrite Ec in Ec'. inversion Ec'; subst c' t'. cbn [Degree Knots ControlPoints] in *.
    split; [exact Ht|]. split; [|split; [congruence|exact P]]. unfold sound_surface. rewrite A1, A2, A3. split; [exact Sk|]. split; [exact Sv|].
    destruct Ll' as [_ [Ll' _]]. split; [lia|]. split; [lia|]. apply F'.
Qed.
Lemma C95_doubleV_lemma (s : surface b64) u times tol : sound_surface s -> inner64 u -> separated (val u) (vals (KnotsV s)) ->
  1 <= times <= count (val u) (vals (KnotsV s)) -> count (val u) (vals (KnotsV s)) <= DegreeV s + 1 -> 2 * times <= DegreeV s + count (val u) (vals (KnotsV s)) ->
  UCount (Net s) * VCount (Net s) <= INT_MAX ->
  exists s' t, Surface_RemoveKnotV s u times tol = Ok (s', t) /\ 0 <= t <= times /\ sound_surface s' /\ (t = 0 -> s' = s) /\
    (t <> 0 -> Permutation (vals (KnotsV s)) (repeat (val u) (Z.to_nat times) ++ vals (KnotsV s'))).
Proof.
  intros Ss Iu Sep T1 S2 C3 Im. destruct (sound_full _ Ss) as [F [U1 V1]]. pose proof Ss as [Su [Sv [Eu [Ev El]]]].
  assert (forall j l, line_v (Net s) j l -> exists c' t, Curve_RemoveKnot (Curve (DegreeV s) (KnotsV s) l) u times tol = Ok (c', t) /\ 0 <= t <= times /\ sound_curve c' /\
    (t <> 0 -> Permutation (vals (KnotsV s)) (repeat (val u) (Z.to_nat times) ++ vals (Knots c')))) as Cl.
  { intros j l [_ [Ll _]]. destruct (C94_knot_lemma (Curve (DegreeV s) (KnotsV s) l) u times tol) as [c' [t [E [Ht [_ [Sc [_ P]]]]]]]; cbn [Degree Knots ControlPoints]; try assumption.
    { split; [exact Sv|]. cbn [Degree Knots ControlPoints]. lia. } exists c', t. auto. }
  pose proof (removable _ _ _ times Sv Iu ltac:(lia)) as Tn.
  destruct (removeV_lines s u times tol F (remove_asserts u Iu) ltac:(lia) U1 ltac:(lia) Im) as [s' [t [E [[-> [-> _]]|[Nt [F' [A1 [A2 [A3 [A4 [A5 A]]]]]]]]]]].
  - intros j l Ll. destruct (Cl j l Ll) as [c' [t [E _]]]. eauto.
  - exists s, 0. split; [exact E|]. split; [lia|]. split; [exact Ss|]. split; [reflexivity|congruence].
  - exists s', t. split; [exact E|]. pose proof (full_is _ F) as G. pose proof (line_v_ex _ _ _ _ 0 G ltac:(lia)) as L0. destruct (A _ _ L0) as [l' [Ll' Ec]].
    destruct (Cl _ _ L0) as [c' [t' [Ec' [Ht [[Sk Sn] P]]]]]. rewrite Ec in Ec'. inversion Ec'; subst c' t'. cbn [Degree Knots ControlPoints] in *.
    split; [exact Ht|]. split; [|split; [congruence|exact P]]. unfold sound_surface. rewrite A1, A2, A3. split; [exact Su|]. split; [exact Sk|].
    destruct Ll' as [_ [Ll' _]]. split; [lia|]. split; [lia|]. apply F'.
Qed.
