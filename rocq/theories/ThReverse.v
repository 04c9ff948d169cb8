(** Splines over a reversed knot vector. *)
From Coq Require Import Reals ZArith List Lra Lia Bool Permutation.
From Verif Require Import Outcome Num ModelCore ModelBasis ModelCurve ModelSurface SpecCore SpecBasis SpecCurve SpecSurface SpecAlign
  ThOutcome ThReal ThKnots ThGrid ThVec ThSum ThSpline ThBasis ThCurve ThInsert ThSurface ThKnots2.
Import ListNotations.
Open Scope Z_scope.

(** the two pieces meeting at a knot of multiplicity at most the degree agree there *)
Lemma bl_meet U k j x : mono U -> (U k < U (k + 1)%Z)%R -> (U j < U (j + 1)%Z)%R -> k <= j ->
  (forall i, k < i <= j -> U i = x) ->
  forall n P, j - k <= nn n -> bl U j (repeat x n) P = bl U k (repeat x n) P.
Proof.
  intros M Sk Sj L E. induction n as [|n IH]; intros P Hn.
  - rewrite nn_0 in Hn. assert (j = k) as -> by lia. reflexivity.
  - destruct (Z.eq_dec (j - k) (nn (S n))) as [Eq|Ne].
    + rewrite <- (run_const U k (S n) x) by (intros i Hi; apply E; lia).
      rewrite (bl_dual U j M Sj), (bl_dual U k M Sk) by lia. reflexivity.
    + cbn [repeat bl length]. rewrite repeat_length. apply IH. rewrite nn_S in *. lia.
Qed.

(** polar form over the reversed sequence *)
Lemma bl_reverse U V c j : (forall i, V i = (1 - U (c - i)%Z)%R) -> forall ts P Q,
  (forall i, Q i = P (c - nn (length ts) - 1 - i)) ->
  bl V j (map (fun t => 1 - t)%R ts) Q = bl U (c - 1 - j) ts P.
Proof.
  intros EV. induction ts as [|t ts IH]; intros P Q EQ.
  - cbn [map bl]. rewrite EQ. cbn [length]. rewrite nn_0. f_equal. lia.
  - cbn [map bl]. apply IH. intros i. cbn [length] in *. rewrite map_length. unfold step. rewrite !EV, !EQ, !nn_S.
    set (n := nn (length ts)). replace (c - n - 1 - i + (n + 1)) with (c - i) by lia.
    replace (c - (i + (n + 1))) with (c - n - 1 - i) by lia.
    replace (c - (n + 1) - 1 - (i - 1)) with (c - n - 1 - i) by lia.
    replace (c - (n + 1) - 1 - i) with (c - n - 1 - i - 1) by lia.
    f_equal; ring.
Qed.

Lemma kf_Reverse p l i : clamped p l -> kf (KnotVector_Reverse l) i = (1 - kf l (len l - 1 - i))%R.
Proof.
  intros C. pose proof (cl_degree _ _ C) as P0. pose proof (cl_len _ _ C) as CL.
  assert (len (KnotVector_Reverse l) = len l) as L by apply len_Reverse.
  destruct (Z_lt_le_dec i 0) as [H|H]; [|destruct (Z_lt_le_dec i (len l)) as [H'|H']].
  - rewrite kf_low by lia. rewrite kf_at by lia. rewrite at_Reverse by lia. rewrite (kf_high l) by lia.
    rewrite (cl_one _ _ C) by lia. reflexivity.
  - rewrite !kf_at by lia. apply at_Reverse. lia.
  - rewrite kf_high by lia. rewrite (kf_low l) by lia. rewrite kf_at by lia. rewrite (cl_zero _ _ C) by lia. ring.
Qed.

Lemma count_run l x k j : 0 <= k <= j -> j < len l -> (forall i, k < i <= j -> at_ l i = x) -> j - k <= count x l.
Proof.
  intros H L E. rewrite <- (firstn_skipn (Z.to_nat (k + 1)) l), count_app.
  rewrite <- (firstn_skipn (Z.to_nat (j - k)) (skipn _ l)), count_app.
  assert (firstn (Z.to_nat (j - k)) (skipn (Z.to_nat (k + 1)) l) = repeat x (Z.to_nat (j - k))) as ->.
  { apply (znth_ext 0%R).
    - rewrite len_firstn, len_skipn, len_repeat. lia.
    - intros i Hi. rewrite len_firstn, len_skipn in Hi. rewrite znth_firstn, znth_skipn, znth_repeat by lia.
      rewrite <- at_znth. apply E. lia. }
  rewrite count_repeat. destruct (Req_EM_T x x); [|congruence]. rewrite Z2Nat.id by lia. unfold count. lia.
Qed.

(** value of the spline with reversed knots and coefficients *)
Lemma spl_reverse p l P Q x : clamped p l -> (0 <= x <= 1)%R -> ~ jump_at p l (1 - x)%R ->
  (forall i, 0 <= i < len l - p - 1 -> Q i = P (len l - p - 2 - i)) ->
  spl p (KnotVector_Reverse l) Q x = spl p l P (1 - x)%R.
Proof.
  intros C Hx J EQ. pose proof (cl_degree _ _ C) as P0. pose proof (cl_len _ _ C) as CL.
  pose proof (Reverse_clamped p l C) as C'. assert (len (KnotVector_Reverse l) = len l) as L by apply len_Reverse.
  set (Q' := fun i => P (len l - p - 2 - i)).
  rewrite (spl_ext p _ Q Q') by (rewrite L; exact EQ). clear EQ Q.
  destruct (Req_dec x 0) as [->|N0]; [|destruct (Req_dec x 1) as [->|N1]].
  - rewrite spl_start by assumption. replace (1 - 0)%R with 1%R by ring. rewrite spl_end by assumption. unfold Q'. f_equal. lia.
  - rewrite spl_end by assumption. replace (1 - 1)%R with 0%R by ring. rewrite spl_start by assumption. unfold Q'. f_equal. lia.
  - destruct (clamped_span _ _ x C' Hx) as [j [_ [Hj Sj]]]. destruct (clamped_span _ _ (1 - x)%R C ltac:(lra)) as [k [_ [Hk Sk]]].
    unfold spl. rewrite (local_sum p _ j x Q' C' Hj Sj), (local_sum p l k _ P C Hk Sk). rewrite L in Hj.
    set (j' := len l - 2 - j).
    assert (map (fun t => 1 - t)%R (repeat (1 - x)%R (Z.to_nat p)) = repeat x (Z.to_nat p)) as <-.
    { rewrite <- (repeat_length x (Z.to_nat p)) at 1. clear. induction (Z.to_nat p); cbn; [reflexivity|]. rewrite IHn. f_equal; ring. }
    rewrite (bl_reverse (kf l) _ (len l - 1) j (fun i => kf_Reverse p l i C) _ P).
    2:{ intros i. unfold Q'. rewrite repeat_length, nn_of by lia. f_equal. lia. }
    replace (len l - 1 - 1 - j) with j' by lia.
    pose proof (clamped_mono _ _ C) as M. pose proof (clamped_mono _ _ C') as M'.
    assert (kf l j' < 1 - x <= kf l (j' + 1))%R as Sj'.
    { destruct Sj as [Sj|Sj]; [|lra]. rewrite !(kf_Reverse p l _ C) in Sj.
      replace (len l - 1 - (j + 1)) with j' in Sj by lia. replace (len l - 1 - j) with (j' + 1) in Sj by lia. lra. }
    destruct Sk as [Sk|Sk]; [|lra].
    assert (j' <= k) as Le.
    { destruct (Z_le_gt_dec j' k); [assumption|]. pose proof (M (k + 1) j' ltac:(lia)). lra. }
    symmetry. apply bl_meet; [exact M|lra|lra|exact Le| |].
    + intros i Hi. pose proof (M (j' + 1) i ltac:(lia)). pose proof (M i k ltac:(lia)). lra.
    + rewrite nn_of by lia. destruct (Z_le_gt_dec (k - j') p) as [|G]; [assumption|]. exfalso. apply J. split; [lra|].
      pose proof (count_run l (1 - x)%R j' k ltac:(lia) ltac:(lia)). enough (k - j' <= count (1 - x)%R l) by lia. apply H.
      intros i Hi. rewrite <- kf_at by lia. pose proof (M (j' + 1) i ltac:(lia)). pose proof (M i k ltac:(lia)). lra.
Qed.
