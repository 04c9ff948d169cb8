(** Knot insertions commute. *)
From Coq Require Import Reals ZArith List Lra Lia Bool Permutation.
From Verif Require Import Outcome Num ModelCore ModelBasis ModelCurve SpecCore SpecBasis SpecCurve
  ThOutcome ThReal ThKnots ThVec ThSum ThSpline ThBasis ThCurve ThInsert.
Import ListNotations.
Open Scope Z_scope.

Section Swap.
  Variables (U : Z -> R) (a b : Z) (u v : R).
  Hypothesis M : mono U.
  Hypothesis Ka : (U a <= u < U (a + 1)%Z)%R.
  Hypothesis Kb : (U b <= v < U (b + 1)%Z)%R.
  Hypothesis Huv : (u < v)%R.
  Lemma swap_le : a <= b.
  Proof. destruct (Z_le_gt_dec a b) as [|G]; [assumption|]. pose proof (M (b + 1) a ltac:(lia)). lra. Qed.
  Lemma swap_knots i : ins_knots (ins_knots U a u) (b + 1) v i = ins_knots (ins_knots U b v) a u i.
  Proof.
    pose proof swap_le. unfold ins_knots.
    repeat match goal with |- context [?x <=? ?y] => destruct (Z.leb_spec x y) | |- context [?x =? ?y] => destruct (Z.eqb_spec x y) end;
      try lia; try reflexivity; f_equal; lia.
  Qed.
  Ltac split_all := repeat match goal with |- context [?x <=? ?y] => destruct (Z.leb_spec x y); try lia | |- context [?x =? ?y] => destruct (Z.eqb_spec x y); try lia end.
  Ltac norm_to t := repeat match goal with
    | |- context [U ?x] => assert_fails (constr_eq x t); replace x with t by lia end.
  Ltac norm_P P t := repeat match goal with
    | |- context [P ?x] => assert_fails (constr_eq x t); replace x with t by lia end.
  Ltac fact x y := try (let H := fresh "F" in assert (U x <= U y)%R as H by (apply M; lia)).
  Lemma swap_coef p P i : ins_coef (ins_knots U a u) p (b + 1) v (ins_coef U p a u P) i = ins_coef (ins_knots U b v) p a u (ins_coef U p b v P) i.
  Proof.
    pose proof swap_le. pose proof (nn_nonneg p). unfold ins_coef, step, ins_knots. generalize dependent (nn p). intros q Hq.
    split_all; try reflexivity;
      fact i a; fact i b; fact (i - 1) a; fact (i - 1) b; fact (i - 2) a; fact (i - 2) b;
      fact (a + 1) (i + q); fact (b + 1) (i + q); fact (a + 1) (i + q - 1); fact (b + 1) (i + q - 1); fact (a + 1) (i + q - 2); fact (b + 1) (i + q - 2);
      norm_to (i + q); norm_to (i + q - 1); norm_to (i + q - 2); norm_to i; norm_to (i - 1); norm_to (i - 2);
      norm_P P i; norm_P P (i - 1); norm_P P (i - 2).
    all: try reflexivity.
    all: try (field; repeat split; lra).
  Qed.
End Swap.

Lemma ins_coef_ext U p k u P Q n i : (forall q, 0 <= q < n -> P q = Q q) -> nn p <= k -> k <= n -> 0 <= i < n + 1 -> (k < n \/ i <> k) ->
  ins_coef U p k u P i = ins_coef U p k u Q i.
Proof.
  intros E Hk Hn Hi Hc. pose proof (nn_nonneg p). unfold ins_coef. destruct (Z.leb_spec i (k - nn p)); [apply E; lia|]. destruct (Z.leb_spec i k); [|apply E; lia].
  apply step_ext; apply E; lia.
Qed.
Lemma ToHomo_inj p q : (0 < w4 p)%R -> (0 < w4 q)%R -> (forall f, lin f -> f (ToHomo p) = f (ToHomo q)) -> p = q.
Proof.
  intros Wp Wq H. rewrite <- (fromh_ToHomo p), <- (fromh_ToHomo q) by lra. f_equal. apply lin_ext. exact H.
Qed.
Lemma inserted_coef c c' k u f i : wf_curve c -> knot_span (Degree c) (Knots c) k u -> inserted c c' k u -> lin f -> 0 <= i < len (ControlPoints c') ->
  f (hp c' i) = ins_coef (kf (Knots c)) (Z.to_nat (Degree c)) k u (fun i => f (hp c i)) i.
Proof.
  intros W K [D [I [L G]]] Lf Hi. unfold hp at 1. rewrite G by exact Hi. apply ins_pts_coef; [apply (cl_degree _ _ (wf_knots c W))|apply (clamped_mono _ _ (wf_knots c W))|apply K| |exact Lf].
  intros q. apply cp_weight, (wf_weights c W).
Qed.
Lemma kf_ins l l' k u : ins_list l l' k u -> forall i, kf l' i = ins_knots (kf l) k u i.
Proof. intros [_ H]. exact H. Qed.
Lemma ins_knots_ext U V k u i : (forall i, U i = V i) -> ins_knots U k u i = ins_knots V k u i.
Proof. intros E. unfold ins_knots. rewrite !E. reflexivity. Qed.
Lemma ins_coef_knots U V p k u P i : (forall i, U i = V i) -> ins_coef U p k u P i = ins_coef V p k u P i.
Proof. intros E. unfold ins_coef, step. rewrite !E. reflexivity. Qed.

(** inserting [u] and [v] in either order *)
Lemma inserted_swap c c1 c2 d1 d2 a b a' b' u v : wf_curve c -> (0 < u < 1)%R -> (0 < v < 1)%R -> (u < v)%R ->
  knot_span (Degree c) (Knots c) a u -> inserted c c1 a u -> knot_span (Degree c1) (Knots c1) b' v -> inserted c1 c2 b' v ->
  knot_span (Degree c) (Knots c) b v -> inserted c d1 b v -> knot_span (Degree d1) (Knots d1) a' u -> inserted d1 d2 a' u -> c2 = d2.
Proof.
  intros W Hu Hv Huv Ka Ia Kb' Ib' Kb Ib Ka' Ia'.
  pose proof (inserted_wf _ _ _ _ W Ka Hu Ia) as W1. pose proof (inserted_wf _ _ _ _ W1 Kb' Hv Ib') as W2.
  pose proof (inserted_wf _ _ _ _ W Kb Hv Ib) as X1. pose proof (inserted_wf _ _ _ _ X1 Ka' Hu Ia') as X2.
  pose proof (clamped_mono _ _ (wf_knots c W)) as M. pose proof Ka as [Ra Sa]. pose proof Kb as [Rb Sb]. pose proof (cl_degree _ _ (wf_knots c W)) as P0.
  pose proof (swap_le (kf (Knots c)) a b u v M Sa Sb Huv) as Lab.
  pose proof Ia as [D1 [L1 [N1 G1]]]. pose proof Ib as [E1 [J1 [O1 H1]]].
  assert (b' = b + 1) as ->.
  { apply (span_unique _ _ _ _ v (wf_knots c1 W1) Kb'). rewrite D1. split; [destruct L1 as [Ll _]; lia|]. rewrite !(kf_ins _ _ _ _ L1). unfold ins_knots.
    destruct (Z.leb_spec (b + 1) a); [lia|]. destruct (Z.leb_spec (b + 1 + 1) a); [lia|]. destruct (Z.eqb_spec (b + 1) (a + 1)); destruct (Z.eqb_spec (b + 1 + 1) (a + 1)); try lia.
    - replace (b + 1 + 1 - 1) with (b + 1) by lia. split; [lra|apply Sb].
    - replace (b + 1 + 1 - 1) with (b + 1) by lia. replace (b + 1 - 1) with b by lia. exact Sb. }
  assert (a' = a) as ->.
  { apply (span_unique _ _ _ _ u (wf_knots d1 X1) Ka'). rewrite E1. split; [destruct J1 as [Ll _]; lia|]. rewrite !(kf_ins _ _ _ _ J1). unfold ins_knots.
    destruct (Z.leb_spec a b); [|lia]. destruct (Z.leb_spec (a + 1) b); [exact Sa|]. destruct (Z.eqb_spec (a + 1) (b + 1)); [|lia]. split; [apply Sa|exact Huv]. }
  pose proof Ib' as [D2 [L2 [N2 G2]]]. pose proof Ia' as [E2 [J2 [O2 H2]]].
  assert (len (ControlPoints c2) = len (ControlPoints d2)) as Lc by lia.
  assert (Degree c2 = Degree d2) as Dd by congruence.
  assert (Knots c2 = Knots d2) as Kk.
  { apply kf_ext; [destruct L1, L2, J1, J2; lia|]. intros i. rewrite (kf_ins _ _ _ _ L2), (kf_ins _ _ _ _ J2). rewrite (ins_knots_ext _ _ _ _ i (kf_ins _ _ _ _ L1)), (ins_knots_ext _ _ _ _ i (kf_ins _ _ _ _ J1)).
    apply swap_knots; assumption. }
  assert (ControlPoints c2 = ControlPoints d2) as Cc.
  { apply list_cp_ext; [exact Lc|]. intros i Hi. change (cp c2 i = cp d2 i). apply ToHomo_inj; [apply cp_weight, (wf_weights _ W2)|apply cp_weight, (wf_weights _ X2)|].
    intros f Lf. change (f (hp c2 i) = f (hp d2 i)). rewrite (inserted_coef c1 c2 (b + 1) v f i W1 Kb' Ib' Lf Hi), (inserted_coef d1 d2 a u f i X1 Ka' Ia' Lf) by lia.
    pose proof (wf_count c W) as Cn. rewrite D1, E1.
    rewrite (ins_coef_knots _ _ _ _ _ _ _ (kf_ins _ _ _ _ L1)), (ins_coef_knots _ _ _ _ _ _ _ (kf_ins _ _ _ _ J1)).
    rewrite (ins_coef_ext _ _ (b + 1) v _ (ins_coef (kf (Knots c)) (Z.to_nat (Degree c)) a u (fun i => f (hp c i))) (len (ControlPoints c1)) i).
    - rewrite (ins_coef_ext _ _ a u (fun i => f (hp d1 i)) (ins_coef (kf (Knots c)) (Z.to_nat (Degree c)) b v (fun i => f (hp c i))) (len (ControlPoints d1)) i).
      + apply swap_coef; assumption.
      + intros q Hq. apply inserted_coef; assumption.
      + rewrite nn_of by lia. lia.
      + lia.
      + lia.
      + lia.
    - intros q Hq. apply inserted_coef; assumption.
    - rewrite nn_of by lia. lia.
    - lia.
    - lia.
    - lia. }
  destruct c2, d2. cbn in *. congruence.
Qed.
Lemma insert_one_swap c u v : wf_curve c -> (0 < u < 1)%R -> (0 < v < 1)%R ->
  (st <- insert_one (Degree c) (Knots c, ControlPoints c) u ;; insert_one (Degree c) st v)%outcome =
  (st <- insert_one (Degree c) (Knots c, ControlPoints c) v ;; insert_one (Degree c) st u)%outcome.
Proof.
  assert (forall u v, wf_curve c -> (0 < u < 1)%R -> (0 < v < 1)%R -> (u < v)%R ->
    (st <- insert_one (Degree c) (Knots c, ControlPoints c) u ;; insert_one (Degree c) st v)%outcome =
    (st <- insert_one (Degree c) (Knots c, ControlPoints c) v ;; insert_one (Degree c) st u)%outcome) as G.
  { clear u v. intros u v W Hu Hv L.
    destruct (insert_one_ok c u W Hu) as [c1 [a [E1 [Ka Ia]]]]. pose proof (inserted_wf _ _ _ _ W Ka Hu Ia) as W1. destruct (insert_one_ok c1 v W1 Hv) as [c2 [b' [E2 [Kb' Ib']]]].
    destruct (insert_one_ok c v W Hv) as [d1 [b [F1 [Kb Ib]]]]. pose proof (inserted_wf _ _ _ _ W Kb Hv Ib) as X1. destruct (insert_one_ok d1 u X1 Hu) as [d2 [a' [F2 [Ka' Ia']]]].
    rewrite E1, F1. cbn [bind]. assert (Degree c1 = Degree c) as D1 by apply Ia. assert (Degree d1 = Degree c) as D2 by apply Ib. rewrite D1 in E2. rewrite D2 in F2. rewrite E2, F2.
    rewrite (inserted_swap c c1 c2 d1 d2 a b a' b' u v W Hu Hv L Ka Ia Kb' Ib' Kb Ib Ka' Ia'). reflexivity. }
  intros W Hu Hv. destruct (Rtotal_order u v) as [L|[->|L]]; [apply G; assumption|reflexivity|symmetry; apply G; assumption].
Qed.
Lemma insert_perm us us' : Permutation us us' -> forall c, wf_curve c -> Forall (fun u => 0 < u < 1)%R us ->
  foldM (insert_one (Degree c)) us (Knots c, ControlPoints c) = foldM (insert_one (Degree c)) us' (Knots c, ControlPoints c).
Proof.
  induction 1 as [|u us us' P IH|u v us|l1 l2 l3 P1 IH1 P2 IH2]; intros c W F.
  - reflexivity.
  - inversion F; subst. cbn [foldM]. destruct (insert_one_ok c u W) as [c1 [a [E1 [Ka Ia]]]]; [assumption|]. rewrite E1. cbn [bind].
    assert (Degree c1 = Degree c) as D by apply Ia. rewrite <- D. apply IH; [|assumption]. apply (inserted_wf _ _ _ _ W Ka); assumption.
  - inversion F as [|? ? Hv F']; subst. inversion F' as [|? ? Hu F'']; subst. cbn [foldM]. pose proof (insert_one_swap c v u W Hv Hu) as S.
    destruct (insert_one (Degree c) (Knots c, ControlPoints c) u) as [s1| | | | |] eqn:A; destruct (insert_one (Degree c) (Knots c, ControlPoints c) v) as [s2| | | | |] eqn:A';
      cbn [bind] in *; try congruence; try (destruct (insert_one_ok c u W Hu) as [? [? [X _]]]; congruence); try (destruct (insert_one_ok c v W Hv) as [? [? [X _]]]; congruence).
  - rewrite IH1, IH2; auto. rewrite <- P1. exact F.
Qed.
Lemma insert_list_perm c us us' : wf_curve c -> Forall (fun u => 0 < u < 1)%R us -> Permutation us us' -> Curve_InsertKnot_list c us = Curve_InsertKnot_list c us'.
Proof. intros W F P. unfold Curve_InsertKnot_list. rewrite (insert_perm us us' P c W F). reflexivity. Qed.
