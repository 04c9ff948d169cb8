(** Witnesses for C87. *)
From Coq Require Import Reals ZArith List Lra Lia Bool Permutation SpecFloat.
From Verif Require Import Outcome Num ModelCore ModelAlgo ModelCurve SpecCore SpecBasis SpecCurve SpecSearch
  ThReal ThKnots ThSpline ThInsert ThRemove ThRemove2 ThRemove3 ThB64 ThCoreWit ThCurveWit ThDecide ThRemoveWit ThRemoveTol.
From Coq Require Import QArith Qreals.
From Flocq Require Import Core BinarySingleNaN.
Import ListNotations.
Open Scope Z_scope.

(** A tent whose knot may go at tolerance 1: the curve really moves. *)
Definition tent : curve R := Curve 1 [0;0;1/2;1;1]%R [Vec4 0 0 0 1; Vec4 1 (1/4) 0 1; Vec4 2 0 0 1]%R.
Lemma tent_wf : wf_curve tent.
Proof.
  constructor; cbn [Degree Knots ControlPoints tent].
  - constructor; try (unfold len; simpl; lia).
    + nondec.
    + intros i Hi. assert (i = 0 \/ i = 1) as [-> | ->] by lia; reflexivity.
    + unfold at_. simpl. lra.
    + unfold at_. simpl. lra.
    + change (len [0; 0; 1/2; 1; 1]%R) with 5. intros i Hi. assert (i = 3 \/ i = 4) as [-> | ->] by lia; reflexivity.
  - reflexivity.
  - unfold positive_weights. repeat (apply Forall_cons; [simpl; lra|]). apply Forall_nil.
Qed.
Ltac lz := lazy -[Rltb Rleb Reqb Rplus Rmult Rminus Ropp Rinv Rdiv IZR sqrt Rabs Rmin Rmax Q2R Rlt_dec Rle_dec Req_EM_T].
Lemma tent_count : count (1/2) (Knots tent) = 1.
Proof. unfold count, tent. cbn [Knots count_occ]. repeat match goal with |- context [Req_EM_T ?a ?b] => destruct (Req_EM_T a b); [try (exfalso; lra)|try (exfalso; lra)] end. reflexivity. Qed.
Lemma tent_sep : separated (1/2) (Knots tent).
Proof. apply separated_ex. simpl. intros v H. repeat destruct H as [<-|H]; try contradiction; lra. Qed.
Lemma tent_remove : exists c', Curve_RemoveKnot tent (1/2)%R 1 1%R = Ok (c', 1).
Proof.
  eexists. unfold Curve_RemoveKnot. 
  destruct (asserts_ok (1/2)%R 1 ltac:(lra) ltac:(lia)) as [A1 A2]. rewrite A1, A2. cbn [assert_ bind]. unfold KnotRemoval.
  assert (KnotVector_GetMultiplicity (Knots tent) (1/2)%R = 1) as ->.
  { rewrite GetMultiplicity_R. etransitivity; [apply filter_near_count; exact tent_sep|exact tent_count]. }
  assert (KnotVector_FindSpanIndex (Knots tent) (Degree tent) (1/2)%R = Ok 2) as ->.
  { destruct (span_find _ _ (1/2)%R (wf_knots _ tent_wf) ltac:(lra)) as [k [E K']]. rewrite E. f_equal. apply (span_unique _ _ k 2 _ (wf_knots _ tent_wf) K').
    split; [unfold len, tent; simpl; lia|unfold kf, at_, tent; simpl; lra]. }
  cbn [bind]. unfold tent. cbn [Degree Knots ControlPoints].
  assert (CalcTOL (map ToHomo [Vec4 0 0 0 1; Vec4 1 (1/4) 0 1; Vec4 2 0 0 1]%R) 1%R = Ok (1/3)%R) as ->.
  { lz. replace (0 * 1 * (0 * 1) + 0 * 1 * (0 * 1) + 0 * 1 * (0 * 1))%R with 0%R by ring. rewrite sqrt_0.
    replace (sqrt (2 * 1 * (2 * 1) + 0 * 1 * (0 * 1) + 0 * 1 * (0 * 1)))%R with 2%R by (symmetry; apply sqrt_lem_1; lra).
    assert (sqrt (1 * 1 * (1 * 1) + 1 / 4 * 1 * (1 / 4 * 1) + 0 * 1 * (0 * 1)) < 2)%R as S2.
    { apply Rlt_le_trans with (sqrt (2 * 2)); [apply sqrt_lt_1; lra|]. rewrite sqrt_square; lra. }
    set (s := sqrt (1 * 1 * (1 * 1) + 1 / 4 * 1 * (1 / 4 * 1) + 0 * 1 * (0 * 1))%R) in *.
    replace (Rltb 0 0) with false by (symmetry; apply Rltb_false; lra). cbv iota.
    replace (Rltb (if Rltb 0 s then s else 0) 2)%R with true by (symmetry; apply Rltb_true; destruct (Rltb 0 s); lra). cbv iota.
    replace (Rltb 1 (Q2R 1000000000000)) with true by (symmetry; apply Rltb_true; unfold Q2R; simpl; lra). cbv iota.
    replace (Rltb 1 1) with false by (symmetry; apply Rltb_false; lra). cbv iota.
    destruct (Req_EM_T (1 + 2) 0); [lra|]. f_equal. destruct (Rltb 1 1); lra. }
  lz. destruct (Req_EM_T (1 - 0) 0) as [Z|_]; [lra|]. cbv iota.
  match goal with |- context [Rltb (1/3) ?e] => replace (Rltb (1/3) e) with false end.
  - lz. destruct (Req_EM_T 1 0) as [Z|_]; [lra|]. reflexivity.
  - symmetry. apply Rltb_false. apply Rle_not_lt. apply Rle_trans with (sqrt (1/3 * (1/3))); [apply sqrt_le_1; lra|]. rewrite sqrt_square; lra.
Qed.
Lemma C87_ex_lemma : exists c', wf_curve tent /\ Forall (fun q => w4 q = 1%R) (ControlPoints tent) /\ (0 < 1/2 < 1)%R /\ separated (1/2) (Knots tent) /\
  1 <= 1 <= count (1/2) (Knots tent) /\ count (1/2) (Knots tent) <= Degree tent + 1 /\ 2 * 1 <= Degree tent + count (1/2) (Knots tent) /\ (0 <= 1)%R /\
  Curve_RemoveKnot tent (1/2)%R 1 1%R = Ok (c', 1) /\ In (Vec4 2 0 0 1)%R (ControlPoints tent) /\
  Forall (fun q => (dist3 (head3 q) (Vec3 0 0 0) <= 2)%R) (ControlPoints tent) /\ (IZR 1 * 1 < 1 + w4 (Vec4 2 0 0 1) * dist3 (head3 (Vec4 2 0 0 1)) (Vec3 0 0 0))%R.
Proof.
  destruct tent_remove as [c' E]. exists c'. rewrite tent_count. split; [exact tent_wf|]. split; [repeat constructor|]. split; [lra|]. split; [exact tent_sep|].
  split; [lia|]. split; [cbn; lia|]. split; [cbn; lia|]. split; [lra|]. split; [exact E|]. split; [right; right; left; reflexivity|]. split.
  - assert (forall v, (x4 v * x4 v + y4 v * y4 v + z4 v * z4 v <= 4)%R -> (dist3 (head3 v) (Vec3 0 0 0) <= 2)%R) as H.
    { intros v Hv. change (norm3 (head3 v) <= 2)%R. apply sq_le; [lra|]. rewrite norm3_sq. cbn [head3 x3 y3 z3]. lra. }
    unfold tent. cbn [ControlPoints]. repeat apply Forall_cons; try apply Forall_nil; apply H; cbn [x4 y4 z4]; lra.
  - change (IZR 1 * 1 < 1 + 1 * norm3 (head3 (Vec4 2 0 0 1)))%R. pose proof (norm3_sq (head3 (Vec4 2 0 0 1)%R)) as S. cbn [head3 x3 y3 z3 x4 y4 z4] in S.
    pose proof (norm3_pos (head3 (Vec4 2 0 0 1)%R)) as P. cbn [head3 x4 y4 z4] in *. nra.
Qed.

(** Tiny weights: the tolerance is compared with homogeneous norms, so the accepted
    error of a weight is large next to the weight itself. *)
Definition tiny64 : curve b64 :=
  Curve 1 [dz; dz; dhalf; done_; done_] [pt 1024 0 0 (1#1024); pt 512 0 0 (2#1024); pt 1024 0 0 (1#1024)].
Definition flat64 : curve b64 := Curve 1 [dz; dz; done_; done_] [pt 1024 0 0 (1#1024); pt 1024 0 0 (1#1024)].
Lemma C87_refuted_lemma : exists (c : curve b64) u tol c' x y y', wf_curve (curve_val c) /\ (0 < val u < 1)%R /\ (0 < val tol)%R /\ Degree c = 1 /\
  Curve_RemoveKnot c u 1 tol = Ok (c', 1) /\ Curve_Evaluate c x = Ok y /\ Curve_Evaluate c' x = Ok y' /\
  (256 * val tol <= Rabs (val (x3 y') - val (x3 y)))%R.
Proof.
  exists tiny64, dhalf, (dq 2), flat64, dhalf. do 2 eexists. split; [apply wf64_ok; vm_compute; reflexivity|].
  split; [apply innerb_ok; vm_compute; reflexivity|].
  assert (val (dq 2) = 2)%R as V2.
  { replace (dq 2) with (S754_finite false 4503599627370496 (-51)) by (vm_compute; reflexivity). unfold val, SF2R, Defs.F2R. simpl. lra. }
  split; [rewrite V2; lra|]. split; [reflexivity|].
  split; [vm_compute; reflexivity|]. split; [vm_compute; reflexivity|]. split; [vm_compute; reflexivity|].
  rewrite V2. cbn [x3]. unfold val, SF2R, Defs.F2R. simpl. unfold Rabs. destruct (Rcase_abs _); lra.
Qed.
