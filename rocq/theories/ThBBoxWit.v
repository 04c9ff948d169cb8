(** GetBoundingBox: statements and witnesses (C43). *)
From Coq Require Import Reals ZArith QArith List Lra Lia SpecFloat.
From Flocq Require Import Core IEEE754.BinarySingleNaN.
From Verif Require Import Outcome Num ModelCore ModelCurve SpecCore SpecBasis SpecCurve SpecSearch SpecBezier
  ThOutcome ThReal ThB64 ThKnots ThDecide ThCoreWit ThCurve ThCurveWit ThSearch ThBezier ThBezier2 ThBBox4 ThBBox5.
From Verif Require ThBBox ThBBox2.
Import ListNotations.
Open Scope Z_scope.

Lemma clamped_in p l t : clamped p l -> In t l -> (0 <= t <= 1)%R.
Proof.
  intros C Ht. apply (In_nth _ _ 0%R) in Ht. destruct Ht as [n [Ln <-]]. pose proof (cl_degree p l C). pose proof (cl_len p l C).
  replace n with (Z.to_nat (Z.of_nat n)) by apply Nat2Z.id. fold (at_ l (Z.of_nat n)).
  rewrite <- (cl_zero p l C 0) at 1 by lia. rewrite <- (cl_one p l C (len l - 1)) at 1 by lia.
  split; apply (cl_sorted p l C); unfold len in *; lia.
Qed.
Lemma C43_lemma c eps fuel box : wf_curve c -> 1 <= Degree c -> interior_multiplicity_le (Degree c) (Knots c) ->
  Curve_GetBoundingBox fuel c eps = Ok box ->
  ordered box /\ (forall t, In t (Knots c) -> exists q, Curve_Evaluate c t = Ok q /\ in_box q box) /\
  (unit_weights c ->
    (forall x q, Curve_Evaluate c x = Ok q -> above_box (Rmax eps (1 / 1000000)) box q) /\
    (forall D, (forall x q, Curve_Evaluate c x = Ok q -> in_box q D) -> box_incl box D)).
Proof.
  intros W Hp Im E. split; [|split].
  - destruct (leaves c eps fuel box W Hp Im E) as [segs [lss [_ [O _]]]]. exact O.
  - intros t Ht. exists (curve_point c t). split; [|apply (knots_in c eps fuel box W Hp Im E t Ht)].
    apply eval_ok; [exact W|]. apply (clamped_in _ _ _ (wf_knots c W) Ht).
  - intros Uc. split.
    + intros x q Ev. destruct (Rle_dec 0 x) as [X0|X0]; [destruct (Rle_dec x 1) as [X1|X1]|];
        [|rewrite Curve_Evaluate_outside in Ev by lra; discriminate|rewrite Curve_Evaluate_outside in Ev by lra; discriminate].
      rewrite eval_ok in Ev; [|exact W|split; assumption]. apply Ok_inj in Ev. subst q. rewrite <- lit_1e_6_R. change lit_1e_6 with ThBBox2.micro.
      pose proof (fun g => lower c eps fuel box W Hp Im E Uc x g (conj X0 X1)) as L. unfold above_box, ThBBox.axis in *.
      split; [|split]; apply L; auto.
    + intros D HD. apply (tight c eps fuel box W Hp Im E Uc). intros x Hx. apply (HD x). apply eval_ok; [exact W|exact Hx].
Qed.

Definition parabola64 : curve b64 :=
  Curve 2 [dz; dz; dz; done_; done_; done_] [pt 0 0 0 1; pt 1 10 0 1; pt 2 0 0 1].
Definition heavy64 : curve b64 :=
  Curve 2 [dz; dz; dz; done_; done_; done_] [pt 0 0 0 1; pt 1 (-10) 0 100; pt 2 0 0 1].
Definition far64 : curve b64 :=
  Curve 2 [dz; dz; dz; done_; done_; done_]
    (let A := dq (8589934592 # 1) in let A' := dq ((8589934592 * 524288 + 1) # 524288) in let A'' := dq ((8589934592 * 524288 + 2) # 524288) in
     [Vec4 A' A' dz done_; Vec4 A' A' dz done_; Vec4 A A'' dz done_]).
Definition val3 (q : vec3 b64) : vec3 R := Vec3 (val (x3 q)) (val (y3 q)) (val (z3 q)).
Definition box_val (b : bbox b64) : bbox R := BBox (val3 (Min b)) (val3 (Max b)).
Definition unitb (c : curve b64) : bool := forallb (fun q => SFeqb (w4 q) done_) (ControlPoints c) && forallb (fun q => finb (w4 q)) (ControlPoints c).
Lemma unitb_ok c : unitb c = true -> unit_weights (curve_val c).
Proof.
  unfold unitb. rewrite andb_true_iff, !forallb_forall. intros [E F]. apply Forall_forall. intros h Hh. apply in_map_iff in Hh.
  destruct Hh as [q [<- Hq]]. specialize (E q Hq). specialize (F q Hq). apply finb_spec in F.
  rewrite SFeqb_val in E by (assumption || apply finite_done). apply Reqb_true in E. rewrite val_done in E. exact E.
Qed.
Lemma lt64 a b : finb a && finb b && SFltb a b = true -> (val a < val b)%R.
Proof.
  rewrite !andb_true_iff. intros [[Fa Fb] L]. apply finb_spec in Fa. apply finb_spec in Fb. rewrite SFltb_val in L by assumption.
  apply Rltb_true in L. exact L.
Qed.
Lemma pos64 a : finb a && SFltb dz a = true -> finite64 a /\ (0 < val a)%R.
Proof.
  rewrite andb_true_iff. intros [Fa L]. apply finb_spec in Fa. split; [exact Fa|]. rewrite SFltb_val in L by (assumption || apply finite_dz).
  apply Rltb_true in L. rewrite val_dz in L. exact L.
Qed.
Lemma C43_upper_lemma : exists (c : curve b64) eps fuel box x q, wf_curve (curve_val c) /\ unit_weights (curve_val c) /\
  finite64 eps /\ (0 < val eps)%R /\ Curve_GetBoundingBox fuel c eps = Ok box /\ Curve_Evaluate c x = Ok q /\
  ~ in_box_enlarged (val eps) (box_val box) (val3 q).
Proof.
  exists parabola64, (dq (1 # 1024)), 1%nat. eexists. exists dhalf. eexists.
  split; [apply wf64_ok; vm_compute; reflexivity|]. split; [apply unitb_ok; vm_compute; reflexivity|].
  split; [apply pos64; vm_compute; reflexivity|]. split; [apply pos64; vm_compute; reflexivity|].
  split; [vm_compute; reflexivity|]. split; [vm_compute; reflexivity|].
  intros [_ [_ [H _]]]. cbn [box_val val3 Min Max x3 y3 z3] in H. fold dz in H. rewrite val_dz in H.
  match type of H with (val ?q <= _)%R => assert (val (dq (1 # 1024)) < val q)%R by (apply lt64; vm_compute; reflexivity) end. lra.
Qed.
Lemma C43_rational_lemma : exists (c : curve b64) eps fuel box x q, wf_curve (curve_val c) /\
  finite64 eps /\ (0 < val eps)%R /\ Curve_GetBoundingBox fuel c eps = Ok box /\ Curve_Evaluate c x = Ok q /\
  ~ above_box (val eps) (box_val box) (val3 q).
Proof.
  exists heavy64, done_, 1000%nat. eexists. exists dhalf. eexists.
  split; [apply wf64_ok; vm_compute; reflexivity|].
  split; [apply pos64; vm_compute; reflexivity|]. split; [apply pos64; vm_compute; reflexivity|].
  split; [vm_compute; reflexivity|]. split; [vm_compute; reflexivity|].
  intros [_ [H _]]. cbn [box_val val3 Min Max x3 y3 z3] in H. rewrite val_done in H. revert H.
  assert (E5 : val (S754_finite true 5629499534213120 (-50)) = (-5)%R).
  { unfold val, SF2R, Defs.F2R. cbn [Defs.Fnum Defs.Fexp SpecFloat.cond_Zopp Zaux.cond_Zopp Z.opp].
    unfold Raux.bpow. simpl Zaux.radix_val. change (Z.pow_pos 2 50) with 1125899906842624. rewrite ?opp_IZR. lra. }
  assert (E6 : val (S754_finite true 6755399441055744 (-50)) = (-6)%R).
  { unfold val, SF2R, Defs.F2R. cbn [Defs.Fnum Defs.Fexp SpecFloat.cond_Zopp Zaux.cond_Zopp Z.opp].
    unfold Raux.bpow. simpl Zaux.radix_val. change (Z.pow_pos 2 50) with 1125899906842624. rewrite ?opp_IZR. lra. }
  rewrite E5. intros H. match type of H with (_ <= val ?q)%R => assert (val q < val (S754_finite true 6755399441055744 (-50)))%R as L by (apply lt64; vm_compute; reflexivity) end.
  rewrite E6 in L. lra.
Qed.

(** rounding puts the left half back on its parent *)
Lemma far_stuck fuel : forall stack g, bbox_loop fuel 2 (dq (1 # 1000000)) (ControlPoints far64 :: stack) g = OutOfFuel.
Proof.
  induction fuel as [|fuel IH]; intros stack g; [reflexivity|]. cbn [bbox_loop].
  destruct (polygon_boxes (ControlPoints far64)) as [[cp ep]| | | | |] eqn:E; try (vm_compute in E; discriminate).
  cbn [bind]. assert (polygon_accept (dq (1 # 1000000)) cp ep = false) as A.
  { assert (Ok (cp, ep) = polygon_boxes (ControlPoints far64)) as E' by (symmetry; exact E). clear E.
    vm_compute in E'. injection E' as -> ->. vm_compute. reflexivity. }
  rewrite A. assert (exists R, subdivide 2 (ControlPoints far64) = Ok (ControlPoints far64, R)) as [R ->].
  { eexists. vm_compute. reflexivity. }
  cbn [bind]. apply IH.
Qed.
Lemma C43_endless_lemma : exists (c : curve b64) eps, wf_curve (curve_val c) /\ 1 <= Degree c /\ unit_weights (curve_val c) /\
  finite64 eps /\ (0 < val eps)%R /\ forall fuel, Curve_GetBoundingBox fuel c eps = OutOfFuel.
Proof.
  exists far64, (dq (1 # 1000000)).
  split; [apply wf64_ok; vm_compute; reflexivity|]. split; [cbn; lia|]. split; [apply unitb_ok; vm_compute; reflexivity|].
  split; [apply pos64; vm_compute; reflexivity|]. split; [apply pos64; vm_compute; reflexivity|]. intros fuel.
  unfold Curve_GetBoundingBox. assert (Curve_ExtractBezier far64 = Ok [far64]) as -> by (vm_compute; reflexivity).
  cbn [bind foldM]. change (Degree far64) with 2. rewrite far_stuck. reflexivity.
Qed.
