(** Degree elevation: witnesses (C40, C41, C52). *)
From Coq Require Import Reals ZArith QArith List Lra Lia Bool SpecFloat.
From Flocq Require Import Core IEEE754.BinarySingleNaN.
From Verif Require Import Outcome Num ModelCore ModelCurve ModelSurface SpecCore SpecCurve SpecSurface SpecBezier
  ThOutcome ThReal ThB64 ThKnots ThCoreWit ThDecide ThCurveWit ThSurfWit ThSurfRemove2 ThBBoxWit.
Import ListNotations.
Open Scope Z_scope.

Definition row64 (l : list Q) : list (vec4 b64) := map (fun q => pt q 0 0 1) l.
Definition four64 : curve b64 := Curve 1 (map dq [0; 0; 1 # 4; 1 # 2; 3 # 4; 1; 1]%Q) (row64 [0; 1; 0; 2; 1]%Q).
Definition jump64 : curve b64 := Curve 1 (map dq [0; 0; 1 # 2; 1 # 2; 1; 1]%Q) (row64 [0; 1; 5; 7]%Q).
Definition line64 : curve b64 := Curve 1 (map dq [0; 0; 1; 1]%Q) (row64 [0; 1]%Q).
Definition close64 : curve b64 := Curve 2 (map dq [0; 0; 0; 1 # 2; 1048577 # 2097152; 1; 1; 1]%Q) (row64 [0; 1; 5; -3; 4]%Q).
Definition const64 : curve b64 := Curve 0 (map dq [0; 1]%Q) (row64 [3]%Q).
Definition deg10 : curve b64 :=
  Curve 10 (map dq (repeat 0 11 ++ [1 # 2; 3 # 4; 3 # 4; 3 # 4] ++ repeat 1 11)%Q)
    (row64 [0; 10; 0; 10; 0; 10; 0; 10; 0; 10; 0; 10; 0; 10; 0]%Q).
Definition bent64 : curve b64 := Curve 1 (map dq [0; 0; 1 # 2; 1; 1]%Q) (row64 [0; 1; 3]%Q).

(** interior multiplicities, checked by computation *)
Definition multb (p : Z) (l : list b64) : bool :=
  (0 <=? p) && forallb finb l && forallb (fun k => negb (SFltb dz k && SFltb k done_) || (len (filter (fun y => SFeqb y k) l) <=? p)) l.
Lemma count_filter64 l k : all_finite l -> finite64 k -> count (val k) (vals l) = len (filter (fun y => SFeqb y k) l).
Proof.
  intros F Fk. induction F as [|y l Fy F IH]; [reflexivity|]. unfold count in *. cbn [vals map count_occ filter].
  rewrite SFeqb_val by assumption. fold (vals l). destruct (Req_EM_T (val y) (val k)) as [E|E].
  - rewrite (proj2 (Reqb_true _ _) E). unfold len in *. cbn [length]. lia.
  - rewrite (proj2 (Reqb_false _ _) E). exact IH.
Qed.
Lemma multb_ok p l : multb p l = true -> interior_multiplicity_le p (vals l).
Proof.
  unfold multb. rewrite !andb_true_iff, !forallb_forall. intros [[P0 F] H]. apply Z.leb_le in P0.
  assert (all_finite l) as Af by (apply Forall_forall; intros x Hx; apply finb_spec; apply F; exact Hx).
  intros x Hx. destruct (in_dec Req_EM_T x (vals l)) as [I|N].
  - apply in_map_iff in I. destruct I as [k [<- Hk]]. assert (finite64 k) as Fk by (apply finb_spec; apply F; exact Hk).
    specialize (H k Hk). rewrite !SFltb_val in H by (assumption || apply finite_dz || apply finite_done).
    rewrite val_dz, val_done in H. rewrite (proj2 (Rltb_true _ _) (proj1 Hx)), (proj2 (Rltb_true _ _) (proj2 Hx)) in H.
    apply Z.leb_le in H. rewrite count_filter64 by assumption. exact H.
  - apply (count_occ_not_In Req_EM_T) in N. unfold count. rewrite N.
    lia.
Qed.

Lemma C41_buffer_lemma : exists (c : curve b64) t, wf_curve (curve_val c) /\ 1 <= Degree c /\ 1 <= t /\
  interior_multiplicity_le (Degree c) (Knots (curve_val c)) /\ Curve_ElevateDegree c t = Undefined OutOfBounds.
Proof.
  exists four64, 2. split; [apply wf64_ok; vm_compute; reflexivity|]. split; [cbn; lia|]. split; [lia|].
  split; [apply multb_ok; vm_compute; reflexivity|]. vm_compute. reflexivity.
Qed.
Lemma C41_jump_lemma : exists c : curve b64, wf_curve (curve_val c) /\ 1 <= Degree c /\ Curve_ElevateDegree c 1 = Undefined OutOfBounds.
Proof. exists jump64. split; [apply wf64_ok; vm_compute; reflexivity|]. split; [cbn; lia|]. vm_compute. reflexivity. Qed.
Lemma C40_overflow_lemma : exists (c : curve b64) t, wf_curve (curve_val c) /\ Degree c = 1 /\ t = 29 /\
  interior_multiplicity_le (Degree c) (Knots (curve_val c)) /\ Curve_ElevateDegree c t = Undefined IntOverflow.
Proof.
  exists line64, 29. split; [apply wf64_ok; vm_compute; reflexivity|]. split; [reflexivity|]. split; [reflexivity|].
  split; [apply multb_ok; vm_compute; reflexivity|]. vm_compute. reflexivity.
Qed.
Lemma C40_degree_zero_lemma : exists c : curve b64, wf_curve (curve_val c) /\ Degree c = 0 /\ Curve_ElevateDegree c 1 = Throw LengthError.
Proof. exists const64. split; [apply wf64_ok; vm_compute; reflexivity|]. split; [reflexivity|]. vm_compute. reflexivity. Qed.
Lemma C40_close_lemma : exists (c : curve b64) d k, wf_curve (curve_val c) /\ 1 <= Degree c /\
  interior_multiplicity_le (Degree c) (Knots (curve_val c)) /\ Curve_ElevateDegree c 1 = Ok d /\
  In (val k) (Knots (curve_val c)) /\ ~ In (val k) (Knots (curve_val d)).
Proof.
  exists close64. eexists. exists (dq (1 # 2)%Q). split; [apply wf64_ok; vm_compute; reflexivity|]. split; [cbn; lia|].
  split; [apply multb_ok; vm_compute; reflexivity|]. split; [vm_compute; reflexivity|]. split.
  - unfold curve_val, close64, vals. cbn [Knots map]. do 3 right. left. reflexivity.
  - apply absentb_ok. vm_compute. reflexivity.
Qed.
Lemma C40_pattern_lemma : exists (c d : curve b64) x p q, wf_curve (curve_val c) /\ Degree c = 10 /\
  interior_multiplicity_le 3 (Knots (curve_val c)) /\ Curve_ElevateDegree c 1 = Ok d /\
  Curve_Evaluate c x = Ok p /\ Curve_Evaluate d x = Ok q /\ (val (x3 q) + 1 / 10 < val (x3 p))%R.
Proof.
  exists deg10. eexists. exists (dq (5 # 8)%Q). do 2 eexists. split; [apply wf64_ok; vm_compute; reflexivity|]. split; [reflexivity|].
  split; [apply multb_ok; vm_compute; reflexivity|]. split; [vm_compute; reflexivity|]. split; [vm_compute; reflexivity|]. split; [vm_compute; reflexivity|].
  cbn [x3]. unfold val, SF2R, Defs.F2R. cbn [Defs.Fnum Defs.Fexp cond_Zopp]. unfold Raux.bpow. simpl Zaux.radix_val.
  match goal with |- context [Z.pow_pos ?a ?b] => let r := eval vm_compute in (Z.pow_pos a b) in change (Z.pow_pos a b) with r end. lra.
Qed.
Lemma C52_two_spans_lemma : exists sU sV : surface b64, wf_surface (surface_val sU) /\ wf_surface (surface_val sV) /\
  interior_multiplicity_le (DegreeU sU) (KnotsU (surface_val sU)) /\ interior_multiplicity_le (DegreeV sV) (KnotsV (surface_val sV)) /\
  DegreeU sU = 1 /\ DegreeV sV = 1 /\ Surface_ElevateDegreeU sU 1 = AssertFail /\ Surface_ElevateDegreeV sV 1 = AssertFail.
Proof.
  exists (extrudeU bent64), (extrudeV bent64). split; [apply wf64s_ok; vm_compute; reflexivity|]. split; [apply wf64s_ok; vm_compute; reflexivity|].
  split; [apply multb_ok; vm_compute; reflexivity|]. split; [apply multb_ok; vm_compute; reflexivity|]. split; [reflexivity|]. split; [reflexivity|].
  split; vm_compute; reflexivity.
Qed.
