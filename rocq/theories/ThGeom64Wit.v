(** Witnesses for C101 and C102. *)
From Coq Require Import Reals QArith ZArith List Lra Lia Bool SpecFloat.
From Verif Require Import Outcome Num ModelCore ModelBasis ModelCurve ModelSurface SpecCore SpecErr SpecBox64 SpecGeom64
  ThReal ThB64 ThCoreWit ThDecide ThBBoxWit ThAlignWit ThErrWit ThGeom ThUniform64 ThGeom64.
Import ListNotations.
Open Scope Z_scope.

Definition v3d (x y z : Q) : vec3 b64 := Vec3 (dq x) (dq y) (dq z).
Lemma v_m5 : val (dq (-5)) = (-5)%R. Proof. val_one. Qed.
Definition coord5b (x : b64) : bool := finb x && SFleb (dq (-5)) x && SFleb x (dq 5).
Lemma coord5_ok x : coord5b x = true -> coord_ok 5 x.
Proof.
  unfold coord5b. rewrite !andb_true_iff. intros [[F L1] L2]. apply finb_spec in F. split; [exact F|].
  rewrite SFleb_val, v_m5 in L1 by (try exact F; apply finb_spec; reflexivity). rewrite SFleb_val, v_5 in L2 by (try exact F; apply finb_spec; reflexivity).
  apply Rabs_le. destruct (Rleb_spec (-5) (val x)); [|discriminate]. destruct (Rleb_spec (val x) 5); [|discriminate]. lra.
Qed.
Lemma small5 a : coord5b (x3 a) && coord5b (y3 a) && coord5b (z3 a) = true -> small3 5 a.
Proof. rewrite !andb_true_iff. intros [[A B] C]. repeat split; apply coord5_ok; assumption. Qed.
Lemma val_neq x y : finb x = true -> finb y = true -> SFeqb x y = false -> val x <> val y.
Proof. intros A B E. apply finb_spec in A, B. rewrite SFeqb_val in E by assumption. destruct (Reqb_spec (val x) (val y)); [discriminate|assumption]. Qed.

Definition seg_a : vec3 b64 := v3d 1 2 (-3).
Definition seg_b : vec3 b64 := v3d (1 # 1152921504606846976) (1 # 3) 5.
Definition seg_d : vec3 b64 := v3d (-4) (1 # 10) 0.
Lemma seg_small : small3 5 seg_a /\ small3 5 seg_b /\ small3 5 seg_d.
Proof. split; [|split]; apply small5; vm_compute; reflexivity. Qed.
Lemma C101_end_lemma : exists (a b : vec3 b64) c q, small3 5 a /\ small3 5 b /\ GeomSegment_GetCurve 1 2 a b = Ok c /\
  Curve_Evaluate c (dq 1) = Ok q /\ val3 q <> val3 b.
Proof.
  exists seg_a, seg_b. eexists _, _. split; [apply seg_small|]. split; [apply seg_small|]. split; [vm_compute; reflexivity|]. split; [vm_compute; reflexivity|].
  intros E. apply (f_equal x3) in E. revert E. apply val_neq; vm_compute; reflexivity.
Qed.
Definition huge (s : bool) : b64 := S754_finite s 6755399441055744 971.
Lemma C101_overflow_lemma : exists (a b : vec3 b64) c q, finite3 a /\ finite3 b /\ GeomSegment_GetCurve 1 2 a b = Ok c /\
  Curve_Evaluate c (dq 0) = Ok q /\ x3 q = S754_nan.
Proof.
  exists (Vec3 (huge true) (dq 0) (dq 0)), (Vec3 (huge false) (dq 0) (dq 0)). eexists _, _.
  split; [repeat split|]. split; [repeat split|]. split; [vm_compute; reflexivity|]. split; vm_compute; reflexivity.
Qed.
Lemma C102_end_lemma : exists (a b d e : vec3 b64) s q, small3 5 a /\ small3 5 b /\ small3 5 d /\ val3 e = lerp2 (val3 a) (val3 b) (val3 d) 1 1 /\
  GeomRect_GetSurface 1 1 2 2 a b d e = Ok s /\ Surface_Evaluate s (dq 1) (dq 0) = Ok q /\ val3 q <> val3 b.
Proof.
  exists seg_a, seg_b, seg_a, seg_b. eexists _, _. split; [apply seg_small|]. split; [apply seg_small|]. split; [apply seg_small|].
  split; [unfold lerp2; destruct (val3 seg_a) as [a1 a2 a3], (val3 seg_b) as [b1 b2 b3]; cbn [x3 y3 z3]; f_equal; ring|].
  split; [vm_compute; reflexivity|]. split; [vm_compute; reflexivity|].
  intros E. apply (f_equal x3) in E. revert E. apply val_neq; vm_compute; reflexivity.
Qed.
