(** Witnesses for the searches. *)
From Coq Require Import Reals QArith ZArith List Lra Lia Bool SpecFloat.
From Verif Require Import Outcome Num ModelCore ModelBasis ModelCurve ModelSurface SpecCore SpecBasis SpecCurve SpecSurface SpecSearch
  ThReal ThB64 ThOutcome ThCurve ThGeom ThCoreWit ThCurveWit ThDecide ThSurfWit ThSurfRemove2 ThSearch ThSearch64.
Import ListNotations.
Open Scope Z_scope.

(** The straight line of length 10^200 towards a target at 10^308: the gradient overflows to
    infinity, the difference of two gradients is NaN, and the second step
    clamps NaN, which is no parameter. *)
Definition long64 : curve b64 :=
  Curve 1 [dz; dz; done_; done_] [Vec4 dz dz dz done_; Vec4 (b64_of_Z (10 ^ 200)) dz dz done_].
Lemma C44_refuted_lemma : exists (c : curve b64) P init eps mx, wf_curve (curve_val c) /\ in_unit init /\
  finite64 (x3 P) /\ finite64 (y3 P) /\ finite64 (z3 P) /\ finite64 eps /\
  Curve_SearchParameter 10 c P init eps mx = AssertFail /\
  (exists v : b64, neqb v v = false /\ nclamp v n0 n1 = v /\ Curve_Evaluate c v = AssertFail).
Proof.
  exists long64, (Vec3 (b64_of_Z (10 ^ 308)) dz dz), dhalf, (dq (1 # 1000)), (b64_of_Z 10).
  split; [apply wf64_ok; vm_compute; reflexivity|]. split; [split; vm_compute; reflexivity|].
  split; [split; vm_compute; reflexivity|]. split; [split; reflexivity|]. split; [split; reflexivity|].
  split; [split; vm_compute; reflexivity|]. split; [vm_compute; reflexivity|].
  exists S754_nan. split; [reflexivity|]. split; [reflexivity|]. vm_compute. reflexivity.
Qed.

Lemma line_dist c : wf_curve c -> (forall t, (0 <= t <= 1)%R -> Curve_Evaluate c t = Ok (lerp (Vec3 0 0 0) (Vec3 1 0 0) t)%R) ->
  forall a t, (0 <= t <= 1)%R -> dist3 (curve_point c t) (Vec3 a 0 0)%R = Rabs (t - a).
Proof.
  intros W E a t Ht. specialize (E t Ht). rewrite eval_ok in E by assumption. assert (Ep : curve_point c t = (lerp (Vec3 0 0 0) (Vec3 1 0 0) t)%R) by congruence. rewrite Ep.
  unfold dist3, lerp. cbn [x3 y3 z3]. rewrite <- sqrt_Rsqr_abs. f_equal. unfold Rsqr. ring.
Qed.
Lemma line_unimodal c a : wf_curve c -> (forall t, (0 <= t <= 1)%R -> Curve_Evaluate c t = Ok (lerp (Vec3 0 0 0) (Vec3 1 0 0) t)%R) ->
  (0 <= a <= 1)%R -> strictly_unimodal (fun t => dist3 (curve_point c t) (Vec3 a 0 0)%R) a.
Proof.
  intros W E Ha. split; [exact Ha|]. split; intros x y H1 H2 H3; rewrite !line_dist by (auto; lra).
  - rewrite !Rabs_left1 by lra. lra.
  - rewrite !Rabs_right by lra. lra.
Qed.
Lemma line_segment : exists c, wf_curve c /\ Degree c = 1 /\ forall t, (0 <= t <= 1)%R -> Curve_Evaluate c t = Ok (lerp (Vec3 0 0 0) (Vec3 1 0 0) t)%R.
Proof.
  destruct (C55_lemma 1 2 (Vec3 0 0 0)%R (Vec3 1 0 0)%R ltac:(lia) ltac:(lia)) as [c [_ [W [D [_ [_ [_ [_ E]]]]]]]].
  exists c. split; [exact W|]. split; [exact D|]. apply E. reflexivity.
Qed.
Lemma C45_refuted_lemma : exists (c : curve R) P m mx u, wf_curve c /\ strictly_unimodal (fun x => dist3 (curve_point c x) P) m /\ 0 <= mx /\
  Curve_BinarySearchParameter c P 0%R mx = Ok u /\
  ~ (dist3 (curve_point c u) P <= 0 \/ Rabs (u - m) <= Rmax 0 ((1 / 2) ^ (Z.to_nat mx + 1)))%R.
Proof.
  destruct line_segment as [c [W [_ E]]]. exists c, (Vec3 0 0 0)%R, 0%R, 1, (1 / 2)%R.
  split; [exact W|]. split; [apply line_unimodal; auto; lra|]. split; [lia|].
  split; [apply C45_zero_lemma; exact W|]. rewrite line_dist by (auto; lra).
  change (Z.to_nat 1 + 1)%nat with 2%nat. cbn [pow]. rewrite Rabs_right by lra.
  unfold Rmax. destruct (Rle_dec _ _); lra.
Qed.
Lemma C45_ex_lemma : exists c : curve R, wf_curve c /\ strictly_unimodal (fun x => dist3 (curve_point c x) (Vec3 (1/3) 0 0)%R) (1/3)%R.
Proof. destruct line_segment as [c [W [_ E]]]. exists c. split; [exact W|]. apply line_unimodal; auto; lra. Qed.

(** The unit square in the plane z = 0. *)
Definition square64 : surface b64 :=
  Surface 1 1 [dz; dz; done_; done_] [dz; dz; done_; done_]
    (Grid 2 2 [Vec4 dz dz dz done_; Vec4 done_ dz dz done_; Vec4 dz done_ dz done_; Vec4 done_ done_ dz done_]).
Definition long64s : surface b64 :=
  Surface 1 1 [dz; dz; done_; done_] [dz; dz; done_; done_]
    (Grid 2 2 [Vec4 dz dz dz done_; Vec4 (b64_of_Z (10 ^ 200)) dz dz done_;
               Vec4 dz done_ dz done_; Vec4 (b64_of_Z (10 ^ 200)) done_ dz done_]).
Lemma C54_early_lemma : exists (s : surface b64) P k eps mx n u v q, wf_surface (surface_val s) /\ in_unit k /\ finite64 eps /\ (0 <= val eps)%R /\
  nltb (nofZ (Z.of_nat n)) mx = true /\ Surface_BinarySearchParameterOn n s P 0 k eps mx = Ok (u, v) /\
  Surface_Evaluate s u v = Ok q /\ nltb (v3norm (v3sub q P)) eps = false /\ v3norm (v3sub q P) = b64_of_Z 100.
Proof.
  exists square64, (Vec3 dhalf dhalf (b64_of_Z 100)), dhalf, (b64_of_Z 2), (b64_of_Z 50), 1%nat. do 3 eexists.
  split; [apply wf64s_ok; vm_compute; reflexivity|]. split; [split; vm_compute; reflexivity|].
  split; [apply (proj1 two_b64)|]. split; [change (b64_of_Z 2) with (nofZ 2 : b64); rewrite (proj2 two_b64); lra|].
  split; [vm_compute; reflexivity|]. split; [vm_compute; reflexivity|]. split; [vm_compute; reflexivity|].
  split; vm_compute; reflexivity.
Qed.
Lemma C54_refuted_lemma : exists (s : surface b64) P a b eps mx, wf_surface (surface_val s) /\ in_unit a /\ in_unit b /\
  finite64 (x3 P) /\ finite64 (y3 P) /\ finite64 (z3 P) /\ finite64 eps /\
  Surface_SearchParameter 10 s P a b eps mx = AssertFail /\ Surface_SearchParameterOn 10 s P 1 b a eps mx = AssertFail.
Proof.
  exists long64s, (Vec3 (b64_of_Z (10 ^ 308)) dz dz), dhalf, dhalf, (dq (1 # 1000)), (b64_of_Z 10).
  split; [apply wf64s_ok; vm_compute; reflexivity|]. split; [split; vm_compute; reflexivity|]. split; [split; vm_compute; reflexivity|].
  split; [split; vm_compute; reflexivity|]. split; [split; reflexivity|]. split; [split; reflexivity|].
  split; [split; vm_compute; reflexivity|]. split; [vm_compute; reflexivity|]. vm_compute. reflexivity.
Qed.
