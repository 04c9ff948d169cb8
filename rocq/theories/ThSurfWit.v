(** Combined statements and witnesses for surfaces. *)
From Coq Require Import Reals ZArith List Lra Lia Bool Permutation SpecFloat.
From Verif Require Import Outcome Num ModelCore ModelBasis ModelCurve ModelSurface SpecCore SpecBasis SpecCurve SpecSurface
  ThOutcome ThReal ThKnots ThGrid ThVec ThSum ThSpline ThBasis ThCurve ThInsert ThB64 ThCoreWit ThCurveWit ThSurface ThSurface2.
Import ListNotations.
Open Scope Z_scope.

(** ** C46-C48 *)
Lemma C46_lemma s u v : wf_surface s ->
  ((0 <= u <= 1)%R /\ (0 <= v <= 1)%R -> (0 < surf_den s u v)%R /\ Surface_Evaluate s u v = Ok (surf_point s u v)) /\
  (~ ((0 <= u <= 1)%R /\ (0 <= v <= 1)%R) -> Surface_Evaluate s u v = AssertFail).
Proof.
  intros W. split.
  - intros [Hu Hv]. split; [apply surf_den_pos; assumption|apply Surface_Evaluate_ok; assumption].
  - apply Surface_Evaluate_outside.
Qed.
Lemma C46_corners_lemma s : wf_surface s ->
  Surface_Evaluate s 0%R 0%R = Ok (point3 (gp s 0 0)) /\
  Surface_Evaluate s 1%R 0%R = Ok (point3 (gp s (UCount (Net s) - 1) 0)) /\
  Surface_Evaluate s 0%R 1%R = Ok (point3 (gp s 0 (VCount (Net s) - 1))) /\
  Surface_Evaluate s 1%R 1%R = Ok (point3 (gp s (UCount (Net s) - 1) (VCount (Net s) - 1))).
Proof.
  intros W. rewrite !Surface_Evaluate_ok by (auto; lra).
  pose proof (surf_corner s false false W). pose proof (surf_corner s true false W).
  pose proof (surf_corner s false true W). pose proof (surf_corner s true true W). unfold corner, bit in *.
  repeat split; congruence.
Qed.
Lemma evaluate_inv s u v q : wf_surface s -> Surface_Evaluate s u v = Ok q ->
  (0 <= u <= 1)%R /\ (0 <= v <= 1)%R /\ q = surf_point s u v.
Proof.
  intros W E. destruct (Rle_dec 0 u) as [A|A]; [destruct (Rle_dec u 1) as [A'|A'];
    [destruct (Rle_dec 0 v) as [B|B]; [destruct (Rle_dec v 1) as [B'|B']|]|]|];
    try (rewrite Surface_Evaluate_outside in E by lra; discriminate).
  rewrite Surface_Evaluate_ok in E by auto. inversion E. auto.
Qed.
Lemma C47_lemma s u v a b d e q : wf_surface s ->
  (forall i j, 0 <= i < UCount (Net s) -> 0 <= j < VCount (Net s) -> basis_uv s i j u v <> 0%R ->
     (a * x4 (gp s i j) + b * y4 (gp s i j) + d * z4 (gp s i j) <= e)%R) ->
  Surface_Evaluate s u v = Ok q -> (a * x3 q + b * y3 q + d * z3 q <= e)%R.
Proof. intros W H E. destruct (evaluate_inv s u v q W E) as [Hu [Hv ->]]. apply surf_half_space; auto. Qed.
Lemma gp_In s i j : wf_surface s -> 0 <= i < UCount (Net s) -> 0 <= j < VCount (Net s) -> In (gp s i j) (Values (Net s)).
Proof.
  intros W Hi Hj. apply (znth_In (Vec4 0 0 0 1)%R). rewrite (ws_values s W), (Z.mul_comm (UCount (Net s))). apply idx_range; assumption.
Qed.
Lemma C47_box_lemma s u v (b : bbox R) q : wf_surface s -> Forall (fun p => in_box (point3 p) b) (Values (Net s)) ->
  Surface_Evaluate s u v = Ok q -> in_box q b.
Proof.
  intros W F E.
  assert (forall i j, 0 <= i < UCount (Net s) -> 0 <= j < VCount (Net s) -> in_box (point3 (gp s i j)) b) as G.
  { intros i j Hi Hj. rewrite Forall_forall in F. apply F. apply gp_In; assumption. }
  unfold in_box, le3, point3 in *. simpl in *.
  pose proof (C47_lemma s u v (-1) 0 0 (- x3 (Min b)) q W). pose proof (C47_lemma s u v 1 0 0 (x3 (Max b)) q W).
  pose proof (C47_lemma s u v 0 (-1) 0 (- y3 (Min b)) q W). pose proof (C47_lemma s u v 0 1 0 (y3 (Max b)) q W).
  pose proof (C47_lemma s u v 0 0 (-1) (- z3 (Min b)) q W). pose proof (C47_lemma s u v 0 0 1 (z3 (Max b)) q W).
  repeat match goal with
  | Q : (_ -> Surface_Evaluate s u v = Ok q -> _) |- _ =>
      specialize (Q ltac:(intros i j Hi Hj _; specialize (G i j Hi Hj); lra) E)
  end.
  lra.
Qed.
Lemma C48_lemma s m u v q : wf_surface s -> Surface_Evaluate s u v = Ok q ->
  Surface_Evaluate (Surface_Transform s m) u v = Ok (mat_apply m q) /\
  wf_surface (Surface_Transform s m) /\
  DegreeU (Surface_Transform s m) = DegreeU s /\ DegreeV (Surface_Transform s m) = DegreeV s /\
  KnotsU (Surface_Transform s m) = KnotsU s /\ KnotsV (Surface_Transform s m) = KnotsV s /\
  map w4 (Values (Net (Surface_Transform s m))) = map w4 (Values (Net s)).
Proof.
  intros W E. destruct (evaluate_inv s u v q W E) as [Hu [Hv ->]]. pose proof (stransform_wf s m W) as W'.
  split; [rewrite Surface_Evaluate_ok by auto; rewrite stransform_point by auto; reflexivity|].
  repeat split; try apply W'. simpl. rewrite map_map. apply map_ext. reflexivity.
Qed.

(** ** C50 *)
Lemma insertedU_refines s s' k u : wf_surface s -> knot_span (DegreeU s) (KnotsU s) k u -> (0 < u < 1)%R -> insertedU s s' k u ->
  refinesU s s' [u].
Proof.
  intros W K Hu I. pose proof (insertedU_wf s s' k u W K Hu I) as W'.
  assert (forall x y, Surface_Evaluate s' x y = Surface_Evaluate s x y) as E.
  { apply hsurf_same; auto. intros. apply (insertedU_hsurf s s' k u); assumption. }
  destruct I as [D1 [D2 [Ek [I G]]]]. repeat split; try apply W'; auto.
  - apply (ins_list_perm _ _ _ _ _ (ws_knotsU s W) K I).
  - apply G.
  - apply G.
Qed.
Lemma insertedV_refines s s' k u : wf_surface s -> knot_span (DegreeV s) (KnotsV s) k u -> (0 < u < 1)%R -> insertedV s s' k u ->
  refinesV s s' [u].
Proof.
  intros W K Hu I. pose proof (insertedV_wf s s' k u W K Hu I) as W'.
  assert (forall x y, Surface_Evaluate s' x y = Surface_Evaluate s x y) as E.
  { apply hsurf_same; auto. intros. apply (insertedV_hsurf s s' k u); assumption. }
  destruct I as [D1 [D2 [Ek [I G]]]]. repeat split; try apply W'; auto.
  - apply (ins_list_perm _ _ _ _ _ (ws_knotsV s W) K I).
  - apply G.
  - apply G.
Qed.
Lemma refinesU_nil s : wf_surface s -> refinesU s s [].
Proof. intros W. repeat split; auto; try apply W; change (len (@nil R)) with 0; lia. Qed.
Lemma refinesV_nil s : wf_surface s -> refinesV s s [].
Proof. intros W. repeat split; auto; try apply W; change (len (@nil R)) with 0; lia. Qed.
Lemma refinesU_trans c d e us vs : refinesU c d us -> refinesU d e vs -> refinesU c e (us ++ vs).
Proof.
  intros [W1 [A1 [B1 [P1 [K1 [L1 [M1 E1]]]]]]] [W2 [A2 [B2 [P2 [K2 [L2 [M2 E2]]]]]]]. split; [exact W2|].
  split; [congruence|]. split; [congruence|]. split.
  - rewrite P2, P1. rewrite !app_assoc. apply Permutation_app_tail. apply Permutation_app_comm.
  - split; [congruence|]. split; [rewrite len_app; lia|]. split; [congruence|]. intros x y. rewrite E2. apply E1.
Qed.
Lemma refinesV_trans c d e us vs : refinesV c d us -> refinesV d e vs -> refinesV c e (us ++ vs).
Proof.
  intros [W1 [A1 [B1 [K1 [P1 [L1 [M1 E1]]]]]]] [W2 [A2 [B2 [K2 [P2 [L2 [M2 E2]]]]]]]. split; [exact W2|].
  split; [congruence|]. split; [congruence|]. split; [congruence|]. split.
  - rewrite P2, P1. rewrite !app_assoc. apply Permutation_app_tail. apply Permutation_app_comm.
  - split; [congruence|]. split; [rewrite len_app; lia|]. intros x y. rewrite E2. apply E1.
Qed.
Lemma C50_U_lemma jk s us : wf_surface s -> 1 <= DegreeU s -> Forall (fun u => 0 < u < 1)%R us ->
  exists s', Surface_InsertKnotU_list jk s us = Ok s' /\ refinesU s s' us.
Proof.
  intros W D F. revert s W D. induction us as [|u us IH]; intros s W D.
  - exists s. split; [reflexivity|apply refinesU_nil; exact W].
  - inversion F as [|? ? Hu F']; subst. destruct (Surface_InsertKnotU_ok jk s u W D Hu) as [s1 [k [E [K I]]]].
    pose proof (insertedU_refines s s1 k u W K Hu I) as R1. pose proof R1 as [W1 [D1 _]].
    destruct (IH F' s1 W1 ltac:(lia)) as [s2 [E2 R2]]. exists s2.
    split; [unfold Surface_InsertKnotU_list; cbn [foldM]; rewrite E; exact E2|].
    change (u :: us) with ([u] ++ us). eapply refinesU_trans; eassumption.
Qed.
Lemma C50_V_lemma s us : wf_surface s -> 1 <= DegreeV s -> Forall (fun u => 0 < u < 1)%R us ->
  exists s', Surface_InsertKnotV_list s us = Ok s' /\ refinesV s s' us.
Proof.
  intros W D F. revert s W D. induction us as [|u us IH]; intros s W D.
  - exists s. split; [reflexivity|apply refinesV_nil; exact W].
  - inversion F as [|? ? Hu F']; subst. destruct (Surface_InsertKnotV_ok s u W D Hu) as [s1 [k [E [K I]]]].
    pose proof (insertedV_refines s s1 k u W K Hu I) as R1. pose proof R1 as [W1 [_ [D1 _]]].
    destruct (IH F' s1 W1 ltac:(lia)) as [s2 [E2 R2]]. exists s2.
    split; [unfold Surface_InsertKnotV_list; cbn [foldM]; rewrite E; exact E2|].
    change (u :: us) with ([u] ++ us). eapply refinesV_trans; eassumption.
Qed.
Lemma C50_single_lemma jk s u : wf_surface s -> 1 <= DegreeU s -> 1 <= DegreeV s ->
  ((0 < u < 1)%R -> (exists s', Surface_InsertKnotU jk s u = Ok s' /\ refinesU s s' [u]) /\
     (exists s', Surface_InsertKnotV s u = Ok s' /\ refinesV s s' [u])) /\
  (~ (0 < u < 1)%R -> Surface_InsertKnotU jk s u = AssertFail /\ Surface_InsertKnotV s u = AssertFail).
Proof.
  intros W DU DV. split.
  - intros Hu. split.
    + destruct (Surface_InsertKnotU_ok jk s u W DU Hu) as [s1 [k [E [K I]]]]. exists s1. split; [exact E|].
      apply (insertedU_refines s s1 k u); assumption.
    + destruct (Surface_InsertKnotV_ok s u W DV Hu) as [s1 [k [E [K I]]]]. exists s1. split; [exact E|].
      apply (insertedV_refines s s1 k u); assumption.
  - intros Hu. unfold Surface_InsertKnotU, Surface_InsertKnotV. rewrite !kv_InsertKnot_assert by exact Hu. auto.
Qed.
Lemma C50_times_lemma jk s u n : wf_surface s -> 1 <= DegreeU s -> 1 <= DegreeV s -> (0 < u < 1)%R -> 0 <= n ->
  (exists s', Surface_InsertKnotU_times jk s u n = Ok s' /\ refinesU s s' (repeat u (Z.to_nat n))) /\
  (exists s', Surface_InsertKnotV_times s u n = Ok s' /\ refinesV s s' (repeat u (Z.to_nat n))).
Proof.
  intros W DU DV Hu Hn. unfold Surface_InsertKnotU_times, Surface_InsertKnotV_times. rewrite vmake_ok by exact Hn. cbn [bind].
  assert (Forall (fun u => 0 < u < 1)%R (repeat u (Z.to_nat n))) as F.
  { apply Forall_forall. intros q Hq. apply repeat_spec in Hq. subst. exact Hu. }
  split; [apply C50_U_lemma|apply C50_V_lemma]; assumption.
Qed.

(** ** Witnesses *)
Definition surf_ex : surface R :=
  Surface 2 1 [0; 0; 0; 1/3; 1/2; 1/2; 1; 1; 1]%R [0; 0; 1/2; 1; 1]%R
    (Grid 6 3 [Vec4 0 0 0 1; Vec4 1 0 0 2; Vec4 2 0 1 1; Vec4 3 0 0 (1/2); Vec4 4 0 0 1; Vec4 5 0 1 1;
               Vec4 0 1 0 1; Vec4 1 1 0 3; Vec4 2 1 2 1; Vec4 3 1 0 (1/2); Vec4 4 1 0 1; Vec4 5 1 1 1;
               Vec4 0 2 0 1; Vec4 1 2 0 2; Vec4 2 2 1 1; Vec4 3 2 0 (1/4); Vec4 4 2 0 1; Vec4 5 2 1 1]%R).
Lemma clamped_ex1 : clamped 1 [0; 0; 1/2; 1; 1]%R.
Proof.
  constructor; try (unfold len; simpl; lia).
  - nondec.
  - intros i Hi. assert (i = 0 \/ i = 1) as [-> | ->] by lia; reflexivity.
  - unfold at_. simpl. lra.
  - unfold at_. simpl. lra.
  - change (len [0; 0; 1/2; 1; 1]%R) with 5. intros i Hi. assert (i = 3 \/ i = 4) as [-> | ->] by lia; reflexivity.
Qed.
Lemma surf_ex_wf : wf_surface surf_ex.
Proof.
  constructor; try reflexivity.
  - exact clamped_ex.
  - exact clamped_ex1.
  - unfold positive_weights, surf_ex. cbn [Net Values]. repeat (apply Forall_cons; [simpl; lra|]). apply Forall_nil.
Qed.
(** a surface of degree 0 in both directions *)
Definition point64s : surface b64 :=
  Surface 0 0 [dz; done_] [dz; done_] (Grid 1 1 [Vec4 done_ done_ dz done_]).
Definition surface_val (s : surface b64) : surface R :=
  Surface (DegreeU s) (DegreeV s) (vals (KnotsU s)) (vals (KnotsV s))
    (Grid (UCount (Net s)) (VCount (Net s)) (map val4 (Values (Net s)))).
Lemma point64s_wf : wf_surface (surface_val point64s).
Proof.
  pose proof point64_wf as [C _ W]. constructor; try reflexivity; assumption.
Qed.
Lemma C50_refuted_lemma : exists (s : surface b64) k sU sV qU qV, wf_surface (surface_val s) /\
  DegreeU s = 0 /\ DegreeV s = 0 /\ (0 < val k < 1)%R /\
  Surface_Evaluate s dz dz = Ok (Vec3 done_ done_ dz) /\
  Surface_InsertKnotU v4zero s k = Ok sU /\ Surface_Evaluate sU dz dz = Ok qU /\ nan3 qU /\
  Surface_InsertKnotV s k = Ok sV /\ Surface_Evaluate sV dz dz = Ok qV /\ nan3 qV.
Proof.
  exists point64s, dhalf. eexists _, _, _, _. split; [exact point64s_wf|]. split; [reflexivity|]. split; [reflexivity|].
  split; [rewrite val_dhalf; lra|].
  split; [vm_compute; reflexivity|]. split; [vm_compute; reflexivity|]. split; [vm_compute; reflexivity|].
  split; [repeat split|]. split; [vm_compute; reflexivity|]. split; [vm_compute; reflexivity|]. repeat split.
Qed.
