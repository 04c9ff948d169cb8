(** Combined statements and witnesses for basis functions, curve evaluation and
    knot insertion. *)
From Coq Require Import Reals ZArith List Lra Lia Bool Permutation SpecFloat.
From Verif Require Import Outcome Num ModelCore ModelBasis ModelCurve SpecCore SpecBasis SpecCurve
  ThOutcome ThReal ThKnots ThVec ThSum ThSpline ThBasis ThCurve ThInsert ThB64 ThCoreWit.
Import ListNotations.
Open Scope Z_scope.

(** ** C14, C15 *)
Lemma C14_lemma p l x : clamped p l -> (0 <= x <= 1)%R ->
  exists i res, Basis_Evaluate_kv p l x = Ok res /\ in_span l i x /\ p <= i <= len l - p - 2 /\ len res = p + 1 /\
    (forall r, 0 <= r <= p -> nth_error res (Z.to_nat r) = Some (N (kf l) (Z.to_nat p) (i - p + r) x)) /\
    (forall k, ~ (i - p <= k <= i) -> N (kf l) (Z.to_nat p) k x = 0%R).
Proof.
  intros C Hx. destruct (Basis_Evaluate_N p l x C Hx) as [i [res [E1 [E2 [E3 [Hi [S [Lr [G Z0]]]]]]]]].
  exists i, res. split; [exact E2|]. split; [|split; [exact Hi|split; [exact Lr|split; [|exact Z0]]]].
  - destruct (FindSpanIndex_R p l x C Hx) as [i' [E' [_ S']]]. rewrite E1 in E'. congruence.
  - intros r Hr. specialize (G r Hr). unfold vget in G. destruct (Z.ltb_spec r 0); [lia|].
    destruct (nth_error res (Z.to_nat r)); congruence.
Qed.
Lemma fold_zsum l : fold_right Rplus 0%R l = zsum 0 (len l) (fun i => nth (Z.to_nat i) l 0%R).
Proof.
  induction l as [|a l IH]; [reflexivity|]. pose proof (len_nonneg l). rewrite len_cons, zsum_first by lia. simpl fold_right. f_equal.
  rewrite IH, (zsum_shift 0 (len l) 1). apply zsum_ext. intros i Hi.
  replace (Z.to_nat i) with (S (Z.to_nat (i - 1))) by lia. reflexivity.
Qed.
Lemma C15_lemma p l x res : clamped p l -> (0 <= x <= 1)%R -> Basis_Evaluate_kv p l x = Ok res ->
  Forall (fun b => 0 <= b <= 1)%R res /\ fold_right Rplus 0%R res = 1%R.
Proof.
  intros C Hx E. destruct (Basis_Evaluate_N p l x C Hx) as [i [res' [E1 [E2 [E3 [Hi [S [Lr [G Z0]]]]]]]]].
  rewrite E in E2. inversion E2; subst res'. pose proof (cl_degree p l C) as P0.
  assert (fold_right Rplus 0%R res = 1%R) as Sum.
  { rewrite fold_zsum. rewrite <- (basis_sum p l x C Hx).
    rewrite (zsum_support 0 (len l - p - 1) (i - p) (i + 1)); try lia.
    - rewrite (zsum_shift 0 (len res) (i - p)). replace (0 + (i - p)) with (i - p) by lia.
      replace (len res + (i - p)) with (i + 1) by lia. apply zsum_ext. intros r Hr.
      specialize (G (r - (i - p)) ltac:(lia)). apply (vget_inv 0%R) in G. destruct G as [_ G]. unfold znth in G. rewrite <- G.
      f_equal. lia.
    - intros k Hk Ho. apply Z0. lia. }
  assert (forall b, In b res -> 0 <= b)%R as NN.
  { intros b Hb. destruct (In_znth 0%R _ _ Hb) as [r [Hr Er]]. specialize (G r ltac:(lia)).
    apply (vget_inv 0%R) in G. destruct G as [_ G]. rewrite <- Er, <- G.
    rewrite (N_local _ i x (clamped_mono p l C) (clamped_le1 p l C) S).
    apply B_nonneg; [apply (clamped_mono p l C)|apply (span_nonempty _ _ _ S)|apply span_bounds; exact S]. }
  split; [|exact Sum]. rewrite Forall_forall. intros b Hb. split; [apply NN; exact Hb|].
  rewrite <- Sum. clear - NN Hb. induction res as [|a res IH]; [contradiction|].
  assert (forall m : list R, (forall b, In b m -> 0 <= b)%R -> (0 <= fold_right Rplus 0 m)%R) as Fp.
  { induction m as [|q m IHm]; intros Hm; simpl; [lra|]. pose proof (Hm q (or_introl eq_refl)).
    assert (0 <= fold_right Rplus 0 m)%R by (apply IHm; intros; apply Hm; right; assumption). lra. }
  simpl. destruct Hb as [->|Hb].
  - pose proof (Fp res (fun b H => NN b (or_intror H))). lra.
  - pose proof (IH (fun b H => NN b (or_intror H)) Hb). pose proof (NN a (or_introl eq_refl)). lra.
Qed.

(** ** C27-C30 *)
Lemma C27_lemma c x : wf_curve c ->
  ((0 <= x <= 1)%R -> (0 < curve_den c x)%R /\ Curve_Evaluate c x = Ok (curve_point c x)) /\
  (~ (0 <= x <= 1)%R -> Curve_Evaluate c x = AssertFail).
Proof.
  intros W. split; intros Hx.
  - split; [apply curve_den_pos; assumption|apply Curve_Evaluate_ok; assumption].
  - apply Curve_Evaluate_outside. exact Hx.
Qed.
Lemma C29_lemma c x a b d e q : wf_curve c ->
  (forall i, 0 <= i < len (ControlPoints c) -> basis_fun c i x <> 0%R ->
     (a * x4 (cp c i) + b * y4 (cp c i) + d * z4 (cp c i) <= e)%R) ->
  Curve_Evaluate c x = Ok q -> (a * x3 q + b * y3 q + d * z3 q <= e)%R.
Proof.
  intros W H E. destruct (Rle_dec 0 x) as [A|A]; [destruct (Rle_dec x 1) as [B'|B']|].
  - rewrite Curve_Evaluate_ok in E by auto. inversion E; subst q. apply half_space; auto.
  - rewrite Curve_Evaluate_outside in E by lra. discriminate.
  - rewrite Curve_Evaluate_outside in E by lra. discriminate.
Qed.
Lemma C29_box_lemma c x (b : bbox R) q : wf_curve c -> Forall (fun p => in_box (point3 p) b) (ControlPoints c) ->
  Curve_Evaluate c x = Ok q -> in_box q b.
Proof.
  intros W F E.
  assert (forall i, 0 <= i < len (ControlPoints c) -> in_box (point3 (cp c i)) b) as G.
  { intros i Hi. rewrite Forall_forall in F. apply F. apply (znth_In (Vec4 0 0 0 1)%R). exact Hi. }
  unfold in_box, le3, point3 in *. simpl in *.
  pose proof (C29_lemma c x (-1) 0 0 (- x3 (Min b)) q W). pose proof (C29_lemma c x 1 0 0 (x3 (Max b)) q W).
  pose proof (C29_lemma c x 0 (-1) 0 (- y3 (Min b)) q W). pose proof (C29_lemma c x 0 1 0 (y3 (Max b)) q W).
  pose proof (C29_lemma c x 0 0 (-1) (- z3 (Min b)) q W). pose proof (C29_lemma c x 0 0 1 (z3 (Max b)) q W).
  repeat match goal with
  | Q : (_ -> Curve_Evaluate c x = Ok q -> _) |- _ =>
      specialize (Q ltac:(intros i Hi _; specialize (G i Hi); lra) E)
  end.
  lra.
Qed.
Lemma C30_lemma c m x q : wf_curve c -> Curve_Evaluate c x = Ok q ->
  Curve_Evaluate (Curve_Transform c m) x = Ok (mat_apply m q) /\
  Degree (Curve_Transform c m) = Degree c /\ Knots (Curve_Transform c m) = Knots c /\
  map w4 (ControlPoints (Curve_Transform c m)) = map w4 (ControlPoints c).
Proof.
  intros W E. split; [|split; [reflexivity|split; [reflexivity|]]].
  - destruct (Rle_dec 0 x) as [A|A]; [destruct (Rle_dec x 1) as [B'|B']|].
    + rewrite Curve_Evaluate_ok in E by auto. inversion E; subst q.
      rewrite Curve_Evaluate_ok by (auto using transform_wf). rewrite transform_point by auto. reflexivity.
    + rewrite Curve_Evaluate_outside in E by lra. discriminate.
    + rewrite Curve_Evaluate_outside in E by lra. discriminate.
  - simpl. rewrite map_map. apply map_ext. reflexivity.
Qed.

(** ** C33, C34 *)
Lemma same_curve_evaluate c d : wf_curve c -> wf_curve d -> same_curve c d -> forall x, Curve_Evaluate d x = Curve_Evaluate c x.
Proof.
  intros W W' S x. destruct (Rle_dec 0 x) as [A|A]; [destruct (Rle_dec x 1) as [B'|B']|].
  - rewrite !Curve_Evaluate_ok by auto. f_equal. apply S. auto.
  - rewrite !Curve_Evaluate_outside by lra. reflexivity.
  - rewrite !Curve_Evaluate_outside by lra. reflexivity.
Qed.
Lemma ins_list_perm p l l' k u : clamped p l -> knot_span p l k u -> ins_list l l' k u -> Permutation l' (u :: l).
Proof.
  intros C K I. destruct (insert_knots p l k u C K) as [l2 [E I2]].
  assert (l' = l2) as ->.
  { destruct I as [A1 B1], I2 as [A2 B2]. apply kf_ext; [lia|]. intros. rewrite B1, B2. reflexivity. }
  destruct K as [Hk _]. pose proof (cl_degree p l C).
  rewrite vinsert_ok in E by lia. inversion E. apply (permutation_inserted l u (Z.to_nat (k + 1)) 1).
Qed.
Lemma inserted_refines c c' k u : wf_curve c -> knot_span (Degree c) (Knots c) k u -> (0 < u < 1)%R -> inserted c c' k u ->
  refines c c' [u].
Proof.
  intros W K Hu I. pose proof (inserted_wf c c' k u W K Hu I) as W'.
  split; [exact W'|]. pose proof (inserted_same c c' k u W K Hu I) as S. destruct I as [D [I [L _]]].
  split; [exact D|]. split; [apply (ins_list_perm _ _ _ _ _ (wf_knots c W) K I)|]. split; [exact L|].
  apply same_curve_evaluate; assumption.
Qed.
Lemma C33_lemma c u : wf_curve c -> 1 <= Degree c ->
  ((0 < u < 1)%R -> exists c', Curve_InsertKnot c u = Ok c' /\ refines c c' [u]) /\
  (~ (0 < u < 1)%R -> Curve_InsertKnot c u = AssertFail).
Proof.
  intros W D. split; intros Hu.
  - destruct (Curve_InsertKnot_ok c u W D Hu) as [c' [k [E [K I]]]]. exists c'. split; [exact E|].
    apply (inserted_refines c c' k u); assumption.
  - unfold Curve_InsertKnot. rewrite kv_InsertKnot_assert by exact Hu. reflexivity.
Qed.
Lemma curve_eta (c : curve R) : Curve (Degree c) (Knots c) (ControlPoints c) = c.
Proof. destruct c; reflexivity. Qed.
Lemma refines_nil c : wf_curve c -> refines c c [].
Proof. intros W. repeat split; auto; try apply W. change (len (@nil R)) with 0. lia. Qed.
Lemma refines_trans c d e us vs : refines c d us -> refines d e vs -> refines c e (us ++ vs).
Proof.
  intros [W1 [D1 [P1 [L1 E1]]]] [W2 [D2 [P2 [L2 E2]]]]. split; [exact W2|]. split; [congruence|]. split.
  - rewrite P2, P1. rewrite !app_assoc. apply Permutation_app_tail. apply Permutation_app_comm.
  - split; [rewrite len_app; lia|]. intros x. rewrite E2. apply E1.
Qed.
Lemma insert_list_gen us : forall c, wf_curve c -> Forall (fun u => 0 < u < 1)%R us ->
  exists c', foldM (insert_one (Degree c)) us (Knots c, ControlPoints c) = Ok (Knots c', ControlPoints c') /\
    refines c c' us /\ (1 <= Degree c -> foldM Curve_InsertKnot us c = Ok c').
Proof.
  induction us as [|u us IH]; intros c W F.
  - exists c. split; [reflexivity|]. split; [apply refines_nil; exact W|]. reflexivity.
  - inversion F as [|? ? Hu F']; subst. destruct (insert_one_ok c u W Hu) as [c1 [k [E [K I]]]].
    pose proof (inserted_refines c c1 k u W K Hu I) as R1. pose proof R1 as [W1 [D1 _]].
    destruct (IH c1 W1 F') as [c2 [E2 [R2 S2]]]. exists c2. cbn [foldM]. rewrite E. cbn [bind]. rewrite <- D1.
    split; [exact E2|]. split; [change (u :: us) with ([u] ++ us); eapply refines_trans; eassumption|].
    intros Hd. destruct (Curve_InsertKnot_ok c u W ltac:(lia) Hu) as [c1' [k' [E' [K' I']]]].
    rewrite (span_unique _ _ _ _ _ (wf_knots c W) K' K) in I'. rewrite (inserted_unique c c1' c1 k u I' I) in E'.
    rewrite E'. cbn [bind]. apply S2. lia.
Qed.
Lemma C34_lemma c us : wf_curve c -> Forall (fun u => 0 < u < 1)%R us ->
  exists c', Curve_InsertKnot_list c us = Ok c' /\ refines c c' us /\
    (1 <= Degree c -> foldM Curve_InsertKnot us c = Ok c').
Proof.
  intros W F. destruct (insert_list_gen us c W F) as [c' [E [R S]]]. exists c'. split; [|auto].
  unfold Curve_InsertKnot_list. rewrite E. cbn [bind]. destruct R as [_ [D _]]. rewrite <- D, curve_eta. reflexivity.
Qed.
Lemma C34_times_lemma c u n : wf_curve c -> (0 < u < 1)%R -> 0 <= n ->
  exists c', Curve_InsertKnot_times c u n = Ok c' /\ refines c c' (repeat u (Z.to_nat n)).
Proof.
  intros W Hu Hn. unfold Curve_InsertKnot_times. rewrite vmake_ok by exact Hn. cbn [bind].
  destruct (C34_lemma c (repeat u (Z.to_nat n)) W) as [c' [E [R _]]].
  - apply Forall_forall. intros q Hq. apply repeat_spec in Hq. subst. exact Hu.
  - exists c'. auto.
Qed.
Lemma C34_outside_lemma c us u vs : wf_curve c -> Forall (fun u => 0 < u < 1)%R us -> ~ (0 <= u <= 1)%R ->
  Curve_InsertKnot_list c (us ++ u :: vs) = AssertFail.
Proof.
  intros W F Hu. destruct (insert_list_gen us c W F) as [c' [E _]].
  unfold Curve_InsertKnot_list. rewrite foldM_app, E. cbn [bind foldM]. unfold insert_one at 1.
  rewrite FindSpanIndex_assert by exact Hu. reflexivity.
Qed.

(** ** Witnesses *)
Definition curve_ex : curve R :=
  Curve 2 [0; 0; 0; 1/3; 1/2; 1/2; 1; 1; 1]%R
    [Vec4 0 0 0 1; Vec4 1 0 0 2; Vec4 1 1 0 1; Vec4 2 1 0 (1/2); Vec4 2 2 1 1; Vec4 3 0 1 1]%R.
Lemma curve_ex_wf : wf_curve curve_ex.
Proof.
  constructor.
  - exact clamped_ex.
  - reflexivity.
  - unfold positive_weights. simpl. repeat constructor; simpl; lra.
Qed.

Definition line64 : curve b64 :=
  Curve 1 [dz; dz; done_; done_] [Vec4 dz dz dz done_; Vec4 done_ dz dz done_].
Definition point64 : curve b64 := Curve 0 [dz; done_] [Vec4 done_ done_ dz done_].
(** the real curve denoted by a binary64 curve *)
Definition val4 (p : vec4 b64) : vec4 R := Vec4 (val (x4 p)) (val (y4 p)) (val (z4 p)) (val (w4 p)).
Definition curve_val (c : curve b64) : curve R := Curve (Degree c) (vals (Knots c)) (map val4 (ControlPoints c)).
Lemma val_dz : val dz = 0%R. Proof. exact val_0. Qed.
Lemma val_done : val done_ = 1%R. Proof. exact val_1. Qed.
Lemma line64_wf : wf_curve (curve_val line64).
Proof.
  unfold line64, curve_val, vals, val4. cbn [map Degree Knots ControlPoints x4 y4 z4 w4]. rewrite val_dz, val_done. constructor; cbn [Degree Knots ControlPoints].
  - constructor; try (unfold len; simpl; lia).
    + nondec.
    + intros i Hi. assert (i = 0 \/ i = 1) as [-> | ->] by lia; reflexivity.
    + unfold at_. simpl. lra.
    + unfold at_. simpl. lra.
    + change (len [0; 0; 1; 1]%R) with 4. intros i Hi. assert (i = 2 \/ i = 3) as [-> | ->] by lia; reflexivity.
  - reflexivity.
  - repeat constructor; simpl; lra.
Qed.
Lemma point64_wf : wf_curve (curve_val point64).
Proof.
  unfold point64, curve_val, vals, val4. cbn [map Degree Knots ControlPoints x4 y4 z4 w4]. rewrite val_dz, val_done. constructor; cbn [Degree Knots ControlPoints].
  - constructor; try (unfold len; simpl; lia).
    + nondec.
    + intros i Hi. assert (i = 0) as -> by lia; reflexivity.
    + unfold at_. simpl. lra.
    + unfold at_. simpl. lra.
    + change (len [0; 1]%R) with 2. intros i Hi. assert (i = 1) as -> by lia; reflexivity.
  - reflexivity.
  - repeat constructor; simpl; lra.
Qed.
Definition nan3 (p : vec3 b64) : Prop := x3 p = S754_nan /\ y3 p = S754_nan /\ z3 p = S754_nan.
Lemma C33_refuted_lemma : exists (c : curve b64) u c' q, wf_curve (curve_val c) /\ Degree c = 0 /\ (0 < val u < 1)%R /\
  Curve_Evaluate c dz = Ok (Vec3 done_ done_ dz) /\ Curve_InsertKnot c u = Ok c' /\ Curve_Evaluate c' dz = Ok q /\ nan3 q.
Proof.
  exists point64, dhalf. eexists _, _. split; [exact point64_wf|]. split; [reflexivity|]. split; [rewrite val_dhalf; lra|].
  split; [vm_compute; reflexivity|]. split; [vm_compute; reflexivity|]. split; [vm_compute; reflexivity|].
  repeat split.
Qed.
Lemma C34_refuted_lemma : exists (c : curve b64) c' q, wf_curve (curve_val c) /\ 1 <= Degree c /\
  Curve_Evaluate c done_ = Ok (Vec3 done_ dz dz) /\
  Curve_InsertKnot_list c [done_] = Ok c' /\ Curve_Evaluate c' done_ = Ok q /\ nan3 q.
Proof.
  exists line64. eexists _, _. split; [exact line64_wf|]. split; [simpl; lia|].
  split; [vm_compute; reflexivity|]. split; [vm_compute; reflexivity|]. split; [vm_compute; reflexivity|].
  repeat split.
Qed.
