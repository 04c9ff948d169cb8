(** Bezier extraction (C42). *)
From Coq Require Import Reals ZArith List Lra Lia Permutation Bool.
From Verif Require Import Outcome Num ModelCore ModelCurve SpecCore SpecBasis SpecCurve SpecBezier
  ThOutcome ThReal ThKnots ThVec ThSum ThSpline ThBasis ThCurve ThInsert ThCoreWit ThCurveWit.
Import ListNotations.
Open Scope Z_scope.

(** ** Sorted permutations *)
Lemma nondecreasing_head a l : nondecreasing (a :: l) -> forall x, In x l -> (a <= x)%R.
Proof.
  intros N x Hx. destruct (In_znth 0%R l x Hx) as [i [Hi <-]]. specialize (N 0 (i + 1) ltac:(lia)).
  rewrite len_cons, at_cons0, at_cons in N by lia. replace (i + 1 - 1) with i in N by lia. apply N. lia.
Qed.
Lemma sorted_perm l : forall l', nondecreasing l -> nondecreasing l' -> Permutation l l' -> l = l'.
Proof.
  induction l as [|a l IH]; intros l' N N' P.
  - symmetry. apply Permutation_nil. exact P.
  - destruct l' as [|b l']; [apply Permutation_sym, Permutation_nil in P; discriminate|].
    assert (a = b) as ->.
    { assert (In a (b :: l')) as Ha by (apply (Permutation_in a P); left; reflexivity).
      assert (In b (a :: l)) as Hb by (apply (Permutation_in b (Permutation_sym P)); left; reflexivity).
      destruct Ha as [|Ha]; [congruence|]. destruct Hb as [|Hb]; [congruence|].
      apply (nondecreasing_head _ _ N') in Ha. apply (nondecreasing_head _ _ N) in Hb. lra. }
    f_equal. apply IH; [apply nondecreasing_cons in N; tauto|apply nondecreasing_cons in N'; tauto|].
    apply Permutation_cons_inv in P. exact P.
Qed.
Lemma in_expand ps x : In x (expand ps) -> exists q, In q ps /\ fst q = x.
Proof.
  unfold expand. intros H. apply in_flat_map in H. destruct H as [q [Hq H]]. apply repeat_spec in H. exists q. auto.
Qed.
Lemma expand_sorted ps : increasing ps -> nondecreasing (expand ps).
Proof.
  induction ps as [|a ps IH]; intros I; [apply nondecreasing_nil|].
  change (expand (a :: ps)) with (repeat (fst a) (Z.to_nat (snd a)) ++ expand ps).
  apply nondecreasing_app; [apply nondecreasing_repeat|apply IH, (increasing_tail a), I|].
  intros x y Hx Hy. apply repeat_spec in Hx. subst. apply in_expand in Hy. destruct Hy as [q [Hq <-]].
  pose proof (increasing_lt a ps I q Hq). lra.
Qed.

(** ** The runs of a clamped knot vector *)
Lemma increasing_last ps b : increasing (ps ++ [b]) -> forall a, In a ps -> (fst a < fst b)%R.
Proof.
  induction ps as [|c ps IH]; intros I a Ha; [destruct Ha|].
  destruct Ha as [->|Ha].
  - apply (increasing_lt a (ps ++ [b]) I). apply in_or_app. right. left. reflexivity.
  - apply IH; [|exact Ha]. apply (increasing_tail c). exact I.
Qed.
Lemma expand_app a b : expand (a ++ b) = expand a ++ expand b.
Proof. apply flat_map_app. Qed.
Lemma at_runs a b r i : 0 <= a -> 0 <= b -> 0 <= i ->
  at_ (repeat 0%R (Z.to_nat a) ++ r ++ repeat 1%R (Z.to_nat b)) i =
  if i <? a then 0%R else if i <? a + len r then at_ r (i - a) else if i <? a + len r + b then 1%R else 0%R.
Proof.
  intros Ha Hb Hi. rewrite at_znth, znth_app by lia. rewrite len_repeat, Z.max_l by lia.
  destruct (Z.ltb_spec i a); [apply znth_repeat; lia|]. rewrite znth_app by lia.
  destruct (Z.ltb_spec (i - a) (len r)), (Z.ltb_spec i (a + len r)); try lia; [reflexivity|].
  destruct (Z.ltb_spec i (a + len r + b)); [apply znth_repeat; lia|]. apply znth_default. rewrite len_repeat. lia.
Qed.
Lemma runs_clamped p a b r : clamped p (repeat 0%R (Z.to_nat a) ++ r ++ repeat 1%R (Z.to_nat b)) ->
  1 <= a -> 1 <= b -> (forall x, In x r -> (0 < x < 1)%R) -> a = p + 1 /\ b = p + 1.
Proof.
  intros C Ha Hb Hr. pose proof (cl_degree _ _ C) as P0. pose proof (len_nonneg r) as Lr.
  assert (len (repeat 0%R (Z.to_nat a) ++ r ++ repeat 1%R (Z.to_nat b)) = a + len r + b) as L.
  { rewrite !len_app, !len_repeat. lia. }
  pose proof (cl_len _ _ C) as CL. pose proof (cl_first _ _ C) as C1. pose proof (cl_last _ _ C) as C2.
  pose proof (cl_zero _ _ C) as C3. pose proof (cl_one _ _ C) as C4. rewrite L in *.
  assert (forall i, 0 <= i < len r -> (0 < at_ r i < 1)%R) as R1 by (intros; apply Hr; apply znth_In; lia).
  split.
  - rewrite at_runs in C1 by lia. destruct (Z.ltb_spec (p + 1) a); [lra|].
    destruct (Z.eq_dec a (p + 1)) as [|Ne]; [assumption|]. exfalso.
    specialize (C3 a ltac:(lia)). rewrite at_runs in C3 by lia. rewrite Z.ltb_irrefl in C3.
    destruct (Z.ltb_spec a (a + len r)); [specialize (R1 (a - a) ltac:(lia)); lra|].
    destruct (Z.ltb_spec a (a + len r + b)); [lra|lia].
  - rewrite at_runs in C2 by lia.
    destruct (Z.eq_dec b (p + 1)) as [|Ne]; [assumption|]. exfalso.
    destruct (Z_lt_le_dec b (p + 1)).
    + specialize (C4 (a + len r - 1) ltac:(lia)). rewrite at_runs in C4 by lia.
      destruct (Z.ltb_spec (a + len r - 1) a); [lra|].
      destruct (Z.ltb_spec (a + len r - 1) (a + len r)); [|lia]. specialize (R1 (a + len r - 1 - a) ltac:(lia)). lra.
    + destruct (Z.ltb_spec (a + len r + b - p - 2) a); [lia|].
      destruct (Z.ltb_spec (a + len r + b - p - 2) (a + len r)); [lia|].
      destruct (Z.ltb_spec (a + len r + b - p - 2) (a + len r + b)); [lra|lia].
Qed.
Lemma pairs_shape p l : clamped p l -> exists mid,
  pairs_of l = (0%R, p + 1) :: mid ++ [(1%R, p + 1)] /\ increasing (pairs_of l) /\
  (forall q, In q mid -> (0 < fst q < 1)%R /\ 1 <= snd q /\ snd q = count (fst q) l).
Proof.
  intros C. pose proof (pairs_expand l) as E. pose proof (pairs_increasing l (cl_sorted _ _ C)) as I.
  pose proof (pairs_mult l) as Mu. pose proof (count_pairs l (cl_sorted _ _ C)) as Ct.
  pose proof (cl_degree _ _ C) as P0. pose proof (cl_len _ _ C) as CL.
  remember (pairs_of l) as ps eqn:Eps. clear Eps.
  destruct ps as [|[v m] r]; [subst l; change (len (expand [])) with 0 in CL; lia|].
  assert (1 <= m) as Hm by (inversion Mu; assumption).
  assert (v = 0%R) as ->.
  { rewrite <- (cl_zero _ _ C 0 ltac:(lia)), <- E. change (expand ((v, m) :: r)) with (repeat v (Z.to_nat m) ++ expand r).
    rewrite at_znth, znth_app1; [|rewrite len_repeat; lia|lia]. rewrite znth_repeat by lia. reflexivity. }
  assert (r <> []) as Hr.
  { intros ->. cbn in E. rewrite app_nil_r in E. pose proof (cl_one _ _ C (len l - 1) ltac:(lia)) as O.
    rewrite <- E in O. rewrite at_znth, len_repeat, Z.max_l in O by lia. rewrite znth_repeat in O by lia. lra. }
  destruct (exists_last Hr) as [mid [[w k] ->]].
  assert (1 <= k) as Hk by (apply Forall_inv_tail in Mu; apply Forall_app in Mu; destruct Mu as [_ Mu]; inversion Mu; assumption).
  change (expand ((0%R, m) :: mid ++ [(w, k)])) with (repeat 0%R (Z.to_nat m) ++ expand (mid ++ [(w, k)])) in E.
  rewrite expand_app in E. cbn [expand flat_map fst snd] in E. rewrite app_nil_r in E.
  change (flat_map (fun p => repeat (fst p) (Z.to_nat (snd p))) mid) with (expand mid) in E.
  assert (w = 1%R) as ->.
  { rewrite <- (cl_one _ _ C (len l - 1) ltac:(lia)), <- E. rewrite !len_app, !len_repeat, !Z.max_l by lia.
    pose proof (len_nonneg (expand mid)). rewrite at_znth, znth_app2; [|rewrite len_repeat; lia].
    rewrite znth_app2; [|rewrite len_repeat; lia]. rewrite len_repeat, Z.max_l by lia. symmetry. apply znth_repeat. lia. }
  assert (forall q, In q mid -> (0 < fst q < 1)%R) as Hq.
  { intros q Hq. split.
    - apply (increasing_lt _ _ I q). apply in_or_app. left. exact Hq.
    - apply (increasing_last ((0%R, m) :: mid) (1%R, k) I q). right. exact Hq. }
  assert (m = p + 1 /\ k = p + 1) as [-> ->].
  { apply (runs_clamped p m k (expand mid)); [rewrite E; exact C|lia|lia|].
    intros x Hx. apply in_expand in Hx. destruct Hx as [q [Hx <-]]. apply Hq, Hx. }
  exists mid. split; [reflexivity|]. split; [exact I|]. intros q Hi. split; [apply Hq, Hi|].
  assert (In q ((0%R, p + 1) :: mid ++ [(1%R, p + 1)])) as Hi' by (right; apply in_or_app; left; exact Hi).
  split; [|symmetry; apply Ct, Hi']. rewrite Forall_forall in Mu. apply (Mu q Hi').
Qed.

(** ** Refinement to full multiplicity *)
Definition extra (p : Z) (ps : list (R * Z)) : list R :=
  flat_map (fun q => if Rltb 0 (fst q) && Rltb (fst q) 1 then repeat (fst q) (Z.to_nat (p - snd q)) else []) ps.
Lemma refines_perm c d us vs : refines c d us -> Permutation us vs -> refines c d vs.
Proof.
  intros [W [D [P [L E]]]] H. split; [exact W|]. split; [exact D|]. split; [rewrite P, H; reflexivity|].
  split; [unfold len in *; rewrite <- (Permutation_length H); exact L|exact E].
Qed.
Lemma refine_ok p ks : forall c, wf_curve c -> Degree c = p ->
  exists d, foldM (extract_refine p) ks c = Ok d /\ refines c d (extra p (map pair_of ks)).
Proof.
  induction ks as [|k ks IH]; intros c W D.
  - exists c. split; [reflexivity|]. apply refines_nil. exact W.
  - cbn [foldM map extra flat_map]. fold (extra p (map pair_of ks)).
    assert (exists c1, extract_refine p c k = Ok c1 /\ refines c c1
      (if Rltb 0 (kp_Value k) && Rltb (kp_Value k) 1 then repeat (kp_Value k) (Z.to_nat (p - kp_Multiplicity k)) else [])) as [c1 [E1 R1]].
    { unfold extract_refine. norm_R.
      destruct (Rltb_spec 0 (kp_Value k)), (Rltb_spec (kp_Value k) 1), (Rleb_spec (kp_Value k) 0), (Rleb_spec 1 (kp_Value k)); try lra; cbn [andb orb];
        try (exists c; split; [reflexivity|apply refines_nil; exact W]).
      destruct (Z.leb_spec p (kp_Multiplicity k)).
      - exists c. split; [reflexivity|]. replace (Z.to_nat (p - kp_Multiplicity k)) with 0%nat by lia. apply refines_nil. exact W.
      - apply C34_times_lemma; [exact W|lra|lia]. }
    rewrite E1. cbn [bind]. destruct (IH c1 (proj1 R1)) as [d [E2 R2]]; [destruct R1 as [_ [D1 _]]; congruence|].
    exists d. split; [exact E2|]. apply (refines_trans c c1 d); assumption.
Qed.

Definition full (p : Z) (mid : list (R * Z)) : list (R * Z) := map (fun q => (fst q, p)) mid.
Lemma extra_full p mid : (forall q, In q mid -> (0 < fst q < 1)%R /\ 1 <= snd q <= p) ->
  Permutation (extra p mid ++ expand mid) (expand (full p mid)).
Proof.
  induction mid as [|q mid IH]; intros H; [constructor|].
  destruct (H q (or_introl eq_refl)) as [Hq Hs].
  cbn [extra expand full map flat_map fst snd]. fold (extra p mid) (expand mid) (full p mid) (expand (full p mid)).
  destruct (Rltb_spec 0 (fst q)); [|lra]. destruct (Rltb_spec (fst q) 1); [|lra]. cbn [andb].
  replace (Z.to_nat p) with (Z.to_nat (p - snd q) + Z.to_nat (snd q))%nat by lia. rewrite repeat_app.
  rewrite <- !app_assoc. apply Permutation_app_head.
  rewrite (app_assoc (extra p mid)), (Permutation_app_comm (extra p mid)), <- app_assoc. apply Permutation_app_head.
  apply IH. intros x Hx. apply H. right. exact Hx.
Qed.
Lemma increasing_map f g ps : (forall q, fst (f q) = fst (g q : R * Z)) -> increasing (map f ps) -> increasing (map g (ps : list (R * Z))).
Proof.
  intros H. induction ps as [|a ps IH]; [auto|]. destruct ps as [|b ps]; [auto|]. cbn [map increasing] in *.
  intros [L I]. split; [rewrite <- !H; exact L|]. apply IH. exact I.
Qed.
Definition const_runs (p : Z) (ts : list R) : list R := expand (map (fun t => (t, p)) ts).
Lemma len_const_runs p ts : 0 <= p -> len (const_runs p ts) = p * len ts.
Proof.
  intros Hp. induction ts as [|t ts IH]; [cbn; lia|].
  unfold const_runs in *. cbn [map expand flat_map fst snd]. fold (expand (map (fun t => (t, p)) ts)).
  rewrite len_app, len_repeat, len_cons, IH. lia.
Qed.
Lemma at_const_runs p ts : 1 <= p -> forall i, 0 <= i < p * len ts -> at_ (const_runs p ts) i = at_ ts (i / p).
Proof.
  intros Hp. induction ts as [|t ts IH]; intros i Hi; [cbn in Hi; lia|].
  unfold const_runs in *. cbn [map expand flat_map fst snd]. fold (expand (map (fun t => (t, p)) ts)).
  rewrite len_cons in Hi. rewrite at_znth, znth_app by lia. rewrite len_repeat, Z.max_l by lia.
  destruct (Z.ltb_spec i p).
  - rewrite znth_repeat by lia. rewrite Z.div_small by lia. reflexivity.
  - rewrite <- at_znth, IH by lia. assert (i / p = (i - p) / p + 1) as ->.
    { replace i with (i - p + 1 * p) at 1 by lia. rewrite Z.div_add by lia. reflexivity. }
    rewrite at_cons by (pose proof (Z.div_pos (i - p) p ltac:(lia) ltac:(lia)); lia). f_equal. lia.
Qed.
Definition breaks (l : list R) : list R := map fst (pairs_of l).

Lemma expand_cons q ps : expand (q :: ps) = repeat (fst q) (Z.to_nat (snd q)) ++ expand ps.
Proof. reflexivity. Qed.
Lemma const_runs_mid p mid : const_runs p (map fst mid) = expand (full p mid).
Proof. unfold const_runs, full. rewrite map_map. reflexivity. Qed.
Lemma refined_knots c d : wf_curve c -> 1 <= Degree c -> interior_multiplicity_le (Degree c) (Knots c) ->
  refines c d (extra (Degree c) (pairs_of (Knots c))) ->
  Knots d = 0%R :: const_runs (Degree c) (breaks (Knots c)) ++ [1%R].
Proof.
  intros W P1 Im [Wd [Dd [Pd _]]]. set (p := Degree c) in *.
  destruct (pairs_shape p (Knots c) (wf_knots c W)) as [mid [E [I Hm]]].
  assert (forall q, In q mid -> (0 < fst q < 1)%R /\ 1 <= snd q <= p) as Hm'.
  { intros q Hq. destruct (Hm q Hq) as [H1 [H2 H3]]. split; [exact H1|]. split; [exact H2|]. rewrite H3. apply Im. exact H1. }
  assert (Eb : breaks (Knots c) = 0%R :: map fst mid ++ [1%R]) by (unfold breaks; rewrite E; cbn [map fst]; rewrite map_app; reflexivity).
  assert (Et : 0%R :: const_runs p (breaks (Knots c)) ++ [1%R] = expand ((0%R, p + 1) :: full p mid ++ [(1%R, p + 1)])).
  { rewrite Eb. unfold const_runs. cbn [map]. rewrite map_app, !expand_cons, !expand_app. cbn [map fst snd].
    fold (const_runs p (map fst mid)). rewrite const_runs_mid. cbn [expand flat_map fst snd]. fold (expand (full p mid)).
    rewrite !app_nil_r. replace (Z.to_nat (p + 1)) with (S (Z.to_nat p)) by lia. cbn [repeat app].
    rewrite <- !app_assoc. do 3 f_equal. rewrite repeat_cons. reflexivity. }
  rewrite Et. apply sorted_perm.
  - apply (cl_sorted _ _ (wf_knots d Wd)).
  - apply expand_sorted. rewrite E in I.
    replace ((0%R, p + 1) :: full p mid ++ [(1%R, p + 1)]) with
      (map (fun q => (fst q, if Req_EM_T (fst q) 0 then p + 1 else if Req_EM_T (fst q) 1 then p + 1 else p)) ((0%R, p + 1) :: mid ++ [(1%R, p + 1)])).
    + apply (increasing_map (fun q => q)); [reflexivity|]. rewrite map_id. exact I.
    + cbn [map fst]. rewrite map_app. cbn [map fst]. destruct (Req_EM_T 0 0); [|lra]. destruct (Req_EM_T 1 0); [lra|]. destruct (Req_EM_T 1 1); [|lra].
      do 2 f_equal. apply map_ext_in. intros q Hq. destruct (Hm q Hq) as [Hr _]. destruct (Req_EM_T (fst q) 0); [lra|]. destruct (Req_EM_T (fst q) 1); [lra|]. reflexivity.
  - rewrite Pd. rewrite <- (pairs_expand (Knots c)) at 2. rewrite E.
    assert (extra p ((0%R, p + 1) :: mid ++ [(1%R, p + 1)]) = extra p mid) as ->.
    { unfold extra. cbn [flat_map fst snd]. rewrite flat_map_app. cbn [flat_map fst snd].
      destruct (Rltb_spec 0 0); [lra|]. destruct (Rltb_spec 1 1); [lra|]. cbn [andb]. rewrite andb_false_r. cbn [app]. rewrite !app_nil_r. reflexivity. }
    rewrite !expand_cons, !expand_app. cbn [fst snd]. rewrite (app_assoc (extra p mid)), (Permutation_app_comm (extra p mid)), <- app_assoc.
    apply Permutation_app_head. rewrite app_assoc. apply Permutation_app_tail. apply extra_full. exact Hm'.
Qed.

(** ** Affine change of parameter *)
Lemma bl_affine_map U V j k (a b : R) : (a <> b)%R -> forall ss P,
  (forall i, j - nn (length ss) < i <= j + nn (length ss) -> U i = (a + (b - a) * V (i - j + k)%Z)%R) ->
  (forall i i', j - nn (length ss) < i <= j -> j < i' <= j + nn (length ss) -> U i <> U i') ->
  bl U j (map (fun s => a + (b - a) * s)%R ss) P = bl V k ss (fun i => P (i - k + j)%Z).
Proof.
  intros Hab. induction ss as [|s ss IH]; intros P HU Hn; cbn [bl map length] in *.
  - f_equal. lia.
  - rewrite map_length. rewrite nn_S in *. rewrite IH.
    + apply bl_ext. intros i Hi. unfold step. rewrite nn_S.
      pose proof (nn_nonneg (length ss)) as Nn.
      rewrite (HU (i - k + j + (nn (length ss) + 1))%Z) by lia. rewrite (HU (i - k + j)%Z) by lia.
      replace (i - k + j + (nn (length ss) + 1) - j + k)%Z with (i + (nn (length ss) + 1))%Z by lia.
      replace (i - k + j - j + k)%Z with i by lia. replace (i - 1 - k + j)%Z with (i - k + j - 1)%Z by lia.
      assert (V (i + (nn (length ss) + 1))%Z <> V i) as Vn.
      { intros Ev. apply (Hn (i - k + j)%Z (i - k + j + (nn (length ss) + 1))%Z); [lia|lia|].
        rewrite (HU (i - k + j + (nn (length ss) + 1))%Z) by lia. rewrite (HU (i - k + j)%Z) by lia.
        replace (i - k + j + (nn (length ss) + 1) - j + k)%Z with (i + (nn (length ss) + 1))%Z by lia.
        replace (i - k + j - j + k)%Z with i by lia. rewrite Ev. reflexivity. }
      field. split; intros Z0.
      * apply Vn. lra.
      * assert ((b - a) * (V (i + (nn (length ss) + 1))%Z - V i) = 0)%R as Z1 by lra.
        apply Rmult_integral in Z1. destruct Z1; [apply Hab; lra|apply Vn; lra].
    + intros i Hi. apply HU. lia.
    + intros i i' H1 H2. apply Hn; lia.
Qed.
