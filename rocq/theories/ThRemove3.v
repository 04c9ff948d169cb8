(** Knot removal: soundness and completeness of the whole call. *)
From Coq Require Import Reals ZArith List Lra Lia Bool Permutation.
From Verif Require Import Outcome Num ModelCore ModelAlgo ModelCurve SpecCore SpecBasis SpecCurve
  ThOutcome ThReal ThKnots ThVec ThSum ThSpline ThBasis ThCurve ThInsert ThRemove ThRemove2.
From Verif Require Export SpecRemove.
Import ListNotations.
Open Scope Z_scope.

(** ** The tolerance *)
Lemma CalcTOL_ok (points : list (vec4 R)) eps : exists tol, CalcTOL points eps = Ok tol /\
  (eps = 0%R -> tol = 0%R) /\ ((0 <= eps)%R -> positive_weights points -> (0 <= tol)%R).
Proof.
  unfold CalcTOL. norm_R.
  match goal with |- context [fold_left ?gg points (?a, ?b)] => set (g := gg); set (a0 := a); set (b0 := b) end.
  assert (forall l a b, (0 <= b)%R -> (0 <= snd (fold_left g l (a, b)))%R /\
     ((0 <= a)%R -> positive_weights l -> (0 <= fst (fold_left g l (a, b)))%R)) as G.
  { induction l as [|q l IH]; intros a b Hb; [split; [exact Hb|intros; assumption]|]. cbn [fold_left].
    assert (g (a, b) q = (if Rltb (w4 q) a then w4 q else a, if Rltb b (v3norm (head3 q)) then v3norm (head3 q) else b)) as -> by reflexivity.
    destruct (IH (if Rltb (w4 q) a then w4 q else a) (if Rltb b (v3norm (head3 q)) then v3norm (head3 q) else b)) as [I1 I2].
    { destruct (Rltb b (v3norm (head3 q))) eqn:E; [apply Rltb_true in E; lra|exact Hb]. }
    split; [exact I1|]. intros Ha Pw. inversion Pw; subst. apply I2; [|assumption]. destruct (Rltb (w4 q) a); lra. }
  assert (0 <= a0)%R as A0. { unfold a0. unfold Q2R. simpl. lra. }
  destruct (G points a0 b0) as [G1 G2]; [unfold b0; lra|].
  destruct (fold_left g points (a0, b0)) as [wm dm]. cbn [fst snd] in *.
  rewrite Rdivo_ok by lra. eexists. split; [reflexivity|]. split.
  - intros ->. unfold Rdiv. rewrite !Rmult_0_l. reflexivity.
  - intros He Pw. apply Rmult_le_pos; [apply Rmult_le_pos; [exact He|apply G2; assumption]|]. left. apply Rinv_0_lt_compat. lra.
Qed.
Lemma FromHomo_inv h q : FromHomo h = Ok q -> w4 h <> 0%R /\ q = fromh h.
Proof.
  unfold FromHomo. intros E. destruct (Req_EM_T (w4 h) 0) as [W|W].
  - exfalso. unfold v3div in E. norm_R. rewrite W in E. unfold Rdivo in E. destruct (Req_EM_T 0 0); [discriminate|tauto].
  - split; [exact W|]. rewrite v3div_ok in E by exact W. cbn [bind] in E. inversion E. reflexivity.
Qed.
Lemma mapM_FromHomo_inv l : forall l', mapM FromHomo l = Ok l' -> Forall (fun h => w4 h <> 0%R) l /\ l' = map fromh l.
Proof.
  induction l as [|h l IH]; intros l' E; simpl in E.
  - inversion E. split; [constructor|reflexivity].
  - destruct (FromHomo h) as [q| | | | |] eqn:Eh; cbn [bind] in E; try discriminate.
    destruct (mapM FromHomo l) as [m| | | | |] eqn:Em; cbn [bind] in E; try discriminate. inversion E; subst.
    destruct (FromHomo_inv _ _ Eh) as [W ->]. destruct (IH _ eq_refl) as [Wl ->]. split; [constructor; assumption|reflexivity].
Qed.
Lemma mapM_FromHomo_ok l : Forall (fun h => w4 h <> 0%R) l -> mapM FromHomo l = Ok (map fromh l).
Proof. intros H. apply mapM_ok. intros h Hh. rewrite Forall_forall in H. apply FromHomo_ok. apply H. exact Hh. Qed.

Lemma del_0 knots r : del knots r 0 = knots.
Proof. unfold del. replace (r + 1 - 0) with (r + 1) by lia. apply firstn_skipn. Qed.

Section Whole.
  Variables (knots : list R) (p n : Z) (u : R) (r : Z).
  Notation U := (kf knots).
  Let s := count u knots.
  Hypothesis C : clamped p knots.
  Hypothesis LK : len knots = n + p + 2.
  Hypothesis Hu : (0 < u < 1)%R.
  Hypothesis K : knot_span p knots r u.
  Hypothesis Sep : separated u knots.
  Hypothesis Sp1 : s <= p + 1.

  Local Lemma P0 : 0 <= p. Proof. apply (cl_degree p knots C). Qed.
  Local Lemma R1 : p <= r <= n. Proof. destruct K. lia. Qed.
  Local Lemma S0 : 0 <= s <= p + 1. Proof. destruct (count_span p knots r u C K Hu) as [A _]. fold s in A. lia. Qed.
  Local Lemma S1 : p <= r - s. Proof. apply (count_span p knots r u C K Hu). Qed.
  Local Lemma Kmid k : r - s < k <= r -> U k = u. Proof. apply (count_span p knots r u C K Hu). Qed.
  Local Lemma Klow k : k <= r - s -> (U k < u)%R. Proof. apply (count_span p knots r u C K Hu). Qed.
  Local Lemma Khigh k : r < k -> (u < U k)%R.
  Proof. intros H. pose proof (clamped_mono p knots C (r + 1) k ltac:(lia)). destruct K as [_ Q]. lra. Qed.
  Local Lemma Mult : KnotVector_GetMultiplicity knots u = s.
  Proof. rewrite GetMultiplicity_R. apply filter_near_count. exact Sep. Qed.
  Local Lemma Find : KnotVector_FindSpanIndex knots p u = Ok r.
  Proof.
    destruct (span_find p knots u C Hu) as [k [E K']]. rewrite E. f_equal. apply (span_unique p knots k r u C K' K).
  Qed.

  (** ** Knots after [t] removals *)
  Notation dl := (del knots r).
  Lemma dl_kf t i : 0 <= t <= s -> kf (dl t) i = if i <=? r - t then U i else U (i + t).
  Proof. intros Ht. pose proof S0. pose proof S1. pose proof R1. pose proof P0. apply (del_kf knots p n r); try assumption; lia. Qed.
  Lemma dl_len t : 0 <= t <= s -> len (dl t) = len knots - t.
  Proof. intros Ht. pose proof S0. pose proof S1. pose proof R1. pose proof P0. apply (del_len knots p n r); try assumption; lia. Qed.
  Lemma dl_clamped t : 0 <= t <= s -> clamped p (dl t).
  Proof.
    intros Ht. pose proof S0. pose proof S1. pose proof R1. pose proof P0. pose proof (cl_len p knots C) as CL.
    pose proof (clamped_mono p knots C) as M. pose proof (dl_len t Ht) as DL.
    assert (forall i, 0 <= i < len (dl t) -> at_ (dl t) i = if i <=? r - t then U i else U (i + t)) as A.
    { intros i Hi. rewrite <- kf_at by exact Hi. apply dl_kf. exact Ht. }
    assert (forall i, 0 <= i < len knots -> U i = at_ knots i) as KA by (intros; apply kf_at; lia).
    constructor.
    - lia.
    - lia.
    - intros i j Hij Hj. rewrite !A by lia. destruct (Z.leb_spec i (r - t)), (Z.leb_spec j (r - t)); apply M; lia.
    - intros i Hi. rewrite A by lia. destruct (Z.leb_spec i (r - t)); [|lia]. rewrite KA by lia. apply (cl_zero p knots C). lia.
    - rewrite A by lia. assert (0 < U (p + 1))%R by (rewrite KA by lia; apply (cl_first p knots C)).
      destruct (Z.leb_spec (p + 1) (r - t)); [assumption|]. pose proof (M (p + 1) (p + 1 + t) ltac:(lia)). lra.
    - rewrite A by lia. assert (U (len knots - p - 2) < 1)%R by (rewrite KA by lia; apply (cl_last p knots C)).
      destruct (Z.leb_spec (len (dl t) - p - 2) (r - t)).
      + pose proof (M (len (dl t) - p - 2) (len knots - p - 2) ltac:(lia)). lra.
      + replace (len (dl t) - p - 2 + t) with (len knots - p - 2) by lia. assumption.
    - intros i Hi. rewrite A by lia. destruct (Z.leb_spec i (r - t)); [lia|]. rewrite KA by lia. apply (cl_one p knots C). lia.
  Qed.
  Lemma dl_span t : 0 <= t < s -> knot_span p (dl (t + 1)) (r - t - 1) u.
  Proof.
    intros Ht. pose proof S1. pose proof R1. split; [rewrite dl_len by lia; lia|]. rewrite !dl_kf by lia.
    destruct (Z.leb_spec (r - t - 1) (r - (t + 1))); [|lia]. destruct (Z.leb_spec (r - t - 1 + 1) (r - (t + 1))); [lia|]. split.
    - pose proof (clamped_mono p knots C (r - t - 1) r ltac:(lia)). destruct K as [_ Q]. lra.
    - apply Khigh. lia.
  Qed.
  Lemma dl_ins t : 0 <= t < s -> ins_list (dl (t + 1)) (dl t) (r - t - 1) u.
  Proof.
    intros Ht. split; [rewrite !dl_len by lia; lia|]. intros i. unfold ins_knots. rewrite !dl_kf by lia.
    destruct (Z.leb_spec i (r - t)), (Z.leb_spec i (r - t - 1)); try lia.
    - destruct (Z.leb_spec i (r - (t + 1))); [reflexivity|lia].
    - destruct (Z.eqb_spec i (r - t - 1 + 1)); [|lia]. apply Kmid. lia.
    - destruct (Z.eqb_spec i (r - t - 1 + 1)); [lia|]. destruct (Z.leb_spec (i - 1) (r - (t + 1))); [lia|]. f_equal. lia.
  Qed.
  (** the coefficients used by the code are those of the knot insertion *)
  Lemma one_coef t P Q f i : 0 <= t < s -> lin f -> one knots p u r s t P Q ->
    f (P i) = ins_coef (kf (dl (t + 1))) (Z.to_nat p) (r - t - 1) u (fun i => f (Q i)) i.
  Proof.
    intros Ht Lf [I1 [I2 I3]]. pose proof S0. pose proof S1. pose proof P0. unfold ins_coef. rewrite nn_of by lia.
    destruct (Z.leb_spec i (r - t - 1 - p)); [rewrite I1 by lia; reflexivity|].
    destruct (Z.leb_spec i (r - t - 1)); [|rewrite I3 by lia; reflexivity].
    unfold step. rewrite nn_of by lia. rewrite !dl_kf by lia.
    destruct (Z.leb_spec (i + p) (r - (t + 1))); [lia|]. destruct (Z.leb_spec i (r - (t + 1))); [|lia].
    pose proof (Khigh (i + p + (t + 1)) ltac:(lia)) as Kh.
    destruct (Z_le_gt_dec i (r - s)) as [L|L].
    - rewrite I2 by lia. rewrite lin_add, !lin_scale by assumption. unfold al.
      replace (i + (p + 1) + t) with (i + p + (t + 1)) by lia. pose proof (Klow i L). field. lra.
    - rewrite I3 by lia. rewrite (Kmid i) by lia. field. lra.
  Qed.
  Lemma chain_sum f x : lin f -> (0 <= x <= 1)%R -> forall N t P P', 0 <= t -> t + Z.of_nat N <= s -> chain knots p u r s N t P P' ->
    zsum 0 (len (dl t) - p - 1) (fun i => SpecBasis.N (kf (dl t)) (Z.to_nat p) i x * f (P i))%R =
    zsum 0 (len (dl (t + Z.of_nat N)) - p - 1) (fun i => SpecBasis.N (kf (dl (t + Z.of_nat N))) (Z.to_nat p) i x * f (P' i))%R.
  Proof.
    intros Lf Hx. induction N as [|N IH]; intros t P P' Ht Hs Ch; inversion Ch; subst.
    - replace (t + Z.of_nat 0) with t by lia. reflexivity.
    - replace (t + Z.of_nat (S N)) with (t + 1 + Z.of_nat N) in * by lia.
      rewrite <- (IH (t + 1) Q P') by (try assumption; lia).
      rewrite <- (ins_sum p (dl (t + 1)) (dl t) (r - t - 1) u (fun i => f (Q i)) x); try assumption.
      + apply zsum_ext. intros i Hi. f_equal. apply one_coef; try assumption; lia.
      + apply dl_clamped. lia.
      + apply dl_span. lia.
      + apply dl_ins. lia.
  Qed.
  Lemma dl_perm t : 0 <= t <= s -> Permutation knots (repeat u (Z.to_nat t) ++ dl t).
  Proof.
    intros Ht. pose proof S0. pose proof S1. pose proof R1. pose proof P0.
    assert (knots = firstn (Z.to_nat (r + 1 - t)) knots ++ repeat u (Z.to_nat t) ++ skipn (Z.to_nat (r + 1)) knots) as E.
    { apply kf_ext; [rewrite !len_app, len_firstn, len_skipn, len_repeat; lia|]. intros i.
      destruct (Z_lt_le_dec i 0) as [Ni|Ni].
      - assert (forall l, kf l i = kf l 0) as K0 by (intros l; unfold kf; f_equal; lia). rewrite !K0.
        change (kf ?l 0) with (znth 1%R l 0). rewrite znth_app1 by (rewrite ?len_firstn; lia). rewrite znth_firstn by lia. reflexivity.
      - change (kf ?l i) with (znth 1%R l i). rewrite znth_app, len_firstn by lia.
        replace (Z.min (Z.max (r + 1 - t) 0) (len knots)) with (r + 1 - t) by lia.
        destruct (Z.ltb_spec i (r + 1 - t)); [rewrite znth_firstn by lia; reflexivity|].
        rewrite znth_app, len_repeat by lia. destruct (Z.ltb_spec (i - (r + 1 - t)) (Z.max t 0)).
        + rewrite znth_repeat by lia. apply (Kmid i). lia.
        + rewrite znth_skipn by lia. f_equal. lia. }
    rewrite E at 1. unfold del. rewrite !app_assoc. apply Permutation_app_tail. apply Permutation_app_comm.
  Qed.

  (** ** The whole call *)
  Variable points : list (vec4 R).
  Hypothesis Lp : len points = n + 1.
  Definition hpt (i : Z) : vec4 R := ToHomo (nth (Z.to_nat i) points (Vec4 0 0 0 1)%R).
  Lemma rep_start : rep p n r s 0 hpt (map ToHomo points).
  Proof.
    assert (forall k, 0 <= k <= n -> vget (map ToHomo points) k = Ok (hpt k)) as G.
    { intros k Hk. unfold hpt. apply vget_map_ok. rewrite (vget_ok (Vec4 0 0 0 1)%R) by lia. reflexivity. }
    pose proof S0. pose proof S1. pose proof R1. split; [rewrite len_map; exact Lp|]. split; intros k Hk.
    - apply G. revert Hk. unfold Lb. Z.to_euclidean_division_equations. lia.
    - replace (k - 0) with k by lia. apply G. revert Hk. unfold Rb. Z.to_euclidean_division_equations. lia.
  Qed.
  Definition temp0 : list (option (vec4 R)) := repeat None (Z.to_nat (2 * p + 1)).
  Lemma temp0_len : len temp0 = 2 * p + 1.
  Proof. pose proof P0. unfold temp0. rewrite len_repeat. lia. Qed.
  Lemma Removal_eq times eps tol : CalcTOL (map ToHomo points) eps = Ok tol ->
    forall t pts P, removal_loop (Z.to_nat times) knots (p + 1) u tol 0 (r - p) (r - s) (map ToHomo points) temp0 = Ok (t, pts) ->
    (t = 0 -> KnotRemoval knots points p u times eps = Ok (0, knots, pts)) /\
    (t = times -> 1 <= times <= s -> 2 * times <= p + s -> rep p n r s times P pts ->
     KnotRemoval knots points p u times eps =
       bind (mapM FromHomo (map P (zrange 0 (n + 1 - times)))) (fun q => Ok (times, dl times, q))).
  Proof.
    intros Et t pts P E. pose proof P0. pose proof S0. pose proof S1. pose proof R1.
    unfold KnotRemoval. cbv zeta. rewrite Mult, Find. cbn [bind]. rewrite Et. cbn [bind]. rewrite uninit_ok by lia. cbn [bind].
    fold temp0. rewrite E. cbn [bind]. split.
    - intros ->. reflexivity.
    - intros -> HT T2 Rp. destruct (Z.eqb_spec times 0); [lia|].
      rewrite (ij_loop _ times) by lia. cbn [bind].
      destruct (pts_loop knots p n u r s P0 R1 S0 S1 Klow Khigh) with (T := times) (P := P) (pts := pts) as [pts' [j' [E1 [L1 G1]]]]; try assumption; try lia.
      rewrite len_map, Lp. replace (n + 1 - 1) with n by lia. rewrite E1. cbn [bind].
      assert (vresize pts' (len pts' - times) v4zero = Ok (map P (zrange 0 (n + 1 - times)))) as ->.
      { unfold vresize. destruct (Z.ltb_spec (len pts' - times) 0); [lia|]. f_equal.
        replace (Z.to_nat (len pts' - times - len pts')) with O by lia. cbn [repeat]. rewrite app_nil_r.
        apply vget_ext; [rewrite len_firstn, len_map, len_zrange; lia|]. rewrite len_firstn. intros q Hq.
        rewrite vget_firstn by lia. rewrite G1 by lia. rewrite vget_zrange_map by lia. reflexivity. }
      cbn [bind]. destruct (knots_loop knots p n r) with (T := times) as [k' [E2 E3]]; try assumption; try lia.
      rewrite E2. cbn [bind]. norm_R. rewrite E3. cbn [bind]. reflexivity.
  Qed.
  Lemma rooms_ok times : 1 <= times <= s -> 2 * times <= p + s -> rooms p n r s 0 (Z.to_nat times).
  Proof.
    intros HT T2. pose proof P0. pose proof S0. pose proof S1. pose proof R1. split; [lia|]. intros k Hk. unfold room. lia.
  Qed.
  Lemma Removal_sound times k' q' : 1 <= times <= s -> 2 * times <= p + s ->
    KnotRemoval knots points p u times 0%R = Ok (times, k', q') ->
    k' = dl times /\ exists P', chain knots p u r s (Z.to_nat times) 0 hpt P' /\
      q' = map (fun i => fromh (P' i)) (zrange 0 (n + 1 - times)) /\ forall i, 0 <= i < n + 1 - times -> w4 (P' i) <> 0%R.
  Proof.
    intros HT T2 E. pose proof P0. pose proof S0. pose proof S1. pose proof R1.
    destruct (CalcTOL_ok (map ToHomo points) 0%R) as [tol [Et [T0 _]]]. specialize (T0 eq_refl). subst tol.
    pose proof E as E'. unfold KnotRemoval in E'. cbv zeta in E'. rewrite Mult, Find in E'. cbn [bind] in E'. rewrite Et in E'. cbn [bind] in E'.
    rewrite uninit_ok in E' by lia. cbn [bind] in E'. fold temp0 in E'.
    destruct (removal_loop (Z.to_nat times) knots (p + 1) u 0%R 0 (r - p) (r - s) (map ToHomo points) temp0) as [[t pts]| | | | |] eqn:El;
      cbn [bind] in E'; try discriminate.
    assert (t = times) as ->.
    { clear - E' HT. destruct (Z.eqb_spec t 0); [inversion E'; lia|].
      repeat match type of E' with bind ?m _ = _ => destruct m as [| | | | |]; cbn [bind] in E'; try discriminate
        | (let '(_, _) := ?q in _) = _ => destruct q end. inversion E'. reflexivity. }
    destruct (loop_sound knots p n u r s LK S0 Klow Khigh (Z.to_nat times) 0 hpt (map ToHomo points) temp0 pts) as [P' [Ch Rp]].
    { apply rooms_ok; assumption. } { exact rep_start. } { exact temp0_len. }
    { replace (r - p - 0) with (r - p) by lia. replace (r - s + 0) with (r - s) by lia. rewrite El. do 2 f_equal. lia. }
    replace (0 + Z.of_nat (Z.to_nat times)) with times in Rp by lia.
    destruct (Removal_eq times 0%R 0%R Et times pts P' El) as [_ Q]. rewrite (Q eq_refl HT T2 Rp) in E.
    destruct (mapM FromHomo (map P' (zrange 0 (n + 1 - times)))) as [qs| | | | |] eqn:Em; cbn [bind] in E; try discriminate.
    inversion E; subst. split; [reflexivity|]. exists P'. split; [exact Ch|].
    destruct (mapM_FromHomo_inv _ _ Em) as [Wn ->]. split; [apply map_map|].
    intros i Hi. rewrite Forall_forall in Wn. apply Wn. apply in_map_iff. exists i. split; [reflexivity|]. apply In_zrange. lia.
  Qed.
  Lemma Removal_complete times eps P' : 1 <= times <= s -> 2 * times <= p + s -> (0 <= eps)%R -> positive_weights points ->
    chain knots p u r s (Z.to_nat times) 0 hpt P' -> (forall i, 0 <= i < n + 1 - times -> w4 (P' i) <> 0%R) ->
    KnotRemoval knots points p u times eps = Ok (times, dl times, map (fun i => fromh (P' i)) (zrange 0 (n + 1 - times))).
  Proof.
    intros HT T2 He Pw Ch Wn. pose proof P0. pose proof S0. pose proof S1. pose proof R1.
    destruct (CalcTOL_ok (map ToHomo points) eps) as [tol [Et [_ T0]]].
    assert (0 <= tol)%R as Tp.
    { apply T0; [exact He|]. apply Forall_forall. intros h Hh. apply in_map_iff in Hh. destruct Hh as [q [<- Hq]].
      unfold positive_weights in Pw. rewrite Forall_forall in Pw. exact (Pw q Hq). }
    destruct (loop_complete knots p n u r s LK S0 Klow Khigh (Z.to_nat times) tol Tp 0 hpt P' (map ToHomo points) temp0) as [pts [El Rp]].
    { apply rooms_ok; assumption. } { exact rep_start. } { exact temp0_len. } { exact Ch. }
    replace (r - p - 0) with (r - p) in El by lia. replace (r - s + 0) with (r - s) in El by lia.
    replace (0 + Z.of_nat (Z.to_nat times)) with times in * by lia.
    destruct (Removal_eq times eps tol Et times pts P' El) as [_ Q]. rewrite (Q eq_refl HT T2 Rp).
    rewrite mapM_FromHomo_ok.
    - cbn [bind]. rewrite map_map. reflexivity.
    - apply Forall_forall. intros h Hh. apply in_map_iff in Hh. destruct Hh as [i [<- Hi]]. apply In_zrange in Hi. apply Wn. lia.
  Qed.
End Whole.
