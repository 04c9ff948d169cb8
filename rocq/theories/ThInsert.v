(** Knot insertion (Boehm's algorithm) does not change a spline. *)
From Coq Require Import Reals ZArith List Lra Lia Bool Permutation.
From Verif Require Import Outcome Num ModelCore ModelBasis ModelCurve SpecCore SpecBasis SpecCurve
  ThOutcome ThReal ThKnots ThVec ThSum ThSpline ThBasis ThCurve.
Import ListNotations.
Open Scope Z_scope.

(** ** Mathematics *)
Definition ins_knots (U : Z -> R) (k : Z) (u : R) (i : Z) : R :=
  if i <=? k then U i else if i =? k + 1 then u else U (i - 1).
Definition ins_coef (U : Z -> R) (p : nat) (k : Z) (u : R) (P : Z -> R) (i : Z) : R :=
  if i <=? k - nn p then P i else if i <=? k then step U p u P i else P (i - 1).

Lemma run_ext U V i n : (forall k, i < k <= i + nn n -> U k = V k) -> run U i n = run V i n.
Proof.
  revert i. induction n as [|n IH]; intros i H; [reflexivity|]. rewrite nn_S in H. pose proof (nn_nonneg n). simpl.
  rewrite H by lia. f_equal. apply IH. intros k Hk. apply H. lia.
Qed.
Lemma run_shift U V i d n : (forall k, i < k <= i + nn n -> U k = V (k + d)) -> run U i n = run V (i + d) n.
Proof.
  revert i. induction n as [|n IH]; intros i H; [reflexivity|]. rewrite nn_S in H. pose proof (nn_nonneg n). simpl.
  rewrite H by lia. f_equal; [f_equal; lia|]. replace (i + d + 1) with (i + 1 + d) by lia. apply IH. intros k Hk. apply H. lia.
Qed.

Section Insert.
  Variables (U : Z -> R) (k : Z) (u : R).
  Hypothesis M : mono U.
  Hypothesis K1 : (U k <= u)%R.
  Hypothesis K2 : (u < U (k + 1)%Z)%R.
  Let V := ins_knots U k u.

  Lemma ins_low i : i <= k -> V i = U i.
  Proof. intros. unfold V, ins_knots. destruct (Z.leb_spec i k); [reflexivity|lia]. Qed.
  Lemma ins_mid : V (k + 1) = u.
  Proof. unfold V, ins_knots. destruct (Z.leb_spec (k + 1) k); [lia|]. rewrite Z.eqb_refl. reflexivity. Qed.
  Lemma ins_high i : k + 1 < i -> V i = U (i - 1).
  Proof. intros. unfold V, ins_knots. destruct (Z.leb_spec i k); [lia|]. destruct (Z.eqb_spec i (k + 1)); [lia|reflexivity]. Qed.
  Lemma ins_mono : mono V.
  Proof.
    intros i j H.
    destruct (Z_le_gt_dec i k) as [A|A]; [rewrite (ins_low i A)|destruct (Z.eq_dec i (k + 1)) as [->|A']; [rewrite ins_mid|rewrite (ins_high i) by lia]];
    (destruct (Z_le_gt_dec j k) as [B'|B']; [rewrite (ins_low j B')|destruct (Z.eq_dec j (k + 1)) as [->|B'']; [rewrite ins_mid|rewrite (ins_high j) by lia]]);
      try lia; try lra.
    - apply M; lia.
    - pose proof (M i k ltac:(lia)). lra.
    - apply M; lia.
    - pose proof (M (k + 1) (j - 1) ltac:(lia)). lra.
    - apply M; lia.
  Qed.

  Lemma ins_run_perm n i : k - nn n <= i <= k -> Permutation (run V i (S n)) (u :: run U i n).
  Proof.
    revert i. induction n as [|n IH]; intros i Hi.
    - rewrite nn_0 in Hi. assert (i = k) as -> by lia. simpl. rewrite ins_mid. reflexivity.
    - rewrite nn_S in Hi. change (run V i (S (S n))) with (V (i + 1) :: run V (i + 1) (S n)).
      destruct (Z.eq_dec i k) as [->|Ne].
      + rewrite ins_mid. apply perm_skip. rewrite (run_shift V U (k + 1) (-1) (S n)).
        * replace (k + 1 + -1) with k by lia. reflexivity.
        * intros q Hq. rewrite ins_high by lia. reflexivity.
      + rewrite ins_low by lia. rewrite IH by lia.
        change (run U i (S n)) with (U (i + 1) :: run U (i + 1) n). apply perm_swap.
  Qed.

  (** span of the refined knot vector -> span of the original one *)
  Definition span_old (j : Z) : Z := if j <=? k then j else j - 1.
  Lemma ins_bl j P ts : (V j < V (j + 1)%Z)%R ->
    bl V j ts (ins_coef U (length ts) k u P) = bl U (span_old j) ts P.
  Proof.
    intros Sp. set (p := length ts). symmetry.
    assert (U (span_old j) < U (span_old j + 1)%Z)%R as So.
    { unfold span_old. destruct (Z.leb_spec j k) as [L|L].
      - rewrite (ins_low j) in Sp by lia. destruct (Z.eq_dec j k) as [->|]; [lra|]. rewrite ins_low in Sp by lia. exact Sp.
      - destruct (Z.eq_dec j (k + 1)) as [->|].
        + replace (k + 1 - 1) with k by lia. lra.
        + rewrite !ins_high in Sp by lia. replace (j - 1 + 1) with (j + 1 - 1) by lia. exact Sp. }
    apply (bl_unique V j ins_mono Sp ts (fun ts => bl U (span_old j) ts P)).
    { apply bl_sma; [exact M|exact So]. }
    fold p. intros i Hi. unfold ins_coef.
    destruct (Z.leb_spec i (k - nn p)) as [L1|L1].
    - rewrite (run_ext V U) by (intros; apply ins_low; lia).
      apply bl_dual; [exact M|exact So|]. unfold span_old. destruct (Z.leb_spec j k); lia.
    - destruct (Z.leb_spec i k) as [L2|L2].
      + destruct p as [|q] eqn:Ep; [rewrite nn_0 in L1; lia|]. rewrite nn_S in L1, Hi.
        rewrite (bl_perm U _ M So _ _ (ins_run_perm q i ltac:(lia))).
        apply (sma_step U q (fun ts => bl U (span_old j) ts P)).
        * apply bl_sma; [exact M|exact So].
        * pose proof (den_pos U (span_old j) M So i (i + nn (S q))). rewrite nn_S in *.
          assert (i <= span_old j < i + (nn q + 1)) as G by (unfold span_old; destruct (Z.leb_spec j k); lia).
          specialize (H G). lra.
        * apply bl_dual; [exact M|exact So|]. rewrite nn_S. unfold span_old; destruct (Z.leb_spec j k); lia.
        * apply bl_dual; [exact M|exact So|]. rewrite nn_S. unfold span_old; destruct (Z.leb_spec j k); lia.
      + rewrite (run_shift V U i (-1)) by (intros q Hq; rewrite ins_high by lia; f_equal; lia).
        replace (i + -1) with (i - 1) by lia.
        apply bl_dual; [exact M|exact So|]. unfold span_old; destruct (Z.leb_spec j k); lia.
  Qed.
  Lemma ins_span j x : (forall i, (U i <= 1)%R) -> span_at V j x -> span_at U (span_old j) x.
  Proof.
    intros L1 S. pose proof (L1 (k + 1)) as Lk. unfold span_at, span_old in *. destruct (Z.leb_spec j k) as [L|L].
    - rewrite (ins_low j) in S by lia. destruct (Z.eq_dec j k) as [->|].
      + rewrite ins_mid in S. lra.
      + rewrite ins_low in S by lia. exact S.
    - destruct (Z.eq_dec j (k + 1)) as [->|].
      + rewrite ins_mid, ins_high in S by lia. replace (k + 1 - 1 + 1) with (k + 1) by lia.
        replace (k + 1 + 1 - 1) with (k + 1) in S by lia. replace (k + 1 - 1) with k by lia. lra.
      + rewrite !ins_high in S by lia. replace (j - 1 + 1) with (j + 1 - 1) by lia. exact S.
  Qed.
End Insert.

(** ** Knot lists *)
Definition knot_span (p : Z) (l : list R) (k : Z) (u : R) : Prop :=
  p <= k <= len l - p - 2 /\ (kf l k <= u < kf l (k + 1))%R.
(** [l'] is [l] with [u] inserted after position [k] *)
Definition ins_list (l l' : list R) (k : Z) (u : R) : Prop :=
  len l' = len l + 1 /\ forall i, kf l' i = ins_knots (kf l) k u i.

Lemma span_find p l u : clamped p l -> (0 < u < 1)%R ->
  exists k, KnotVector_FindSpanIndex l p u = Ok k /\ knot_span p l k u.
Proof.
  intros C Hu. destruct (clamped_span p l u C ltac:(lra)) as [k [E [Hk S]]]. exists k. split; [exact E|].
  split; [exact Hk|]. destruct S as [S|S]; [exact S|lra].
Qed.
Lemma span_unique p l k k' u : clamped p l -> knot_span p l k u -> knot_span p l k' u -> k = k'.
Proof.
  intros C [H1 H2] [H3 H4]. pose proof (clamped_mono p l C) as M.
  destruct (Z.lt_trichotomy k k') as [L|[L|L]]; [exfalso|assumption|exfalso].
  - pose proof (M (k + 1) k' ltac:(lia)). lra.
  - pose proof (M (k' + 1) k ltac:(lia)). lra.
Qed.
Lemma insert_knots p l k u : clamped p l -> knot_span p l k u ->
  exists l', vinsert l (k + 1) 1 u = Ok l' /\ ins_list l l' k u.
Proof.
  intros C [Hk Hu]. pose proof (cl_degree p l C). pose proof (cl_len p l C).
  destruct (vinsert_spec l (k + 1) u) as [l' [E [L [G1 [G2 G3]]]]]; [lia|].
  exists l'. split; [exact E|]. split; [exact L|]. intros i. unfold ins_knots.
  assert (forall i v, vget l' i = Ok v -> kf l' i = v) as Gk.
  { intros q v Eq. pose proof (vget_range _ _ _ Eq). rewrite vget_kf in Eq by assumption. congruence. }
  destruct (Z.leb_spec i k).
  - destruct (Z_lt_le_dec i 0).
    + rewrite (kf_low l' i), (kf_low l i) by lia. apply Gk. rewrite G1 by lia. apply vget_kf. lia.
    + apply Gk. rewrite G1 by lia. apply vget_kf. lia.
  - destruct (Z.eqb_spec i (k + 1)) as [->|]; [apply Gk; exact G2|].
    destruct (Z_lt_le_dec (i - 1) (len l)).
    + apply Gk. rewrite G3 by lia. apply vget_kf. lia.
    + rewrite !kf_high by lia. reflexivity.
Qed.
Lemma ins_list_at l l' k u i : ins_list l l' k u -> 0 <= k < len l -> 0 <= i < len l + 1 ->
  at_ l' i = if i <=? k then at_ l i else if i =? k + 1 then u else at_ l (i - 1).
Proof.
  intros [L G] Hk Hi. rewrite <- kf_at by lia. rewrite G. unfold ins_knots.
  destruct (Z.leb_spec i k); [apply kf_at; lia|]. destruct (Z.eqb_spec i (k + 1)); [reflexivity|]. apply kf_at; lia.
Qed.
Lemma ins_clamped p l l' k u : clamped p l -> knot_span p l k u -> (0 < u < 1)%R -> ins_list l l' k u -> clamped p l'.
Proof.
  intros C K Hu I. pose proof K as [Hk Hku]. pose proof (cl_degree p l C) as P0. pose proof (cl_len p l C) as CL.
  pose proof I as [L G].
  assert (mono (kf l')) as M'.
  { intros a b Hab. rewrite !G. apply ins_mono; try lra; [apply (clamped_mono p l C)|exact Hab]. }
  constructor.
  - exact P0.
  - lia.
  - intros a b Hab Hb. rewrite <- !kf_at by lia. apply M'. lia.
  - intros i Hi. rewrite (ins_list_at l l' k u i I) by lia. destruct (Z.leb_spec i k); [|lia]. apply (cl_zero p l C). lia.
  - rewrite (ins_list_at l l' k u _ I) by lia. destruct (Z.leb_spec (p + 1) k); [apply (cl_first p l C)|].
    destruct (Z.eqb_spec (p + 1) (k + 1)); [lra|lia].
  - rewrite (ins_list_at l l' k u _ I) by lia. destruct (Z.leb_spec (len l' - p - 2) k); [lia|].
    destruct (Z.eqb_spec (len l' - p - 2) (k + 1)); [lra|].
    replace (len l' - p - 2 - 1) with (len l - p - 2) by lia. apply (cl_last p l C).
  - intros i Hi. rewrite (ins_list_at l l' k u _ I) by lia. destruct (Z.leb_spec i k); [lia|].
    destruct (Z.eqb_spec i (k + 1)); [lia|]. apply (cl_one p l C). lia.
Qed.
(** value of the refined spline *)
Lemma ins_sum p l l' k u P x : clamped p l -> knot_span p l k u -> (0 < u < 1)%R -> ins_list l l' k u -> (0 <= x <= 1)%R ->
  zsum 0 (len l' - p - 1) (fun i => N (kf l') (Z.to_nat p) i x * ins_coef (kf l) (Z.to_nat p) k u P i)%R =
  zsum 0 (len l - p - 1) (fun i => N (kf l) (Z.to_nat p) i x * P i)%R.
Proof.
  intros C K Hu I Hx. pose proof (ins_clamped p l l' k u C K Hu I) as C'.
  destruct (clamped_span p l' x C' Hx) as [j [_ [Hj S]]].
  rewrite (local_sum p l' j x _ C' Hj S).
  pose proof K as [Hk Hku]. pose proof I as [L G].
  assert (span_at (ins_knots (kf l) k u) j x) as S' by (unfold span_at in *; rewrite <- !G; exact S).
  pose proof (ins_span (kf l) k u ltac:(lra) ltac:(lra) j x (clamped_le1 p l C) S') as So.
  rewrite (local_sum p l (span_old k j) x P C); [|unfold span_old; destruct (Z.leb_spec j k); lia|exact So].
  transitivity (bl (ins_knots (kf l) k u) j (repeat x (Z.to_nat p)) (ins_coef (kf l) (Z.to_nat p) k u P)).
  - assert (forall ts Q, bl (kf l') j ts Q = bl (ins_knots (kf l) k u) j ts Q) as Ge.
    { induction ts as [|t ts IH]; intros Q; cbn [bl]; [reflexivity|]. rewrite IH. apply bl_ext. intros i Hi.
      unfold step. rewrite !G. reflexivity. }
    apply Ge.
  - pose proof (ins_bl (kf l) k u (clamped_mono p l C) ltac:(lra) ltac:(lra) j P (repeat x (Z.to_nat p)) (span_nonempty _ _ _ S')) as E.
    rewrite repeat_length in E. exact E.
Qed.

(** ** Points *)
Definition fromh (h : vec4 R) : vec4 R := (Vec4 (x4 h / w4 h) (y4 h / w4 h) (z4 h / w4 h) (w4 h))%R.
Lemma FromHomo_ok h : w4 h <> 0%R -> FromHomo h = Ok (fromh h).
Proof. intros. unfold FromHomo. rewrite v3div_ok by assumption. reflexivity. Qed.
Lemma ToHomo_fromh h : w4 h <> 0%R -> ToHomo (fromh h) = h.
Proof.
  intros. destruct h as [a b c d]. unfold ToHomo, fromh. simpl in *. norm_R. f_equal; field; assumption.
Qed.
Lemma fromh_ToHomo p : w4 p <> 0%R -> fromh (ToHomo p) = p.
Proof.
  intros. destruct p as [a b c d]. unfold ToHomo, fromh. simpl in *. norm_R. f_equal; field; assumption.
Qed.
Definition blend_h (a : R) (p q : vec4 R) : vec4 R := v4add (v4scale a (ToHomo p)) (v4scale (1 - a)%R (ToHomo q)).
Definition blend (a : R) (p q : vec4 R) : vec4 R := fromh (blend_h a p q).
Definition ins_alpha (U : Z -> R) (p : Z) (u : R) (i : Z) : R := ((u - U i) / (U (i + p)%Z - U i))%R.
Definition ins_pts (U : Z -> R) (p k : Z) (u : R) (P : Z -> vec4 R) (i : Z) : vec4 R :=
  if i <=? k - p then P i else if i <=? k then blend (ins_alpha U p u i) (P i) (P (i - 1)) else P (i - 1).

Lemma blend_h_lin f a p q : lin f -> f (blend_h a p q) = (a * f (ToHomo p) + (1 - a) * f (ToHomo q))%R.
Proof. intros Lf. unfold blend_h. rewrite lin_add, !lin_scale by assumption. reflexivity. Qed.
Lemma blend_w a p q : (0 <= a <= 1)%R -> (0 < w4 p)%R -> (0 < w4 q)%R -> (0 < w4 (blend_h a p q))%R.
Proof.
  intros Ha Hp Hq. rewrite blend_h_lin by apply lin_w. simpl.
  destruct (Req_dec a 0) as [->|]; [lra|]. assert (0 < a * w4 p)%R by (apply Rmult_lt_0_compat; lra).
  assert (0 <= (1 - a) * w4 q)%R by (apply Rmult_le_pos; lra). lra.
Qed.
Lemma ins_den U p k u i : mono U -> (U k <= u < U (k + 1)%Z)%R -> k - p < i <= k ->
  (0 < U (i + p)%Z - U i /\ 0 <= ins_alpha U p u i <= 1)%R.
Proof.
  intros M K Hi. pose proof (M i k ltac:(lia)). pose proof (M (k + 1) (i + p) ltac:(lia)).
  assert (0 < U (i + p)%Z - U i)%R as D by lra. split; [exact D|]. unfold ins_alpha. split.
  - apply Rmult_le_pos; [lra|]. left. apply Rinv_0_lt_compat; exact D.
  - apply Rmult_le_reg_r with (U (i + p)%Z - U i)%R; [exact D|]. unfold Rdiv.
    rewrite Rmult_assoc, Rinv_l by lra. lra.
Qed.
Lemma ins_pts_w U p k u P : mono U -> (U k <= u < U (k + 1)%Z)%R -> (forall i, (0 < w4 (P i))%R) ->
  forall i, (0 < w4 (ins_pts U p k u P i))%R.
Proof.
  intros M K W i. unfold ins_pts. destruct (Z.leb_spec i (k - p)); [apply W|]. destruct (Z.leb_spec i k); [|apply W].
  unfold blend, fromh. cbn [w4]. apply blend_w; auto. apply (ins_den U p k u i M K). lia.
Qed.
Lemma ins_pts_coef U p k u P f i : 0 <= p -> mono U -> (U k <= u < U (k + 1)%Z)%R -> (forall i, (0 < w4 (P i))%R) -> lin f ->
  f (ToHomo (ins_pts U p k u P i)) = ins_coef U (Z.to_nat p) k u (fun i => f (ToHomo (P i))) i.
Proof.
  intros P0 M K W Lf. unfold ins_pts, ins_coef. rewrite nn_of by assumption.
  destruct (Z.leb_spec i (k - p)); [reflexivity|]. destruct (Z.leb_spec i k); [|reflexivity].
  destruct (ins_den U p k u i M K ltac:(lia)) as [D A].
  unfold blend. rewrite ToHomo_fromh by (pose proof (blend_w _ _ _ A (W i) (W (i - 1))); lra).
  rewrite blend_h_lin by assumption. unfold step. rewrite nn_of by assumption. unfold ins_alpha. field. lra.
Qed.

(** [c'] is [c] with knot [u] inserted in span [k]. *)
Definition inserted (c c' : curve R) (k : Z) (u : R) : Prop :=
  Degree c' = Degree c /\ ins_list (Knots c) (Knots c') k u /\
  len (ControlPoints c') = len (ControlPoints c) + 1 /\
  (forall i, 0 <= i < len (ControlPoints c') ->
     cp c' i = ins_pts (kf (Knots c)) (Degree c) k u (cp c) i).
Lemma list_cp_ext l l' : len l = len l' -> (forall i, 0 <= i < len l -> nth (Z.to_nat i) l (Vec4 0 0 0 1)%R = nth (Z.to_nat i) l' (Vec4 0 0 0 1)%R) -> l = l'.
Proof. intros L H. apply (znth_ext (Vec4 0 0 0 1)%R); [exact L|exact H]. Qed.
Lemma kf_ext l l' : len l = len l' -> (forall i, kf l i = kf l' i) -> l = l'.
Proof. intros L H. apply (znth_ext 1%R); [exact L|intros i _; apply H]. Qed.
Lemma inserted_unique c c1 c2 k u : inserted c c1 k u -> inserted c c2 k u -> c1 = c2.
Proof.
  intros [D1 [I1 [L1 G1]]] [D2 [I2 [L2 G2]]]. destruct c1 as [d1 k1 p1], c2 as [d2 k2 p2]. simpl in *. f_equal.
  - congruence.
  - destruct I1 as [A1 B1], I2 as [A2 B2]. apply kf_ext; [lia|]. intros. rewrite B1, B2. reflexivity.
  - apply list_cp_ext; [lia|]. intros i Hi. specialize (G1 i ltac:(lia)). specialize (G2 i ltac:(lia)).
    unfold cp in *. simpl in *. congruence.
Qed.
Lemma inserted_wf c c' k u : wf_curve c -> knot_span (Degree c) (Knots c) k u -> (0 < u < 1)%R -> inserted c c' k u -> wf_curve c'.
Proof.
  intros W K Hu [D [I [L G]]]. pose proof W as [C Cn Wt]. constructor.
  - rewrite D. apply (ins_clamped _ _ _ _ _ C K Hu I).
  - rewrite L, D, Cn. destruct I as [-> _]. lia.
  - apply Forall_forall. intros q Hq. destruct (In_znth (Vec4 0 0 0 1)%R _ _ Hq) as [i [Hi Ei]].
    specialize (G i Hi). unfold cp, znth in *. rewrite <- Ei, G. apply ins_pts_w.
    + apply (clamped_mono _ _ C).
    + apply K.
    + intros q'. apply cp_weight. assumption.
Qed.
Lemma inserted_hsum c c' k u f x : wf_curve c -> knot_span (Degree c) (Knots c) k u -> (0 < u < 1)%R -> inserted c c' k u ->
  lin f -> (0 <= x <= 1)%R -> hsum c' f x = hsum c f x.
Proof.
  intros W K Hu I Lf Hx. pose proof (inserted_wf c c' k u W K Hu I) as W'. destruct I as [D [I [L G]]].
  unfold hsum, basis_fun. rewrite (wf_count c W), (wf_count c' W'), D.
  rewrite <- (ins_sum _ _ _ k u (fun i => f (hp c i)) x (wf_knots c W) K Hu I Hx).
  apply zsum_ext. intros i Hi. f_equal. unfold hp at 1.
  rewrite G by (rewrite (wf_count c' W'), D; lia).
  apply ins_pts_coef.
  - apply (cl_degree _ _ (wf_knots c W)).
  - apply (clamped_mono _ _ (wf_knots c W)).
  - apply K.
  - intros q. apply cp_weight. apply (wf_weights c W).
  - exact Lf.
Qed.
Lemma hsum_same c c' : (forall f x, lin f -> (0 <= x <= 1)%R -> hsum c' f x = hsum c f x) -> same_curve c c'.
Proof.
  intros H x Hx. rewrite !curve_point_hsum. rewrite !H by (auto; unfold lin; auto). reflexivity.
Qed.
Lemma inserted_same c c' k u : wf_curve c -> knot_span (Degree c) (Knots c) k u -> (0 < u < 1)%R -> inserted c c' k u ->
  same_curve c c'.
Proof. intros W K Hu I. apply hsum_same. intros. apply (inserted_hsum c c' k u); assumption. Qed.

(** ** The code *)
Lemma kv_insert p l u : clamped p l -> (0 < u < 1)%R ->
  exists l' k, KnotVector_InsertKnot l u 1 = Ok (l', k) /\ vinsert l (k + 1) 1 u = Ok l' /\ knot_span p l k u /\ ins_list l l' k u.
Proof.
  intros C Hu. destruct (span_find p l u C Hu) as [k [_ K]].
  destruct (insert_knots p l k u C K) as [l' [E I]]. exists l', k.
  split; [|auto]. unfold KnotVector_InsertKnot. norm_R.
  assert (Rltb 0 u && Rltb u 1 = true) as ->. { apply andb_true_intro. rewrite !Rltb_true. exact Hu. }
  cbn [assert_ bind]. destruct (upper_bound_R l u (cl_sorted p l C)) as [i [Ei [Hi [A B]]]]. rewrite Ei. cbn [bind].
  destruct K as [Hk Ku]. pose proof (cl_degree p l C). pose proof (cl_len p l C).
  assert (i = k + 1) as ->.
  { rewrite !kf_at in Ku by lia. destruct (Z.lt_trichotomy i (k + 1)) as [Q|[Q|Q]]; [|assumption|].
    - specialize (B k ltac:(lia)). lra.
    - specialize (A (k + 1) ltac:(lia)). lra. }
  rewrite E. cbn [bind]. do 2 f_equal. lia.
Qed.

Lemma Curve_InsertKnot_ok c u : wf_curve c -> 1 <= Degree c -> (0 < u < 1)%R ->
  exists c' k, Curve_InsertKnot c u = Ok c' /\ knot_span (Degree c) (Knots c) k u /\ inserted c c' k u.
Proof.
  intros W D1 Hu. pose proof (wf_knots c W) as C. pose proof (wf_count c W) as Cn.
  destruct (kv_insert _ _ u C Hu) as [l' [k [E [_ [K I]]]]].
  pose proof K as [Hk Ku]. set (p := Degree c) in *. pose proof (clamped_mono _ _ C) as M.
  unfold Curve_InsertKnot. fold p. rewrite E. cbn [bind].
  destruct (vinsert_spec (ControlPoints c) k v4zero) as [np [En [Ln [G1 [G2 G3]]]]]; [lia|].
  rewrite En. cbn [bind].
  destruct (for_up_inv (fun i l => len l = len np /\
      (forall q, k - p + 1 <= q < i -> vget l q = Ok (ins_pts (kf (Knots c)) p k u (cp c) q)) /\
      (forall q, ~ (k - p + 1 <= q < i) -> vget l q = vget np q))
    (k - p + 1) (k + 1) (fun i new_points =>
        ki <- vget (Knots c) i ;;
        kip <- vget (Knots c) (i + p) ;;
        alpha <- ndiv (nsub u ki) (nsub kip ki) ;;
        pi <- vget (ControlPoints c) i ;;
        pim1 <- vget (ControlPoints c) (i - 1) ;;
        q <- FromHomo (v4add (v4scale alpha (ToHomo pi)) (v4scale (nsub n1 alpha) (ToHomo pim1))) ;;
        vset new_points i q) np) as [l2 [E2 [L2 [A2 B2]]]].
  - lia.
  - split; [reflexivity|]. split; intros; [lia|reflexivity].
  - intros i l Hi [L [A Bq]]. destruct (ins_den (kf (Knots c)) p k u i M Ku ltac:(lia)) as [D A1].
    rewrite !vget_kf by lia. cbn [bind]. norm_R. rewrite Rdivo_ok by lra. cbn [bind]. fold (ins_alpha (kf (Knots c)) p u i).
    rewrite !vget_cp by lia. cbn [bind]. fold (blend_h (ins_alpha (kf (Knots c)) p u i) (cp c i) (cp c (i - 1))).
    pose proof (blend_w _ _ _ A1 (cp_weight c i (wf_weights c W)) (cp_weight c (i - 1) (wf_weights c W))).
    rewrite FromHomo_ok by lra. cbn [bind].
    destruct (vset_spec l i (blend (ins_alpha (kf (Knots c)) p u i) (cp c i) (cp c (i - 1)))) as [l3 [E3 [L3 [S1 S2]]]]; [lia|].
    exists l3. split; [exact E3|]. split; [lia|]. split.
    + intros q Hq. destruct (Z.eq_dec q i) as [->|]; [|rewrite S2 by assumption; apply A; lia].
      rewrite S1. f_equal. unfold ins_pts. destruct (Z.leb_spec i (k - p)); [lia|]. destruct (Z.leb_spec i k); [reflexivity|lia].
    + intros q Hq. rewrite S2 by lia. apply Bq. lia.
  - rewrite E2. cbn [bind]. eexists _, k. split; [reflexivity|]. split; [exact K|].
    split; [reflexivity|]. split; [exact I|]. cbn [ControlPoints]. split; [lia|]. intros i Hi. fold p.
    assert (vget l2 i = Ok (ins_pts (kf (Knots c)) p k u (cp c) i)) as G.
    { destruct (Z_le_gt_dec (k - p + 1) i) as [Q1|Q1]; [destruct (Z_lt_ge_dec i (k + 1)) as [Q2|Q2]|].
      - apply A2. lia.
      - rewrite B2 by lia. rewrite G3 by lia. rewrite vget_cp by lia. unfold ins_pts.
        destruct (Z.leb_spec i (k - p)); [lia|]. destruct (Z.leb_spec i k); [lia|reflexivity].
      - rewrite B2 by lia. rewrite G1 by lia. rewrite vget_cp by lia. unfold ins_pts.
        destruct (Z.leb_spec i (k - p)); [reflexivity|lia]. }
    apply (vget_inv (Vec4 0 0 0 1)%R) in G. destruct G as [_ G]. symmetry. exact G.
Qed.

Lemma insert_one_ok c u : wf_curve c -> (0 < u < 1)%R ->
  exists c' k, insert_one (Degree c) (Knots c, ControlPoints c) u = Ok (Knots c', ControlPoints c') /\
    knot_span (Degree c) (Knots c) k u /\ inserted c c' k u.
Proof.
  intros W Hu. pose proof (wf_knots c W) as C. pose proof (wf_count c W) as Cn.
  destruct (span_find _ _ u C Hu) as [k [E K]].
  destruct (insert_knots _ _ k u C K) as [l' [El I]].
  pose proof K as [Hk Ku]. pose proof (cl_degree _ _ C) as D0. set (p := Degree c) in *. pose proof (clamped_mono _ _ C) as M.
  unfold insert_one. rewrite E. cbn [bind]. rewrite vget_cp by lia. cbn [bind].
  destruct (vinsert_spec (ControlPoints c) k (cp c k)) as [np [En [Ln [G1 [G2 G3]]]]]; [lia|].
  assert (forall q, 0 <= q <= k -> vget np q = Ok (cp c q)) as Gl.
  { intros q Hq. destruct (Z.eq_dec q k) as [->|]; [exact G2|]. rewrite G1 by lia. apply vget_cp. lia. }
  rewrite En. cbn [bind]. rewrite Gl by lia. cbn [bind].
  destruct (for_up_inv (fun i st => snd st = ToHomo (cp c (i - 1)) /\ len (fst st) = len np /\
      (forall q, k - p + 1 <= q < i -> vget (fst st) q = Ok (ins_pts (kf (Knots c)) p k u (cp c) q)) /\
      (forall q, ~ (k - p + 1 <= q < i) -> vget (fst st) q = vget np q))
    (k - p + 1) (k + 1) (fun i '(points, point_last) =>
        ki <- vget (Knots c) i ;;
        kip <- vget (Knots c) (i + p) ;;
        alpha <- ndiv (nsub u ki) (nsub kip ki) ;;
        pi <- vget points i ;;
        let point_i := ToHomo pi in
        point_new <- FromHomo (v4add (v4scale alpha point_i) (v4scale (nsub n1 alpha) point_last)) ;;
        points <- vset points i point_new ;;
        Ok (points, point_i)) (np, ToHomo (cp c (k - p)))) as [[l2 last2] [E2 [_ [L2 [A2 B2]]]]].
  - lia.
  - cbn [fst snd]. split; [do 2 f_equal; lia|]. split; [reflexivity|]. split; intros; [lia|reflexivity].
  - intros i [l lst] Hi [Es [L [A Bq]]]. cbn [fst snd] in *. subst lst. destruct (ins_den (kf (Knots c)) p k u i M Ku ltac:(lia)) as [D A1].
    rewrite !vget_kf by lia. cbn [bind]. norm_R. rewrite Rdivo_ok by lra. cbn [bind]. fold (ins_alpha (kf (Knots c)) p u i).
    rewrite Bq by lia. rewrite Gl by lia. cbn [bind]. cbv zeta. fold (blend_h (ins_alpha (kf (Knots c)) p u i) (cp c i) (cp c (i - 1))).
    pose proof (blend_w _ _ _ A1 (cp_weight c i (wf_weights c W)) (cp_weight c (i - 1) (wf_weights c W))).
    rewrite FromHomo_ok by lra. cbn [bind].
    destruct (vset_spec l i (blend (ins_alpha (kf (Knots c)) p u i) (cp c i) (cp c (i - 1)))) as [l3 [E3 [L3 [S1 S2]]]]; [lia|].
    unfold blend in E3 |- *. rewrite E3. cbn [bind]. eexists. split; [reflexivity|]. cbn [fst snd].
    split; [do 2 f_equal; lia|]. split; [lia|]. split.
    + intros q Hq. destruct (Z.eq_dec q i) as [->|]; [|rewrite S2 by assumption; apply A; lia].
      rewrite S1. f_equal. unfold ins_pts. destruct (Z.leb_spec i (k - p)); [lia|]. destruct (Z.leb_spec i k); [reflexivity|lia].
    + intros q Hq. rewrite S2 by lia. apply Bq. lia.
  - cbn [fst snd] in *. rewrite E2. cbn [bind]. rewrite El. cbn [bind]. exists (Curve p l' l2), k. split; [reflexivity|]. split; [exact K|].
    split; [reflexivity|]. split; [exact I|]. cbn [ControlPoints]. split; [lia|]. intros i Hi. fold p.
    assert (vget l2 i = Ok (ins_pts (kf (Knots c)) p k u (cp c) i)) as G.
    { destruct (Z_le_gt_dec (k - p + 1) i) as [Q1|Q1]; [destruct (Z_lt_ge_dec i (k + 1)) as [Q2|Q2]|].
      - apply A2. lia.
      - rewrite B2 by lia. rewrite G3 by lia. rewrite vget_cp by lia. unfold ins_pts.
        destruct (Z.leb_spec i (k - p)); [lia|]. destruct (Z.leb_spec i k); [lia|reflexivity].
      - rewrite B2 by lia. rewrite Gl by lia. unfold ins_pts.
        destruct (Z.leb_spec i (k - p)); [reflexivity|lia]. }
    apply (vget_inv (Vec4 0 0 0 1)%R) in G. destruct G as [_ G]. symmetry. exact G.
Qed.
