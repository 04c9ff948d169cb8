(** GetBoundingBox over the reals: the curve and the box (C43). *)
From Coq Require Import Reals QArith Qreals ZArith List Lra Lia Bool Permutation.
From Verif Require Import Outcome Num ModelCore ModelCurve SpecCore SpecBasis SpecCurve SpecSearch SpecBezier
  ThOutcome ThReal ThKnots ThVec ThBox ThSum ThSpline ThBasis ThCurve ThInsert ThCurveWit ThSearch ThBezier ThBezier2 ThBBox ThBBox2.
Import ListNotations.
Open Scope Z_scope.

(** ** De Casteljau subdivision retraces the polynomial *)
Section Bez.
  Variable p : Z.
  Hypothesis Hp : 0 <= p.
  Local Notation V := (kf (unit_knots p)).
  Local Notation n := (Z.to_nat p).
  Lemma V_low i : 0 <= i <= p -> V i = 0%R.
  Proof. intros Hi. rewrite kf_at by (rewrite len_unit; lia). rewrite at_unit by lia. destruct (Z.leb_spec i p); [reflexivity|lia]. Qed.
  Lemma V_high i : p < i -> V i = 1%R.
  Proof.
    intros Hi. destruct (Z_lt_ge_dec i (2 * p + 2)); [|apply kf_high; rewrite len_unit; lia].
    rewrite kf_at by (rewrite len_unit; lia). rewrite at_unit by lia. destruct (Z.leb_spec i p); [lia|reflexivity].
  Qed.
  Lemma V_mono : mono V.
  Proof. apply (clamped_mono p). apply uniform_unit. exact Hp. Qed.
  Lemma V_span : (V p < V (p + 1)%Z)%R.
  Proof. rewrite V_low, V_high by lia. lra. Qed.
  Lemma nn_p : nn n = p. Proof. unfold nn. lia. Qed.

  (** one step *)
  Lemma step_unit k t F i : p - nn k <= i - 1 -> i <= p -> nn k <= p -> (1 <= k)%nat ->
    step V k t F i = ((1 - t) * F (i - 1)%Z + t * F i)%R.
  Proof.
    intros H1 H2 H3 H4. assert (1 <= nn k) by (unfold nn; lia). unfold step. rewrite (V_high (i + nn k)), (V_low i) by lia. field.
  Qed.
  Lemma bl_rows g : axis g -> forall r ts P F, nn (r + length ts) <= p -> len P = nn (r + length ts) + 1 ->
    (forall i, p - nn (r + length ts) <= i <= p -> F i = pt g P (i - (p - nn (r + length ts)))) ->
    bl V p (repeat (/ 2)%R r ++ ts) F = bl V p ts (fun i => pt g (rown r P) (i - (p - nn (length ts)))).
  Proof.
    intros Hg. induction r as [|r IH]; intros ts P F Hr L E.
    - cbn [repeat app rown Nat.add] in *. apply bl_ext. exact E.
    - cbn [repeat app bl rown]. cbn [Nat.add length] in *. rewrite app_length, repeat_length. rewrite nn_S in *.
      set (m := nn (r + length ts)) in *. pose proof (nn_nonneg (r + length ts)) as Nm. fold m in Nm.
      assert (P <> []) as Hne by (intros ->; cbn in L; lia).
      apply IH; fold m; [lia|rewrite len_midpoints by exact Hne; lia|]. intros i Hi.
      rewrite step_unit; [|rewrite nn_S; fold m; lia|lia|rewrite nn_S; fold m; lia|lia].
      rewrite pt_midpoints by (try exact Hg; lia). rewrite !E by lia.
      replace (i - 1 - (p - (m + 1))) with (i - (p - m)) by lia. replace (i - (p - (m + 1))) with (i - (p - m) + 1) by lia. lra.
  Qed.

  (** the polynomial with Bezier coefficients [F], at [s] *)
  Definition bez (F : Z -> R) (s : R) : R := bl V p (repeat s n) F.
  Lemma map_affine_sma a b F : sma n (fun ss => bl V p (map (fun s => a + (b - a) * s)%R ss) F).
  Proof.
    split.
    - intros ts ts' _ Pe. apply (bl_perm V p V_mono V_span). apply Permutation_map. exact Pe.
    - intros c s t ts _. cbn [map].
      replace (a + (b - a) * ((1 - c) * s + c * t))%R with ((1 - c) * (a + (b - a) * s) + c * (a + (b - a) * t))%R by ring.
      apply (bl_affine V p V_mono V_span).
  Qed.
  Lemma run_unit i : 0 <= i <= p -> run V i n = repeat 0%R (Z.to_nat (p - i)) ++ repeat 1%R (Z.to_nat i).
  Proof.
    intros Hi. assert (forall k j, 0 <= j -> j + nn k <= p -> run V j k = repeat 0%R k) as A.
    { intros k j Hj Hk. apply run_const. intros q Hq. apply V_low. lia. }
    assert (forall k, run V p k = repeat 1%R k) as B by (intros k; apply run_const; intros q Hq; apply V_high; lia).
    replace n with (Z.to_nat (p - i) + Z.to_nat i)%nat at 1 by lia. generalize (Z.to_nat i) at 1 2 as m. clear -Hi A B Hp.
    remember (Z.to_nat (p - i)) as k eqn:Ek. revert i Hi Ek. induction k as [|k IH]; intros i Hi Ek m.
    - assert (i = p) as -> by lia. apply B.
    - cbn [Nat.add run repeat app]. rewrite V_low by lia. f_equal. apply IH; lia.
  Qed.
  Lemma map_rep (f : R -> R) x k : map f (repeat x k) = repeat (f x) k.
  Proof. apply map_repeat_R. Qed.
  Lemma bez_left g P s : axis g -> len P = p + 1 -> bez (pt g (left_half p P)) s = bez (pt g P) (s / 2)%R.
  Proof.
    intros Hg L. unfold bez. set (f := fun ss => bl V p (map (fun s => 0 + (/ 2 - 0) * s)%R ss) (pt g P)).
    transitivity (f (repeat s n)); [|unfold f; rewrite map_rep; f_equal; f_equal; lra].
    symmetry. apply (bl_unique V p V_mono V_span).
    - rewrite repeat_length. apply map_affine_sma.
    - intros i Hi. rewrite repeat_length, nn_p in *. unfold f. rewrite run_unit by lia. rewrite map_app, !map_rep.
      replace (0 + (/ 2 - 0) * 0)%R with 0%R by lra. replace (0 + (/ 2 - 0) * 1)%R with (/ 2)%R by lra.
      rewrite (bl_perm V p V_mono V_span _ _ (Permutation_app_comm _ _)).
      rewrite (bl_rows g Hg (Z.to_nat i) _ P) by
        (rewrite ?repeat_length; replace (Z.to_nat i + Z.to_nat (p - i))%nat with n by lia; rewrite ?nn_p; try lia; intros; f_equal; lia).
      rewrite repeat_length. replace (nn (Z.to_nat (p - i))) with (p - i) by (unfold nn; lia).
      rewrite <- (run_const V i (Z.to_nat (p - i)) 0) by (unfold nn; intros; apply V_low; lia).
      rewrite (bl_dual V p V_mono V_span) by (unfold nn; lia). rewrite pt_left by lia. f_equal. lia.
  Qed.
  Lemma bez_right g P s : axis g -> len P = p + 1 -> bez (pt g (right_half p P)) s = bez (pt g P) ((1 + s) / 2)%R.
  Proof.
    intros Hg L. unfold bez. set (f := fun ss => bl V p (map (fun s => / 2 + (1 - / 2) * s)%R ss) (pt g P)).
    transitivity (f (repeat s n)); [|unfold f; rewrite map_rep; f_equal; f_equal; lra].
    symmetry. apply (bl_unique V p V_mono V_span).
    - rewrite repeat_length. apply map_affine_sma.
    - intros i Hi. rewrite repeat_length, nn_p in *. unfold f. rewrite run_unit by lia. rewrite map_app, !map_rep.
      replace (/ 2 + (1 - / 2) * 0)%R with (/ 2)%R by lra. replace (/ 2 + (1 - / 2) * 1)%R with 1%R by lra.
      rewrite (bl_rows g Hg (Z.to_nat (p - i)) _ P) by
        (rewrite ?repeat_length; replace (Z.to_nat (p - i) + Z.to_nat i)%nat with n by lia; rewrite ?nn_p; try lia; intros; f_equal; lia).
      rewrite repeat_length. replace (nn (Z.to_nat i)) with i by (unfold nn; lia).
      rewrite <- (run_const V p (Z.to_nat i) 1) by (unfold nn; intros; apply V_high; lia).
      rewrite (bl_dual V p V_mono V_span) by (unfold nn; lia). rewrite pt_right by lia. f_equal. lia.
  Qed.
  Lemma bl_lower m s : (0 <= s <= 1)%R -> forall k F, nn k <= p -> (forall i, p - nn k <= i <= p -> (m <= F i)%R) ->
    (m <= bl V p (repeat s k) F)%R.
  Proof.
    intros Hs. induction k as [|k IH]; intros F Hk H; cbn [repeat bl].
    - apply H. rewrite nn_0. lia.
    - cbn [length]. rewrite repeat_length. rewrite nn_S in *. pose proof (nn_nonneg k). apply IH; [lia|]. intros i Hi.
      rewrite step_unit; [|rewrite nn_S; lia|lia|rewrite nn_S; lia|lia].
      pose proof (H (i - 1) ltac:(lia)). pose proof (H i ltac:(lia)). nra.
  Qed.
  Lemma bez_0 F : bez F 0 = F 0.
  Proof.
    unfold bez. rewrite <- (run_const V 0 n 0) by (rewrite nn_p; intros; apply V_low; lia).
    apply (bl_dual V p V_mono V_span). rewrite nn_p. lia.
  Qed.
  Lemma bez_1 F : bez F 1 = F p.
  Proof.
    unfold bez. rewrite <- (run_const V p n 1) by (rewrite nn_p; intros; apply V_high; lia).
    apply (bl_dual V p V_mono V_span). rewrite nn_p. lia.
  Qed.

  Lemma tree_lower eps P ls : len P = p + 1 -> tree p eps P ls -> forall g s, axis g -> (0 <= s <= 1)%R ->
    exists l, In l ls /\ (g (Min (epbox l)) - Rmax eps micro <= bez (pt g P) s)%R.
  Proof.
    intros L T. revert L. induction T as [P cp ep E A|P cp ep ls rs E A Tl IHl Tr IHr]; intros L g s Hg Hs.
    - exists P. split; [left; reflexivity|]. assert (P <> []) as Hne by (intros ->; cbn in L; lia).
      destruct (polygon_boxes_ok P Hne) as [cp' [ep' [E' [M [Ee [Lq G]]]]]]. rewrite E' in E. injection E as -> ->.
      fold (epbox P) in Ee. subst ep.
      apply Rle_trans with (g (Min cp)).
      + unfold polygon_accept in A. apply orb_true_iff in A. destruct A as [A|A].
        * revert A. norm_R. rewrite Rleb_true. intros A.
          assert (g (Max cp) - g (Min cp) <= v3norm (BoundingBox_Length cp))%R as N.
          { apply Rle_trans with (Rabs (g (Max cp) - g (Min cp))); [apply Rle_abs|].
            unfold v3norm, BoundingBox_Length, v3dot, v3sub. cbn [x3 y3 z3]. norm_R. rewrite <- sqrt_Rsqr_abs. apply sqrt_le_1_alt.
            pose proof (Rle_0_sqr (x3 (Max cp) - x3 (Min cp))). pose proof (Rle_0_sqr (y3 (Max cp) - y3 (Min cp))). pose proof (Rle_0_sqr (z3 (Max cp) - z3 (Min cp))).
            unfold Rsqr in *. destruct Hg as [->|[->| ->]]; lra. }
          rewrite M in N. pose proof (Rmax_l eps micro).
          assert (g (Min (epbox P)) <= g (head3 (last P v0)))%R.
          { cbn [epbox BoundingBox_make Min]. rewrite axis_min by exact Hg. apply Rmin_r. }
          lra.
        * apply andb_true_iff in A. destruct A as [A _]. fold micro in A. apply (proj1 (approx3_true _ _ _)) with (g := g) in A; [|exact Hg].
          apply Rabs_def2 in A. pose proof (Rmax_r eps micro). lra.
      + apply bl_lower; [exact Hs|rewrite nn_p; lia|]. intros i Hi. rewrite nn_p in Hi.
        apply (proj1 (axis_le _ _) (Lq _ (pt_in P i ltac:(lia))) g Hg).
    - destruct (Rle_dec s (1/2)) as [Hh|Hh].
      + destruct (IHl (len_left p P Hp) g (2 * s)%R Hg ltac:(lra)) as [l [Hl B]]. exists l. split; [apply in_or_app; left; exact Hl|].
        rewrite (bez_left g P) in B by assumption. replace (2 * s / 2)%R with s in B by lra. exact B.
      + destruct (IHr (len_right p P Hp) g (2 * s - 1)%R Hg ltac:(lra)) as [l [Hl B]]. exists l. split; [apply in_or_app; right; exact Hl|].
        rewrite (bez_right g P) in B by assumption. replace ((1 + (2 * s - 1)) / 2)%R with s in B by lra. exact B.
  Qed.
  (** the ends of a leaf are points of the polynomial curve *)
  Lemma tree_points eps P ls : len P = p + 1 -> tree p eps P ls -> forall l, In l ls ->
    exists a b, (0 <= a <= 1)%R /\ (0 <= b <= 1)%R /\
      forall g, axis g -> pt g l 0 = bez (pt g P) a /\ pt g l p = bez (pt g P) b.
  Proof.
    intros L T. revert L. induction T as [P cp ep E A|P cp ep ls rs E A Tl IHl Tr IHr]; intros L l Hl.
    - destruct Hl as [<-|[]]. exists 0%R, 1%R. split; [lra|]. split; [lra|]. intros g Hg. rewrite bez_0, bez_1. auto.
    - apply in_app_or in Hl. destruct Hl as [Hl|Hl].
      + destruct (IHl (len_left p P Hp) l Hl) as [a [b [Ha [Hb H]]]]. exists (a / 2)%R, (b / 2)%R. split; [lra|]. split; [lra|].
        intros g Hg. destruct (H g Hg) as [-> ->]. rewrite !bez_left by assumption. auto.
      + destruct (IHr (len_right p P Hp) l Hl) as [a [b [Ha [Hb H]]]]. exists ((1 + a) / 2)%R, ((1 + b) / 2)%R. split; [lra|]. split; [lra|].
        intros g Hg. destruct (H g Hg) as [-> ->]. rewrite !bez_right by assumption. auto.
  Qed.
End Bez.
