(** GetBoundingBox on doubles: depth of the subdivision (C98). *)
From Coq Require Import Reals QArith Qreals ZArith List Lra Lia Bool Permutation Floats.SpecFloat.
From Flocq Require Import Core.
From Verif Require Import Outcome Num ModelCore ModelCurve SpecCore SpecBasis SpecCurve SpecErr SpecBox64
  ThOutcome ThReal ThB64 ThDecide ThRound ThErr ThKnots ThVec ThBox ThBezier ThBBox ThBBox2 ThBBoxWit ThCoreWit ThCurveWit ThExtract64 ThBBox64.
Import ListNotations.
Open Scope Z_scope.
Local Notation F := (FLT_exp (-1074) 53).

Definition axis4 (h : vec4 b64 -> b64) : Prop := h = x4 \/ h = y4 \/ h = z4.
Definition inb (B : R) (q : vec4 b64) : Prop := forall h, axis4 h -> finite64 (h q) /\ (Rabs (val (h q)) <= B)%R.
Lemma mid_coord h a b : axis4 h -> h (mid_ a b) = midc (h a) (h b).
Proof. intros [->|[->| ->]]; reflexivity. Qed.
Lemma axis_of g : axis g -> exists h, axis4 h /\ forall q, g (head3 (val4 q)) = val (h q).
Proof. intros [->|[->| ->]]; [exists x4|exists y4|exists z4]; (split; [unfold axis4; auto|reflexivity]). Qed.
Lemma pt_val g P i : pt g (map val4 P) i = g (head3 (val4 (znth one4 P i))).
Proof. unfold pt. rewrite (map_znth val4 one4). unfold one4, val4, v0. cbn [x4 y4 z4 w4]. rewrite val_dz, val_done. reflexivity. Qed.
Lemma inb_fin B q : inb B q -> finite3 (head3 q).
Proof. intros H. split; [apply (H x4)|split; [apply (H y4)|apply (H z4)]]; unfold axis4; auto. Qed.

Section Poly.
  Variable B : R.
  Hypothesis (HB : half_ok B) (B1 : (1 <= B)%R) (B2 : (B <= bpow radix2 1000)%R).
  Definition e64 : R := (3 * u64 * B)%R.
  Lemma e64_pos : (0 < e64)%R. Proof. unfold e64. pose proof u64_pos. assert (0 < u64 * B)%R by (apply Rmult_lt_0_compat; lra). lra. Qed.
  Lemma half_neg : half_ok (- B). Proof. destruct HB as [H1 H2]. split; [apply generic_format_opp; exact H1|]. replace (- B / 2)%R with (- (B / 2))%R by lra. apply generic_format_opp. exact H2. Qed.
  Lemma inb_mid a b : inb B a -> inb B b -> inb B (mid_ a b).
  Proof.
    intros Ha Hb h Hh. rewrite mid_coord by exact Hh. destruct (Ha h Hh) as [Fa Va]. destruct (Hb h Hh) as [Fb Vb].
    assert (Rabs (val (h a)) <= bpow radix2 1000)%R as Xa by lra. assert (Rabs (val (h b)) <= bpow radix2 1000)%R as Xb by lra.
    destruct (midc_val _ _ Fa Fb Xa Xb) as [Fm _]. split; [exact Fm|]. apply Rabs_le_inv in Va, Vb. apply Rabs_le. split.
    - apply (midc_ge _ _ Fa Fb Xa Xb _ half_neg); lra.
    - apply (midc_le _ _ Fa Fb Xa Xb _ HB); lra.
  Qed.
  Definition pv (g : vec3 R -> R) (P : list (vec4 b64)) (i : Z) : R := g (head3 (val4 (znth one4 P i))).
  Lemma pv_mid g a b : axis g -> inb B a -> inb B b -> (Rabs (g (head3 (val4 (mid_ a b))) - (g (head3 (val4 a)) + g (head3 (val4 b))) / 2) <= e64)%R.
  Proof.
    intros Hg Ha Hb. destruct (axis_of g Hg) as [h [Hh E]]. rewrite !E, mid_coord by exact Hh. destruct (Ha h Hh) as [Fa Va]. destruct (Hb h Hh) as [Fb Vb].
    apply midc_err; try assumption; lra.
  Qed.
  Definition near_ (d : R) (P : list (vec4 b64)) : Prop := forall g i, axis g -> 0 <= i < len P - 1 -> (Rabs (pv g P (i + 1) - pv g P i) <= d)%R.
  Lemma near_close d P : near_ d P -> close d (map val4 P).
  Proof. intros H g i Hg Hi. rewrite len_map in Hi. rewrite !pt_val. apply (H g i Hg Hi). Qed.
  Lemma inb_znth P i : Forall (inb B) P -> 0 <= i < len P -> inb B (znth one4 P i).
  Proof. intros H Hi. rewrite Forall_forall in H. apply H, znth_In, Hi. Qed.
  Lemma pv_mids g P i : axis g -> Forall (inb B) P -> 0 <= i < len P - 1 -> (Rabs (pv g (midpoints P) i - (pv g P i + pv g P (i + 1)) / 2) <= e64)%R.
  Proof. intros Hg HP Hi. unfold pv. rewrite znth_mids by exact Hi. apply pv_mid; [exact Hg| |]; apply inb_znth; (exact HP || lia). Qed.
  Lemma near_mids d P : Forall (inb B) P -> near_ d P -> near_ (d + 2 * e64) (midpoints P).
  Proof.
    intros HP H g i Hg Hi. assert (P <> []) as Hne by (intros ->; cbn in Hi; lia). rewrite len_mids in Hi by exact Hne.
    pose proof (pv_mids g P i Hg HP ltac:(lia)) as A. pose proof (pv_mids g P (i + 1) Hg HP ltac:(lia)) as A'.
    pose proof (H g i Hg ltac:(lia)) as D. pose proof (H g (i + 1) Hg ltac:(lia)) as D'. apply Rabs_le_inv in A, A', D, D'. apply Rabs_le. lra.
  Qed.
  Lemma near_row r : forall d P, Forall (inb B) P -> near_ d P -> near_ (d + 2 * INR r * e64) (row_ r P).
  Proof.
    induction r as [|r IH]; intros d P HP H.
    - cbn [row_ INR]. replace (d + 2 * 0 * e64)%R with d by lra. exact H.
    - cbn [row_]. rewrite S_INR. replace (d + 2 * (INR r + 1) * e64)%R with ((d + 2 * e64) + 2 * INR r * e64)%R by lra. apply IH; [apply Forall_mids; [exact inb_mid|exact HP]|apply near_mids; assumption].
  Qed.
  Lemma near_half d p P i r : 0 <= p -> len P = p + 1 -> Forall (inb B) P -> near_ d P -> forall g, axis g -> Z.of_nat r < p -> 0 <= i -> i + 1 < p + 1 - Z.of_nat r ->
    (Rabs (pv g (row_ (S r) P) i - pv g (row_ r P) i) <= d / 2 + IZR p * e64)%R /\ (Rabs (pv g (row_ r P) (i + 1) - pv g (row_ (S r) P) i) <= d / 2 + IZR p * e64)%R.
  Proof.
    intros Hp L HP H g Hg Hr Hi Hl. rewrite row_S.
    pose proof (pv_mids g (row_ r P) i Hg (Forall_row _ r inb_mid P HP) ltac:(rewrite len_row; lia)) as A.
    pose proof (near_row r d P HP H g i Hg ltac:(rewrite len_row; lia)) as D. pose proof e64_pos as E0.
    assert (INR r * e64 + e64 <= IZR p * e64)%R as Q. { rewrite INR_IZR_INZ. replace (IZR (Z.of_nat r) * e64 + e64)%R with (IZR (Z.of_nat r + 1) * e64)%R by (rewrite plus_IZR; ring). apply Rmult_le_compat_r; [lra|]. apply IZR_le. lia. }
    apply Rabs_le_inv in A, D. split; apply Rabs_le; lra.
  Qed.
  Lemma near_left d p P : 0 <= p -> len P = p + 1 -> Forall (inb B) P -> near_ d P -> near_ (d / 2 + IZR p * e64) (left_ one4 p P).
  Proof.
    intros Hp L HP H g i Hg Hi. rewrite len_left_ in Hi by exact Hp. unfold pv. rewrite !znth_left by lia. fold (pv g (row_ (Z.to_nat (i + 1)) P) 0). fold (pv g (row_ (Z.to_nat i) P) 0).
    replace (Z.to_nat (i + 1)) with (S (Z.to_nat i)) by lia. apply (near_half d p P 0 (Z.to_nat i) Hp L HP H g Hg); lia.
  Qed.
  Lemma near_right d p P : 0 <= p -> len P = p + 1 -> Forall (inb B) P -> near_ d P -> near_ (d / 2 + IZR p * e64) (right_ one4 p P).
  Proof.
    intros Hp L HP H g i Hg Hi. rewrite len_right_ in Hi by exact Hp. unfold pv. rewrite !znth_right by lia. fold (pv g (row_ (Z.to_nat (p - (i + 1))) P) (i + 1)). fold (pv g (row_ (Z.to_nat (p - i)) P) i).
    replace (Z.to_nat (p - i)) with (S (Z.to_nat (p - (i + 1)))) by lia. apply (near_half d p P i (Z.to_nat (p - (i + 1))) Hp L HP H g Hg); lia.
  Qed.
  Lemma accept64 eps d p P cp : 0 <= p -> (0 <= d)%R -> len P = p + 1 -> Forall (inb B) P -> near_ d P -> (IZR p * d <= h20)%R ->
    polygon_boxes P = Ok (cp, ends one4 P) -> polygon_accept eps cp (ends one4 P) = true.
  Proof.
    intros Hp D0 L HP H Hd E. unfold polygon_accept. apply orb_true_iff. right. set (Q := map val4 P). pose proof (near_close d P H) as Hc. fold Q in Hc.
    assert (len Q = p + 1) as LQ by (unfold Q; rewrite len_map; exact L). assert (Q <> []) as Hne by (intros X; rewrite X in LQ; cbn in LQ; lia).
    destruct (boxes_val P cp (ends one4 P) ltac:(eapply Forall_impl; [|exact HP]; apply inb_fin) E) as [[F1 F2] [[F3 F4] Ev]]. fold Q in Ev.
    destruct (polygon_boxes_ok Q Hne) as [cp' [ep' [E' [M [Ee [Lq G]]]]]]. rewrite Ev in E'. injection E' as <- <-. rewrite last_znth in * by exact Hne.
    assert (forall g i, axis g -> 0 <= i < len Q -> (pt g Q i - IZR p * d <= g (Min (box_val cp)) <= pt g Q i)%R) as Bd.
    { intros g i Hg Hi. split.
      - apply G; [exact Hg|]. intros q Hq. apply in_pt in Hq. destruct Hq as [j [Hj ->]].
        pose proof (close_all d Q p D0 Hc LQ g i j Hg Hi Hj) as A. apply Rabs_le_inv in A. unfold pt in *. lra.
      - apply (proj1 (axis_le _ _) (Lq _ (pt_in Q i Hi)) g Hg). }
    apply andb_true_iff. split; (apply approx64; [assumption|assumption|]); intros g Hg;
      [change (val3 (Min cp)) with (Min (box_val cp)); change (val3 (Min (ends one4 P))) with (Min (box_val (ends one4 P)))
      |change (val3 (Max cp)) with (Max (box_val cp)); change (val3 (Max (ends one4 P))) with (Max (box_val (ends one4 P)))];
      rewrite Ee; unfold BoundingBox_make; cbn [Min Max]; rewrite ?M; rewrite ?(axis_min g) by exact Hg; rewrite ?(axis_max g) by exact Hg;
      fold (pt g Q 0); fold (pt g Q (len Q - 1));
      pose proof (Bd g 0 Hg ltac:(lia)); pose proof (Bd g (len Q - 1) Hg ltac:(lia));
      pose proof (close_all d Q p D0 Hc LQ g 0 (len Q - 1) Hg ltac:(lia) ltac:(lia)) as A; apply Rabs_le_inv in A; apply Rabs_le;
      unfold Rmin, Rmax; destruct (Rle_dec (pt g Q 0) (pt g Q (len Q - 1))); lra.
  Qed.
  Definition h21 : R := bpow radix2 (-21).
  Lemma h21_h20 : (h20 = 2 * h21)%R. Proof. unfold h20, h21. change (-20) with (1 + -21). rewrite bpow_plus. reflexivity. Qed.
  Lemma depth64 p eps : 0 <= p -> (2 * IZR p * IZR p * e64 <= h21)%R -> forall n d P, (0 <= d)%R -> len P = p + 1 -> Forall (inb B) P -> near_ d P ->
    (IZR p * (d - 2 * IZR p * e64) <= 2 ^ n * h21)%R -> exists m ls, splits one4 p eps m P ls /\ Z.of_nat m <= 2 ^ (Z.of_nat n + 1) - 1.
  Proof.
    intros Hp He. pose proof e64_pos as E0. assert (0 <= IZR p)%R as P0 by (apply IZR_le; exact Hp).
    induction n as [|n IH]; intros d P D0 L HP H Hd; assert (P <> []) as Hne by (intros ->; cbn in L; lia); destruct (boxes_total one4 P Hne) as [cp E]; fold (ends one4 P) in E.
    - exists 1%nat, [P]. split; [|cbn; lia]. apply (splits_leaf _ _ _ _ cp E). apply (accept64 eps d p P cp); auto. rewrite pow_O in Hd. rewrite h21_h20. lra.
    - assert (1 <= 2 ^ (Z.of_nat n + 1)) as X by (apply (Z.pow_le_mono_r 2 0); lia).
      destruct (polygon_accept eps cp (ends one4 P)) eqn:A.
      { exists 1%nat, [P]. split; [apply (splits_leaf _ _ _ _ cp E A)|]. replace (Z.of_nat (S n) + 1) with (Z.of_nat n + 1 + 1) by lia. rewrite (Z.pow_add_r 2 (Z.of_nat n + 1) 1) by lia. lia. }
      assert (0 <= IZR p * e64)%R as Q0 by (apply Rmult_le_pos; lra).
      assert (IZR p * (d / 2 + IZR p * e64 - 2 * IZR p * e64) <= 2 ^ n * h21)%R as Hd2. { rewrite <- tech_pow_Rmult in Hd. replace (IZR p * (d / 2 + IZR p * e64 - 2 * IZR p * e64))%R with (/ 2 * (IZR p * (d - 2 * IZR p * e64)))%R by field. lra. }
      destruct (IH (d / 2 + IZR p * e64)%R (left_ one4 p P)) as [ml [ls [Sl Ml]]]; [lra|apply len_left_; exact Hp|apply Forall_left; [exact inb_mid|assumption..]|apply near_left; assumption|exact Hd2|].
      destruct (IH (d / 2 + IZR p * e64)%R (right_ one4 p P)) as [mr [rs [Sr Mr]]]; [lra|apply len_right_; exact Hp|apply Forall_right; [exact inb_mid|assumption..]|apply near_right; assumption|exact Hd2|].
      exists (S (ml + mr)), (ls ++ rs). split.
      + apply splits_node; [exact Sl|exact Sr|]. intros cp' E'. rewrite E in E'. injection E' as <-. exact A.
      + replace (Z.of_nat (S n) + 1) with (Z.of_nat n + 1 + 1) by lia. rewrite (Z.pow_add_r 2 (Z.of_nat n + 1) 1) by lia. lia.
  Qed.
  Lemma near_start P : Forall (inb B) P -> near_ (2 * B) P.
  Proof.
    intros HP g i Hg Hi. destruct (axis_of g Hg) as [h [Hh E]]. unfold pv. rewrite !E.
    destruct (inb_znth P i HP ltac:(lia) h Hh) as [_ V1]. destruct (inb_znth P (i + 1) HP ltac:(lia) h Hh) as [_ V2]. apply Rabs_le_inv in V1, V2. apply Rabs_le. lra.
  Qed.
  Lemma splits64 p eps P : 1 <= p -> (IZR p * IZR p * B <= 2 ^ 29)%R -> len P = p + 1 -> Forall (inb B) P ->
    exists m ls, splits one4 p eps m P ls /\ Z.of_nat m <= 2 ^ 52 - 1.
  Proof.
    intros Hp Hb L HP. assert (1 <= IZR p)%R as P1 by (apply IZR_le; exact Hp).
    assert (h21 = / 2 ^ 21)%R as E21. { unfold h21. change (-21) with (- Z.of_nat 21). apply ThErrCurve.bpow_inv. }
    assert (u64 = / 2 ^ 53)%R as E53. { unfold u64. change (-53) with (- Z.of_nat 53). apply ThErrCurve.bpow_inv. }
    apply (depth64 p eps ltac:(lia)) with (n := 51%nat) (d := (2 * B)%R); try assumption; try lra.
    - unfold e64. rewrite E21, E53. replace (2 * IZR p * IZR p * (3 * / 2 ^ 53 * B))%R with (6 * / 2 ^ 53 * (IZR p * IZR p * B))%R by ring.
      apply (Rle_trans _ (6 * / 2 ^ 53 * 2 ^ 29)%R); [|lra]. apply Rmult_le_compat_l; [lra|exact Hb].
    - apply near_start. exact HP.
    - rewrite E21. pose proof e64_pos. assert (0 <= IZR p * (2 * IZR p * e64))%R by (repeat apply Rmult_le_pos; lra).
      assert (IZR p * B <= 2 ^ 29)%R. { apply (Rle_trans _ (IZR p * IZR p * B)); [|exact Hb]. rewrite Rmult_assoc. rewrite <- (Rmult_1_l (IZR p * B)) at 1. apply Rmult_le_compat_r; [|exact P1]. apply Rmult_le_pos; lra. }
      apply (Rle_trans _ (2 * (IZR p * B))); lra.
  Qed.
End Poly.
