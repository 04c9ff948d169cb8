(** KnotVector::Reverse on doubles (C103). *)
From Coq Require Import Reals QArith ZArith List Lra Lia Bool SpecFloat.
From Flocq Require Import Core BinarySingleNaN.
From Verif Require Import Outcome Num ModelCore SpecCore ThOutcome ThReal ThKnots ThKnots2 ThVec ThB64 ThCoreWit ThRound ThErr ThDecide ThUniform64 SpecErr SpecReverse64.
Import ListNotations.
Open Scope Z_scope.
Local Notation F := (FLT_exp (-1074) 53).
#[local] Instance prec53 : Prec_gt_0 53. Proof. reflexivity. Qed.

(** ** Rounding in the unit interval *)
Definition h54 : R := (/ 2 ^ 54)%R.
Lemma h54_bpow : h54 = bpow radix2 (-54).
Proof. unfold h54. change (bpow radix2 (-54)) with (/ bpow radix2 54)%R. f_equal. rewrite (pow_IZR 2 54). reflexivity. Qed.
Lemma h54_num : h54 = (/ 18014398509481984)%R.
Proof. unfold h54. f_equal. rewrite (pow_IZR 2 54). reflexivity. Qed.
Lemma rnd64_unit x : (0 <= x <= 1 -> 0 <= rnd64 x <= 1)%R.
Proof.
  intros H. split.
  - rewrite <- (rnd64_id 0) by apply generic_format_0. apply rnd64_le. lra.
  - rewrite <- (rnd64_id 1) by exact (int_format 1 ltac:(lia)). apply rnd64_le. lra.
Qed.
Lemma rnd64_unit_err x : (0 <= x <= 1 -> Rabs (rnd64 x - x) <= h54)%R.
Proof.
  intros H. destruct (Req_dec x 0) as [->|N0]; [rewrite rnd64_id by apply generic_format_0; rewrite Rminus_0_r, Rabs_R0, h54_num; lra|].
  destruct (Req_dec x 1) as [->|N1]; [rewrite rnd64_id by exact (int_format 1 ltac:(lia)); replace (1 - 1)%R with 0%R by ring; rewrite Rabs_R0, h54_num; lra|].
  pose proof (error_le_half_ulp radix2 F (fun n => negb (Z.even n)) x) as E. change (round radix2 F (Znearest (fun n => negb (Z.even n))) x) with (rnd64 x) in E.
  eapply Rle_trans; [exact E|]. rewrite ulp_neq_0 by exact N0. rewrite h54_bpow.
  replace (/ 2)%R with (bpow radix2 (-1)) by reflexivity. rewrite <- bpow_plus. apply bpow_le.
  assert (mag radix2 x <= 0) as Mg. { apply mag_le_bpow; [exact N0|]. change (bpow radix2 0) with 1%R. rewrite Rabs_pos_eq; lra. }
  unfold cexp, FLT_exp. lia.
Qed.
(** the first double below 1 *)
Lemma pred1_format : generic_format radix2 F (1 - 2 * h54).
Proof.
  replace (1 - 2 * h54)%R with (F2R (Float radix2 9007199254740991 (-53))); [apply generic_format_FLT; exists (Float radix2 9007199254740991 (-53)); [reflexivity|reflexivity|cbn; lia]|].
  rewrite h54_num. unfold F2R. cbn [Fnum Fexp]. change (bpow radix2 (-53)) with (/ 9007199254740992)%R. lra.
Qed.
Lemma format_lt_1 x : generic_format radix2 F x -> (x < 1 -> x <= 1 - 2 * h54)%R.
Proof.
  intros Fx H. assert (succ radix2 F (1 - 2 * h54) = 1)%R as S1.
  { assert (pred radix2 F 1 = 1 - 2 * h54)%R as P1.
    { change 1%R with (bpow radix2 0) at 1. rewrite pred_bpow. replace (2 * h54)%R with (bpow radix2 (F 0)); [reflexivity|].
      rewrite h54_bpow. change 2%R with (bpow radix2 1). rewrite <- bpow_plus. reflexivity. }
    rewrite <- P1. apply succ_pred; [apply validF|exact (int_format 1 ltac:(lia))]. }
  destruct (Rle_or_lt x (1 - 2 * h54)) as [L|L]; [exact L|]. exfalso.
  pose proof (succ_le_lt radix2 F (1 - 2 * h54) x pred1_format Fx L). lra.
Qed.
Lemma rnd64_below_1 k : generic_format radix2 F k -> (0 <= k <= 1 -> (rnd64 (1 - k) < 1 <-> h54 < k))%R.
Proof.
  intros Fk Hk. pose proof h54_num as Hh. split.
  - intros L. destruct (Rle_or_lt k h54) as [Q|Q]; [|exact Q]. exfalso.
    assert (rnd64 (1 - h54) = 1)%R as E.
    { assert (finite64 (dq (1 # 18014398509481984))) as Fd by (apply finb_spec; reflexivity).
      assert (val (dq (1 # 18014398509481984)) = h54) as Vd. { rewrite h54_bpow. change (dq (1 # 18014398509481984)) with (S754_finite false 4503599627370496 (-106)).
        unfold val, SF2R, F2R. cbn [Fnum Fexp cond_Zopp]. change (-106) with (-54 + -52). rewrite bpow_plus. change (bpow radix2 (-52)) with (/ 4503599627370496)%R. field. }
      destruct (sub_round (n1 : b64) (dq (1 # 18014398509481984)) finite_1 Fd) as [_ V]; [apply small_ok; rewrite val_1, Vd, Hh, Rabs_pos_eq; lra|].
      rewrite val_1, Vd in V. rewrite <- V. change (nsub (n1 : b64) (dq (1 # 18014398509481984))) with (n1 : b64). exact val_1. }
    assert (rnd64 (1 - h54) <= rnd64 (1 - k))%R by (apply rnd64_le; lra). lra.
  - intros L. destruct (Rle_or_lt (2 * h54) k) as [Q|Q].
    + assert (rnd64 (1 - k) <= rnd64 (1 - 2 * h54))%R as M by (apply rnd64_le; lra). rewrite (rnd64_id _ pred1_format) in M. lra.
    + pose proof (round_N_pt radix2 F (fun n => negb (Z.even n)) (1 - k)) as [_ Nb]. specialize (Nb _ pred1_format).
      change (round radix2 F (Znearest (fun n => negb (Z.even n))) (1 - k)) with (rnd64 (1 - k)) in Nb.
      pose proof (rnd64_unit (1 - k) ltac:(lra)) as B. apply Rnot_le_lt. intros C. assert (rnd64 (1 - k) = 1)%R as E by lra. rewrite E in Nb.
      rewrite (Rabs_pos_eq (1 - (1 - k))) in Nb by lra. rewrite Rabs_left1 in Nb by lra. lra.
Qed.
Lemma rnd64_above_0 k : generic_format radix2 F k -> (0 <= k < 1 -> 0 < rnd64 (1 - k))%R.
Proof.
  intros Fk Hk. pose proof (format_lt_1 k Fk ltac:(lra)) as L. pose proof h54_num as Hh.
  assert (rnd64 (2 * h54) <= rnd64 (1 - k))%R as M by (apply rnd64_le; lra).
  rewrite rnd64_id in M by (apply double_format; rewrite h54_bpow; apply generic_format_bpow; vm_compute; discriminate). lra.
Qed.

(** ** Knot vectors *)
Lemma rnd64_0 : rnd64 0 = 0%R.
Proof. apply rnd64_id, generic_format_0. Qed.
Lemma Reverse64_finite l : all_finite l -> in_unit_interval (vals l) -> all_finite (KnotVector_Reverse l) /\ vals (KnotVector_Reverse l) = map rnd64 (KnotVector_Reverse (vals l)).
Proof.
  intros Fl Il.
  assert (Forall (fun x => finite64 x /\ (0 <= val x <= 1)%R) l) as A.
  { apply Forall_forall. intros x Hx. unfold all_finite in Fl. rewrite Forall_forall in Fl. split; [apply Fl; exact Hx|].
    unfold in_unit_interval in Il. rewrite Forall_forall in Il. apply Il. apply in_map. exact Hx. }
  apply Forall_rev in A. unfold KnotVector_Reverse, vals. rewrite <- map_rev, !map_map.
  assert (forall x, finite64 x -> (0 <= val x <= 1)%R -> finite64 (nsub (n1 : b64) x) /\ val (nsub (n1 : b64) x) = rnd64 (1 - val x)) as Hs.
  { intros x Fx Hx. destruct (sub_round (n1 : b64) x finite_1 Fx) as [F V]; [apply small_ok; rewrite val_1, Rabs_pos_eq; lra|]. rewrite val_1 in V. auto. }
  induction A as [|x r [Fx Hx] _ IH]; [split; [constructor|reflexivity]|]. destruct IH as [IH1 IH2]. destruct (Hs x Fx Hx) as [F V]. split.
  - constructor; assumption.
  - cbn [map]. rewrite IH2. f_equal. exact V.
Qed.
Lemma at_map_rnd l i : at_ (map rnd64 l) i = rnd64 (at_ l i).
Proof. unfold at_. rewrite <- rnd64_0 at 1. apply map_nth. Qed.
Lemma at_In l i : 0 <= i < len l -> In (at_ l i) l.
Proof. intros H. apply nth_In. unfold len in H. lia. Qed.
Lemma at_unit_interval l i : in_unit_interval l -> 0 <= i < len l -> (0 <= at_ l i <= 1)%R.
Proof. intros H Hi. unfold in_unit_interval in H. rewrite Forall_forall in H. apply H, at_In, Hi. Qed.
Section Rev.
  Variable l : list b64.
  Hypothesis Fl : all_finite l.
  Hypothesis Il : in_unit_interval (vals l).
  Lemma len_Rev : len (KnotVector_Reverse l) = len l.
  Proof. unfold KnotVector_Reverse. rewrite len_map. unfold len. rewrite rev_length. reflexivity. Qed.
  Lemma at_Rev i : 0 <= i < len l -> at_ (vals (KnotVector_Reverse l)) i = rnd64 (1 - at_ (vals l) (len l - 1 - i)).
  Proof.
    intros Hi. rewrite (proj2 (Reverse64_finite l Fl Il)), at_map_rnd, at_Reverse by (rewrite len_vals; exact Hi). rewrite len_vals. reflexivity.
  Qed.
  Lemma at_format i : generic_format radix2 F (at_ (vals l) i).
  Proof.
    rewrite at_vals. apply val_format. unfold zn. destruct (nth_in_or_default (Z.to_nat i) l dz) as [I|E].
    - unfold all_finite in Fl. rewrite Forall_forall in Fl. apply Fl, I.
    - rewrite E. exact finite_0.
  Qed.
  Lemma C103_reverse_lemma : nondecreasing (vals l) ->
    all_finite (KnotVector_Reverse l) /\ len (KnotVector_Reverse l) = len l /\ nondecreasing (vals (KnotVector_Reverse l)) /\
    forall i, 0 <= i < len l -> (Rabs (at_ (vals (KnotVector_Reverse l)) i - (1 - at_ (vals l) (len l - 1 - i))) <= / 2 ^ 54)%R.
  Proof.
    intros M. split; [apply Reverse64_finite; assumption|]. split; [exact len_Rev|]. split.
    - intros i j Hij Hj. rewrite len_vals, len_Rev in Hj. rewrite !at_Rev by lia. apply rnd64_le.
      pose proof (M (len l - 1 - j) (len l - 1 - i)) as Q. rewrite len_vals in Q. specialize (Q ltac:(lia) ltac:(lia)). lra.
    - intros i Hi. rewrite at_Rev by exact Hi. apply rnd64_unit_err.
      pose proof (at_unit_interval (vals l) (len l - 1 - i) Il) as B. rewrite len_vals in B. specialize (B ltac:(lia)). lra.
  Qed.
  Lemma grid53_format m : 0 <= m <= 2 ^ 53 -> generic_format radix2 F (IZR m / 2 ^ 53)%R.
  Proof.
    intros H. assert (m < 2 ^ 53 \/ m = 2 ^ 53) as [L| ->] by lia.
    - apply generic_format_FLT. exists (Float radix2 m (-53)); [|cbn [Fnum]; rewrite Z.abs_eq by lia; exact L|cbn; lia].
      unfold F2R. cbn [Fnum Fexp]. unfold Rdiv. f_equal. change (bpow radix2 (-53)) with (/ 9007199254740992)%R. f_equal. rewrite (pow_IZR 2 53). reflexivity.
    - replace (IZR (2 ^ 53) / 2 ^ 53)%R with 1%R; [exact (int_format 1 ltac:(lia))|]. rewrite (pow_IZR 2 53). change (2 ^ Z.of_nat 53) with (2 ^ 53). field. apply IZR_neq. discriminate.
  Qed.
  Lemma grid53_range x m : x = (IZR m / 2 ^ 53)%R -> (0 <= x <= 1)%R -> 0 <= m <= 2 ^ 53.
  Proof.
    intros E H. assert (2 ^ 53 = IZR (2 ^ 53))%R as P by (rewrite (pow_IZR 2 53); reflexivity). rewrite P in E.
    assert (0 < IZR (2 ^ 53))%R as Pp by (apply IZR_lt; reflexivity).
    assert (IZR m = x * IZR (2 ^ 53))%R as Em by (rewrite E; field; lra). split; apply le_IZR; rewrite Em; nra.
  Qed.
  Lemma grid53_flip x : (0 <= x <= 1)%R -> (exists m, x = (IZR m / 2 ^ 53)%R) -> rnd64 (1 - x) = (1 - x)%R /\ exists m, (1 - x = IZR m / 2 ^ 53)%R.
  Proof.
    intros Hx [m E]. pose proof (grid53_range x m E Hx) as R.
    assert (1 - x = IZR (2 ^ 53 - m) / 2 ^ 53)%R as E'.
    { rewrite minus_IZR, E. assert (2 ^ 53 = IZR (2 ^ 53))%R as P by (rewrite (pow_IZR 2 53); reflexivity). rewrite P. field. apply IZR_neq. discriminate. }
    split; [|exists (2 ^ 53 - m); exact E']. rewrite E'. apply rnd64_id, grid53_format. lia.
  Qed.
  Lemma Reverse64_exact : on_grid53 (vals l) -> vals (KnotVector_Reverse l) = KnotVector_Reverse (vals l) /\ on_grid53 (vals (KnotVector_Reverse l)) /\ in_unit_interval (vals (KnotVector_Reverse l)).
  Proof.
    intros G. rewrite (proj2 (Reverse64_finite l Fl Il)). unfold KnotVector_Reverse.
    assert (Forall (fun x => (0 <= x <= 1)%R /\ exists m, x = (IZR m / 2 ^ 53)%R) (rev (vals l))) as A.
    { apply Forall_rev. apply Forall_forall. intros x Hx. unfold on_grid53, in_unit_interval in *. rewrite Forall_forall in Il, G. auto. }
    clear -A. induction A as [|x r [Hx Gx] _ [IH1 [IH2 IH3]]]; [repeat split; constructor|]. cbn [map].
    change (nsub (n1 : R) x) with (1 - x)%R in *. destruct (grid53_flip x Hx Gx) as [E1 E2]. rewrite E1. split; [f_equal; exact IH1|]. split; constructor; auto. lra.
  Qed.
End Rev.
Lemma clamped_interval p l : clamped p l -> in_unit_interval l.
Proof.
  intros C. pose proof (cl_degree _ _ C). pose proof (cl_len _ _ C). apply Forall_forall. intros x Hx. destruct (In_znth 0%R _ _ Hx) as [i [Hi E]]. rewrite <- at_znth in E. subst x.
  pose proof (cl_sorted _ _ C 0 i ltac:(lia) ltac:(lia)) as A. pose proof (cl_sorted _ _ C i (len l - 1) ltac:(lia) ltac:(lia)) as B.
  rewrite (cl_zero _ _ C) in A by lia. rewrite (cl_one _ _ C (len l - 1)) in B by lia. lra.
Qed.
Lemma C103_clamped_lemma p (l : list b64) : sound_knots p l -> (sound_knots p (KnotVector_Reverse l) <-> (/ 2 ^ 54 < at_ (vals l) (p + 1))%R).
Proof.
  intros [Fl C]. pose proof (clamped_interval _ _ C) as Il. pose proof (cl_degree _ _ C) as P0. pose proof (cl_len _ _ C) as L2.
  pose proof (len_Rev l) as Lr. rewrite len_vals in L2.
  assert (at_ (vals (KnotVector_Reverse l)) (len l - p - 2) = rnd64 (1 - at_ (vals l) (p + 1))) as Ek.
  { rewrite at_Rev by (try assumption; lia). do 3 f_equal. lia. }
  pose proof (at_unit_interval (vals l) (p + 1) Il ltac:(rewrite len_vals; lia)) as Bk. split.
  - intros [_ C']. pose proof (cl_last _ _ C') as Q. rewrite len_vals, Lr, Ek in Q. apply rnd64_below_1 in Q; [exact Q|apply at_format; exact Fl|exact Bk].
  - intros Hk. split; [apply Reverse64_finite; assumption|].
    destruct (C103_reverse_lemma l Fl Il (cl_sorted _ _ C)) as [_ [_ [M _]]]. constructor; rewrite ?len_vals, ?Lr; try assumption.
    + intros i Hi. rewrite at_Rev by (try assumption; lia). rewrite (cl_one _ _ C) by (rewrite ?len_vals; lia). replace (1 - 1)%R with 0%R by ring. exact rnd64_0.
    + rewrite at_Rev by (try assumption; lia). apply rnd64_above_0; [apply at_format; exact Fl|].
      pose proof (at_unit_interval (vals l) (len l - 1 - (p + 1)) Il ltac:(rewrite len_vals; lia)) as B.
      pose proof (cl_last _ _ C) as Q. rewrite len_vals in Q. replace (len l - 1 - (p + 1)) with (len l - p - 2) in * by lia. lra.
    + rewrite Ek. apply rnd64_below_1; [apply at_format; exact Fl|exact Bk|exact Hk].
    + intros i Hi. rewrite at_Rev by (try assumption; lia). rewrite (cl_zero _ _ C) by lia. rewrite Rminus_0_r. apply rnd64_id. exact (int_format 1 ltac:(lia)).
Qed.
Lemma C103_exact_lemma (l : list b64) : all_finite l -> in_unit_interval (vals l) -> on_grid53 (vals l) ->
  (forall i, 0 <= i < len l -> at_ (vals (KnotVector_Reverse l)) i = (1 - at_ (vals l) (len l - 1 - i))%R) /\
  vals (KnotVector_Reverse (KnotVector_Reverse l)) = vals l.
Proof.
  intros Fl Il G. destruct (Reverse64_exact l Fl Il G) as [E1 [G1 I1]]. destruct (Reverse64_finite l Fl Il) as [F1 _]. split.
  - intros i Hi. rewrite E1, at_Reverse by (rewrite len_vals; exact Hi). rewrite len_vals. reflexivity.
  - destruct (Reverse64_exact (KnotVector_Reverse l) F1 I1 G1) as [E2 _]. rewrite E2, E1.
    unfold KnotVector_Reverse. rewrite <- map_rev, rev_involutive, map_map. rewrite <- (map_id (vals l)) at 2. apply map_ext. intros x. norm_R. ring.
Qed.
