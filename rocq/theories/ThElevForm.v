(** Elevated polar forms of a spline, as vectors. *)
From Coq Require Import Reals ZArith List Lra Lia Permutation Sorted FunctionalExtensionality.
From Verif Require Import Outcome Num ModelCore SpecCore SpecBasis ThOutcome ThReal ThKnots ThMath ThSum ThVec ThSpline ThBasis ThCurve ThInsert ThReverse
  ThPolar ThElevKnots ThElevPos.
Import ListNotations.
Open Scope Z_scope.

Lemma run_app U n m : forall i, run U i (n + m) = run U i n ++ run U (i + nn n) m.
Proof.
  induction n as [|n IH]; intros i.
  - cbn. rewrite nn_0. f_equal. lia.
  - cbn [Nat.add run app]. rewrite IH, nn_S. f_equal. f_equal. f_equal. lia.
Qed.
Lemma run_split U i k n : i <= k <= i + nn n -> run U i n = run U i (Z.to_nat (k - i)) ++ run U k (Z.to_nat (i + nn n - k)).
Proof.
  intros H. unfold nn in *. replace n with (Z.to_nat (k - i) + Z.to_nat (i + Z.of_nat n - k))%nat at 1 by lia. rewrite run_app. f_equal.
  unfold nn. f_equal. lia.
Qed.
Lemma run_count U i n lo hi x : i <= lo <= hi -> hi <= i + nn n -> (forall j, lo < j <= hi -> U j = x) -> hi - lo <= count x (run U i n).
Proof.
  intros H1 H2 E. rewrite (run_split U i lo) by lia. rewrite (run_split U lo hi) by (unfold nn in *; lia). rewrite !count_app.
  rewrite (run_const U lo (Z.to_nat (hi - lo)) x) by (intros k Hk; apply E; unfold nn in *; lia).
  rewrite count_repeat. destruct (Req_EM_T x x); [|congruence].
  pose proof (count_nonneg x (run U i (Z.to_nat (lo - i)))). pose proof (count_nonneg x (run U hi (Z.to_nat (lo + nn (Z.to_nat (i + nn n - lo)) - hi)))). lia.
Qed.
Lemma run_In U i n x : In x (run U i n) -> exists j, i < j <= i + nn n /\ U j = x.
Proof.
  revert i. induction n as [|n IH]; intros i H; [destruct H|]. rewrite nn_S. pose proof (nn_nonneg n). cbn [run] in H. destruct H as [<-|H].
  - exists (i + 1). split; [lia|reflexivity].
  - destruct (IH _ H) as [j [Hj E]]. exists j. split; [lia|exact E].
Qed.
Lemma run_asc U : mono U -> forall n i, asc (run U i n).
Proof.
  intros M. induction n as [|n IH]; intros i; [constructor|]. cbn [run]. constructor; [apply IH|]. apply Forall_forall. intros y Hy.
  apply run_In in Hy. destruct Hy as [j [Hj <-]]. pose proof (M (i + 1) j ltac:(lia)). lra.
Qed.
Lemma skipn_plus {A} n : forall m (l : list A), skipn n (skipn m l) = skipn (m + n) l.
Proof.
  induction m as [|m IH]; intros l; [reflexivity|]. destruct l as [|a l]; [rewrite !skipn_nil; reflexivity|]. cbn [skipn Nat.add]. apply IH.
Qed.
Lemma run_sub l i n : 0 <= i + 1 -> i + nn n < len l ->
  l = firstn (Z.to_nat (i + 1)) l ++ run (kf l) i n ++ skipn (Z.to_nat (i + 1 + nn n)) l.
Proof.
  intros Hi Hn. unfold nn in *.
  assert (l = firstn (Z.to_nat (i + 1)) l ++ firstn n (skipn (Z.to_nat (i + 1)) l) ++ skipn (Z.to_nat (i + 1 + Z.of_nat n)) l) as E.
  { rewrite <- (firstn_skipn (Z.to_nat (i + 1)) l) at 1. f_equal. rewrite <- (firstn_skipn n (skipn (Z.to_nat (i + 1)) l)) at 1. f_equal.
    replace (Z.to_nat (i + 1 + Z.of_nat n)) with (Z.to_nat (i + 1) + n)%nat by lia. rewrite skipn_plus. reflexivity. }
  rewrite E at 1. f_equal. f_equal. symmetry. apply (run_list l i n) with (A := firstn (Z.to_nat (i + 1)) l) (B := skipn (Z.to_nat (i + 1 + Z.of_nat n)) l).
  - lia.
  - lia.
  - exact E.
  - rewrite len_firstn. lia.
  - rewrite firstn_length, skipn_length. unfold len in *. lia.
Qed.

Section Form.
  Variables (p t : Z) (K : list R) (P : Z -> vec4 R).
  Hypothesis C : clamped p K.
  Hypothesis T : 0 <= t.
  Let U := kf K.
  Definition FV (s : nat) (a : Z) (ts : list R) : vec4 R :=
    let g f := elev s (fun m => bl (kf K) a m (fun i => f (P i))) ts in Vec4 (g x4) (g y4) (g z4) (g w4).
  Lemma FV_lin s a ts f : lin f -> f (FV s a ts) = elev s (fun m => bl (kf K) a m (fun i => f (P i))) ts.
  Proof using. intros [-> | [-> | [-> | ->]]]; reflexivity. Qed.
  Lemma FV_sma s a f : brk K a -> sma (Z.to_nat p + s) (elev s (fun m => bl (kf K) a m (fun i => f (P i)))).
  Proof using C. intros [_ B]. apply sma_elev. apply bl_sma; [apply (clamped_mono _ _ C)|exact B]. Qed.
  Lemma FV_perm s a ts ts' : brk K a -> length ts = (Z.to_nat p + s)%nat -> Permutation ts ts' -> FV s a ts = FV s a ts'.
  Proof using C.
    intros B L Pe. apply lin_ext. intros f Lf. rewrite !FV_lin by exact Lf. destruct (FV_sma s a f B) as [H _]. apply H; assumption.
  Qed.
  Lemma FV_blend s a x y z ts : brk K a -> S (length ts) = (Z.to_nat p + s)%nat -> x <> y ->
    FV s a (z :: ts) = v4add (v4scale ((z - x) / (y - x))%R (FV s a (y :: ts))) (v4scale (1 - (z - x) / (y - x))%R (FV s a (x :: ts))).
  Proof using C.
    intros B L Ne. apply lin_ext. intros f Lf. rewrite lin_add, !lin_scale, !FV_lin by exact Lf. destruct (FV_sma s a f B) as [_ H].
    set (c := ((z - x) / (y - x))%R). replace z with ((1 - c) * x + c * y)%R at 1 by (unfold c; field; lra). rewrite H by exact L. norm_R. ring.
  Qed.
  (** all points the same: so is every value *)
  Lemma FV_flat s a : brk K a -> (forall i, P i = P 0) -> forall ts, length ts = (Z.to_nat p + s)%nat -> FV s a ts = P 0.
  Proof using C.
    intros [_ B] H. induction s as [|s IH]; intros ts L; apply lin_ext; intros f Lf; rewrite FV_lin by exact Lf; cbn [elev].
    - rewrite (bl_ext (kf K) a ts _ (fun _ => f (P 0))) by (intros i _; rewrite H; reflexivity). apply bl_const; [apply (clamped_mono _ _ C)|exact B].
    - assert (forall l g, (forall m, S (length m) = length l -> g m = f (P 0)) -> osum g l = (INR (length l) * f (P 0))%R) as Hs.
      { induction l as [|x l IHl]; intros g Hg; [cbn; ring|]. cbn [osum]. rewrite Hg by reflexivity.
        rewrite (IHl (fun m => g (x :: m))) by (intros m Lm; apply Hg; cbn [length]; lia). rewrite (S_INR (length l)) || (change (length (x :: l)) with (S (length l)); rewrite S_INR). ring. }
      rewrite (Hs ts). + field. apply not_0_INR. lia.
      + intros m Lm. rewrite <- (FV_lin s a m f Lf). rewrite IH by lia. reflexivity.
  Qed.
  Lemma FV_adj s a0 a2 ts : adj K a0 a2 -> length ts = (Z.to_nat p + s)%nat -> a2 - a0 + Z.of_nat s <= count (kf K a2) ts -> FV s a0 ts = FV s a2 ts.
  Proof using C.
    intros [[_ B0] [[_ B2] [L E]]] Lt Cn. apply lin_ext. intros f Lf. rewrite !FV_lin by exact Lf. apply (elev_ext s (Z.to_nat p)); [exact Lt|].
    intros m Lm Cm. symmetry. apply (bl_meet_count (kf K) a0 a2 (kf K a2)); try assumption; try lia.
    - apply (clamped_mono _ _ C).
    - specialize (Cm (kf K a2)). lia.
  Qed.
  Lemma FV_chain s a' a ts : brk K a' -> brk K a -> a' <= a -> length ts = (Z.to_nat p + s)%nat ->
    (forall a0 a2, adj K a0 a2 -> a' <= a0 -> a2 <= a -> a2 - a0 + Z.of_nat s <= count (kf K a2) ts) -> FV s a' ts = FV s a ts.
  Proof using C.
    intros B' B L Lt. remember (Z.to_nat (a - a')) as n eqn:En. revert a B L En. induction n as [n IH] using lt_wf_ind. intros a B L En H.
    destruct (Z.eq_dec a' a) as [->|Ne]; [reflexivity|]. destruct (prev_break p K C a' a B' B ltac:(lia)) as [a0 [A Le]].
    rewrite <- (FV_adj s a0 a ts A Lt (H a0 a A Le ltac:(lia))). pose proof A as [B0 [_ [L0 _]]]. apply (IH (Z.to_nat (a0 - a'))); try lia; try assumption.
    intros b0 b2 Ab H1 H2. apply H; try assumption. lia.
  Qed.
  Lemma FV_dual a i : brk K a -> a - p <= i <= a -> FV 0 a (run (kf K) i (Z.to_nat p)) = P i.
  Proof using C.
    intros [_ B] H. pose proof (cl_degree _ _ C). apply lin_ext. intros f Lf. rewrite FV_lin by exact Lf. cbn [elev].
    rewrite bl_dual; [reflexivity|apply (clamped_mono _ _ C)|exact B|]. rewrite nn_of by lia. exact H.
  Qed.
  Lemma FV_two a i k x y : (i + k = Z.to_nat (p + t))%nat -> forall f, lin f ->
    f (FV (Z.to_nat t) a (two y x i k)) =
    zsum 0 (p + 1) (fun j => bez (Z.to_nat p) (Z.to_nat t) i (Z.to_nat j) * f (FV 0 a (two y x (Z.to_nat j) (Z.to_nat p - Z.to_nat j))))%R.
  Proof using C T.
    intros E f Lf. pose proof (cl_degree _ _ C). rewrite FV_lin by exact Lf. rewrite (elev_two (Z.to_nat p)) by lia. rewrite Z2Nat.id by lia.
    apply zsum_ext. intros j Hj. rewrite FV_lin by exact Lf. reflexivity.
  Qed.
  (** ** Values at runs of the new knots *)
  Let V := EV t K.
  Let ph := p + t.
  Let tn := Z.to_nat t.
  Let phn := Z.to_nat ph.
  (** new knots, cut off at [b] *)
  Definition cut (b : R) (j : Z) : R := Rmin b (kf V j).
  Lemma cut_low b j : (kf V j <= b)%R -> cut b j = kf V j.
  Proof using. intros H. unfold cut. apply Rmin_right. exact H. Qed.
  Lemma cut_high b j : (b <= kf V j)%R -> cut b j = b.
  Proof using. intros H. unfold cut. apply Rmin_left. exact H. Qed.
  Lemma phn_len i W : length (run W i phn) = (Z.to_nat p + tn)%nat.
  Proof using C T. pose proof (cl_degree _ _ C). rewrite run_length. unfold phn, ph, tn. lia. Qed.
  Lemma V_mono : mono (kf V).
  Proof using C T. apply (clamped_mono (p + t)). apply ev_clamped; assumption. Qed.
  Lemma FV_run a' a b i : brk K a' -> brk K a -> a' <= a -> i <= pos t K a' -> pos t K a <= i + ph -> (kf K a <= b)%R ->
    FV tn a' (run (cut b) i phn) = FV tn a (run (cut b) i phn).
  Proof using C T.
    intros B' B L Hi Hh Hb. pose proof (cl_degree _ _ C) as P0. apply FV_chain; try assumption; [apply phn_len|]. intros a0 a2 A L0 L2.
    pose proof (pos_adj t K T a0 a2 A) as E. pose proof A as [B0 [B2 [A02 _]]].
    pose proof (pos_le p t K C T a' a0 B' B0 L0). pose proof (pos_le p t K C T a2 a B2 B L2).
    replace (a2 - a0 + Z.of_nat tn) with (pos t K a2 - pos t K a0) by (unfold tn; lia). apply run_count.
    - lia.
    - unfold phn. rewrite nn_of by (unfold ph; lia). lia.
    - intros j Hj. rewrite cut_low; [apply (ev_between t K T a0 a2); assumption|]. unfold V. rewrite (ev_between t K T a0 a2 j A Hj).
      pose proof (clamped_mono _ _ C a2 a L2). lra.
  Qed.
  Lemma FV_full a' a i : brk K a' -> brk K a -> i <= pos t K a' <= i + ph -> i <= pos t K a <= i + ph ->
    FV tn a' (run (kf V) i phn) = FV tn a (run (kf V) i phn).
  Proof using C T.
    intros B' B H' H. assert (run (cut 1) i phn = run (kf V) i phn) as E.
    { apply run_ext. intros k _. apply cut_low. apply (clamped_le1 (p + t)). apply ev_clamped; assumption. }
    rewrite <- E. destruct (Z_le_gt_dec a' a).
    - apply FV_run; try assumption; try lia. apply (clamped_le1 p K C).
    - symmetry. apply FV_run; try assumption; try lia. apply (clamped_le1 p K C).
  Qed.
  Lemma run_adm a i : brk K a -> 0 <= i + 1 -> i + ph < len V -> i <= pos t K a <= i + ph -> adm K a t (run (kf V) i phn).
  Proof using C T.
    intros B Hi Hh Hp. pose proof (cl_degree _ _ C) as P0. pose proof V_mono as M. assert (nn phn = ph) as En by (apply nn_of; unfold ph; lia).
    pose proof (pos_nonneg t K T a B).
    split; [apply run_asc; exact M|]. split; [|split].
    - intros x Hx. apply run_In in Hx. destruct Hx as [j [Hj <-]]. rewrite En in Hj. rewrite kf_at by lia. rewrite at_znth.
      apply (ek_In (Z.to_nat t)). apply znth_In. fold (EV t K). fold V. lia.
    - intros x w Hx Iw Lw IK. apply run_In in Iw. destruct Iw as [j0 [Hj0 Ew]]. rewrite En in Hj0.
      pose proof (ek_count (Z.to_nat t) x K (cl_sorted _ _ C) IK) as Cx. fold (EV t K) in Cx. fold V in Cx. rewrite Z2Nat.id in Cx by exact T.
      rewrite <- Cx. rewrite (run_sub V i phn) at 1 by (rewrite ?En; lia). rewrite !count_app.
      rewrite (count_zero x (firstn _ V)), (count_zero x (skipn _ V)); [lia| |].
      + intros I. apply (In_znth 0%R) in I. destruct I as [q [Hq Eq]]. rewrite len_skipn in Hq. rewrite znth_skipn in Eq by lia.
        rewrite <- at_znth, <- kf_at in Eq by lia. pose proof (M (pos t K a + 1) (Z.max 0 (i + 1 + nn phn) + q) ltac:(lia)) as Mm.
        rewrite Z.max_r in Mm by lia. rewrite Eq in Mm. unfold V in Mm. rewrite (ev_after_pos t K T a B) in Mm. destruct B as [_ B]. lra.
      + intros I. apply (In_znth 0%R) in I. destruct I as [q [Hq Eq]]. rewrite len_firstn in Hq. rewrite znth_firstn in Eq by lia.
        rewrite <- at_znth, <- kf_at in Eq by lia. pose proof (M q j0 ltac:(lia)). lra.
    - intros x w Hx Iw Lw IK. apply run_In in Iw. destruct Iw as [j0 [Hj0 Ew]]. rewrite En in Hj0.
      pose proof (ek_count (Z.to_nat t) x K (cl_sorted _ _ C) IK) as Cx. fold (EV t K) in Cx. fold V in Cx. rewrite Z2Nat.id in Cx by exact T.
      rewrite <- Cx. rewrite (run_sub V i phn) at 1 by (rewrite ?En; lia). rewrite !count_app.
      rewrite (count_zero x (firstn _ V)), (count_zero x (skipn _ V)); [lia| |].
      + intros I. apply (In_znth 0%R) in I. destruct I as [q [Hq Eq]]. rewrite len_skipn in Hq. rewrite znth_skipn in Eq by lia.
        rewrite <- at_znth, <- kf_at in Eq by lia. pose proof (M j0 (i + 1 + nn phn + q) ltac:(lia)). lra.
      + intros I. apply (In_znth 0%R) in I. destruct I as [q [Hq Eq]]. rewrite len_firstn in Hq. rewrite znth_firstn in Eq by lia.
        rewrite <- at_znth, <- kf_at in Eq by lia. pose proof (M q (pos t K a) ltac:(lia)) as Mm. rewrite Eq in Mm. unfold V in Mm.
        rewrite (ev_at_pos t K T a B) in Mm. destruct B as [_ B]. lra.
  Qed.
  Lemma FV_weight a i : brk K a -> (forall j, (0 < w4 (P j))%R) -> 0 <= i + 1 -> i + ph < len V -> i <= pos t K a <= i + ph ->
    (0 < w4 (FV tn a (run (kf V) i phn)))%R.
  Proof using C T.
    intros B Pw Hi Hh Hp. rewrite FV_lin by (unfold lin; auto). pose proof (cl_degree _ _ C). apply (elev_pos p); try assumption.
    - unfold len. rewrite run_length. unfold phn, ph, tn. lia.
    - unfold tn. rewrite Z2Nat.id by exact T. apply run_adm; assumption.
  Qed.
  (** the spline with the new knots and coefficients is the old one *)
  Lemma FV_value (Q : Z -> vec4 R) a x f : lin f -> brk K a ->
    (forall i, 0 <= i -> i + ph + 1 < len V -> exists a', brk K a' /\ i <= pos t K a' <= i + ph /\ Q i = FV tn a' (run (kf V) i phn)) ->
    bl (kf V) (pos t K a) (repeat x phn) (fun i => f (Q i)) = bl (kf K) a (repeat x (Z.to_nat p)) (fun i => f (P i)).
  Proof using C T.
    intros Lf B H. pose proof (cl_degree _ _ C) as P0. assert (nn phn = ph) as En by (apply nn_of; unfold ph; lia).
    pose proof (brk_range p K C a B) as Br. pose proof (ev_len_last p t K C T) as Lv. fold V in Lv.
    pose proof (pos_le p t K C T p a (brk_first p K C) B ltac:(lia)) as L1. rewrite (pos_first p t K C T) in L1.
    pose proof (pos_le p t K C T a (len K - p - 2) B (brk_last p K C) ltac:(lia)) as L2.
    rewrite <- (elev_diag (fun m => bl (kf K) a m (fun i => f (P i))) x tn (Z.to_nat p)).
    replace (Z.to_nat p + tn)%nat with phn by (unfold phn, ph, tn; lia). symmetry.
    apply (bl_unique (kf V) (pos t K a) V_mono).
    - unfold V. rewrite (ev_at_pos t K T a B), (ev_after_pos t K T a B). apply B.
    - rewrite repeat_length. replace phn with (Z.to_nat p + tn)%nat by (unfold phn, ph, tn; lia). apply FV_sma. exact B.
    - rewrite repeat_length, En. intros i Hi. destruct (H i) as [a' [B' [Ha' E]]]; [unfold ph in *; lia|unfold ph in *; lia|].
      rewrite <- FV_lin by exact Lf. rewrite E. f_equal. apply FV_full; try assumption. lia.
  Qed.
End Form.
