(** DegreeAlgo.cpp on the reals, piece by piece. *)
From Coq Require Import Reals ZArith List Lra Lia Permutation FunctionalExtensionality.
From Verif Require Import Outcome Num ModelCore ModelAlgo SpecCore SpecBasis ThOutcome ThReal ThKnots ThMath ThSum ThVec ThSpline ThBasis ThCurve ThInsert
  ThRemove ThReverse ThPolar ThElevKnots ThElevPos ThElevForm.
Import ListNotations.
Open Scope Z_scope.

(** ** Bezier coefficients *)
Definition mat {A} (m : list (list A)) (r c : Z) : Prop := len m = r /\ forall i, 0 <= i < r -> exists row, vget m i = Ok row /\ len row = c.
Lemma get2_spec {A} (m : list (list A)) r c i j : mat m r c -> 0 <= i < r -> 0 <= j < c -> exists x, get2 m i j = Ok x.
Proof.
  intros [_ H] Hi Hj. destruct (H i Hi) as [row [E L]]. unfold get2. rewrite E. cbn [bind]. apply vget_ex. lia.
Qed.
Lemma set2_spec {A} (m : list (list A)) r c i j x : mat m r c -> 0 <= i < r -> 0 <= j < c ->
  exists m', set2 m i j x = Ok m' /\ mat m' r c /\ get2 m' i j = Ok x /\ forall i' j', i' <> i \/ j' <> j -> get2 m' i' j' = get2 m i' j'.
Proof.
  intros [L H] Hi Hj. destruct (H i Hi) as [row [E Lr]]. unfold set2. rewrite E. cbn [bind].
  destruct (vset_spec row j x ltac:(lia)) as [row' [E1 [L1 [G1 G1']]]]. rewrite E1. cbn [bind].
  destruct (vset_spec m i row' ltac:(lia)) as [m' [E2 [L2 [G2 G2']]]]. exists m'. split; [exact E2|]. split; [split; [lia|]|split].
  - intros k Hk. destruct (Z.eq_dec k i) as [->|Ne].
    + exists row'. split; [exact G2|lia].
    + rewrite G2' by exact Ne. apply H. exact Hk.
  - unfold get2. rewrite G2. cbn [bind]. exact G1.
  - intros i' j' D. unfold get2. destruct (Z.eq_dec i' i) as [->|Ne].
    + rewrite G2, E. cbn [bind]. apply G1'. lia.
    + rewrite G2' by exact Ne. reflexivity.
Qed.

Definition bz (p t i j : Z) : R := bez (Z.to_nat p) (Z.to_nat t) (Z.to_nat i) (Z.to_nat j).
Definition band (p t i j : Z) : Prop := Z.max 0 (i - t) <= j <= Z.min p i.
Lemma bz_zero p t i j : 0 <= p -> 0 <= t -> 0 <= i -> 0 <= j -> ~ band p t i j -> bz p t i j = 0%R.
Proof. intros. apply bez_zero. unfold band in *. lia. Qed.
Lemma bz_sym p t i j : 0 <= p -> 0 <= t -> 0 <= i <= p + t -> band p t i j -> bz p t (p + t - i) (p - j) = bz p t i j.
Proof.
  unfold bz, band. intros. rewrite <- (bez_sym _ _ (Z.to_nat i) (Z.to_nat j)) by lia. f_equal; lia.
Qed.
Lemma bz_code p t i j : 0 <= p -> 0 <= t -> 0 <= i <= p + t -> band p t i j ->
  (1 / IZR (choose (Z.to_nat (p + t)) (Z.to_nat i)) * IZR (choose (Z.to_nat p) (Z.to_nat j)) * IZR (choose (Z.to_nat t) (Z.to_nat (i - j))) = bz p t i j)%R.
Proof.
  unfold bz, band, bez. intros. destruct (Nat.ltb_spec (Z.to_nat i) (Z.to_nat j)); [lia|].
  replace (Z.to_nat p + Z.to_nat t)%nat with (Z.to_nat (p + t)) by lia. replace (Z.to_nat i - Z.to_nat j)%nat with (Z.to_nat (i - j)) by lia.
  assert (0 < IZR (choose (Z.to_nat (p + t)) (Z.to_nat i)))%R by (apply choose_R_pos; lia). field. lra.
Qed.
Lemma Binomial_Z n k : 0 <= k <= n -> n <= 29 -> Binomial n k = Ok (choose (Z.to_nat n) (Z.to_nat k)).
Proof.
  intros. rewrite <- (Z2Nat.id n) at 1 by lia. rewrite <- (Z2Nat.id k) at 1 by lia. apply Binomial_ok; [lia|unfold INT_MAX; lia|].
  apply binomial_fits_29; lia.
Qed.
Lemma bezalfs_ok p t : 0 <= p -> 1 <= t -> p + t <= 29 ->
  exists m : list (list R), elevation_bezalfs p t = Ok m /\ forall i j, 0 <= i <= p + t -> band p t i j -> get2 m i j = Ok (bz p t i j).
Proof.
  intros Hp Ht Hb. unfold elevation_bezalfs. set (ph := p + t). set (h := Z.quot ph 2).
  assert (2 * h <= ph /\ ph <= 2 * h + 1 /\ 0 <= h) as Hh.
  { unfold h. pose proof (Z.quot_rem' ph 2). pose proof (Z.rem_bound_pos ph 2). unfold ph in *. lia. }
  destruct (vmake_spec (p + 1) (n0 : R) ltac:(lia)) as [row [E1 [L1 G1]]]. rewrite E1. cbn [bind].
  destruct (vmake_spec (ph + 1) row ltac:(unfold ph; lia)) as [m0 [E2 [L2 G2]]]. rewrite E2. cbn [bind].
  assert (mat m0 (ph + 1) (p + 1)) as M0 by (split; [unfold ph; lia|]; intros i Hi; exists row; split; [apply G2; unfold ph in *; lia|exact L1]).
  destruct (set2_spec m0 (ph + 1) (p + 1) ph p n1 M0) as [m1 [E3 [M1 [V1 O1]]]]; [unfold ph; lia|lia|]. rewrite E3. cbn [bind].
  destruct (set2_spec m1 (ph + 1) (p + 1) 0 0 n1 M1) as [m2 [E4 [M2 [V2 O2]]]]; [unfold ph; lia|lia|]. rewrite E4. cbn [bind].
  assert (forall i j, i = 0 \/ i = ph -> band p t i j -> get2 m2 i j = Ok (bz p t i j)) as Z0.
  { intros i j Hi Bd. unfold band in Bd. destruct Hi as [->| ->].
    - assert (j = 0) as -> by lia. rewrite V2. f_equal. unfold bz, bez. cbn [Z.to_nat Nat.ltb Nat.leb Nat.sub]. rewrite !choose_0_r. norm_R. field.
    - assert (j = p) as -> by (unfold ph in *; lia). rewrite O2 by (unfold ph; lia). rewrite V1. f_equal. unfold bz, bez.
      destruct (Nat.ltb_spec (Z.to_nat ph) (Z.to_nat p)); [unfold ph in *; lia|]. replace (Z.to_nat ph - Z.to_nat p)%nat with (Z.to_nat t) by (unfold ph; lia).
      replace (Z.to_nat ph) with (Z.to_nat p + Z.to_nat t)%nat by (unfold ph; lia). rewrite !choose_diag. norm_R. field. }
  pose (I1 := fun (k : Z) (m : list (list R)) => mat m (ph + 1) (p + 1) /\ (forall i j, i < k \/ i = ph -> 0 <= i -> band p t i j -> get2 m i j = Ok (bz p t i j))).
  match goal with |- context [for_up 1 (h + 1) ?b m2] => destruct (for_up_inv I1 1 (h + 1) b m2) as [m3 [E5 [M3 V3]]] end.
  - lia.
  - split; [exact M2|]. intros i j Hi Hi0 Bd. apply Z0; [lia|exact Bd].
  - intros i m Hi [Mm Vm]. rewrite Binomial_Z by (unfold ph in *; lia). cbn [bind].
    pose proof (choose_R_pos (Z.to_nat ph) (Z.to_nat i) ltac:(unfold ph in *; lia)) as Cp. norm_R. rewrite Rdivo_ok by lra. cbn [bind].
    match goal with |- context [for_up ?lo ?hi ?b m] =>
      destruct (for_up_inv (fun k m' => mat m' (ph + 1) (p + 1) /\ (forall j, j < k -> band p t i j -> get2 m' i j = Ok (bz p t i j)) /\
        forall i' j', i' <> i -> get2 m' i' j' = get2 m i' j') lo hi b m) as [m' [E6 [M6 [V6 O6]]]] end.
    + unfold ph in *. lia.
    + split; [exact Mm|]. split; [intros j H Bd; unfold band in Bd; lia|reflexivity].
    + intros j m' Hj [Mm' [Vm' Om']]. rewrite !Binomial_Z by (unfold ph in *; lia). cbn [bind]. norm_R. 
      match goal with |- context [set2 m' i j ?x] => destruct (set2_spec m' (ph + 1) (p + 1) i j x Mm') as [m'' [E7 [M7 [V7 O7]]]]; [unfold ph in *; lia|lia|] end.
      exists m''. split; [exact E7|]. split; [exact M7|]. split.
      * intros j' Hj' Bd. destruct (Z.eq_dec j' j) as [->|Ne].
        -- rewrite V7. f_equal. apply bz_code; try exact Bd; unfold ph in *; lia.
        -- rewrite O7 by lia. apply Vm'; [lia|exact Bd].
      * intros i' j' Ne. rewrite O7 by lia. apply Om'. exact Ne.
    + exists m'. split; [exact E6|]. split; [exact M6|]. intros i' j' Hi' Hi0 Bd. destruct (Z.eq_dec i' i) as [->|Ne].
      * apply V6; [unfold band in Bd; lia|exact Bd].
      * rewrite O6 by exact Ne. apply Vm; [lia|exact Hi0|exact Bd].
  - rewrite E5. cbn [bind].
    match goal with |- context [for_up (h + 1) ph ?b m3] => destruct (for_up_inv I1 (h + 1) ph b m3) as [m4 [E8 [M8 V8]]] end.
    + unfold ph in *. lia.
    + split; [exact M3|exact V3].
    + intros i m Hi [Mm Vm].
      match goal with |- context [for_up ?lo ?hi ?b m] =>
        destruct (for_up_inv (fun k m' => mat m' (ph + 1) (p + 1) /\ (forall j, j < k -> band p t i j -> get2 m' i j = Ok (bz p t i j)) /\
          forall i' j', i' <> i -> get2 m' i' j' = get2 m i' j') lo hi b m) as [m' [E6 [M6 [V6 O6]]]] end.
      * unfold ph in *. lia.
      * split; [exact Mm|]. split; [intros j H Bd; unfold band in Bd; lia|reflexivity].
      * intros j m' Hj [Mm' [Vm' Om']]. rewrite Om' by lia. assert (band p t i j) as Bd by (unfold band; lia).
        rewrite Vm by (unfold band, ph in *; lia). cbn [bind].
        match goal with |- context [set2 m' i j ?x] => destruct (set2_spec m' (ph + 1) (p + 1) i j x Mm') as [m'' [E7 [M7 [V7 O7]]]]; [unfold ph in *; lia|lia|] end.
        exists m''. split; [exact E7|]. split; [exact M7|]. split.
        -- intros j' Hj' Bd'. destruct (Z.eq_dec j' j) as [->|Ne].
           ++ rewrite V7. f_equal. apply bz_sym; try exact Bd'; unfold ph in *; lia.
           ++ rewrite O7 by lia. apply Vm'; [lia|exact Bd'].
        -- intros i' j' Ne. rewrite O7 by lia. apply Om'. exact Ne.
      * exists m'. split; [exact E6|]. split; [exact M6|]. intros i' j' Hi' Hi0 Bd. destruct (Z.eq_dec i' i) as [->|Ne].
        -- apply V6; [unfold band in Bd; lia|exact Bd].
        -- rewrite O6 by exact Ne. apply Vm; [lia|exact Hi0|exact Bd].
    + exists m4. split; [exact E8|]. intros i j Hi Bd. apply V8; [unfold ph; lia|lia|exact Bd].
Qed.

Notation rpt x n := (repeat x (Z.to_nat n)).
Lemma run_Z W i n : 0 < n -> run W i (Z.to_nat n) = run W i (Z.to_nat (n - 1)) ++ [W (i + n)].
Proof.
  intros H. replace (Z.to_nat n) with (S (Z.to_nat (n - 1))) by lia. rewrite run_last. f_equal. f_equal. f_equal. unfold nn. lia.
Qed.
Lemma run_Z_first W i n : 0 < n -> run W i (Z.to_nat n) = W (i + 1) :: run W (i + 1) (Z.to_nat (n - 1)).
Proof. intros H. replace (Z.to_nat n) with (S (Z.to_nat (n - 1))) by lia. reflexivity. Qed.
Lemma run_Z_app W i n k : 0 <= n -> 0 <= k -> run W i (Z.to_nat (n + k)) = run W i (Z.to_nat n) ++ run W (i + n) (Z.to_nat k).
Proof. intros H1 H2. replace (Z.to_nat (n + k)) with (Z.to_nat n + Z.to_nat k)%nat by lia. rewrite run_app, nn_of by lia. reflexivity. Qed.
Lemma run_Z_const W i n x : (forall k, i < k <= i + n -> W k = x) -> run W i (Z.to_nat n) = rpt x n.
Proof. intros H. apply run_const. intros k Hk. apply H. unfold nn in *. lia. Qed.
Lemma rpt_S (x : R) n : 0 < n -> rpt x n = x :: rpt x (n - 1).
Proof. intros H. replace (Z.to_nat n) with (S (Z.to_nat (n - 1))) by lia. reflexivity. Qed.
Lemma rpt_app (x : R) n k : 0 <= n -> 0 <= k -> rpt x (n + k) = rpt x n ++ rpt x k.
Proof. intros H1 H2. rewrite <- repeat_app. f_equal. lia. Qed.

Section Code.
  Variables (p t : Z) (K : list R) (pts : list (vec4 R)) (P : Z -> vec4 R).
  Hypothesis C : clamped p K.
  Hypothesis P1 : 1 <= p.
  Hypothesis T : 1 <= t.
    Hypothesis Lp : len pts = len K - p - 1.
  Hypothesis HP : forall i, 0 <= i < len pts -> vget pts i = Ok (P i).
  Local Notation ph := (p + t).
  Local Notation V := (kf (EV t K)).
  Local Notation F := (FV K P (Z.to_nat t)).

  (** *** Scanning for the end of a run of knots *)
  (** [b] is the last index of the run of knots that starts after [a]. *)
  Definition next_run (a b : Z) : Prop :=
    a < b <= len K - 1 /\ (forall i, a < i <= b -> kf K i = kf K b) /\ (b < len K - 1 -> brk K b).
  Lemma next_run_ex a : brk K a -> exists b, next_run a b.
  Proof.
    intros [H _]. assert (forall n b, n = Z.to_nat (len K - 1 - b) -> a < b <= len K - 1 -> (forall i, a < i <= b -> kf K i = kf K b) -> exists b, next_run a b) as G.
    { induction n as [|n IH]; intros b En Hb E.
      - exists b. split; [exact Hb|]. split; [exact E|lia].
      - destruct (Rlt_dec (kf K b) (kf K (b + 1))) as [L|L].
        + exists b. split; [exact Hb|]. split; [exact E|]. intros _. split; [lia|exact L].
        + apply (IH (b + 1)); try lia. pose proof (clamped_mono _ _ C b (b + 1) ltac:(lia)). intros i Hi. destruct (Z.eq_dec i (b + 1)) as [->|Ne]; [reflexivity|].
          rewrite E by lia. lra. }
    apply (G _ (a + 1) eq_refl); [lia|]. intros i Hi. f_equal. lia.
  Qed.
  Lemma scan_ok a b : brk K a -> next_run a b -> (forall j, brk K j -> ~ close (kf K j) (kf K (j + 1))) -> elevation_scan K (len K - 1) (a + 1) = Ok b.
  Proof.
    intros [Ha _] [Hb [E Br]] Sep. unfold elevation_scan.
    match goal with |- while_ ?fu ?co ?bo ?s0 = _ => destruct (while_steps (fun k s => s = a + 1 + k) (b - a - 1) fu co bo s0) as [s' [Es Q]] end.
    - lia.
    - lia.
    - lia.
    - intros k s Hk ->. split; [|exists (a + 1 + k + 1); split; [reflexivity|lia]].
      destruct (Z.ltb_spec (a + 1 + k) (len K - 1)); [|lia]. rewrite !vget_kf by lia. cbn [bind]. f_equal. apply Approx_R.
      rewrite (E (a + 1 + k)), (E (a + 1 + k + 1)) by lia. unfold close. rewrite Rminus_diag_eq, Rabs_R0 by reflexivity. lra.
    - intros s ->. replace (a + 1 + (b - a - 1)) with b by lia. destruct (Z.ltb_spec b (len K - 1)); [|reflexivity]. rewrite !vget_kf by lia. cbn [bind].
      f_equal. destruct (Approx (kf K b) (kf K (b + 1)) lit_1e_6) eqn:A; [|reflexivity]. exfalso. apply Approx_R in A. apply (Sep b); [apply Br; assumption|exact A].
    - rewrite Es. f_equal. lia.
  Qed.
  Lemma run_last_one a b : brk K a -> next_run a b -> b = len K - 1 -> a = len K - p - 2 /\ kf K b = 1%R.
  Proof.
    intros Br [Hb [E _]] ->. pose proof (brk_range p K C a Br) as R. pose proof (cl_degree _ _ C).
    assert (kf K (len K - 1) = 1%R) as E1 by (rewrite kf_at by lia; apply (cl_one _ _ C); lia). split; [|exact E1].
    destruct (Z.eq_dec a (len K - p - 2)) as [|Ne]; [assumption|]. exfalso. pose proof (E (len K - p - 2) ltac:(lia)) as X. rewrite E1 in X.
    rewrite kf_at in X by lia. pose proof (cl_last _ _ C). lra.
  Qed.
  Lemma run_adj a b : brk K a -> next_run a b -> b < len K - 1 -> adj K a b.
  Proof. intros Br [Hb [E Bb]] H. split; [exact Br|]. split; [apply Bb; exact H|]. split; [lia|]. exact E. Qed.

  (** *** Inserting the end of the span *)
  Definition G (a : Z) (ub : R) (k q : Z) : vec4 R := FV K P 0 a (rpt (kf K a) (p - k) ++ rpt ub q ++ run (kf K) a (Z.to_nat (k - q))).
  Lemma G_step a ub k q : brk K a -> 0 <= q < k -> k <= p ->
    G a ub k (q + 1) = v4add (v4scale ((ub - kf K a) / (kf K (a + k - q) - kf K a))%R (G a ub k q))
                             (v4scale (1 - (ub - kf K a) / (kf K (a + k - q) - kf K a))%R (G a ub (k - 1) q)).
  Proof.
    intros Br Hq Hk. unfold G. set (ts := rpt (kf K a) (p - k) ++ rpt ub q ++ run (kf K) a (Z.to_nat (k - 1 - q))).
    assert (length ts = Z.to_nat (p - 1)) as Lt by (unfold ts; rewrite !app_length, !repeat_length, run_length; lia).
    assert (S (length ts) = Z.to_nat p + 0)%nat as Ls by lia. pose proof (clamped_mono _ _ C (a + 1) (a + k - q) ltac:(lia)) as Mo.
    rewrite (FV_perm p K P C 0 a (rpt (kf K a) (p - k) ++ rpt ub (q + 1) ++ run (kf K) a (Z.to_nat (k - (q + 1)))) (ub :: ts)); [| | |].
    - rewrite (FV_perm p K P C 0 a (rpt (kf K a) (p - k) ++ rpt ub q ++ run (kf K) a (Z.to_nat (k - q))) (kf K (a + k - q) :: ts)); [| | |].
      + rewrite (FV_perm p K P C 0 a (rpt (kf K a) (p - (k - 1)) ++ rpt ub q ++ run (kf K) a (Z.to_nat (k - 1 - q))) (kf K a :: ts)); [| | |].
        * apply (FV_blend p K P C); [exact Br|exact Ls|]. destruct Br as [_ Br]. lra.
        * exact Br.
        * rewrite !app_length, !repeat_length, run_length. lia.
        * rewrite (rpt_S _ (p - (k - 1))) by lia. replace (p - (k - 1) - 1) with (p - k) by lia. reflexivity.
      + exact Br.
      + rewrite !app_length, !repeat_length, run_length. lia.
      + rewrite (run_Z _ _ (k - q)) by lia. replace (k - q - 1) with (k - 1 - q) by lia. replace (a + (k - q)) with (a + k - q) by lia.
        unfold ts. rewrite !app_assoc. symmetry. apply Permutation_cons_append.
    - exact Br.
    - rewrite !app_length, !repeat_length, run_length. lia.
    - rewrite (rpt_S _ (q + 1)) by lia. replace (q + 1 - 1) with q by lia. replace (k - (q + 1)) with (k - 1 - q) by lia. symmetry. apply Permutation_middle.
  Qed.
  Lemma insert_ok a b bpts nextb : brk K a -> next_run a b -> len bpts = p + 1 -> len nextb = p - 1 ->
    (forall k, 0 <= k <= p -> vget bpts k = Ok (G a (kf K b) k 0)) ->
    exists bpts' nextb', elevation_insert K p (b - a) (p - (b - a)) a (kf K a) (kf K b) bpts nextb = Ok (bpts', nextb') /\
      len bpts' = p + 1 /\ len nextb' = p - 1 /\
      (forall k, 0 <= k <= p -> vget bpts' k = Ok (FV K P 0 a (two (kf K b) (kf K a) (Z.to_nat k) (Z.to_nat (p - k))))) /\
      (forall i, 0 <= i < p - (b - a) -> vget nextb' i = Ok (Some (G a (kf K b) p (p - (b - a) - i)))).
  Proof.
    intros Br Nr Lb Ln Hb. pose proof Nr as [Hab [Eb _]]. set (mul := b - a) in *. set (r := p - mul). set (ub := kf K b) in *. set (ua := kf K a) in *.
    assert (ua < ub)%R as Lt by (unfold ua; rewrite <- (Eb (a + 1)) by lia; apply Br).
    assert (forall k, 0 <= k <= p -> G a ub k (Z.max 0 (k - mul)) = FV K P 0 a (two ub ua (Z.to_nat k) (Z.to_nat (p - k)))) as Fin.
    { intros k Hk. unfold G. apply (FV_perm p K P C); [exact Br|rewrite !app_length, !repeat_length, run_length; lia|].
      rewrite (run_Z_const _ _ _ ub) by (intros i Hi; apply Eb; unfold mul in *; lia). rewrite <- repeat_app. unfold two.
      replace (Z.to_nat (Z.max 0 (k - mul)) + Z.to_nat (k - Z.max 0 (k - mul)))%nat with (Z.to_nat k) by (unfold mul; lia). apply Permutation_app_comm. }
    unfold elevation_insert. rewrite Z.gtb_ltb. destruct (Z.ltb_spec 0 r) as [Hr|Hr].
    - destruct (vmake_spec (p - 1) (n0 : R) ltac:(lia)) as [al0 [E1 [L1 _]]]. rewrite E1. cbn [bind].
      match goal with |- context [for_down p (mul + 1) ?bo al0] =>
        destruct (for_down_inv (fun k (al : list R) => len al = p - 1 /\ forall i, k < i <= p -> vget al (i - mul - 1) = Ok ((ub - ua) / (kf K (a + i) - ua))%R) p (mul + 1) bo al0)
          as [al [E2 [L2 G2]]] end.
      + unfold r in Hr. lia.
      + split; [exact L1|]. intros; lia.
      + intros k al Hk [La Ga]. assert (a + k < len K) as Ik.
        { pose proof (brk_range p K C a Br). lia. }
        rewrite vget_kf by (pose proof (brk_range p K C a Br); lia). cbn [bind]. pose proof (clamped_mono _ _ C (a + 1) (a + k) ltac:(unfold mul in *; lia)) as Mo.
        pose proof Br as [_ Bl]. fold ua in Bl. norm_R. rewrite Rdivo_ok by lra. cbn [bind].
        destruct (vset_spec al (k - mul - 1) ((ub - ua) / (kf K (a + k) - ua))%R) as [al' [E3 [L3 [G3 G3']]]]; [unfold mul in *; lia|].
        exists al'. split; [exact E3|]. split; [lia|]. intros i Hi. destruct (Z.eq_dec i k) as [->|Ne]; [exact G3|]. rewrite G3' by lia. apply Ga. lia.
      + replace (mul + 1 - 1) with mul in G2 by lia. rewrite E2. cbn [bind].
        pose (qq := fun j k => Z.min j (Z.max 0 (k - mul))).
        match goal with |- context [for_up 1 (r + 1) ?bo (bpts, nextb)] =>
          destruct (for_up_inv (fun j (st : list (vec4 R) * list (option (vec4 R))) => len (fst st) = p + 1 /\ len (snd st) = p - 1 /\
            (forall k, 0 <= k <= p -> vget (fst st) k = Ok (G a ub k (qq (j - 1) k))) /\
            (forall i, r - j < i < r -> vget (snd st) i = Ok (Some (G a ub p (r - i))))) 1 (r + 1) bo (bpts, nextb)) as [[b' n'] [E3 [L3 [N3 [G3 G3']]]]] end.
        * lia.
        * cbn [fst snd]. split; [exact Lb|]. split; [exact Ln|]. split; [|intros; lia]. intros k Hk. rewrite Hb by exact Hk. f_equal. f_equal. unfold qq. lia.
        * intros j [bp nb] Hj [La [Lc [Ga Gb]]]. cbn [fst snd] in *.
          match goal with |- context [for_down p (mul + j) ?bo bp] =>
            destruct (for_down_inv (fun k (bp' : list (vec4 R)) => len bp' = p + 1 /\ (forall i, 0 <= i <= k -> vget bp' i = Ok (G a ub i (qq (j - 1) i))) /\
              (forall i, k < i <= p -> vget bp' i = Ok (G a ub i (qq j i)))) p (mul + j) bo bp) as [bp' [E4 [L4 [G4 G4']]]] end.
          -- unfold r in *. lia.
          -- split; [exact La|]. split; [|intros; lia]. intros i Hi. apply Ga. exact Hi.
          -- intros k bp' Hk [Ld [Gc Gd]]. replace (k - (mul + j)) with ((k - j + 1) - mul - 1) by lia.
             rewrite G2 by (unfold r, mul in *; lia). cbn [bind]. rewrite (Gc k), (Gc (k - 1)) by (unfold mul in *; lia). cbn [bind]. norm_R.
             match goal with |- context [vset bp' k ?x] => destruct (vset_spec bp' k x) as [bp'' [E5 [L5 [G5 G5']]]]; [unfold mul in *; lia|] end.
             exists bp''. split; [exact E5|]. split; [lia|]. split.
             ++ intros i Hi. rewrite G5' by lia. apply Gc. lia.
             ++ intros i Hi. destruct (Z.eq_dec i k) as [->|Ne]; [|rewrite G5' by lia; apply Gd; lia]. rewrite G5. f_equal.
                replace (qq j k) with (qq (j - 1) k + 1) by (unfold qq; lia). rewrite G_step by (try exact Br; unfold qq, mul in *; lia).
                fold ua. replace (qq (j - 1) (k - 1)) with (qq (j - 1) k) by (unfold qq; lia). replace (a + k - qq (j - 1) k) with (a + (k - j + 1)) by (unfold qq; lia).
                reflexivity.
          -- rewrite E4. cbn [bind]. rewrite G4' by (unfold r in *; lia). cbn [bind].
             match goal with |- context [usets nb (r - j) ?x] => destruct (uset_spec nb (r - j) x) as [nb' [E5 [L5 [G5 G5']]]]; [unfold r, mul in *; lia|] end.
             rewrite E5. cbn [bind]. exists (bp', nb'). split; [reflexivity|]. cbn [fst snd]. split; [exact L4|]. split; [lia|]. split.
             ++ intros k Hk. replace (j + 1 - 1) with j by lia. destruct (Z_le_gt_dec k (mul + j - 1)).
                ** rewrite G4 by lia. f_equal. f_equal. unfold qq. lia.
                ** apply G4'. lia.
             ++ intros i Hi. destruct (Z.eq_dec i (r - j)) as [->|Ne].
                ** rewrite G5. f_equal. f_equal. f_equal. unfold qq, r in *. lia.
                ** rewrite G5' by exact Ne. apply Gb. lia.
        * cbn [fst snd] in *. exists b', n'. split; [exact E3|]. split; [exact L3|]. split; [exact N3|]. split.
          -- intros k Hk. rewrite G3 by exact Hk. f_equal. rewrite <- Fin by exact Hk. f_equal. unfold qq, r in *. lia.
          -- intros i Hi. apply G3'. unfold r in *. lia.
    - exists bpts, nextb. split; [reflexivity|]. split; [exact Lb|]. split; [exact Ln|]. split; [|intros; unfold r in Hr; lia].
      intros k Hk. rewrite Hb by exact Hk. f_equal. rewrite <- Fin by exact Hk. f_equal. unfold r in Hr. lia.
  Qed.
  (** control points of the next span *)
  Lemma next_low a b i : brk K a -> next_run a b -> b < len K - 1 -> 0 <= i < p - (b - a) -> forall ub, G a (kf K b) p (p - (b - a) - i) = G b ub i 0.
  Proof.
    intros Br Nr Hb Hi ub. pose proof (run_adj a b Br Nr Hb) as A. pose proof Nr as [Hab [Eb _]]. unfold G.
    replace (p - (p - (b - a) - i)) with ((b - a) + i) by lia. rewrite run_Z_app by lia. replace (a + (b - a)) with b by lia.
    rewrite (run_Z_const _ a (b - a) (kf K b)) by (intros k Hk; apply Eb; lia). rewrite Z.sub_diag, Z.sub_0_r. cbn [Z.to_nat repeat app].
    rewrite (app_assoc (rpt (kf K b) _)), <- rpt_app by lia. replace (p - (b - a) - i + (b - a)) with (p - i) by lia.
    apply (FV_adj p K P C); [exact A|rewrite app_length, repeat_length, run_length; lia|].
    rewrite count_app, count_repeat. destruct (Req_EM_T (kf K b) (kf K b)); [|congruence]. pose proof (count_nonneg (kf K b) (run (kf K) b (Z.to_nat i))). lia.
  Qed.
  Lemma next_high a b i : brk K a -> next_run a b -> b < len K - 1 -> Z.max 0 (p - (b - a)) <= i <= p -> forall ub, P (b - p + i) = G b ub i 0.
  Proof.
    intros Br Nr Hb Hi ub. pose proof (run_adj a b Br Nr Hb) as [_ [Bb _]]. pose proof Nr as [Hab [Eb _]]. unfold G.
    rewrite <- (FV_dual p K P C b (b - p + i)) by (try exact Bb; lia). f_equal. rewrite Z.sub_0_r. cbn [Z.to_nat repeat app].
    replace p with ((p - i) + i) at 2 by lia. rewrite run_Z_app by lia. replace (b - p + i + (p - i)) with b by lia. f_equal.
    apply run_Z_const. intros k Hk. apply Eb. lia.
  Qed.

  (** *** Elevating the Bezier segment *)
  Lemma bezier_ok a ub lbz bz_m bpts eb : 0 <= lbz <= ph + 1 -> len eb = ph + 1 -> len bpts = p + 1 ->
    (forall i j, 0 <= i <= p + t -> band p t i j -> get2 bz_m i j = Ok (bz p t i j)) ->
    (forall k, 0 <= k <= p -> vget bpts k = Ok (FV K P 0 a (two ub (kf K a) (Z.to_nat k) (Z.to_nat (p - k))))) ->
    exists eb', elevation_bezier p t lbz bz_m bpts eb = Ok eb' /\ len eb' = ph + 1 /\ (forall i, i < lbz -> vget eb' i = vget eb i) /\
      forall i, lbz <= i <= ph -> vget eb' i = Ok (Some (F a (two ub (kf K a) (Z.to_nat i) (Z.to_nat (ph - i))))).
  Proof.
    intros Hl Le Lb Hz Hb. unfold elevation_bezier.
    match goal with |- context [for_up lbz (ph + 1) ?bo eb] =>
      destruct (for_up_inv (fun i (e : list (option (vec4 R))) => len e = ph + 1 /\ (forall k, k < lbz -> vget e k = vget eb k) /\
        forall k, lbz <= k < i -> vget e k = Ok (Some (F a (two ub (kf K a) (Z.to_nat k) (Z.to_nat (ph - k)))))) lbz (ph + 1) bo eb) as [eb' [E [L [G0 G1]]]] end.
    - lia.
    - split; [exact Le|]. split; [reflexivity|intros; lia].
    - intros i e Hi [L [G0 G1]]. destruct (uset_spec e i v4zero ltac:(lia)) as [e1 [E1 [L1 [V1 O1]]]]. rewrite E1. cbn [bind].
      match goal with |- context [for_up ?lo ?hi ?bo e1] =>
        destruct (for_up_inv (fun j (e' : list (option (vec4 R))) => len e' = ph + 1 /\ (forall k, k <> i -> vget e' k = vget e k) /\
          exists s, vget e' i = Ok (Some s) /\ forall f, lin f -> f s = zsum lo j (fun k => bz p t i k * f (FV K P 0 a (two ub (kf K a) (Z.to_nat k) (Z.to_nat (p - k)))))%R) lo hi bo e1)
          as [e2 [E2 [L2 [O2 [s [V2 S2]]]]]] end.
      + lia.
      + split; [lia|]. split; [exact O1|]. exists v4zero. split; [exact V1|]. intros f Lf. rewrite lin_zero by exact Lf. rewrite zsum_empty by lia. reflexivity.
      + intros j e' Hj [L' [O' [s [V' S']]]]. rewrite Hz by (unfold band; lia). cbn [bind]. rewrite Hb by lia. cbn [bind].
        rewrite (ugets_get _ _ _ V'). cbn [bind]. match goal with |- context [usets e' i ?x] => destruct (uset_spec e' i x ltac:(lia)) as [e3 [E3 [L3 [V3 O3]]]] end.
        exists e3. split; [exact E3|]. split; [lia|]. split; [intros k Hk; rewrite O3 by exact Hk; apply O'; exact Hk|]. eexists. split; [exact V3|].
        intros f Lf. rewrite lin_add, lin_scale by exact Lf. rewrite zsum_last' by lia. rewrite S' by exact Lf. reflexivity.
      + exists e2. split; [exact E2|]. split; [exact L2|]. split; [intros k Hk; rewrite O2 by lia; apply G0; exact Hk|].
        intros k Hk. destruct (Z.eq_dec k i) as [->|Ne]; [|rewrite O2 by exact Ne; apply G1; lia]. rewrite V2. f_equal. f_equal.
        apply lin_ext. intros f Lf. rewrite S2 by exact Lf.  rewrite (FV_two p t K P C ltac:(lia)) by (try exact Lf; lia).
        assert (forall k, 0 <= k < p + 1 -> (bez (Z.to_nat p) (Z.to_nat t) (Z.to_nat i) (Z.to_nat k) * f (FV K P 0 a (two ub (kf K a) (Z.to_nat k) (Z.to_nat p - Z.to_nat k))) =
          bz p t i k * f (FV K P 0 a (two ub (kf K a) (Z.to_nat k) (Z.to_nat (p - k)))))%R) as Ek.
        { intros q Hq. unfold bz. do 4 f_equal. lia. }
        rewrite (zsum_ext 0 (p + 1) _ _ Ek).
        symmetry. apply zsum_support; [lia..|]. intros q Hq Nq. rewrite bz_zero; [ring|lia..|unfold band; lia].
    - exists eb'. split; [exact E|]. split; [exact L|]. split; [exact G0|]. intros i Hi. apply G1. lia.
  Qed.
End Code.
