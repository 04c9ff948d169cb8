(** Accuracy of knot insertion in binary64: final statements. *)
From Coq Require Import Reals ZArith List Lra Lia Psatz Floats.SpecFloat Permutation.
From Flocq Require Import Core.
From Verif Require Import Outcome Num ModelCore ModelBasis ModelCurve ModelSurface SpecCore SpecBasis SpecCurve SpecErr SpecErrIns ThOutcome ThReal ThB64 ThRound ThVec ThKnots ThSum ThSpline ThBasis ThCurve ThCurveWit ThInsert ThErr ThErrBasis ThErrSum ThErrCurve ThSafe ThSafe2 ThBBoxWit ThErrInsert ThErrInsert2 ThErrInsert3.
Import ListNotations.
Open Scope R_scope.

Lemma near_weak e1 n1 e2 n2 q p : 0 < w4 p -> e1 <= e2 -> n1 <= n2 -> near_point e1 n1 q p -> near_point e2 n2 q p.
Proof. unfold near_point. intros W H1 H2 H. assert (n1 * w4 p <= n2 * w4 p) by (apply Rmult_le_compat_r; lra). intuition lra. Qed.
Lemma ins_eps_mono r M M' : 0 <= r -> M <= M' -> ins_eps r M <= ins_eps r M'.
Proof.
  intros H1 H2. unfold ins_eps. apply Rplus_le_compat_r. apply Rmult_le_compat_l; [|exact H2]. unfold Rdiv. assert (0 < / 2 ^ 53) by (apply Rinv_0_lt_compat, pow_lt; lra). apply Rmult_le_pos; lra.
Qed.
Lemma within_trans e f p q r : within3 e p q -> within3 f q r -> within3 (e + f) p r.
Proof.
  assert (forall a b c, Rabs (a - b) <= e -> Rabs (b - c) <= f -> Rabs (a - c) <= e + f) as H.
  { intros a b c H1 H2. replace (a - c) with ((a - b) + (b - c)) by ring. pose proof (Rabs_triang (a - b) (b - c)). lra. }
  intros [A1 [A2 A3]] [B1 [B2 B3]]. split; [|split]; eapply H; eassumption.
Qed.
Lemma within_weak e f p q : e <= f -> within3 e p q -> within3 f p q.
Proof. unfold within3. intros H [A [B C]]. repeat split; lra. Qed.
Lemma sane_weak M lo hi M' lo' hi' l : M <= M' -> lo' <= lo -> hi <= hi' -> Forall (sane M lo hi) l -> Forall (sane M' lo' hi') l.
Proof. intros H1 H2 H3. apply Forall_impl. unfold sane. intros p. intuition lra. Qed.
Lemma sane_ratio M lo hi rho l : Forall (sane M lo hi) l -> hi <= rho * lo -> 0 < lo -> 0 <= rho -> weight_ratio rho l.
Proof.
  intros F H L R p q Hp Hq. rewrite Forall_forall in F. destruct (F p Hp) as [_ [_ [_ [_ [W1 _]]]]]. destruct (F q Hq) as [_ [_ [_ [_ [W2 _]]]]].
  assert (rho * lo <= rho * val (w4 q)) by (apply Rmult_le_compat_l; lra). lra.
Qed.

Section list.
  Variables (rho Mx : R).
  Hypothesis Hr : 1 <= rho <= 2 ^ 30.
  Hypothesis HMx : 0 <= Mx <= bpow radix2 100.
  Let eps := ins_eps rho Mx.
  Let eta := ins_eta rho.
  Lemma eta_small : 0 <= eta <= / 1000.
  Proof.
    split; [apply ins_eta_pos; lra|]. unfold eta, ins_eta, Rdiv. assert (0 < / 2 ^ 53) by (apply Rinv_0_lt_compat, pow_lt; lra).
    apply (Rle_trans _ (64 * 2 ^ 30 * / 2 ^ 53)); [apply Rmult_le_compat_r; lra|lra].
  Qed.
  Lemma eps_pos : 0 <= eps. Proof. apply ins_eps_pos; lra. Qed.
  Lemma list_near us : forall c M lo hi, sound_curve c -> Forall (sane M lo hi) (ControlPoints c) -> Forall inner64 us -> 0 <= M -> M + INR (length us) * eps <= Mx ->
    bpow radix2 (-100) <= lo * (1 - eta) ^ length us -> hi * (1 + eta) ^ length us <= bpow radix2 100 ->
    hi * (1 + eta) ^ length us <= rho * (lo * (1 - eta) ^ length us) -> 0 <= lo -> 0 <= hi ->
    exists c', foldM (insert_one (Degree c)) us (Knots c, ControlPoints c) = Ok (Knots c', ControlPoints c') /\ Degree c' = Degree c /\ sound_curve c' /\
      Forall (sane (M + INR (length us) * eps) (lo * (1 - eta) ^ length us) (hi * (1 + eta) ^ length us)) (ControlPoints c') /\
      forall x, 0 <= x <= 1 -> within3 (INR (length us) * (eps + 201 / 100 * eta * Mx)) (curve_point (curve_val c') x) (curve_point (curve_val c) x) /\
        (1 - eta) ^ length us * curve_den (curve_val c) x <= curve_den (curve_val c') x <= (1 + eta) ^ length us * curve_den (curve_val c) x.
  Proof.
    pose proof eta_small as He. pose proof eps_pos as Hp. induction us as [|u us IH]; intros c M lo hi Sc F Fu HM HB Hlo Hhi Hrat L0 H0.
    - exists c. cbn [foldM length INR pow] in *. split; [reflexivity|]. split; [reflexivity|]. split; [exact Sc|]. split.
      + apply (sane_weak M lo hi); try lra. exact F.
      + intros x Hx. rewrite Rmult_0_l. unfold within3. rewrite !Rminus_eq_0, Rabs_R0. repeat split; lra.
    - inversion Fu as [|? ? Iu Fus]; subst. cbn [length] in *. rewrite S_INR in *. pose proof (pos_INR (length us)) as N0. set (n := length us) in *. cbn [pow] in *.
      assert (0 < (1 - eta) ^ n <= 1) as P1. { split; [apply pow_lt; lra|]. apply (Rle_trans _ (1 ^ n)); [apply pow_incr; lra|rewrite pow1; lra]. }
      assert (1 <= (1 + eta) ^ n) as P2 by (apply pow_R1_Rle; lra).
      assert (lo * ((1 - eta) * (1 - eta) ^ n) = lo * (1 - eta) * (1 - eta) ^ n) as E1 by ring. rewrite E1 in *.
      assert (hi * ((1 + eta) * (1 + eta) ^ n) = hi * (1 + eta) * (1 + eta) ^ n) as E2 by ring. rewrite E2 in *.
      pose proof (bpow_gt_0 radix2 (-100)) as B0.
      set (lo' := lo * (1 - eta)) in *. set (hi' := hi * (1 + eta)) in *.
      assert (0 <= lo' <= lo) as Hl by (unfold lo'; split; nra). assert (hi <= hi') as Hh by (unfold hi'; nra).
      assert (lo' * (1 - eta) ^ n <= lo') as Q1 by nra. assert (hi' <= hi' * (1 + eta) ^ n) as Q2 by nra.
      assert (hi' <= rho * lo') as Q3. { assert (rho * (lo' * (1 - eta) ^ n) <= rho * lo') by (apply Rmult_le_compat_l; lra). lra. }
      assert (hi <= rho * lo) as Q4. { assert (rho * lo' <= rho * lo) by (apply Rmult_le_compat_l; lra). lra. }
      assert (M <= Mx) as MM by nra.
      assert (0 < lo) as L1 by lra.
      assert (Forall (tame M) (ControlPoints c)) as T by (eapply Forall_impl; [|exact F]; intros a; apply (sane_tame M lo hi); lra).
      destruct (insert_one_near c M rho u Sc T ltac:(lra) (sane_ratio _ _ _ _ _ F Q4 L1 ltac:(lra)) (proj2 Hr) Iu) as [c1 [k [E [K N]]]].
      assert (near_inserted c c1 k (val u) eps eta) as N'.
      { destruct N as [D [I [S1 [Ln G]]]]. split; [exact D|]. split; [exact I|]. split; [exact S1|]. split; [exact Ln|]. intros i Hi. destruct (G i Hi) as [q [Eq Nq]]. exists q. split; [exact Eq|].
        apply (near_weak (ins_eps rho M) (ins_eta rho)); [|apply ins_eps_mono; lra|apply Rle_refl|exact Nq].
        destruct (ins_in c M lo hi k (val u) i Sc L1 F K ltac:(lia)) as [W _]. lra. }
      destruct (step_near c c1 k u M lo hi eps eta Sc F ltac:(lra) ltac:(lra) HM Iu K N' He) as [F1 W1].
      destruct N' as [D [I [S1 [Ln G]]]].
      destruct (IH c1 (M + eps) lo' hi' S1 F1 Fus ltac:(lra) ltac:(lra) Hlo Hhi Hrat ltac:(lra) ltac:(lra)) as [c2 [E3 [D2 [S2 [F2 W2]]]]].
      exists c2. cbn [foldM]. rewrite E. cbn [bind]. rewrite D in E3. split; [exact E3|]. split; [congruence|]. split; [exact S2|]. split.
      + apply (sane_weak (M + eps + INR n * eps) (lo' * (1 - eta) ^ n) (hi' * (1 + eta) ^ n)); try lra. exact F2.
      + intros x Hx. specialize (W1 ltac:(fold lo'; lra) ltac:(fold hi'; lra) x Hx). specialize (W2 x Hx). split.
        * apply (within_weak (INR n * (eps + 201 / 100 * eta * Mx) + (eps + 201 / 100 * eta * M))); [|exact (within_trans _ _ _ _ _ (proj1 W2) (proj1 W1))].
          assert (eta * M <= eta * Mx) by (apply Rmult_le_compat_l; lra). lra.
        * destruct W1 as [_ W1]. destruct W2 as [_ [W2 W3]]. apply Rabs_le_inv in W1. set (d0 := curve_den (curve_val c) x) in *. set (d1 := curve_den (curve_val c1) x) in *.
          assert ((1 - eta) ^ n * ((1 - eta) * d0) <= (1 - eta) ^ n * d1) by (apply Rmult_le_compat_l; lra).
          assert ((1 + eta) ^ n * d1 <= (1 + eta) ^ n * ((1 + eta) * d0)) by (apply Rmult_le_compat_l; lra). split; lra.
  Qed.
End list.

Lemma pow_lower n t : 0 <= t <= 1 -> 1 - INR n * t <= (1 - t) ^ n.
Proof. intros H. induction n as [|n IH]; [cbn; lra|]. rewrite S_INR. cbn [pow]. pose proof (pos_INR n). assert (0 <= (1 - t) ^ n) by (apply pow_le; lra). nra. Qed.
Lemma pow_upper n t : 0 <= t < 1 -> INR n * t <= / 8 -> (1 + t) ^ n <= 8 / 7.
Proof.
  intros H Hn. pose proof (pow_lower n t ltac:(lra)) as L. assert ((1 + t) ^ n * (1 - t) ^ n <= 1) as P.
  { rewrite <- Rpow_mult_distr. apply (Rle_trans _ (1 ^ n)); [apply pow_incr; nra|rewrite pow1; lra]. }
  assert (0 < (1 + t) ^ n) by (apply pow_lt; lra). nra.
Qed.

Lemma pow_upper2 n t : 0 <= t < 1 -> INR n * t <= / 8 -> (1 + t) ^ n <= 1 + 8 / 7 * (INR n * t).
Proof.
  intros H Hn. pose proof (pow_lower n t ltac:(lra)) as L. assert ((1 + t) ^ n * (1 - t) ^ n <= 1) as P.
  { rewrite <- Rpow_mult_distr. apply (Rle_trans _ (1 ^ n)); [apply pow_incr; nra|rewrite pow1; lra]. }
  assert (0 < (1 + t) ^ n) as Q by (apply pow_lt; lra). pose proof (pos_INR n). set (s := INR n * t) in *. assert (0 <= s) by (apply Rmult_le_pos; lra). set (X := (1 + t) ^ n) in *.
  assert (X * (1 - s) <= 1) by nra. apply (Rmult_le_reg_r (1 - s)); [lra|]. nra.
Qed.

(** ** One insertion *)
Lemma sane_of M lo hi l : Forall (tame M) l -> weights_in lo hi l -> Forall (sane M lo hi) l.
Proof.
  intros T W. rewrite Forall_forall in *. intros p Hp. specialize (T p Hp). unfold weights_in in W. rewrite Forall_forall in W. specialize (W p Hp). unfold tame in T. unfold sane. tauto.
Qed.
Lemma near_forall2 l : forall m eps eta, len l = len m -> (forall i, (0 <= i < len l)%Z -> exists q, vget l i = Ok q /\ near_point eps eta q (nth (Z.to_nat i) m (Vec4 0 0 0 1))) ->
  List.Forall2 (near_point eps eta) l m.
Proof.
  induction l as [|a l IH]; intros [|b m] eps eta L H; unfold len in L; cbn [length] in L; try (exfalso; lia); constructor.
  - destruct (H 0%Z) as [q [E N]]; [unfold len; cbn [length]; lia|]. cbn in E. injection E as ->. exact N.
  - apply IH; [unfold len; lia|]. intros i Hi. destruct (H (i + 1)%Z) as [q [E N]]; [unfold len in *; cbn [length]; lia|]. exists q.
    unfold vget in *. destruct (Z.ltb_spec (i + 1) 0); [lia|]. destruct (Z.ltb_spec i 0); [lia|]. replace (Z.to_nat (i + 1)) with (S (Z.to_nat i)) in * by lia. cbn [nth nth_error] in *. auto.
Qed.
Lemma span_unique p l k k2 u : clamped p l -> knot_span p l k u -> knot_span p l k2 u -> k = k2.
Proof.
  intros C [H1 K1] [H2 K2]. pose proof (clamped_mono _ _ C) as M. destruct (Z.lt_trichotomy k k2) as [Q|[Q|Q]]; [|exact Q|].
  - pose proof (M (k + 1)%Z k2 ltac:(lia)). lra.
  - pose proof (M (k2 + 1)%Z k ltac:(lia)). lra.
Qed.
Lemma in_unit_ratio M lo hi rho c : sound_curve c -> Forall (tame M) (ControlPoints c) -> weights_in lo hi (ControlPoints c) -> hi <= rho * lo -> 0 < lo -> 1 <= rho.
Proof.
  intros [[_ Cl] Cn] T W H L. pose proof (cl_degree _ _ Cl). pose proof (cl_len _ _ Cl) as Ll. rewrite len_vals in Ll.
  unfold weights_in in W. destruct (ControlPoints c) as [|q l]; [unfold len in *; cbn [length] in *; lia|]. inversion W; subst. nra.
Qed.

Lemma C90_points_lemma : forall (c : curve b64) u M lo hi rho, sound_curve c -> (1 <= Degree c)%Z -> Forall (tame M) (ControlPoints c) -> 0 <= M <= 2 ^ 100 ->
  weights_in lo hi (ControlPoints c) -> 0 < lo -> hi <= rho * lo -> rho <= 2 ^ 30 -> inner64 u ->
  exists c' d, Curve_InsertKnot c u = Ok c' /\ Curve_InsertKnot (curve_val c) (val u) = Ok d /\ Degree c' = Degree d /\ vals (Knots c') = Knots d /\
    List.Forall2 (near_point (150 * rho / 2 ^ 53 * M + / 2 ^ 450) (64 * rho / 2 ^ 53)) (ControlPoints c') (ControlPoints d).
Proof.
  intros c u M lo hi rho Sc D1 T HM W L H Hr Iu. rewrite <- bpow_100 in HM. pose proof (in_unit_ratio _ _ _ _ _ Sc T W H L) as R1.
  destruct (Curve_InsertKnot_near c M rho u Sc T HM (sane_ratio _ _ _ _ _ (sane_of _ _ _ _ T W) H L ltac:(lra)) Hr Iu D1) as [c' [k [E [K [D [I [S' [Ln G]]]]]]]].
  pose proof (tame_wf _ _ Sc T) as Wc. pose proof Iu as [_ Hu].
  destruct (Curve_InsertKnot_ok (curve_val c) (val u) Wc D1 Hu) as [d [k2 [E2 [K2 [D2 [I2 [L2 G2]]]]]]].
  assert (k2 = k) as -> by exact (span_unique _ _ _ _ _ (wf_knots _ Wc) K2 K).
  exists c', d. split; [exact E|]. split; [exact E2|]. split; [rewrite D, D2; reflexivity|]. split.
  - destruct I as [A1 B1], I2 as [A2 B2]. apply kf_ext; [etransitivity; [exact A1|symmetry; exact A2]|]. intros. etransitivity; [apply B1|symmetry; apply B2].
  - assert (len (ControlPoints c') = len (ControlPoints d)) as Ll. { rewrite L2, Ln. unfold curve_val. cbn [ControlPoints]. rewrite len_map. reflexivity. }
    apply near_forall2; [exact Ll|]. intros i Hi. destruct (G i Hi) as [q [Eq Nq]]. exists q. split; [exact Eq|].
    change (nth (Z.to_nat i) (ControlPoints d) (Vec4 0 0 0 1)) with (cp d i). rewrite G2 by lia. exact Nq.
Qed.

Lemma C90_curve_lemma : forall (c : curve b64) u M lo hi rho, sound_curve c -> (1 <= Degree c)%Z -> Forall (tame M) (ControlPoints c) -> 0 <= M <= 2 ^ 100 ->
  weights_in lo hi (ControlPoints c) -> / 2 ^ 99 <= lo -> hi <= 2 ^ 99 -> hi <= rho * lo -> rho <= 2 ^ 30 -> inner64 u ->
  exists c', Curve_InsertKnot c u = Ok c' /\
    forall x, 0 <= x <= 1 -> within3 (280 * rho / 2 ^ 53 * M + / 2 ^ 450) (curve_point (curve_val c') x) (curve_point (curve_val c) x).
Proof.
  intros c u M lo hi rho Sc D1 T HM W L Hh H Hr Iu. rewrite <- bpow_100 in HM.
  assert (bpow radix2 (-100) * 2 <= lo) as L'. { rewrite bpow_m100. apply (Rle_trans _ (/ 2 ^ 99)); [|exact L]. right. field. }
  assert (hi * 2 <= bpow radix2 100) as Hh'. { rewrite bpow_100. lra. }
  pose proof (bpow_gt_0 radix2 (-100)) as B0.
  pose proof (in_unit_ratio _ _ _ _ _ Sc T W H ltac:(lra)) as R1. pose proof (sane_of _ _ _ _ T W) as F.
  destruct (Curve_InsertKnot_near c M rho u Sc T HM (sane_ratio _ _ _ _ _ F H ltac:(lra) ltac:(lra)) Hr Iu D1) as [c' [k [E [K N]]]].
  exists c'. split; [exact E|]. pose proof (eta_small rho (conj R1 Hr)) as He.
  assert (0 <= hi) as H0. { destruct (Rle_dec 0 hi); [assumption|]. unfold weights_in in W. destruct Sc as [[_ Cl] Cn]. pose proof (cl_degree _ _ Cl). pose proof (cl_len _ _ Cl) as Ll. rewrite len_vals in Ll.
    destruct (ControlPoints c) as [|q l]; [unfold len in *; cbn [length] in *; lia|]. inversion W; subst. lra. }
  destruct (step_near c c' k u M lo hi _ _ Sc F ltac:(lra) ltac:(lra) ltac:(lra) Iu K N He) as [_ W1].
  intros x Hx. destruct (W1 ltac:(nra) ltac:(nra) x Hx) as [W2 _]. clear W1. rename W2 into W1. eapply within_weak; [|exact W1].
  unfold ins_eps, ins_eta, Rdiv. assert (0 < / 2 ^ 53) by (apply Rinv_0_lt_compat, pow_lt; lra). set (v := / 2 ^ 53) in *. assert (0 <= rho * v * M) by (apply Rmult_le_pos; [apply Rmult_le_pos|]; lra). lra.
Qed.

(** ** A list of insertions *)
Lemma list_final : forall (c : curve b64) us M lo hi rho, sound_curve c -> Forall (tame M) (ControlPoints c) -> 0 <= M <= 2 ^ 98 ->
  weights_in lo hi (ControlPoints c) -> / 2 ^ 99 <= lo -> hi <= 2 ^ 99 -> hi <= rho * lo -> rho <= 2 ^ 29 -> INR (length us) * rho <= 2 ^ 43 -> Forall inner64 us ->
  exists c', Curve_InsertKnot_list c us = Ok c' /\ sound_curve c' /\ Degree c' = Degree c /\ Forall (tame (2 * M + / 2 ^ 400)) (ControlPoints c') /\
    forall x, 0 <= x <= 1 -> within3 (1200 * INR (length us) * rho / 2 ^ 53 * M + / 2 ^ 390) (curve_point (curve_val c') x) (curve_point (curve_val c) x) /\
      Rabs (curve_den (curve_val c') x - curve_den (curve_val c) x) <= 160 * INR (length us) * rho / 2 ^ 53 * curve_den (curve_val c) x.
Proof.
  intros c us M lo hi rho Sc T HM W L Hh H Hr Hn Iu.
  assert (bpow radix2 (-100) * 2 <= lo) as L'. { rewrite bpow_m100. apply (Rle_trans _ (/ 2 ^ 99)); [|exact L]. right. field. }
  assert (hi * 2 <= bpow radix2 100) as Hh'. { rewrite bpow_100. lra. }
  pose proof (bpow_gt_0 radix2 (-100)) as B0.
  pose proof (in_unit_ratio _ _ _ _ _ Sc T W H ltac:(lra)) as R1. pose proof (sane_of _ _ _ _ T W) as F.
  assert (0 <= hi) as H0. { destruct (Rle_dec 0 hi); [assumption|]. unfold weights_in in W. destruct Sc as [[_ Cl] Cn]. pose proof (cl_degree _ _ Cl). pose proof (cl_len _ _ Cl) as Ll. rewrite len_vals in Ll.
    destruct (ControlPoints c) as [|q l]; [unfold len in *; cbn [length] in *; lia|]. inversion W; subst. lra. }
  set (n := length us) in *. pose proof (pos_INR n) as N0. set (t := / 2 ^ 400). set (Mx := 2 * M + t).
  assert (0 < t) as T0 by (apply Rinv_0_lt_compat, pow_lt; lra). assert (t <= / 1000) as T1. { unfold t. rewrite <- bpow_inv. apply tiny_small. lia. }
  set (v := / 2 ^ 53). assert (0 < v) as V0 by (apply Rinv_0_lt_compat, pow_lt; lra). assert (2 ^ 43 * v = / 1024) as V1 by (unfold v; field).
  assert (INR n * rho * v <= / 1024) as NV by (rewrite <- V1; apply Rmult_le_compat_r; lra).
  assert (0 <= INR n * rho * v) as NV0 by (apply Rmult_le_pos; [apply Rmult_le_pos|]; lra).
  assert (INR n <= 2 ^ 43) as Nn by nra.
  assert (/ 2 ^ 450 = / 2 ^ 50 * t) as Et. { unfold t. rewrite <- Rinv_mult, <- pow_add. reflexivity. }
  assert (INR n * / 2 ^ 450 <= / 128 * t) as Nt.
  { rewrite Et. apply (Rle_trans _ (2 ^ 43 * (/ 2 ^ 50 * t))); [apply Rmult_le_compat_r; [|exact Nn]|right; field]. apply Rmult_le_pos; [left; apply Rinv_0_lt_compat, pow_lt; lra|lra]. }
  pose proof (list_near (2 * rho) Mx ltac:(lra)) as LN. specialize (LN ltac:(unfold Mx; rewrite bpow_100; lra) us c M lo hi Sc F Iu (proj1 HM)). fold n in LN.
  pose proof (eta_small (2 * rho) ltac:(lra)) as He. pose proof (eps_pos (2 * rho) Mx ltac:(lra) ltac:(unfold Mx; rewrite bpow_100; lra)) as Hp.
  assert (INR n * ins_eta (2 * rho) <= / 8) as Ne by (unfold ins_eta, Rdiv; fold v; lra).
  assert (INR n * ins_eps (2 * rho) Mx = 300 * (INR n * rho * v) * Mx + INR n * / 2 ^ 450) as Np by (unfold ins_eps, Rdiv; fold v; ring).
  assert (INR n * rho * v * Mx <= / 1024 * Mx) as NM by (apply Rmult_le_compat_r; unfold Mx; lra).
  pose proof (pow_lower n (ins_eta (2 * rho)) ltac:(lra)) as P1. pose proof (pow_upper n (ins_eta (2 * rho)) ltac:(lra) Ne) as P2.
  assert (M + INR n * ins_eps (2 * rho) Mx <= Mx) as C1 by (rewrite Np; unfold Mx in *; lra).
  set (a := (1 - ins_eta (2 * rho)) ^ n) in *. set (b := (1 + ins_eta (2 * rho)) ^ n) in *.
  assert (7 / 8 <= a) as A1 by lra. assert (0 <= b) as Bp by (apply pow_le; lra).
  assert (bpow radix2 (-100) <= lo * a) as C2 by nra. assert (hi * b <= bpow radix2 100) as C3 by nra.
  assert (hi * b <= 2 * rho * (lo * a)) as C4.
  { assert (hi * b <= hi * (8 / 7)) by (apply Rmult_le_compat_l; lra). assert (rho * lo * (7 / 8) <= rho * lo * a) by (apply Rmult_le_compat_l; [apply Rmult_le_pos|]; lra). lra. }
  destruct (LN C1 C2 C3 C4 ltac:(lra) H0) as [c' [E [D [Sc' [F' W']]]]].
  exists c'. unfold Curve_InsertKnot_list. rewrite E. cbn [bind]. split; [destruct c' as [dg kn cps]; cbn [Knots ControlPoints Degree] in *; rewrite D; reflexivity|]. split; [exact Sc'|]. split; [exact D|]. split.
  - eapply Forall_impl; [|exact F']. intros p Hp'. apply (sane_tame _ (lo * a) (hi * b)); try assumption. unfold sane in *. fold Mx. intuition lra.
  - intros x Hx. destruct (W' x Hx) as [W1 W2]. split; [eapply within_weak; [|exact W1]|].
    2: { pose proof (curve_den_pos (curve_val c) x (tame_wf _ _ Sc T) Hx) as Dp. pose proof (pow_upper2 n (ins_eta (2 * rho)) ltac:(lra) Ne) as P3. fold b in P3.
      assert (INR n * ins_eta (2 * rho) = 128 * (INR n * rho * v)) as Q by (unfold ins_eta, Rdiv; fold v; ring). rewrite Q in *.
      unfold Rdiv. fold v. set (d0 := curve_den (curve_val c) x) in *. replace (160 * INR n * rho * v * d0) with (160 * (INR n * rho * v) * d0) by ring. apply Rabs_le.
      assert ((1 - 128 * (INR n * rho * v)) * d0 <= a * d0) by (apply Rmult_le_compat_r; lra). assert (b * d0 <= (1 + 8 / 7 * (128 * (INR n * rho * v))) * d0) by (apply Rmult_le_compat_r; lra).
      assert (0 <= INR n * rho * v * d0) by (apply Rmult_le_pos; lra). split; lra. }
    replace (INR n * (ins_eps (2 * rho) Mx + 201 / 100 * ins_eta (2 * rho) * Mx)) with (INR n * ins_eps (2 * rho) Mx + 201 / 100 * (128 * (INR n * rho * v)) * Mx) by (unfold ins_eta, Rdiv; fold v; ring).
    rewrite Np. assert (/ 2 ^ 390 = 1024 * t) as -> by (unfold t; replace 400%nat with (390 + 10)%nat by reflexivity; rewrite pow_add; field; split; apply pow_nonzero; lra).
    unfold Rdiv. fold v. replace (1200 * INR n * rho * v * M) with (1200 * (INR n * rho * v * M)) by ring.
    assert (INR n * rho * v * t <= / 1024 * t) by (apply Rmult_le_compat_r; lra). assert (0 <= INR n * rho * v * M) by (apply Rmult_le_pos; lra).
    replace (300 * (INR n * rho * v) * Mx + INR n * / 2 ^ 450 + 201 * / 100 * (128 * (INR n * rho * v)) * Mx) with (55728 / 100 * (2 * (INR n * rho * v * M) + INR n * rho * v * t) + INR n * / 2 ^ 450) by (generalize (/ 2 ^ 450); intros; unfold Mx; field). lra.
Qed.

Lemma near_within e1 e2 E q1 q2 p1 p2 : near3 e1 q1 p1 -> near3 e2 q2 p2 -> within3 E p2 p1 -> within3 (e1 + e2 + E) (val3 q2) (val3 q1).
Proof.
  assert (forall a b c d, Rabs (a - b) <= e1 -> Rabs (c - d) <= e2 -> Rabs (d - b) <= E -> Rabs (c - a) <= e1 + e2 + E) as H.
  { intros a b c d H1 H2 H3. apply Rabs_le. apply Rabs_le_inv in H1, H2, H3. lra. }
  intros [_ [_ [_ [A1 [A2 A3]]]]] [_ [_ [_ [B1 [B2 B3]]]]] [C1 [C2 C3]]. unfold within3. cbn [x3 y3 z3 val3]. split; [|split]; eapply H; eassumption.
Qed.
Lemma C91_evaluate_lemma : forall (c : curve b64) us M lo hi rho, sound_curve c -> apart (Knots c) -> (Degree c <= 50)%Z -> Forall (tame M) (ControlPoints c) -> 0 <= M <= 2 ^ 98 ->
  weights_in lo hi (ControlPoints c) -> / 2 ^ 99 <= lo -> hi <= 2 ^ 99 -> hi <= rho * lo -> rho <= 2 ^ 29 -> INR (length us) * rho <= 2 ^ 43 -> Forall inner64 us ->
  exists c', Curve_InsertKnot_list c us = Ok c' /\ (apart (Knots c') -> forall x, finite64 x -> 0 <= val x <= 1 ->
    exists q q', Curve_Evaluate c x = Ok q /\ Curve_Evaluate c' x = Ok q' /\
      within3 ((1200 * INR (length us) * rho + 135 * (IZR (Degree c) + 1)) / 2 ^ 53 * M + / 2 ^ 380) (val3 q') (val3 q)).
Proof.
  intros c us M lo hi rho Sc Ap H50 T HM W L Hh H Hr Hn Iu.
  destruct (list_final c us M lo hi rho Sc T HM W L Hh H Hr Hn Iu) as [c' [E [Sc' [D [T' W'']]]]]. assert (W' := fun x Hx => proj1 (W'' x Hx)). clear W''. exists c'. split; [exact E|]. intros Ap' x Fx Hx.
  pose proof Sc as [[Fl Cl] Cn]. pose proof Sc' as [[Fl' Cl'] Cn']. pose proof (cl_degree _ _ Cl) as P0.
  assert (0 < / 2 ^ 400) as T0 by (apply Rinv_0_lt_compat, pow_lt; lra). assert (/ 2 ^ 400 <= / 1000) as T1. { rewrite <- bpow_inv. apply tiny_small. lia. }
  destruct (Curve64_ok c M x Cl Fl Ap H50 Cn T ltac:(rewrite bpow_100; lra) Fx Hx) as [q [E1 N1]].
  destruct (Curve64_ok c' (2 * M + / 2 ^ 400) x Cl' Fl' Ap' ltac:(lia) Cn' T' ltac:(rewrite bpow_100; lra) Fx Hx) as [q' [E2 N2]].
  exists q, q'. split; [exact E1|]. split; [exact E2|]. eapply within_weak; [|exact (near_within _ _ _ _ _ _ _ N1 N2 (W' _ Hx))].
  rewrite D. assert (0 <= IZR (Degree c) <= 50) as Dr by (split; apply IZR_le; lia).
  set (v := / 2 ^ 53). assert (0 < v <= / 1000000) as V0. { split; [apply Rinv_0_lt_compat, pow_lt; lra|]. unfold v. lra. }
  set (t := / 2 ^ 400) in *. unfold Rdiv. fold v.
  assert (/ 2 ^ 390 = 1024 * t) as -> by (unfold t; replace 400%nat with (390 + 10)%nat by reflexivity; rewrite pow_add; field; split; apply pow_nonzero; lra).
  assert (/ 2 ^ 380 = 1048576 * t) as -> by (unfold t; replace 400%nat with (380 + 20)%nat by reflexivity; rewrite pow_add; field; split; apply pow_nonzero; lra).
  assert (/ 2 ^ 450 <= t) as Q. { unfold t. apply Rinv_le; [apply pow_lt; lra|]. apply Rle_pow; [lra|lia]. }
  assert (45 * (IZR (Degree c) + 1) * v * t <= t). { rewrite <- (Rmult_1_l t) at 2. apply Rmult_le_compat_r; [lra|]. nra. }
  lra.
Qed.

Lemma C91_curve_lemma : forall (c : curve b64) us M lo hi rho, sound_curve c -> Forall (tame M) (ControlPoints c) -> 0 <= M <= 2 ^ 98 ->
  weights_in lo hi (ControlPoints c) -> / 2 ^ 99 <= lo -> hi <= 2 ^ 99 -> hi <= rho * lo -> rho <= 2 ^ 29 -> INR (length us) * rho <= 2 ^ 43 -> Forall inner64 us ->
  exists c', Curve_InsertKnot_list c us = Ok c' /\
    forall x, 0 <= x <= 1 -> within3 (1200 * INR (length us) * rho / 2 ^ 53 * M + / 2 ^ 390) (curve_point (curve_val c') x) (curve_point (curve_val c) x).
Proof. intros c us M lo hi rho Sc T HM W L Hh H Hr Hn Iu. destruct (list_final c us M lo hi rho Sc T HM W L Hh H Hr Hn Iu) as [c' [E [_ [_ [_ W']]]]]. exists c'. split; [exact E|]. intros x Hx. apply (W' x Hx). Qed.
