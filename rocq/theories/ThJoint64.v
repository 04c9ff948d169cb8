(** Proof of C120. *)
From Coq Require Import Reals QArith ZArith List Lra Lia Bool Floats.SpecFloat.
From Flocq Require Import Core.
From Verif Require Import Outcome Num ModelCore ModelBasis ModelCurve SpecCore SpecBasis SpecCurve SpecErr SpecGeom64 SpecEnd64 SpecJoint64
  ThOutcome ThReal ThB64 ThRound ThVec ThKnots ThSum ThSpline ThBasis ThCurve ThErr ThErrBasis ThErrCurve ThErrInsert2 ThErrInsert3 ThBBoxWit ThUniform64 ThEnd64 ThEnd64b.
Import ListNotations.
Open Scope R_scope.

Section AtKnot.
  Variables (l : list b64) (i : Z) (x : b64) (p : Z).
  Hypothesis Fl : all_finite l.
  Hypothesis Hx : finite64 x.
  Let U := kf (vals l).
  Let D (k : Z) := rnd64 (U k - val x).
  Hypothesis P0 : (0 <= p)%Z.
  Hypothesis Low : (p <= i)%Z.
  Hypothesis High : (i + p < len l)%Z.
  Hypothesis Zl : forall k, (i - p < k <= i)%Z -> U k = val x.
  Hypothesis Gr : forall k, (i + 1 <= k)%Z -> bpow radix2 (-900) <= D k <= 1.
  Lemma basis_at_knot : exists res n, Basis_Evaluate p l i x = Ok res /\ len res = (p + 1)%Z /\ chain (D (i + 1)%Z) n /\
    (exists b, vget res 0 = Ok b /\ is_ n b) /\ (forall r, (1 <= r <= p)%Z -> exists b, vget res r = Ok b /\ is_ 0 b).
  Proof.
    unfold Basis_Evaluate.
    destruct (vmake_spec (p + 1) (n0 : b64)) as [result [E [Lr _]]]; [lia|]. rewrite E; cbn [bind]; clear E.
    destruct (vset_spec result 0 (n1 : b64)) as [result1 [E [Lr1 [G1 _]]]]; [lia|]. rewrite E; cbn [bind]; clear E.
    edestruct (for_up_inv (fun j st => let '(result, lft, rgt) := st in
        len result = (p + 1)%Z /\ len lft = (p + 1)%Z /\ len rgt = (p + 1)%Z /\
        (forall k, (1 <= k < j)%Z -> exists b, vget lft k = Ok b /\ is_ 0 b) /\ (forall k, (1 <= k < j)%Z -> exists b, vget rgt k = Ok b /\ is_ (D (i + k)%Z) b) /\
        (exists n b, chain (D (i + 1)%Z) n /\ vget result 0 = Ok b /\ is_ n b) /\ (forall r, (1 <= r < j)%Z -> exists b, vget result r = Ok b /\ is_ 0 b))
      1%Z (p + 1)%Z) as [st [E Q]]; cycle 3.
    - rewrite E; cbn [bind]. destruct st as [[res lft] rgt]. destruct Q as [Q1 [_ [_ [_ [_ [[n [b [Cn Hb]]] Q7]]]]]]. exists res, n. split; [reflexivity|]. split; [exact Q1|]. split; [exact Cn|].
      split; [exists b; exact Hb|]. intros r Hr. apply Q7. lia.
    - lia.
    - split; [lia|]. split; [lia|]. split; [lia|]. split; [intros; lia|]. split; [intros; lia|]. split; [|intros; lia]. exists 1, n1. split; [left; reflexivity|]. split; [exact G1|apply is_1].
    - intros j [[res lft] rgt] Hj [Q1 [Q2 [Q3 [Q4 [Q5 [Q6 Q7]]]]]].
      destruct (vget64 l (i + 1 - j) Fl ltac:(lia)) as [kl [El [Fkl Vkl]]]. rewrite El. cbn [bind].
      destruct (vset_spec lft j (nsub x kl)) as [lft' [E [L' [G2 G3]]]]; [lia|]. rewrite E; cbn [bind]; clear E.
      destruct (vget64 l (i + j) Fl ltac:(lia)) as [kr [Er [Fkr Vkr]]]. rewrite Er. cbn [bind].
      destruct (vset_spec rgt j (nsub kr x)) as [rgt' [E [L'' [G4 G5]]]]; [lia|]. rewrite E; cbn [bind]; clear E.
      fold U in Vkl, Vkr. rewrite (Zl (i + 1 - j)) in Vkl by lia. pose proof Hx as Fx.
      assert (is_ 0 (nsub x kl)) as Il. { destruct (sub_round x kl Fx Fkl) as [F V]; rewrite Vkl, Rminus_eq_0 in *; [apply no_0|]. split; [exact F|]. rewrite V. apply rnd64_id, generic_format_0. }
      pose proof (Gr (i + j)%Z ltac:(lia)) as Gj. pose proof (bpow_gt_0 radix2 (-900)) as Pj.
      assert (is_ (D (i + j)%Z) (nsub kr x)) as Ir. { destruct (sub_round kr x Fkr Fx) as [F V]; rewrite Vkr in *; fold (D (i + j)%Z) in *; [unfold no_overflow; fold (D (i + j)%Z); rewrite Rabs_pos_eq by lra; eapply Rle_lt_trans; [exact (proj2 Gj)|]; change 1 with (bpow radix2 0); apply bpow_lt; lia|]. split; [exact F|exact V]. }
      assert (forall k, (1 <= k < j + 1)%Z -> exists b, vget lft' k = Ok b /\ is_ 0 b) as A1.
      { intros k Hk. destruct (Z.eq_dec k j) as [->|Ne]; [exists (nsub x kl); split; assumption|]. rewrite G3 by lia. apply Q4; lia. }
      assert (forall k, (1 <= k < j + 1)%Z -> exists b, vget rgt' k = Ok b /\ is_ (D (i + k)%Z) b) as A2.
      { intros k Hk. destruct (Z.eq_dec k j) as [->|Ne]; [exists (nsub kr x); split; assumption|]. rewrite G5 by lia. apply Q5; lia. }
      edestruct (for_up_inv (fun r st => let '(res, saved) := st in
          len res = (p + 1)%Z /\ is_ 0 saved /\ (exists n b, chain (D (i + 1)%Z) n /\ vget res 0 = Ok b /\ is_ n b) /\ (forall r', (1 <= r' < j)%Z -> exists b, vget res r' = Ok b /\ is_ 0 b))
        0%Z j) as [st [E Q]]; cycle 3.
      + rewrite E; cbn [bind]. destruct st as [res' saved]. destruct Q as [W1 [W2 [W3 W4]]].
        destruct (vset_spec res' j saved) as [res'' [E2 [L3 [G6 G7]]]]; [lia|]. rewrite E2; cbn [bind].
        eexists. split; [reflexivity|]. split; [lia|]. split; [lia|]. split; [lia|]. split; [exact A1|]. split; [exact A2|]. split; [rewrite G7 by lia; exact W3|].
        intros r Hr. destruct (Z.eq_dec r j) as [->|Ne]; [exists saved; split; assumption|]. rewrite G7 by lia. apply W4; lia.
      + lia.
      + split; [lia|]. split; [apply is_0|]. split; assumption.
      + intros r [res' saved] Hr [W1 [W2 [W3 W4]]].
        destruct (A2 (r + 1)%Z ltac:(lia)) as [rt [Ert Prt]]. destruct (A1 (j - r)%Z ltac:(lia)) as [lf [Elf Plf]]. pose proof (Gr (i + (r + 1)) ltac:(lia)) as Hd.
        assert (exists n b, vget res' r = Ok b /\ is_ n b /\ 0 <= n <= 1 /\ (r = 0%Z -> chain (D (i + 1)%Z) n) /\ (r <> 0%Z -> n = 0)) as [n [b [Eb [Hb [Hn [N0 N1]]]]]].
        { destruct (Z.eq_dec r 0) as [->|Ne].
          - destruct W3 as [n [b [C [Eb Hb]]]]. exists n, b. split; [exact Eb|]. split; [exact Hb|]. split; [|split; [intros; exact C|lia]]. apply unit_range, (chain_unit (D (i + 1)%Z)); [apply Gr; lia|exact C].
          - destruct (W4 r ltac:(lia)) as [b [Eb Hb]]. exists 0, b. split; [exact Eb|]. split; [exact Hb|]. split; [lra|]. split; [lia|reflexivity]. }
        rewrite Eb. cbn [bind]. rewrite Ert. cbn [bind]. rewrite Elf. cbn [bind].
        destruct (div_fine _ _ _ _ Hd Hn Hb (add_0r _ _ _ Prt Plf)) as [t [Et [Pt Bt]]]. rewrite Et. cbn [bind].
        pose proof (add_0l _ _ _ W2 (mul_fine _ _ _ _ Hd Bt Prt Pt)) as New. pose proof (mul_0l _ _ _ Plf Pt) as Sav.
        destruct (vset_spec res' r (nadd saved (nmul rt t))) as [res'' [E2 [L3 [G6 G7]]]]; [lia|]. rewrite E2; cbn [bind].
        eexists. split; [reflexivity|]. split; [lia|]. split; [exact Sav|]. destruct (Z.eq_dec r 0) as [->|Ne].
        * split; [|intros r' Hr'; rewrite G7 by lia; apply W4; lia]. exists (back (D (i + 1)%Z) n), (nadd saved (nmul rt t)). split; [apply chain_S; [apply Gr; lia|apply N0; reflexivity]|]. split; [exact G6|exact New].
        * rewrite (N1 Ne), back_0 in New. split; [rewrite G7 by lia; exact W3|]. intros r' Hr'. destruct (Z.eq_dec r' r) as [->|Nr]; [exists (nadd saved (nmul rt t)); split; assumption|]. rewrite G7 by lia. apply W4; lia.
  Qed.
End AtKnot.

Lemma C120_lemma : forall (c : curve b64) x k point, sound_curve c -> (1 <= Degree c)%Z -> Forall mild (ControlPoints c) -> joint c x k ->
  nth_error (ControlPoints c) (Z.to_nat k) = Some point -> plain_end point ->
  exists q, Curve_Evaluate c x = Ok q /\ finite64 (x3 q) /\ finite64 (y3 q) /\ finite64 (z3 q) /\ val3 q = val3 (spot point).
Proof.
  intros c x k pe [[Fl C] Sn] P1 M [Fx [K0 [K1 [Kx Gap]]]] Hp Pl. pose proof (cl_degree _ _ C) as P0. pose proof (cl_len _ _ C) as CL. pose proof (clamped_mono _ _ C) as Mo. pose proof (clamped_le1 _ _ C) as L1.
  rewrite <- (kf_at (vals (Knots c))) in Gap by (rewrite len_vals; lia). set (U := kf (vals (Knots c))) in *. set (p := Degree c) in *.
  assert (forall j, (k < j <= k + p)%Z -> U j = val x) as Ux by (intros j Hj; unfold U; rewrite kf_at by (rewrite len_vals; lia); apply Kx; exact Hj). clear Kx.
  assert (0 < / 2 ^ 900) as Ep by (apply Rinv_0_lt_compat, pow_lt; lra).
  assert (0 <= val x < 1) as Hx. { split; [rewrite <- (Ux (k + p)%Z) by lia; apply (knots_low c C)|]. pose proof (L1 (k + p + 1)%Z) as H1. fold U in H1. lra. }
  destruct (Basis_Evaluate_N p (vals (Knots c)) (val x) C ltac:(lra)) as [i [r0 [E1 [_ [_ [Hi [Sp _]]]]]]].
  pose proof (span_nonempty _ _ _ Sp) as Sn'. pose proof (span_bounds _ _ _ Sp) as Sb. fold U in Sn', Sb.
  assert (i = k + p)%Z as ->.
  { destruct (Z_lt_le_dec i (k + p)) as [L|L]; [exfalso|destruct (Z.eq_dec i (k + p)) as [|Ne]; [assumption|exfalso]].
    - pose proof (Mo (i + 1)%Z (k + p)%Z ltac:(lia)) as H. fold U in H. rewrite (Ux (k + p)%Z) in H by lia. destruct Sp as [Sp|Sp]; fold U in Sp; lra.
    - pose proof (Mo (k + p + 1)%Z i ltac:(lia)) as H. fold U in H. lra. }
  rewrite <- FindSpanIndex_b64 in E1 by assumption. rewrite len_vals in *.
  assert (forall j, (k + p + 1 <= j)%Z -> bpow radix2 (-900) <= rnd64 (U j - val x) <= 1) as Gr.
  { intros j Hj. pose proof (Mo (k + p + 1)%Z j Hj) as H. fold U in H. pose proof (L1 j) as H1. fold U in H1. change (-900)%Z with (- Z.of_nat 900)%Z. rewrite bpow_inv. split.
    - rewrite <- (rnd64_id (/ 2 ^ 900)); [apply rnd64_le; lra|]. rewrite <- (bpow_inv 900). apply generic_format_bpow. vm_compute. discriminate.
    - rewrite <- (rnd64_id 1); [apply rnd64_le; lra|]. change 1 with (bpow radix2 0). apply generic_format_bpow. vm_compute. discriminate. }
  destruct (basis_at_knot (Knots c) (k + p) x p Fl Fx P0 ltac:(lia) ltac:(lia)) as [basis [n [Eb [Lb [Cn [H0 Hz]]]]]].
  { intros j Hj. apply Ux. lia. }
  { exact Gr. }
  apply (point_at c x (k + p) basis 0 n pe); fold p; try assumption; try lia; try lra.
  - exact (chain_unit _ _ (Gr (k + p + 1)%Z ltac:(lia)) Cn).
  - replace (k + p - p + 0)%Z with k by lia. unfold vget. destruct (Z.ltb_spec k 0); [lia|]. rewrite Hp. reflexivity.
  - intros r Hr Ne. apply Hz. lia.
Qed.
