(** Evaluation at the end points on doubles (C115): rounding. *)
From Coq Require Import Reals ZArith List Lra Lia Bool Floats.SpecFloat.
From Flocq Require Import Core Relative.
From Verif Require Import Outcome Num ThReal ThB64 ThRound ThErr ThUniform64.
Open Scope R_scope.
#[local] Instance prec53e : Prec_gt_0 53. Proof. reflexivity. Qed.

Lemma rnd_binade c z : (-1074 <= c)%Z -> bpow radix2 (c + 52) <= z < bpow radix2 (c + 53) -> rnd64 z = IZR (ZnearestE (z * bpow radix2 (- c))) * bpow radix2 c.
Proof.
  intros Hc Hz. unfold rnd64, round, scaled_mantissa, cexp.
  assert (mag radix2 z = (c + 53)%Z :> Z) as Em. { apply mag_unique_pos. replace (c + 53 - 1)%Z with (c + 52)%Z by lia. exact Hz. }
  rewrite Em. assert (FLT_exp (-1074) 53 (c + 53) = c) as -> by (unfold FLT_exp; lia). reflexivity.
Qed.
Lemma rnd_near c G z : (-1074 <= c)%Z -> bpow radix2 (c + 52) <= z < bpow radix2 (c + 53) -> Rabs (z - IZR G * bpow radix2 c) < bpow radix2 c / 2 -> rnd64 z = IZR G * bpow radix2 c.
Proof.
  intros Hc Hz H. rewrite (rnd_binade c) by assumption. f_equal. f_equal. apply Znearest_imp. pose proof (bpow_gt_0 radix2 c) as P.
  assert (bpow radix2 (- c) * bpow radix2 c = 1) as E by (rewrite <- bpow_plus; replace (- c + c)%Z with 0%Z by lia; reflexivity).
  apply (Rmult_lt_reg_r (bpow radix2 c)); [exact P|]. rewrite <- (Rabs_pos_eq (bpow radix2 c)) at 1 by lra. rewrite <- Rabs_mult.
  replace ((z * bpow radix2 (- c) - IZR G) * bpow radix2 c) with (z * (bpow radix2 (- c) * bpow radix2 c) - IZR G * bpow radix2 c) by ring. rewrite E, Rmult_1_r. lra.
Qed.
Lemma tie_even n : ZnearestE (IZR n + / 2) = if Z.even n then n else (n + 1)%Z.
Proof.
  unfold Znearest. assert (Zfloor (IZR n + / 2) = n) as -> by (apply Zfloor_imp; rewrite plus_IZR; lra). rewrite Rcompare_Eq by ring.
  destruct (Z.even n); cbn [negb]; [reflexivity|]. apply Zceil_imp. rewrite plus_IZR, minus_IZR, plus_IZR. lra.
Qed.
Lemma b53 : bpow radix2 53 = 9007199254740992. Proof. reflexivity. Qed.
Lemma b52 : bpow radix2 52 = 4503599627370496. Proof. reflexivity. Qed.
Lemma bm53 : bpow radix2 (-53) = / 9007199254740992. Proof. reflexivity. Qed.
Lemma bm52 : bpow radix2 (-52) = / 4503599627370496. Proof. reflexivity. Qed.
Definition one_less : R := 1 - u64.
Lemma rnd_below y : Rabs (y - one_less) < u64 / 2 -> rnd64 y = one_less.
Proof.
  unfold one_less. intros H. rewrite u64_53 in *. rewrite (rnd_near (-53) 9007199254740991).
  - rewrite bm53. lra.
  - lia.
  - change (-53 + 52)%Z with (-1)%Z. change (-53 + 53)%Z with 0%Z. change (bpow radix2 (-1)) with (/ 2). change (bpow radix2 0) with 1. apply Rabs_def2 in H. lra.
  - rewrite bm53. apply Rabs_def2 in H. apply Rabs_def1; lra.
Qed.
Lemma rnd_one y : 1 - u64 / 2 <= y <= 1 + u64 -> rnd64 y = 1.
Proof.
  rewrite u64_53. intros [H1 H2]. apply rnd64_le in H1, H2.
  assert (rnd64 (1 - / 9007199254740992 / 2) = 1) as E1.
  { rewrite (rnd_binade (-53)); [|lia|change (-53 + 52)%Z with (-1)%Z; change (-53 + 53)%Z with 0%Z; change (bpow radix2 (-1)) with (/ 2); change (bpow radix2 0) with 1; lra].
    change (- -53)%Z with 53%Z. rewrite b53, bm53. replace ((1 - / 9007199254740992 / 2) * 9007199254740992) with (IZR 9007199254740991 + / 2) by lra. rewrite tie_even.
    change (Z.even 9007199254740991) with false. cbv iota. change (9007199254740991 + 1)%Z with 9007199254740992%Z. lra. }
  assert (rnd64 (1 + / 9007199254740992) = 1) as E2.
  { rewrite (rnd_binade (-52)); [|lia|change (-52 + 52)%Z with 0%Z; change (-52 + 53)%Z with 1%Z; change (bpow radix2 1) with 2; change (bpow radix2 0) with 1; lra].
    change (- -52)%Z with 52%Z. rewrite b52, bm52. replace ((1 + / 9007199254740992) * 4503599627370496) with (IZR 4503599627370496 + / 2) by lra. rewrite tie_even.
    change (Z.even 4503599627370496) with true. cbv iota. lra. }
  rewrite E1 in H1. rewrite E2 in H2. lra.
Qed.

(** ** The factor computed for the end point *)
(** d * (n / d), computed *)
Definition back (d n : R) : R := rnd64 (d * rnd64 (n / d)).
Lemma back_chain d : bpow radix2 (-900) <= d <= 1 -> back d 1 = 1 \/ (back d 1 = one_less /\ back d one_less = one_less).
Proof.
  intros [D0 D1]. pose proof (bpow_gt_0 radix2 (-900)) as P. pose proof u64_53 as U. assert (0 < d) as Dp by lra. pose proof (Rinv_0_lt_compat d Dp) as Ip.
  assert (1 <= / d) as I1 by (rewrite <- Rinv_1; apply Rinv_le; lra).
  destruct (relative_error_N_FLT_ex radix2 (-1074) 53 ltac:(reflexivity) (fun n => negb (Z.even n)) (1 / d)) as [eps [He E]].
  { rewrite Rabs_pos_eq by lra. apply Rle_trans with 1; [|lra]. change 1 with (bpow radix2 0). apply bpow_le. discriminate. }
  fold (rnd64 (1 / d)) in E. change (rnd64 (1 / d) = 1 / d * (1 + eps)) in E. assert (Rabs eps <= u64) as Hu. { eapply Rle_trans; [exact He|]. right. change (/ 2) with (bpow radix2 (-1)). rewrite <- bpow_plus. reflexivity. }
  clear He. apply Rabs_le_inv in Hu. assert (d * rnd64 (1 / d) = 1 + eps) as Y by (rewrite E; field; lra).
  destruct (Rlt_dec (1 + eps) (1 - u64 / 2)) as [L|L].
  - right. assert (Rabs (d * rnd64 (1 / d) - one_less) < u64 / 2) as N1 by (rewrite Y; unfold one_less; apply Rabs_def1; lra). split; [apply rnd_below; exact N1|].
    apply rnd_below. eapply Rle_lt_trans; [|exact N1].
    assert (Rabs (rnd64 (one_less / d) - one_less / d) <= Rabs (rnd64 (1 / d) - one_less / d)) as Nn.
    { destruct (round_N_pt radix2 (FLT_exp (-1074) 53) (fun n => negb (Z.even n)) (one_less / d)) as [_ Hn]. apply Hn. apply rnd64_format. }
    apply (Rmult_le_compat_l d) in Nn; [|lra]. rewrite <- (Rabs_pos_eq d) in Nn at 1 4 by lra. rewrite <- !Rabs_mult in Nn.
    replace (d * (rnd64 (one_less / d) - one_less / d)) with (d * rnd64 (one_less / d) - one_less) in Nn by (field; lra).
    replace (d * (rnd64 (1 / d) - one_less / d)) with (d * rnd64 (1 / d) - one_less) in Nn by (field; lra). exact Nn.
  - left. unfold back. rewrite Y. apply rnd_one. lra.
Qed.

(** ** Multiplying by it and dividing again *)
Lemma undo_pos x : generic_format radix2 (FLT_exp (-1074) 53) x -> bpow radix2 (-1021) <= x -> rnd64 (rnd64 (one_less * x) / one_less) = x.
Proof.
  intros Gx Bx. pose proof (bpow_gt_0 radix2 (-1021)) as P. pose proof u64_53 as U. assert (0 < x) as Px by lra.
  assert (x <> 0) as Nx by lra. pose proof (bpow_mag_le radix2 x Nx) as Hm1. pose proof (bpow_mag_gt radix2 x) as Hm2. rewrite (Rabs_pos_eq x) in Hm1, Hm2 by lra. pose proof (conj Hm1 Hm2) as Hm. clear Hm1 Hm2. remember (mag radix2 x : Z) as m eqn:Em.
  assert (-1021 < m)%Z as Lm. { apply (lt_bpow radix2). lra. }
  set (c := (m - 53)%Z). assert (cexp radix2 (FLT_exp (-1074) 53) x = c) as Ec by (unfold cexp; rewrite <- Em; unfold FLT_exp, c; lia).
  set (X := Ztrunc (scaled_mantissa radix2 (FLT_exp (-1074) 53) x)). assert (x = IZR X * bpow radix2 c) as Ex by (rewrite Gx at 1; unfold F2R; cbn [Fnum Fexp]; rewrite Ec; reflexivity).
  pose proof (bpow_gt_0 radix2 c) as Pc. set (e := bpow radix2 c) in *.
  assert (bpow radix2 (c + 52) = 4503599627370496 * e) as E52 by (rewrite Zplus_comm, bpow_plus, b52; reflexivity).
  assert (bpow radix2 (c + 53) = 9007199254740992 * e) as E53 by (rewrite Zplus_comm, bpow_plus, b53; reflexivity).
  replace (m - 1)%Z with (c + 52)%Z in Hm by (unfold c; lia). replace m with (c + 53)%Z in Hm by (unfold c; lia). rewrite E52, E53, Ex in Hm. destruct Hm as [M1 M2].
  apply Rmult_le_reg_r in M1; [|exact Pc]. apply Rmult_lt_reg_r in M2; [|exact Pc]. apply le_IZR in M1. apply lt_IZR in M2.
  assert (0 < one_less) as Po by (unfold one_less; lra).
  destruct (Z.eq_dec X 4503599627370496) as [->|Ne].
  - assert (rnd64 (one_less * x) = one_less * x) as ->.
    { apply rnd64_id. apply generic_format_FLT. exists (Float radix2 9007199254740991 (c - 1)); [|reflexivity|cbn [Fexp]; unfold c; lia].
      unfold F2R. cbn [Fnum Fexp]. assert (bpow radix2 (c - 1) = e / 2) as -> by (unfold Zminus; rewrite bpow_plus; reflexivity). rewrite Ex. unfold one_less. rewrite U. lra. }
    replace (one_less * x / one_less) with x by (field; lra). apply rnd64_id. exact Gx.
  - assert (4503599627370497 <= X)%Z as M1' by lia. apply IZR_le in M1'. apply IZR_lt in M2. set (k := IZR X) in *.
    assert (rnd64 (one_less * x) = x - e) as ->.
    { rewrite (rnd_near c (X - 1)).
      - fold e. rewrite minus_IZR, Ex. fold k. ring.
      - unfold c. lia.
      - rewrite E52, E53, Ex. unfold one_less. rewrite U. split; nra.
      - fold e. rewrite minus_IZR, Ex. fold k. unfold one_less. rewrite U. apply Rabs_def1; nra. }
    assert ((x - e) / one_less = (k - 1) / one_less * e) as -> by (rewrite Ex; field; lra).
    assert (k - / 2 < (k - 1) / one_less < k) as K.
    { split; [apply (Rmult_lt_reg_r one_less); [exact Po|]; unfold Rdiv; rewrite Rmult_assoc, Rinv_l by lra; unfold one_less; rewrite U; lra|].
      apply (Rmult_lt_reg_r one_less); [exact Po|]; unfold Rdiv; rewrite Rmult_assoc, Rinv_l by lra; unfold one_less; rewrite U; lra. }
    set (t := (k - 1) / one_less) in *. rewrite Ex. fold k. apply (rnd_near c X).
    + unfold c. lia.
    + rewrite E52, E53. split; nra.
    + fold e k. replace (t * e - k * e) with ((t - k) * e) by ring. rewrite Rabs_mult, (Rabs_pos_eq e) by lra. assert (Rabs (t - k) < / 2) by (apply Rabs_def1; lra). nra.
Qed.
Lemma undo x : generic_format radix2 (FLT_exp (-1074) 53) x -> x = 0 \/ bpow radix2 (-1021) <= Rabs x -> rnd64 (rnd64 (one_less * x) / one_less) = x.
Proof.
  intros Gx [->|Bx].
  - rewrite Rmult_0_r. rewrite !(rnd64_id 0) by apply generic_format_0. unfold Rdiv. rewrite Rmult_0_l. apply rnd64_id, generic_format_0.
  - destruct (Rle_dec 0 x) as [H|H]; [rewrite Rabs_pos_eq in Bx by exact H; apply undo_pos; assumption|].
    rewrite Rabs_left in Bx by lra. pose proof (undo_pos (- x) (generic_format_opp _ _ _ Gx) Bx) as E.
    replace (one_less * - x) with (- (one_less * x)) in E by ring. unfold rnd64 in E at 2. rewrite round_NE_opp in E. fold (rnd64 (one_less * x)) in E.
    replace (- rnd64 (one_less * x) / one_less) with (- (rnd64 (one_less * x) / one_less)) in E by (unfold Rdiv; ring). unfold rnd64 in E at 1. rewrite round_NE_opp in E. fold (rnd64 (rnd64 (one_less * x) / one_less)) in E. lra.
Qed.
