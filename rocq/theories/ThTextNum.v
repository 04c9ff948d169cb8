(** The number a double comes back as after being printed with 17 decimals. *)
From Coq Require Import List ZArith Lia Bool Reals Lra Psatz.
From Coq Require Import Floats.SpecFloat.
From Flocq Require Import Core IEEE754.BinarySingleNaN.
From Verif Require Import Outcome Num ModelCore ModelCurve ModelSurface ModelSerial ThOutcome.
Import ListNotations.
Open Scope Z_scope.

Local Notation F := (FLT_exp (-1074) 53).
Local Notation rnd := (round radix2 F ZnearestE).
#[local] Instance prec53 : Prec_gt_0 53. Proof. reflexivity. Qed.
#[local] Instance emax1024 : Prec_lt_emax 53 1024. Proof. reflexivity. Qed.
Lemma fexp_F : SpecFloat.fexp 53 1024 = F.
Proof. reflexivity. Qed.

(** ** Rounding division *)
Lemma div_round_even_ok n d : 0 <= n -> 0 < d -> 0 <= div_round_even n d /\ - d <= 2 * (n - d * div_round_even n d) <= d /\
  ((d | n) -> n = d * div_round_even n d).
Proof.
  intros Hn Hd. unfold div_round_even. pose proof (Z.div_mod n d ltac:(lia)) as E. pose proof (Z.mod_pos_bound n d Hd) as B.
  pose proof (Z.div_pos n d Hn Hd) as Q. set (q := n / d) in *. set (r := n mod d) in *.
  assert ((d | n) -> r = 0) as Dv by (intros D; apply Z.mod_divide in D; [exact D|lia]).
  destruct (Z.ltb_spec (2 * r) d).
  { repeat split; try lia. intros D. specialize (Dv D). lia. }
  destruct (Z.ltb_spec d (2 * r)).
  { repeat split; try lia. intros D. specialize (Dv D). lia. }
  destruct (Z.even q); repeat split; try lia; intros D; specialize (Dv D); lia.
Qed.
Definition ten17 : Z := 10 ^ DECIMALS.
Lemma ten17_pos : (0 < IZR ten17)%R.
Proof. apply IZR_lt. reflexivity. Qed.
Definition mag_ (m : positive) (e : Z) : R := F2R (Float radix2 (Zpos m) e).
Lemma scaled_ok m e : 0 <= scaled_decimal m e /\ (Rabs (mag_ m e * IZR ten17 - IZR (scaled_decimal m e)) <= / 2)%R /\
  (0 <= e \/ (2 ^ (- e) | Zpos m * 2 ^ 17) -> (mag_ m e * IZR ten17 = IZR (scaled_decimal m e))%R).
Proof.
  unfold scaled_decimal, mag_, F2R. cbn [Fnum Fexp]. change (10 ^ DECIMALS) with ten17. destruct (Z.leb_spec 0 e) as [He|He].
  - assert (IZR (Zpos m) * bpow radix2 e * IZR ten17 = IZR (Zpos m * 2 ^ e * ten17))%R as E.
    { rewrite !mult_IZR. rewrite <- (IZR_Zpower radix2 e He). reflexivity. }
    split; [unfold ten17; pose proof (Z.pow_pos_nonneg 2 e ltac:(lia) He); apply Z.mul_nonneg_nonneg; [nia|unfold DECIMALS; lia]|].
    rewrite E. split; [|reflexivity]. rewrite Rminus_diag_eq by reflexivity. rewrite Rabs_R0. lra.
  - assert (0 < 2 ^ (- e)) as P by (apply Z.pow_pos_nonneg; lia).
    destruct (div_round_even_ok (Zpos m * ten17) (2 ^ (- e)) ltac:(unfold ten17, DECIMALS; lia) P) as [A [B C]].
    split; [exact A|]. set (q := div_round_even (Zpos m * ten17) (2 ^ (- e))) in *.
    assert (bpow radix2 e = / IZR (2 ^ (- e)))%R as Eb.
    { replace e with (- - e) at 1 by lia. rewrite bpow_opp. f_equal. rewrite <- (IZR_Zpower radix2 (- e)) by lia. reflexivity. }
    assert (0 < IZR (2 ^ (- e)))%R as Pr by (apply IZR_lt; exact P).
    assert (IZR (Zpos m) * bpow radix2 e * IZR ten17 - IZR q = IZR (Zpos m * ten17 - 2 ^ (- e) * q) / IZR (2 ^ (- e)))%R as E.
    { rewrite Eb, minus_IZR, !mult_IZR. field. lra. }
    split.
    + rewrite E. unfold Rdiv. rewrite Rabs_mult, Rabs_inv, (Rabs_pos_eq (IZR (2 ^ (- e)))) by lra.
      apply (Rmult_le_reg_r (IZR (2 ^ (- e)))); [exact Pr|]. rewrite Rmult_assoc, Rinv_l, Rmult_1_r by lra.
      rewrite <- abs_IZR. assert (2 * Z.abs (Zpos m * ten17 - 2 ^ (- e) * q) <= 2 ^ (- e)) as L by lia.
      apply IZR_le in L. rewrite mult_IZR in L. lra.
    + intros [H|H]; [lia|]. apply Rminus_diag_uniq. rewrite E. rewrite <- C; [rewrite Z.sub_diag; unfold Rdiv; apply Rmult_0_l|].
      destruct H as [k H]. exists (k * 5 ^ 17). unfold ten17, DECIMALS. change (10 ^ 17) with (2 ^ 17 * 5 ^ 17). rewrite Z.mul_assoc, H. ring.
Qed.
(** ** The correctly rounded decimal *)
Lemma rne_equiv s m l : SpecFloat.round_nearest_even m l = choice_mode mode_NE s m l.
Proof.
  destruct l as [|[]]; [reflexivity| |reflexivity|reflexivity].
  cbn. unfold Round.cond_incr. destruct (Z.even m); reflexivity.
Qed.
Lemma binary_round_aux_equiv prec emax sx mx ex lx :
  SpecFloat.binary_round_aux prec emax sx mx ex lx = binary_round_aux prec emax mode_NE sx mx ex lx.
Proof.
  unfold SpecFloat.binary_round_aux, binary_round_aux. set (mrse' := shr_fexp _ _ _ _ _). destruct mrse' as [mrs' e'].
  rewrite (rne_equiv sx). reflexivity.
Qed.
Lemma b64_of_decimal_ok s p : (Rabs (rnd (IZR (Zpos p) / IZR ten17)) < bpow radix2 1024)%R ->
  valid_binary 53 1024 (b64_of_decimal s (Zpos p) (- DECIMALS)) = true /\
  is_finite_SF (b64_of_decimal s (Zpos p) (- DECIMALS)) = true /\
  sign_SF (b64_of_decimal s (Zpos p) (- DECIMALS)) = s /\
  SF2R radix2 (b64_of_decimal s (Zpos p) (- DECIMALS)) = (if s then - rnd (IZR (Zpos p) / IZR ten17) else rnd (IZR (Zpos p) / IZR ten17))%R.
Proof.
  intros H. unfold b64_of_decimal. change (Z.max (- DECIMALS) 0) with 0. change (Z.max (- - DECIMALS) 0) with 17. change (10 ^ 0) with 1.
  change (10 ^ 17) with 100000000000000000. cbv iota. rewrite Pos.mul_1_r.
  pose proof (Bdiv_correct_aux 53 1024 prec53 emax1024 mode_NE s p 0 false 100000000000000000 0) as C. cbv zeta in C.
  unfold SFdiv. destruct (SFdiv_core_binary 53 1024 (Zpos p) 0 100000000000000000 0) as [[mz ez] lz]. rewrite xorb_false_r in *.
  rewrite binary_round_aux_equiv. destruct C as [V C].
  assert (F2R (Float radix2 (cond_Zopp s (Zpos p)) 0) / F2R (Float radix2 (cond_Zopp false 100000000000000000) 0) = cond_Ropp s (IZR (Zpos p) / IZR ten17))%R as Ex.
  { rewrite F2R_cond_Zopp. unfold F2R. cbn [Fnum Fexp cond_Zopp]. change (bpow radix2 0) with 1%R. rewrite !Rmult_1_r. change ten17 with 100000000000000000. destruct s; cbn [cond_Ropp]; unfold Rdiv; lra. }
  rewrite Ex in C. change (SpecFloat.fexp 53 1024) with F in C. cbn [round_mode] in C.
  assert (rnd (cond_Ropp s (IZR (Zpos p) / IZR ten17)) = cond_Ropp s (rnd (IZR (Zpos p) / IZR ten17)))%R as Er.
  { destruct s; cbn [cond_Ropp]; [apply round_NE_opp|reflexivity]. }
  rewrite Er, abs_cond_Ropp, Rlt_bool_true in C by exact H. destruct C as [C1 [C2 C3]]. rewrite C1. repeat split; auto.
Qed.

(** ** The scaled integer is the nearest one, ties to even *)
Lemma nearestE_mid q : ZnearestE (IZR q + / 2) = if Z.even q then q else q + 1.
Proof.
  unfold Znearest. rewrite (Zfloor_imp q) by (rewrite plus_IZR; lra).
  replace (IZR q + / 2 - IZR q)%R with (/ 2)%R by ring. rewrite Rcompare_Eq by lra.
  rewrite (Zceil_imp (q + 1)) by (rewrite minus_IZR, plus_IZR; lra). destruct (Z.even q); reflexivity.
Qed.
Lemma div_round_even_nearest n d : 0 < d -> ZnearestE (IZR n / IZR d) = div_round_even n d.
Proof.
  intros Hd. unfold div_round_even. pose proof (Z.div_mod n d ltac:(lia)) as E. pose proof (Z.mod_pos_bound n d Hd) as B.
  set (q := n / d) in *. set (r := n mod d) in *. assert (0 < IZR d)%R as Pd by (apply IZR_lt; exact Hd).
  assert (IZR n / IZR d = IZR q + IZR r / IZR d)%R as Eq by (rewrite E, plus_IZR, mult_IZR; field; lra).
  rewrite Eq. assert (0 <= IZR r / IZR d)%R as R0.
  { apply Rmult_le_pos; [apply IZR_le; lia|]. left. apply Rinv_0_lt_compat. exact Pd. }
  assert (IZR r / IZR d < 1)%R as R1.
  { apply (Rmult_lt_reg_r (IZR d)); [exact Pd|]. unfold Rdiv. rewrite Rmult_assoc, Rinv_l, Rmult_1_r, Rmult_1_l by lra. apply IZR_lt. lia. }
  destruct (Z.ltb_spec (2 * r) d) as [H|H].
  { apply Znearest_imp. replace (IZR q + IZR r / IZR d - IZR q)%R with (IZR r / IZR d)%R by ring. rewrite Rabs_pos_eq by exact R0.
    apply (Rmult_lt_reg_r (IZR d)); [exact Pd|]. unfold Rdiv. rewrite Rmult_assoc, Rinv_l, Rmult_1_r by lra. apply IZR_lt in H. rewrite mult_IZR in H. lra. }
  destruct (Z.ltb_spec d (2 * r)) as [H'|H'].
  { apply Znearest_imp. rewrite plus_IZR. replace (IZR q + IZR r / IZR d - (IZR q + 1))%R with (- (1 - IZR r / IZR d))%R by ring.
    rewrite Rabs_Ropp, Rabs_pos_eq by lra. assert (/ 2 < IZR r / IZR d)%R; [|lra].
    apply (Rmult_lt_reg_r (IZR d)); [exact Pd|]. unfold Rdiv. rewrite (Rmult_assoc (IZR r)), Rinv_l, Rmult_1_r by lra. apply IZR_lt in H'. rewrite mult_IZR in H'. lra. }
  assert (IZR r / IZR d = / 2)%R as Eh.
  { assert (2 * r = d) as Ed by lia. apply (Rmult_eq_reg_r (IZR d)); [|lra]. unfold Rdiv. rewrite Rmult_assoc, Rinv_l, Rmult_1_r by lra. rewrite <- Ed, mult_IZR. lra. }
  rewrite Eh. apply nearestE_mid.
Qed.
Lemma scaled_nearest m e : ZnearestE (mag_ m e * IZR ten17) = scaled_decimal m e.
Proof.
  unfold scaled_decimal, mag_, F2R. cbn [Fnum Fexp]. change (10 ^ DECIMALS) with ten17. destruct (Z.leb_spec 0 e) as [He|He].
  - rewrite <- (IZR_Zpower radix2 e He), <- !mult_IZR. rewrite Zrnd_IZR; [reflexivity|apply valid_rnd_N].
  - rewrite <- div_round_even_nearest by (apply Z.pow_pos_nonneg; lia). f_equal.
    replace (bpow radix2 e) with (/ IZR (2 ^ (- e)))%R.
    + rewrite mult_IZR. unfold Rdiv. ring.
    + replace e with (- - e) at 2 by lia. rewrite bpow_opp. f_equal. rewrite <- (IZR_Zpower radix2 (- e)) by lia. reflexivity.
Qed.
Lemma nearestE_opp x : ZnearestE (- x) = - ZnearestE x.
Proof.
  rewrite Znearest_opp. f_equal. unfold Znearest. destruct (Rcompare (x - IZR (Zfloor x)) (/ 2)); try reflexivity.
  rewrite negb_involutive. rewrite Z.even_opp, Z.even_add. destruct (Z.even (Zfloor x)); reflexivity.
Qed.

(** ** Exactness away from zero *)
#[local] Instance validF : Valid_exp F. Proof. apply FLT_exp_valid. reflexivity. Qed.
#[local] Instance monoF : Monotone_exp F. Proof. apply FLT_exp_monotone. Qed.
Lemma near_exact x v : generic_format radix2 F x -> (/ 16 < x)%R -> (Rabs (v - x) <= / 2 / IZR ten17)%R -> rnd v = x.
Proof.
  intros Fx Hx Hv. assert (bpow radix2 (-4) = / 16)%R as E4 by (vm_compute; lra).
  assert (ulp radix2 F (/ 16) = bpow radix2 (-56))%R as Eu by (rewrite <- E4, ulp_bpow; reflexivity).
  assert (generic_format radix2 F (/ 16)) as F16 by (rewrite <- E4; apply generic_format_bpow; vm_compute; discriminate).
  assert (/ 2 / IZR ten17 < bpow radix2 (-56) / 2)%R as Hs.
  { replace (bpow radix2 (-56)) with (/ IZR (2 ^ 56))%R by reflexivity. unfold Rdiv. rewrite Rmult_comm. apply Rmult_lt_compat_r; [lra|].
    apply Rinv_lt_contravar; [rewrite <- mult_IZR; apply IZR_lt; reflexivity|apply IZR_lt; reflexivity]. }
  apply Rabs_le_inv in Hv. apply Rle_antisym.
  - apply round_N_le_midp; [exact validF|exact Fx|]. rewrite succ_eq_pos by lra.
    assert (ulp radix2 F (/ 16) <= ulp radix2 F x)%R by (apply ulp_le_pos; [exact validF|exact monoF|lra|lra]). lra.
  - apply round_N_ge_midp; [exact validF|exact Fx|].
    assert (/ 16 <= pred radix2 F x)%R as P by (apply pred_ge_gt; [exact validF|exact F16|exact Fx|exact Hx]).
    assert (x = pred radix2 F x + ulp radix2 F (pred radix2 F x))%R as Es.
    { rewrite <- (succ_pred radix2 F x Fx) at 1. apply succ_eq_pos. lra. }
    assert (ulp radix2 F (/ 16) <= ulp radix2 F (pred radix2 F x))%R by (apply ulp_le_pos; [exact validF|exact monoF|lra|lra]). lra.
Qed.

(** ** A finite double printed and read back *)
Definition reread (f : b64) : b64 :=
  match f with
  | S754_finite s m e => b64_of_decimal s (scaled_decimal m e) (- DECIMALS)
  | _ => f
  end.
Lemma bounded_format s m e : valid_binary 53 1024 (S754_finite s m e) = true -> generic_format radix2 F (mag_ m e) /\ (mag_ m e < bpow radix2 1024)%R.
Proof.
  intros V. cbn in V. split.
  - unfold mag_. apply generic_format_canonical. change (Float radix2 (Zpos m) e) with (Float radix2 (cond_Zopp false (Zpos m)) e).
    apply (canonical_bounded 53 1024 false). exact V.
  - apply (bounded_lt_emax 53 1024). exact V.
Qed.
Lemma mag_pos m e : (0 < mag_ m e)%R.
Proof. apply F2R_gt_0. reflexivity. Qed.
Lemma val_mag s m e : SF2R radix2 (S754_finite s m e) = (if s then - mag_ m e else mag_ m e)%R.
Proof. cbn [SF2R]. rewrite F2R_cond_Zopp. destruct s; reflexivity. Qed.
Definition easy_exact (x : R) : Prop := (/ 16 <= Rabs x)%R \/ exists k : Z, x = (IZR k / IZR (2 ^ 17))%R.
Lemma easy_mag m e k : mag_ m e = (IZR k / IZR (2 ^ 17))%R -> 0 <= e \/ (2 ^ (- e) | Zpos m * 2 ^ 17).
Proof.
  intros H. destruct (Z.le_gt_cases 0 e) as [He|He]; [left; exact He|right].
  exists k. apply eq_IZR. rewrite !mult_IZR. unfold mag_, F2R in H. cbn [Fnum Fexp] in H.
  assert (bpow radix2 e = / IZR (2 ^ (- e)))%R as Eb.
  { replace e with (- - e) at 1 by lia. rewrite bpow_opp. f_equal. rewrite <- (IZR_Zpower radix2 (- e)) by lia. reflexivity. }
  assert (0 < IZR (2 ^ (- e)))%R as Pr by (apply IZR_lt, Z.pow_pos_nonneg; lia).
  rewrite Eb in H. assert (0 < IZR (2 ^ 17))%R as P17 by (apply IZR_lt; reflexivity).
  replace (IZR (Zpos m)) with (IZR (Zpos m) * / IZR (2 ^ (- e)) * IZR (2 ^ (- e)))%R by (field; lra). rewrite H. field. lra.
Qed.
Lemma b64_ext f g : valid_binary 53 1024 f = true -> valid_binary 53 1024 g = true -> is_finite_SF f = true -> is_finite_SF g = true ->
  SF2R radix2 f = SF2R radix2 g -> sign_SF f = sign_SF g -> f = g.
Proof.
  intros Vf Vg Ff Fg E S. rewrite <- (B2SF_SF2B 53 1024 f Vf), <- (B2SF_SF2B 53 1024 g Vg). f_equal.
  apply B2R_Bsign_inj; rewrite ?is_finite_SF2B, ?B2R_SF2B, ?Bsign_SF2B; assumption.
Qed.
Lemma scaled_quot m e : (mag_ m e * IZR ten17 = IZR (scaled_decimal m e))%R -> (IZR (scaled_decimal m e) / IZR ten17 = mag_ m e)%R.
Proof. intros H. pose proof ten17_pos. rewrite <- H. field. lra. Qed.
Lemma round_mag s m e : valid_binary 53 1024 (S754_finite s m e) = true -> easy_exact (mag_ m e) -> rnd (IZR (scaled_decimal m e) / IZR ten17) = mag_ m e.
Proof.
  intros V H. destruct (bounded_format s m e V) as [Fm _]. destruct (scaled_ok m e) as [_ [Hn He]]. pose proof ten17_pos as P.
  assert (forall k, mag_ m e = (IZR k / IZR (2 ^ 17))%R -> rnd (IZR (scaled_decimal m e) / IZR ten17) = mag_ m e) as Hk.
  { intros k Hk. rewrite (scaled_quot m e (He (easy_mag m e k Hk))). apply round_generic; [apply valid_rnd_N|exact Fm]. }
  destruct H as [H|[k H]]; [|exact (Hk k H)]. rewrite Rabs_pos_eq in H by (left; apply mag_pos).
  destruct H as [H|H].
  - apply near_exact; [exact Fm|exact H|].
    replace (IZR (scaled_decimal m e) / IZR ten17 - mag_ m e)%R with (- (mag_ m e * IZR ten17 - IZR (scaled_decimal m e)) / IZR ten17)%R by (field; lra).
    unfold Rdiv. rewrite Rabs_mult, Rabs_Ropp, Rabs_inv, (Rabs_pos_eq (IZR ten17)) by lra. apply Rmult_le_compat_r; [left; apply Rinv_0_lt_compat; exact P|exact Hn].
  - apply (Hk (2 ^ 13)). rewrite <- H. change (2 ^ 13) with 8192. change (2 ^ 17) with 131072. lra.
Qed.
Lemma round_small v : (0 <= v <= 1)%R -> (Rabs (rnd v) < bpow radix2 1024)%R.
Proof.
  intros [V0 V1]. rewrite Rabs_pos_eq.
  - apply (Rle_lt_trans _ 1).
    + apply round_le_generic; [exact validF|apply valid_rnd_N| |exact V1]. change 1%R with (bpow radix2 0). apply generic_format_bpow. vm_compute. discriminate.
    + change 1%R with (bpow radix2 0). apply bpow_lt. reflexivity.
  - apply round_ge_generic; [exact validF|apply valid_rnd_N|apply generic_format_0|exact V0].
Qed.
Lemma reread_bounded s m e : valid_binary 53 1024 (S754_finite s m e) = true -> (Rabs (rnd (IZR (scaled_decimal m e) / IZR ten17)) < bpow radix2 1024)%R.
Proof.
  intros V. destruct (bounded_format s m e V) as [Fm Lm]. destruct (scaled_ok m e) as [N0 [Hn _]]. pose proof ten17_pos as P. pose proof (mag_pos m e) as Pm.
  destruct (Rle_or_lt (/ 16) (mag_ m e)) as [H|H].
  - rewrite (round_mag s m e V).
    + rewrite Rabs_pos_eq by lra. exact Lm.
    + left. rewrite Rabs_pos_eq by lra. exact H.
  - apply round_small. apply IZR_le in N0. split.
    + unfold Rdiv. apply Rmult_le_pos; [exact N0|left; apply Rinv_0_lt_compat; exact P].
    + apply Rabs_le_inv in Hn. apply (Rmult_le_reg_r (IZR ten17)); [exact P|]. unfold Rdiv. rewrite Rmult_assoc, Rinv_l by lra.
      assert (16 <= IZR ten17)%R by (apply IZR_le; vm_compute; discriminate).
      assert (mag_ m e * IZR ten17 <= / 16 * IZR ten17)%R by (apply Rmult_le_compat_r; lra). lra.
Qed.
Lemma nearest_val s m e : IZR (ZnearestE (SF2R radix2 (S754_finite s m e) * IZR ten17)) = (if s then - IZR (scaled_decimal m e) else IZR (scaled_decimal m e))%R.
Proof.
  rewrite val_mag. destruct s.
  - rewrite Ropp_mult_distr_l_reverse, nearestE_opp, scaled_nearest, opp_IZR. reflexivity.
  - rewrite scaled_nearest. reflexivity.
Qed.
Lemma reread_ok f : valid_binary 53 1024 f = true -> is_finite_SF f = true ->
  valid_binary 53 1024 (reread f) = true /\ is_finite_SF (reread f) = true /\ sign_SF (reread f) = sign_SF f /\
  SF2R radix2 (reread f) = rnd (IZR (ZnearestE (SF2R radix2 f * IZR ten17)) / IZR ten17) /\
  (easy_exact (SF2R radix2 f) -> reread f = f).
Proof.
  intros V Fi. destruct f as [s|s| |s m e]; try discriminate.
  - cbn [reread SF2R]. rewrite Rmult_0_l. change 0%R with (IZR 0) at 2. rewrite Zrnd_IZR by apply valid_rnd_N.
    unfold Rdiv. rewrite Rmult_0_l, round_0 by apply valid_rnd_N. repeat split.
  - pose proof (reread_bounded s m e V) as Bd. destruct (scaled_ok m e) as [N0 _]. rewrite nearest_val. cbn [reread].
    assert (valid_binary 53 1024 (b64_of_decimal s (scaled_decimal m e) (- DECIMALS)) = true /\ is_finite_SF (b64_of_decimal s (scaled_decimal m e) (- DECIMALS)) = true /\
      sign_SF (b64_of_decimal s (scaled_decimal m e) (- DECIMALS)) = s /\
      SF2R radix2 (b64_of_decimal s (scaled_decimal m e) (- DECIMALS)) = (if s then - rnd (IZR (scaled_decimal m e) / IZR ten17) else rnd (IZR (scaled_decimal m e) / IZR ten17))%R) as [A [B [C D]]].
    { destruct (scaled_decimal m e) as [|p|p]; [|exact (b64_of_decimal_ok s p Bd)|lia].
      cbn [b64_of_decimal SF2R]. unfold Rdiv. rewrite Rmult_0_l, round_0 by apply valid_rnd_N. repeat split. destruct s; ring. }
    split; [exact A|]. split; [exact B|]. split; [exact C|]. split.
    + rewrite D. destruct s; [|reflexivity]. unfold Rdiv. rewrite Ropp_mult_distr_l_reverse. symmetry. apply round_NE_opp.
    + intros H. apply b64_ext; auto. rewrite D, val_mag. rewrite val_mag in H.
      assert (easy_exact (mag_ m e)) as H'.
      { destruct s; [|exact H]. destruct H as [H|[k H]]; [left; rewrite Rabs_Ropp in H; exact H|].
        right. exists (- k). rewrite opp_IZR. unfold Rdiv in *. lra. }
      rewrite (round_mag s m e V H'). reflexivity.
Qed.
