(** The operations of binary64 round the exact result to nearest, ties to even. *)
From Coq Require Import List ZArith Lia Bool Reals Lra Psatz.
From Coq Require Import Floats.SpecFloat.
From Flocq Require Import Core IEEE754.BinarySingleNaN.
From Verif Require Import Outcome Num ThReal ThB64.
Import ListNotations.
Open Scope Z_scope.

Local Notation F := (FLT_exp (-1074) 53).
Definition rnd64 (x : R) : R := round radix2 F ZnearestE x.
#[local] Instance prec53 : Prec_gt_0 53. Proof. reflexivity. Qed.
#[local] Instance emax1024 : Prec_lt_emax 53 1024. Proof. reflexivity. Qed.
#[local] Instance validF : Valid_exp F. Proof. apply FLT_exp_valid. exact prec53. Qed.

Lemma to_B (x : b64) : double x -> exists b : binary_float 53 1024, B2SF b = x.
Proof. intros H. exists (SF2B x H). apply B2SF_SF2B. Qed.
Lemma B_double (b : binary_float 53 1024) : double (B2SF b).
Proof. apply valid_binary_B2SF. Qed.
Lemma B_finite (b : binary_float 53 1024) : is_finite_SF (B2SF b) = is_finite b.
Proof. now destruct b. Qed.
Lemma B_val (b : binary_float 53 1024) : val (B2SF b) = B2R b.
Proof. destruct b; reflexivity. Qed.

Lemma rne_equiv s m l : SpecFloat.round_nearest_even m l = choice_mode mode_NE s m l.
Proof. destruct l as [|c]; [reflexivity|]. destruct c; [|reflexivity..]. cbn. now unfold Round.cond_incr; destruct (Z.even m). Qed.
Lemma round_aux_equiv s m e l :
  SpecFloat.binary_round_aux 53 1024 s m e l = binary_round_aux 53 1024 mode_NE s m e l.
Proof.
  unfold SpecFloat.binary_round_aux, binary_round_aux. destruct (shr_fexp _ _ _ _ _) as [mrs e']. cbn.
  now rewrite (rne_equiv s).
Qed.
Lemma round_equiv s m e : SpecFloat.binary_round 53 1024 s m e = binary_round 53 1024 mode_NE s m e.
Proof. unfold SpecFloat.binary_round, binary_round, shl_align_fexp. destruct (shl_align _ _ _). apply round_aux_equiv. Qed.
Lemma normalize_equiv m e z :
  SpecFloat.binary_normalize 53 1024 m e z = B2SF (binary_normalize 53 1024 prec53 emax1024 mode_NE m e z).
Proof. destruct m; [reflexivity|cbn; rewrite B2SF_SF2B; apply round_equiv..]. Qed.

Lemma add_equiv (x y : binary_float 53 1024) : SFadd 53 1024 (B2SF x) (B2SF y) = B2SF (Bplus mode_NE x y).
Proof.
  destruct x, y; try reflexivity; try (cbn; now destruct (Bool.eqb _ _)).
  apply normalize_equiv.
Qed.
Lemma sub_equiv (x y : binary_float 53 1024) : SFsub 53 1024 (B2SF x) (B2SF y) = B2SF (Bminus mode_NE x y).
Proof.
  destruct x, y; try reflexivity; try (cbn; now destruct (Bool.eqb _ _)).
  cbn. unfold Zminus. rewrite <- cond_Zopp_negb. apply normalize_equiv.
Qed.
Lemma mul_equiv (x y : binary_float 53 1024) : SFmul 53 1024 (B2SF x) (B2SF y) = B2SF (Bmult mode_NE x y).
Proof. destruct x, y; try reflexivity. cbn. rewrite B2SF_SF2B. apply round_aux_equiv. Qed.
Lemma div_equiv (x y : binary_float 53 1024) : SFdiv 53 1024 (B2SF x) (B2SF y) = B2SF (Bdiv mode_NE x y).
Proof.
  destruct x, y; try reflexivity. cbn. rewrite B2SF_SF2B.
  destruct (SFdiv_core_binary _ _ _ _ _ _) as [[mz ez] lz]. apply round_aux_equiv.
Qed.

Definition no_overflow (x : R) : Prop := (Rabs (rnd64 x) < bpow radix2 1024)%R.
Lemma rnd64_le x y : (x <= y -> rnd64 x <= rnd64 y)%R.
Proof. intros H. apply round_le; [apply validF|apply valid_rnd_N|exact H]. Qed.
Lemma rnd64_id x : generic_format radix2 F x -> rnd64 x = x.
Proof. intros H. apply round_generic; [apply valid_rnd_N|exact H]. Qed.
Lemma rnd64_format x : generic_format radix2 F (rnd64 x).
Proof. apply generic_format_round; [apply validF|apply valid_rnd_N]. Qed.
Lemma val_format x : finite64 x -> generic_format radix2 F (val x).
Proof. intros [D Fi]. destruct (to_B x D) as [b <-]. rewrite B_val. apply (generic_format_B2R 53 1024). Qed.
Lemma val_lt_emax x : finite64 x -> (Rabs (val x) < bpow radix2 1024)%R.
Proof. intros [D Fi]. destruct (to_B x D) as [b <-]. rewrite B_val. apply abs_B2R_lt_emax. Qed.

Lemma add_round x y : finite64 x -> finite64 y -> no_overflow (val x + val y) ->
  finite64 (nadd x y) /\ val (nadd x y) = rnd64 (val x + val y).
Proof.
  intros [Dx Fx] [Dy Fy] Ho. destruct (to_B x Dx) as [a <-]. destruct (to_B y Dy) as [b <-].
  rewrite B_finite in Fx, Fy. change (nadd (B2SF a) (B2SF b)) with (SFadd 53 1024 (B2SF a) (B2SF b)).
  rewrite add_equiv. unfold finite64. rewrite B_finite, !B_val in *.
  pose proof (Bplus_correct 53 1024 prec53 emax1024 mode_NE a b Fx Fy) as C.
  change (SpecFloat.fexp 53 1024) with F in C. change (round_mode mode_NE) with ZnearestE in C.
  rewrite Rlt_bool_true in C by exact Ho. destruct C as [C1 [C2 _]].
  split; [split; [apply B_double|exact C2]|exact C1].
Qed.
Lemma sub_round x y : finite64 x -> finite64 y -> no_overflow (val x - val y) ->
  finite64 (nsub x y) /\ val (nsub x y) = rnd64 (val x - val y).
Proof.
  intros [Dx Fx] [Dy Fy] Ho. destruct (to_B x Dx) as [a <-]. destruct (to_B y Dy) as [b <-].
  rewrite B_finite in Fx, Fy. change (nsub (B2SF a) (B2SF b)) with (SFsub 53 1024 (B2SF a) (B2SF b)).
  rewrite sub_equiv. unfold finite64. rewrite B_finite, !B_val in *.
  pose proof (Bminus_correct 53 1024 prec53 emax1024 mode_NE a b Fx Fy) as C.
  change (SpecFloat.fexp 53 1024) with F in C. change (round_mode mode_NE) with ZnearestE in C.
  rewrite Rlt_bool_true in C by exact Ho. destruct C as [C1 [C2 _]].
  split; [split; [apply B_double|exact C2]|exact C1].
Qed.
Lemma mul_round x y : finite64 x -> finite64 y -> no_overflow (val x * val y) ->
  finite64 (nmul x y) /\ val (nmul x y) = rnd64 (val x * val y).
Proof.
  intros [Dx Fx] [Dy Fy] Ho. destruct (to_B x Dx) as [a <-]. destruct (to_B y Dy) as [b <-].
  rewrite B_finite in Fx, Fy. change (nmul (B2SF a) (B2SF b)) with (SFmul 53 1024 (B2SF a) (B2SF b)).
  rewrite mul_equiv. unfold finite64. rewrite B_finite, !B_val in *.
  pose proof (Bmult_correct 53 1024 prec53 emax1024 mode_NE a b) as C.
  change (SpecFloat.fexp 53 1024) with F in C. change (round_mode mode_NE) with ZnearestE in C.
  rewrite Rlt_bool_true in C by exact Ho. destruct C as [C1 [C2 _]]. rewrite Fx, Fy in C2.
  split; [split; [apply B_double|exact C2]|exact C1].
Qed.
Lemma div_round x y : finite64 x -> finite64 y -> val y <> 0%R -> no_overflow (val x / val y) ->
  exists q, ndiv x y = Ok q /\ finite64 q /\ val q = rnd64 (val x / val y).
Proof.
  intros [Dx Fx] [Dy Fy] Hy Ho. destruct (to_B x Dx) as [a <-]. destruct (to_B y Dy) as [b <-].
  rewrite B_finite in Fx, Fy. exists (SFdiv 53 1024 (B2SF a) (B2SF b)). split; [reflexivity|].
  rewrite div_equiv. unfold finite64. rewrite B_finite, !B_val in *.
  pose proof (Bdiv_correct 53 1024 prec53 emax1024 mode_NE a b Hy) as C.
  change (SpecFloat.fexp 53 1024) with F in C. change (round_mode mode_NE) with ZnearestE in C.
  rewrite Rlt_bool_true in C by exact Ho. destruct C as [C1 [C2 _]]. rewrite Fx in C2.
  split; [split; [apply B_double|exact C2]|exact C1].
Qed.

Lemma double_format x : generic_format radix2 F x -> generic_format radix2 F (2 * x).
Proof.
  intros H.
  pose proof (FLT_format_generic radix2 (-1074) 53 x H) as [f E1 E2 E3].
  apply generic_format_FLT. exists (Float radix2 (Fnum f) (Fexp f + 1)).
  - rewrite E1. unfold F2R. cbn [Fnum Fexp]. rewrite bpow_plus. change (bpow radix2 1) with 2%R. ring.
  - exact E2.
  - cbn [Fexp]. lia.
Qed.
Lemma int_format n : (Z.abs n <= 2 ^ 53)%Z -> generic_format radix2 F (IZR n).
Proof.
  intros H. destruct (Z_lt_dec (Z.abs n) (2 ^ 53)).
  - apply generic_format_FLT. exists (Float radix2 n 0); [unfold F2R; cbn; ring|exact l|cbn; lia].
  - assert (E : n = 2 * Z.div n 2). { assert (n = 2 ^ 53 \/ n = - 2 ^ 53) as [-> | ->] by lia; reflexivity. }
    rewrite E, mult_IZR. apply double_format. apply generic_format_FLT.
    exists (Float radix2 (n / 2) 0); [unfold F2R; cbn; ring| |cbn; lia].
    cbn [Fnum]. assert (n = 2 ^ 53 \/ n = - 2 ^ 53) as [-> | ->] by lia; reflexivity.
Qed.
Lemma bounded_no_overflow a b x : generic_format radix2 F a -> generic_format radix2 F b ->
  (Rabs a < bpow radix2 1024)%R -> (Rabs b < bpow radix2 1024)%R -> (a <= x <= b)%R -> no_overflow x.
Proof.
  intros Fa Fb Ha Hb [H1 H2]. unfold no_overflow. apply rnd64_le in H1, H2. rewrite (rnd64_id a) in H1 by assumption. rewrite (rnd64_id b) in H2 by assumption.
  apply Rabs_def1; apply Rabs_def2 in Ha; apply Rabs_def2 in Hb; lra.
Qed.
