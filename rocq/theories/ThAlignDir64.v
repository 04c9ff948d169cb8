(** AlignParameterDomain on doubles: the directions of the result (C104). *)
From Coq Require Import Reals QArith ZArith List Lra Lia Bool Permutation SpecFloat.
From Flocq Require Import Core BinarySingleNaN.
From Verif Require Import Outcome Num ModelCore ModelBasis ModelCurve ModelSurface SpecCore SpecBasis SpecCurve SpecSurface SpecAlign SpecErr SpecRows SpecGeom64 SpecReverse64
  ThOutcome ThReal ThKnots ThGrid ThVec ThB64 ThRound ThErr ThCoreWit ThCurveWit ThSurfWit ThDecide ThBBoxWit ThBBox64 ThAlign2 ThAlignWit ThUniform64 ThGeom64 ThSurface ThSurface2 ThAlign ThReverse64 ThAlign64.
Import ListNotations.
Open Scope Z_scope.
Local Notation F := (FLT_exp (-1074) 53).
#[local] Instance prec53 : Prec_gt_0 53. Proof. reflexivity. Qed.
#[local] Instance emax1024 : Prec_lt_emax 53 1024. Proof. reflexivity. Qed.

(** ** Square roots *)
Lemma sqrt_equiv (x : binary_float 53 1024) : SFsqrt 53 1024 (B2SF x) = B2SF (Bsqrt mode_NE x).
Proof.
  destruct x as [s|s| |s m e H]; try reflexivity; destruct s; try reflexivity.
  cbn. rewrite B2SF_SF2B. destruct (SFsqrt_core_binary 53 1024 (Zpos m) e) as [[mz ez] lz]. apply round_aux_equiv.
Qed.
Lemma sqrt_round (x : b64) : finite64 x -> (0 < val x)%R -> finite64 (nsqrt x) /\ val (nsqrt x) = rnd64 (sqrt (val x)).
Proof.
  intros [Dx Fx] P. destruct (to_B x Dx) as [a <-]. change (nsqrt (B2SF a : b64)) with (SFsqrt 53 1024 (B2SF a)). rewrite sqrt_equiv.
  unfold finite64. rewrite B_finite, !B_val in *. pose proof (Bsqrt_correct 53 1024 prec53 emax1024 mode_NE a) as [C1 [C2 _]].
  change (SpecFloat.fexp 53 1024) with F in C1. change (round_mode mode_NE) with ZnearestE in C1.
  split; [|exact C1]. split; [apply B_double|]. rewrite C2. destruct a as [s|s| |s m e H]; cbn in P, Fx; try reflexivity; try discriminate; try lra.
  destruct s; [|reflexivity]. exfalso. pose proof (F2R_lt_0 radix2 (Float radix2 (Zneg m) e) ltac:(reflexivity)) as Q. change (F2R (Float radix2 (Zneg m) e) : R) with (B2R (B754_finite true m e H)) in Q. cbn in Q, P. lra.
Qed.

(** ** One edge *)
Definition big (k : Z) (x : R) : Prop := (Rabs x <= bpow radix2 k)%R.
Lemma big_rnd k x : 0 <= k <= 1023 -> big k x -> big k (rnd64 x).
Proof.
  intros Hk H. unfold big in *. apply Rabs_le_inv in H. assert (generic_format radix2 F (bpow radix2 k)) as G by (apply generic_format_bpow; unfold FLT_exp; lia).
  apply Rabs_le. split.
  - rewrite <- (rnd64_id _ (generic_format_opp _ _ _ G)). apply rnd64_le. lra.
  - rewrite <- (rnd64_id _ G). apply rnd64_le. lra.
Qed.
Lemma big_ok k x : k <= 1023 -> big k x -> no_overflow x.
Proof. intros Hk H. apply rnd64_big. eapply Rle_trans; [exact H|]. apply bpow_le. lia. Qed.
Lemma big_add k x y : big k x -> big k y -> big (k + 1) (x + y).
Proof. unfold big. intros A B. rewrite bpow_plus_1. change (IZR radix2) with 2%R. eapply Rle_trans; [apply Rabs_triang|]. lra. Qed.
Lemma big_sub k x y : big k x -> big k y -> big (k + 1) (x - y).
Proof. intros A B. apply big_add; [exact A|]. unfold big. rewrite Rabs_Ropp. exact B. Qed.
Lemma big_mul k l x y : big k x -> big l y -> big (k + l) (x * y).
Proof. unfold big. intros A B. rewrite bpow_plus, Rabs_mult. apply Rmult_le_compat; try apply Rabs_pos; assumption. Qed.
Definition fin_big (k : Z) (x : b64) : Prop := finite64 x /\ big k (val x).
Lemma fb_sub k x y : 0 <= k <= 1000 -> fin_big k x -> fin_big k y -> fin_big (k + 1) (nsub x y) /\ val (nsub x y) = rnd64 (val x - val y) /\
  exists rho, fac 1 rho /\ val (nsub x y) = ((val x - val y) * rho)%R.
Proof.
  intros Hk [Fx Bx] [Fy By]. pose proof (big_sub _ _ _ Bx By) as B. destruct (sub_round x y Fx Fy (big_ok (k + 1) _ ltac:(lia) B)) as [Fs Vs].
  split; [split; [exact Fs|rewrite Vs; apply big_rnd; [lia|exact B]]|]. split; [exact Vs|]. rewrite Vs.
  apply (plus_rel (val x) (- val y) (val_format x Fx) (generic_format_opp _ _ _ (val_format y Fy))).
Qed.
Lemma fb_sq k x : 0 <= k <= 500 -> fin_big k x -> fin_big (k + k) (nmul x x) /\ val (nmul x x) = rnd64 (val x * val x) /\ (0 <= val (nmul x x))%R.
Proof.
  intros Hk [Fx Bx]. pose proof (big_mul _ _ _ _ Bx Bx) as B. destruct (mul_round x x Fx Fx (big_ok (k + k) _ ltac:(lia) B)) as [Fs Vs].
  split; [split; [exact Fs|rewrite Vs; apply big_rnd; [lia|exact B]]|]. split; [exact Vs|]. rewrite Vs. rewrite <- rnd64_0. apply rnd64_le. nra.
Qed.
Lemma fb_add_pos k x y : 0 <= k <= 1000 -> fin_big k x -> fin_big k y -> (0 <= val x)%R -> (0 <= val y)%R ->
  fin_big (k + 1) (nadd x y) /\ (val x <= val (nadd x y))%R /\ (val y <= val (nadd x y))%R.
Proof.
  intros Hk [Fx Bx] [Fy By] Px Py. pose proof (big_add _ _ _ Bx By) as B. destruct (add_round x y Fx Fy (big_ok (k + 1) _ ltac:(lia) B)) as [Fs Vs].
  split; [split; [exact Fs|rewrite Vs; apply big_rnd; [lia|exact B]]|]. rewrite Vs. split.
  - rewrite <- (rnd64_id (val x) (val_format x Fx)) at 1. apply rnd64_le. lra.
  - rewrite <- (rnd64_id (val y) (val_format y Fy)) at 1. apply rnd64_le. lra.
Qed.
Definition axis3 (a : AlignAxis) (v : vec3 b64) : b64 := match a with XAxis => x3 v | YAxis => y3 v | ZAxis => z3 v end.
(** the edge computed from [q] to [p] *)
Definition edge64 (q p : vec4 b64) : vec3 b64 := v3sub (head3 p) (head3 q).
Definition big4 (p : vec4 b64) : Prop := fin_big 100 (x4 p) /\ fin_big 100 (y4 p) /\ fin_big 100 (z4 p).
Lemma edge64_ok q p a : big4 q -> big4 p -> fin_big 101 (axis3 a (edge64 q p)) /\
  exists rho, fac 1 rho /\ val (axis3 a (edge64 q p)) = (coord a (edge (val4 q) (val4 p)) * rho)%R.
Proof.
  intros [A1 [A2 A3]] [B1 [B2 B3]]. destruct a; cbn [axis3 edge64 v3sub head3 x3 y3 z3 coord edge val4 x4 y4 z4].
  - destruct (fb_sub 100 _ _ ltac:(lia) B1 A1) as [F1 [_ R1]]. auto.
  - destruct (fb_sub 100 _ _ ltac:(lia) B2 A2) as [F1 [_ R1]]. auto.
  - destruct (fb_sub 100 _ _ ltac:(lia) B3 A3) as [F1 [_ R1]]. auto.
Qed.
Lemma fac1_num rho : fac 1 rho -> (1 - / 2 ^ 52 <= rho <= 1 + / 2 ^ 52)%R.
Proof.
  unfold fac. rewrite pow_1. unfold r64, u64. change (bpow radix2 (-53)) with (/ IZR (2 ^ 53))%R.
  assert (/ 2 ^ 52 = 2 * / IZR (2 ^ 53))%R as -> by (rewrite (pow_IZR 2 52); change (2 ^ Z.of_nat 52) with (2 ^ 52); change (2 ^ 53) with (2 * 2 ^ 52); rewrite mult_IZR; field; apply IZR_neq; discriminate).
  set (u := (/ IZR (2 ^ 53))%R). assert (0 < u)%R as P by (apply Rinv_0_lt_compat, IZR_lt; reflexivity). intros [A B]. split; [|lra].
  eapply Rle_trans; [|exact A]. apply (Rmult_le_reg_r (1 + 2 * u)); [lra|]. rewrite Rinv_l by lra. nra.
Qed.
Lemma p52_small : (0 < / 2 ^ 52 <= / 1000000)%R.
Proof. split; [apply Rinv_0_lt_compat, pow_lt; lra|]. apply Rinv_le_contravar; [lra|]. rewrite (pow_IZR 2 52). apply IZR_le. vm_compute. discriminate. Qed.
Lemma lit6_upper : (val (lit_1e_6 : b64) < 15 / 10000000)%R.
Proof.
  assert (val (lit_1e_6 : b64) < val (dq (1 # 524288)))%R as A by (apply lt64; reflexivity).
  assert (val (lit_1e_6 : b64) < val (dq (3 # 2097152)))%R as B by (apply lt64; reflexivity).
  assert (val (dq (3 # 2097152)) = 3 / 2097152)%R as E by val_one. lra.
Qed.
Lemma edge64_long q p c : big4 q -> big4 p -> (1 / 500000 <= Rabs (coord c (edge (val4 q) (val4 p))))%R -> ngtb (v3norm (edge64 q p)) lit_1e_6 = true.
Proof.
  intros Q P L. assert (forall a, fin_big 101 (axis3 a (edge64 q p))) as FB by (intros a; apply edge64_ok; assumption).
  destruct (edge64_ok q p c Q P) as [_ [rho [Fr Er]]]. apply fac1_num in Fr. pose proof p52_small as P5.
  set (e := edge64 q p) in *.
  assert (199 / 100000000 <= Rabs (val (axis3 c e)))%R as Le.
  { rewrite Er, Rabs_mult, (Rabs_pos_eq rho) by lra. nra. }
  destruct (fb_sq 101 _ ltac:(lia) (FB XAxis)) as [X1 [X2 X3]]. destruct (fb_sq 101 _ ltac:(lia) (FB YAxis)) as [Y1 [Y2 Y3]]. destruct (fb_sq 101 _ ltac:(lia) (FB ZAxis)) as [Z1 [Z2 Z3]].
  cbn [axis3] in *. destruct (fb_add_pos 202 _ _ ltac:(lia) X1 Y1 X3 Y3) as [A1 [A2 A3]].
  assert (fin_big 203 (nmul (z3 e) (z3 e))) as Z1'. { destruct Z1 as [F1 B1]. split; [exact F1|]. unfold big in *. eapply Rle_trans; [exact B1|]. apply bpow_le. lia. }
  destruct (fb_add_pos 203 _ _ ltac:(lia) A1 Z1' ltac:(lra) Z3) as [B1 [B2 B3]].
  assert (39 / 10000000000000 <= val (v3dot e e))%R as Ld.
  { unfold v3dot.
    assert (forall x : b64, (199 / 100000000 <= Rabs (val x))%R -> (39 / 10000000000000 <= rnd64 (val x * val x))%R) as Hq.
    { intros x Hx. pose proof (rnd64_err (val x * val x)) as Er2. apply Rabs_le_inv in Er2.
      assert (val x * val x = Rabs (val x) * Rabs (val x))%R as Eq by (rewrite <- Rabs_mult; rewrite Rabs_pos_eq; nra).
      rewrite (Rabs_pos_eq (val x * val x)) in Er2 by nra. pose proof u64_small. pose proof u64_pos.
      assert (eta64 <= / 1000000000000000)%R as Te. { unfold eta64. eapply Rle_trans; [|exact u64_small]. unfold u64. apply bpow_le. lia. }
      assert (396 / 100000000000000 <= val x * val x)%R by nra. nra. }
    destruct c; cbn [axis3] in Le; apply Hq in Le.
    - rewrite <- X2 in Le. lra.
    - rewrite <- Y2 in Le. lra.
    - rewrite <- Z2 in Le. lra. }
  destruct (sqrt_round (v3dot e e) (proj1 B1) ltac:(lra)) as [Fn Vn].
  unfold v3norm. change (ngtb (nsqrt (v3dot e e)) lit_1e_6) with (SFltb (lit_1e_6 : b64) (nsqrt (v3dot e e) : b64)). rewrite SFltb_val by (try exact Fn; apply lit6).
  apply Rltb_true. rewrite Vn. eapply Rlt_le_trans; [apply lit6_upper|].
  assert (19 / 10000000 <= sqrt (val (v3dot e e)))%R as Ls. { rewrite <- (sqrt_square (19 / 10000000)) by lra. apply sqrt_le_1_alt. lra. }
  pose proof (rnd64_err (sqrt (val (v3dot e e)))) as Er2. apply Rabs_le_inv in Er2. rewrite Rabs_pos_eq in Er2 by lra. pose proof u64_small. pose proof u64_pos.
  assert (eta64 <= / 1000000000000000)%R as Te. { unfold eta64. eapply Rle_trans; [|exact u64_small]. unfold u64. apply bpow_le. lia. } nra.
Qed.
Lemma dominant_val (v : vec3 b64) : finite64 (x3 v) -> finite64 (y3 v) -> finite64 (z3 v) -> GetDominantAxis v = GetDominantAxis (val3 v).
Proof.
  intros Fx Fy Fz. destruct (nabs_val _ Fx) as [Ax Vx]. destruct (nabs_val _ Fy) as [Ay Vy]. destruct (nabs_val _ Fz) as [Az Vz].
  destruct (nmax_val _ _ Ax Ay) as [M1 W1]. destruct (nmax_val _ _ M1 Az) as [M2 W2].
  unfold GetDominantAxis. cbv zeta.
  assert (forall x : R, nabs x = Rabs x) as Ra by (intros x; unfold nabs; norm_R; apply Rabs_if).
  assert (forall x y : R, nmax x y = Rmax x y) as Rm by (intros x y; unfold nmax; norm_R; apply Rmax_if).
  assert (forall a b : b64, finite64 a -> finite64 b -> neqb a b = neqb (val a) (val b)) as Re by (intros a b Fa Fb; change (SFeqb a b = Reqb (val a) (val b)); apply SFeqb_val; assumption).
  assert (forall a : b64, finite64 a -> ngeb a n0 = ngeb (val a) n0) as Rg.
  { intros a Fa. unfold ngeb. change (SFleb (n0 : b64) a = Rleb 0 (val a)). rewrite SFleb_val by (try exact Fa; apply finite_0). reflexivity. }
  rewrite !Re by assumption. rewrite W2, W1, Vx, Vy, Vz. rewrite !Ra, !Rm. cbn [val3 x3 y3 z3].
  match goal with |- (?ax, _) = (?ax', _) => change ax' with ax; set (ax0 := ax) end. f_equal.
  destruct ax0; cbn [axis_value val3 x3 y3 z3]; rewrite Rg by assumption; reflexivity.
Qed.
Lemma dominant64_ok q p a : big4 q -> big4 p -> clearly_dominated (edge (val4 q) (val4 p)) a ->
  GetDominantAxis (edge64 q p) = (a, if Rltb (coord a (edge (val4 q) (val4 p))) 0 then -1 else 1) /\ coord a (edge (val4 q) (val4 p)) <> 0%R.
Proof.
  intros Q P D. set (e := edge64 q p). set (E := edge (val4 q) (val4 p)) in *.
  assert (forall c, fin_big 101 (axis3 c e) /\ exists rho, fac 1 rho /\ val (axis3 c e) = (coord c E * rho)%R) as H by (intros c; apply edge64_ok; assumption).
  assert (forall c, coord c (val3 e) = val (axis3 c e)) as Cv by (intros []; reflexivity).
  assert (2 ^ 52 = 4 * 2 ^ 50)%R as P52 by (simpl; ring). pose proof p52_small as P5.
  assert (/ 2 ^ 50 = 4 * / 2 ^ 52)%R as P50. { rewrite P52. field. }
  assert (dominated_by (val3 e) a) as Dv.
  { intros b Nb. rewrite !Cv. destruct (proj2 (H a)) as [ra [Fa Ea]]. destruct (proj2 (H b)) as [rb [Fb Eb]]. rewrite Ea, Eb, !Rabs_mult.
    apply fac1_num in Fa. apply fac1_num in Fb. rewrite (Rabs_pos_eq ra), (Rabs_pos_eq rb) by lra. specialize (D b Nb). rewrite P50 in D.
    pose proof (Rabs_pos (coord b E)) as Pb. set (u := (/ 2 ^ 52)%R) in *.
    apply Rle_lt_trans with (Rabs (coord b E) * (1 + u))%R; [apply Rmult_le_compat_l; lra|].
    apply Rlt_le_trans with (Rabs (coord a E) * (1 - u))%R; [|apply Rmult_le_compat_l; [apply Rabs_pos|lra]].
    apply Rle_lt_trans with (Rabs (coord b E) * (1 + 4 * u) * (1 - u))%R; [|apply Rmult_lt_compat_r; lra].
    rewrite Rmult_assoc. apply Rmult_le_compat_l; [exact Pb|nra]. }
  destruct (dominant_ok _ _ Dv) as [G Nz]. destruct (H XAxis) as [[Fx _] _]. destruct (H YAxis) as [[Fy _] _]. destruct (H ZAxis) as [[Fz _] _].
  rewrite (dominant_val e Fx Fy Fz), G. rewrite Cv in Nz |- *. destruct (proj2 (H a)) as [ra [Fa Ea]]. apply fac1_num in Fa. rewrite Ea in Nz |- *.
  assert (coord a E <> 0)%R as NE by (intros Z; apply Nz; rewrite Z; ring). split; [|exact NE]. f_equal.
  destruct (Rltb_spec (coord a E * ra) 0), (Rltb_spec (coord a E) 0); try reflexivity; exfalso; nra.
Qed.

(** ** The choice *)
Definition bcell (s : surface b64) (bu bv : bool) : vec4 b64 :=
  nth (Z.to_nat ((if bv then VCount (Net s) - 1 else 0) * UCount (Net s) + (if bu then UCount (Net s) - 1 else 0))) (Values (Net s)) (Vec4 n0 n0 n0 n1).
Lemma align_axes64 acos_ sort_ (s : surface b64) ua va a b : (forall l, Permutation (sort_ l) l) -> full_grid (Net s) ->
  2 <= UCount (Net s) -> 2 <= VCount (Net s) -> Forall big4 (Values (Net s)) ->
  let C (bu bv : bool) := val4 (bcell s bu bv) in
  (forall side, clearly_long (edge (C false side) (C true side)) /\ clearly_long (edge (C side false) (C side true))) ->
  clearly_dominated (edge (C false false) (C true false)) a -> clearly_dominated (edge (C false false) (C false true)) b ->
  (a = ua /\ b = va) \/ (a = va /\ b = ua) ->
  let x := coord a (edge (C false false) (C true false)) in let y := coord b (edge (C false false) (C false true)) in
  x <> 0%R /\ y <> 0%R /\
  Surface_AlignParameterDomain acos_ sort_ s ua va = (if axis_eqb a ua then align_apply s false (Rltb x 0) (Rltb y 0) else align_apply s true (Rltb y 0) (Rltb x 0)).
Proof.
  intros Rs Fg HU HV FB C Lg Da Db Mt x y. pose proof (full_grid_is _ Fg) as [f G].
  assert (forall bu bv : bool, Grid_Get (Net s) (if bu then UCount (Net s) - 1 else 0) (if bv then VCount (Net s) - 1 else 0) = Ok (bcell s bu bv)) as Get.
  { intros bu bv. rewrite (Grid_Get_ok _ _ _ _ _ _ G) by (destruct bu, bv; lia). f_equal. unfold bcell. destruct G as [_ [_ [_ [_ [_ Gn]]]]].
    symmetry. apply nth_error_nth. apply Gn; destruct bu, bv; lia. }
  assert (forall bu bv, big4 (bcell s bu bv)) as BC.
  { intros bu bv. rewrite Forall_forall in FB. apply FB. unfold bcell. apply nth_In. destruct Fg as [_ [_ L]]. unfold len in L.
    pose proof (idx_range (if bv then VCount (Net s) - 1 else 0) (if bu then UCount (Net s) - 1 else 0) (VCount (Net s)) (UCount (Net s)) ltac:(destruct bv; lia) ltac:(destruct bu; lia)). lia. }
  destruct (dominant64_ok _ _ a (BC false false) (BC true false) Da) as [Ga Na]. destruct (dominant64_ok _ _ b (BC false false) (BC false true) Db) as [Gb Nb].
  
  change (x <> 0%R) in Na. change (y <> 0%R) in Nb. split; [exact Na|]. split; [exact Nb|].
  unfold Surface_AlignParameterDomain. destruct (Z.ltb_spec (UCount (Net s)) 2); [lia|]. destruct (Z.ltb_spec (VCount (Net s)) 2); [lia|].
  cbn [orb]. cbv zeta. rewrite (Get false false), (Get true false), (Get false true), (Get true true). cbn [bind].
  match goal with |- context [sort_ [?a; ?b; ?c]] => assert (exists x y z, sort_ [a; b; c] = [x; y; z]) as [[e1 m1] [[e2 m2] [[e3 m3] Es]]] by
    (pose proof (Permutation_length (Rs [a; b; c])) as Pl; destruct (sort_ [a; b; c]) as [|? [|? [|? [|? ?]]]]; try discriminate; eauto) end.
  rewrite Es. clear Es.
  change (vget [(e1, m1); (e2, m2); (e3, m3)] 0) with (Ok (e1, m1)). change (vget [(e1, m1); (e2, m2); (e3, m3)] 1) with (Ok (e2, m2)).
  cbn [bind]. change (v3sub (head3 (bcell s true false)) (head3 (bcell s false false))) with (edge64 (bcell s false false) (bcell s true false)).
  change (v3sub (head3 (bcell s false true)) (head3 (bcell s false false))) with (edge64 (bcell s false false) (bcell s false true)).
  change (v3sub (head3 (bcell s true true)) (head3 (bcell s true false))) with (edge64 (bcell s true false) (bcell s true true)).
  change (v3sub (head3 (bcell s true true)) (head3 (bcell s false true))) with (edge64 (bcell s false true) (bcell s true true)).
  assert (forall bu bv bu' bv', clearly_long (edge (C bu bv) (C bu' bv')) -> ngtb (v3norm (edge64 (bcell s bu bv) (bcell s bu' bv'))) lit_1e_6 = true) as Lg'.
  { intros bu bv bu' bv' [c Hc]. apply (edge64_long _ _ c); auto. }
  cbn [foldM]. rewrite !Lg' by (apply Lg).
  destruct (v3normalized_b64 (edge64 (bcell s false false) (bcell s true false))) as [k1 E1]. destruct (v3normalized_b64 (edge64 (bcell s false false) (bcell s false true))) as [k2 E2].
  destruct (v3normalized_b64 (edge64 (bcell s true false) (bcell s true true))) as [k3 E3]. destruct (v3normalized_b64 (edge64 (bcell s false true) (bcell s true true))) as [k4 E4].
  rewrite E1, E2, E3, E4. cbn [bind Datatypes.app]. unfold align_axes at 1.
  match goal with |- context [len ?l <? 4] => change (len l <? 4) with false end. cbv iota.
  match goal with |- context [vget (?p :: ?q :: ?l) 0] => change (vget (p :: q :: l) 0) with (Ok p); change (vget (p :: q :: l) 1) with (Ok q) end.
  cbn [bind]. rewrite Ga, Gb. cbn [bind].
  change (coord a (edge (val4 (bcell s false false)) (val4 (bcell s true false)))) with x. change (coord b (edge (val4 (bcell s false false)) (val4 (bcell s false true)))) with y.
  assert (forall r, ((if Rltb r 0 then -1 else 1) <? 0) = Rltb r 0) as Sg by (intros r; destruct (Rltb r 0); reflexivity). rewrite !Sg.
  destruct (axis_eqb_spec a ua) as [Eu|Nu]; cbn [negb].
  - assert (b = va) as Ev by (destruct Mt as [[? ?]|[? ?]]; congruence). destruct (axis_eqb_spec b va); [|contradiction]. cbn [andb]. reflexivity.
  - destruct Mt as [[? ?]|[Ev Eu]]; [contradiction|]. destruct (axis_eqb_spec b ua) as [_|]; [|contradiction]. destruct (axis_eqb_spec a va) as [_|]; [|contradiction]. reflexivity.
Qed.

(** ** The result *)
Lemma corner_cell (s : surface b64) bu bv : net_corner (surface_val s) bu bv = val4 (bcell s bu bv).
Proof.
  unfold net_corner, bcell, gp, surface_val. cbn [Net UCount VCount Values].
  replace (Vec4 0 0 0 1 : vec4 R)%R with (val4 (Vec4 n0 n0 n0 n1)) by (unfold val4; cbn [x4 y4 z4 w4]; f_equal; (exact val_0 || exact val_1)). apply map_nth.
Qed.
Lemma turned_corner (s d : surface b64) sw ru rv : full_grid (Net s) -> UCount (Net s) * VCount (Net s) <= INT_MAX -> 1 <= UCount (Net s) -> 1 <= VCount (Net s) ->
  align_apply s sw ru rv = Ok d -> forall bu bv, let q := corner_sym sw ru rv bu bv in net_corner (surface_val d) bu bv = net_corner (surface_val s) (fst q) (snd q).
Proof.
  intros Fg Fit HU HV E bu bv q. destruct (full_grid_is _ Fg) as [f G]. destruct (align_apply_gen s _ _ _ sw ru rv G Fit) as [g [Eg Gg]].
  rewrite E in Eg. injection Eg as ->. destruct (Gg) as [Gu [Gv _]].
  pose proof (grid_map val4 _ _ _ _ G) as Gs. pose proof (grid_map val4 _ _ _ _ Gg) as Gd. unfold net_corner.
  rewrite (gp_grid (surface_val s) _ _ _ _ _ Gs) by (unfold q, corner_sym; destruct sw; cbn [fst snd surface_val Net UCount VCount]; [destruct (xorb rv bv), (xorb ru bu)|destruct (xorb ru bu), (xorb rv bv)]; lia).
  match goal with |- gp ?d _ _ = _ => rewrite (gp_grid d _ _ _ _ _ Gd) end.
  - unfold turn_cell, q, corner_sym. cbn [surface_val Net UCount VCount]. rewrite Gu, Gv. destruct sw, ru, rv, bu, bv; cbn [xorb fst snd]; do 2 f_equal; lia.
  - cbn [surface_val Net UCount VCount]. rewrite Gu. destruct sw, bu; lia.
  - cbn [surface_val Net UCount VCount]. rewrite Gv. destruct sw, bv; lia.
Qed.
Lemma small_big4 p : small3 (2 ^ 100) (spot p) -> big4 p.
Proof.
  assert (2 ^ 100 = bpow radix2 100)%R as E by (rewrite (pow_IZR 2 100); reflexivity). intros [A [B D]]. unfold coord_ok in *. rewrite E in *. repeat split; (apply A || apply B || apply D).
Qed.
Lemma C104_direction_lemma acos_ sort_ (s : surface b64) ua va a b : (forall l, Permutation (sort_ l) l) -> full_grid (Net s) -> UCount (Net s) * VCount (Net s) <= INT_MAX ->
  2 <= UCount (Net s) -> 2 <= VCount (Net s) -> Forall (fun p => small3 (2 ^ 100) (spot p)) (Values (Net s)) ->
  (forall side, clearly_long (edgeU (surface_val s) side) /\ clearly_long (edgeV (surface_val s) side)) ->
  clearly_dominated (edgeU (surface_val s) false) a -> clearly_dominated (edgeV (surface_val s) false) b ->
  (a = ua /\ b = va) \/ (a = va /\ b = ua) ->
  (0 < coord a (edgeU (surface_val s) false) * coord a (edgeU (surface_val s) true))%R -> (0 < coord b (edgeV (surface_val s) false) * coord b (edgeV (surface_val s) true))%R ->
  exists d sw ru rv, Surface_AlignParameterDomain acos_ sort_ s ua va = Ok d /\ turned s d sw ru rv /\
    forall side, (0 < coord ua (edgeU (surface_val d) side) /\ 0 < coord va (edgeV (surface_val d) side))%R.
Proof.
  intros Rs Fg Fit HU HV Sm Lg Da Db Mt SU SV.
  assert (Forall big4 (Values (Net s))) as FB by (eapply Forall_impl; [|exact Sm]; intros p; apply small_big4).
  unfold edgeU, edgeV in Lg, Da, Db.
  destruct (align_axes64 acos_ sort_ s ua va a b Rs Fg HU HV FB) as [Na [Nb E]].
  - intros side. rewrite <- !corner_cell. apply Lg.
  - rewrite <- !corner_cell. exact Da.
  - rewrite <- !corner_cell. exact Db.
  - exact Mt.
  - rewrite <- !corner_cell in E. fold (edgeU (surface_val s) false) in E. fold (edgeV (surface_val s) false) in E.
    destruct (axis_eqb_spec a ua) as [Eu|Nu].
    + assert (b = va) as Ev by (destruct Mt as [[? ?]|[? ?]]; congruence).
      set (ru := Rltb (coord a (edgeU (surface_val s) false)) 0) in *. set (rv := Rltb (coord b (edgeV (surface_val s) false)) 0) in *.
      destruct (turned_apply s false ru rv Fg Fit) as [d [Ed Td]]. exists d, false, ru, rv. split; [congruence|]. split; [exact Td|].
      pose proof (turned_corner s d false ru rv Fg Fit ltac:(lia) ltac:(lia) Ed) as Nd. cbv zeta in Nd. rewrite <- Eu, <- Ev.
      assert (forall side, coord a (edgeU (surface_val d) side) = (if ru then - coord a (edgeU (surface_val s) (xorb rv side)) else coord a (edgeU (surface_val s) (xorb rv side)))%R) as CU.
      { intros side. unfold edgeU. rewrite !Nd. cbn. destruct ru; cbn; [apply coord_edge|reflexivity]. }
      assert (forall side, coord b (edgeV (surface_val d) side) = (if rv then - coord b (edgeV (surface_val s) (xorb ru side)) else coord b (edgeV (surface_val s) (xorb ru side)))%R) as CV.
      { intros side. unfold edgeV. rewrite !Nd. cbn. destruct rv; cbn; [apply coord_edge|reflexivity]. }
      intros side. rewrite CU, CV. split; [apply (same_sign ru _ _ _ SU eq_refl)|apply (same_sign rv _ _ _ SV eq_refl)].
      * destruct rv, side; auto.
      * destruct ru, side; auto.
    + destruct Mt as [[? ?]|[Ev Eu]]; [contradiction|].
      set (ru := Rltb (coord b (edgeV (surface_val s) false)) 0) in *. set (rv := Rltb (coord a (edgeU (surface_val s) false)) 0) in *.
      destruct (turned_apply s true ru rv Fg Fit) as [d [Ed Td]]. exists d, true, ru, rv. split; [congruence|]. split; [exact Td|].
      pose proof (turned_corner s d true ru rv Fg Fit ltac:(lia) ltac:(lia) Ed) as Nd. cbv zeta in Nd. rewrite <- Eu, <- Ev.
      assert (forall side, coord b (edgeU (surface_val d) side) = (if ru then - coord b (edgeV (surface_val s) (xorb rv side)) else coord b (edgeV (surface_val s) (xorb rv side)))%R) as CU.
      { intros side. unfold edgeU, edgeV. rewrite !Nd. cbn. destruct ru; cbn; [apply coord_edge|reflexivity]. }
      assert (forall side, coord a (edgeV (surface_val d) side) = (if rv then - coord a (edgeU (surface_val s) (xorb ru side)) else coord a (edgeU (surface_val s) (xorb ru side)))%R) as CV.
      { intros side. unfold edgeU, edgeV. rewrite !Nd. cbn. destruct rv; cbn; [apply coord_edge|reflexivity]. }
      intros side. rewrite CU, CV. split; [apply (same_sign ru _ _ _ SV eq_refl)|apply (same_sign rv _ _ _ SU eq_refl)].
      * destruct rv, side; auto.
      * destruct ru, side; auto.
Qed.
