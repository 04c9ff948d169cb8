(** Operations on boxes of doubles (C114). *)
From Coq Require Import Reals QArith ZArith List Lra Lia Bool Floats.SpecFloat.
From Flocq Require Import Core Plus_error Relative.
From Verif Require Import Outcome Num ModelCore SpecCore SpecBox64 SpecGeom64 SpecBoxOps64
  ThOutcome ThReal ThB64 ThRound ThErr ThBox ThBBoxWit ThCoreWit ThDecide ThBBox64 ThUniform64 ThGeom64 ThErrWit.
From Verif Require ThCurveWit.
Import ListNotations.
Open Scope R_scope.

#[local] Instance prec53b : Prec_gt_0 53. Proof. reflexivity. Qed.
Lemma nan_ltb_l x : SFleb S754_nan x = false. Proof. destruct x; reflexivity. Qed.
Lemma nan_ltb_r x : SFleb x S754_nan = false. Proof. destruct x; reflexivity. Qed.
Lemma contains_val b p : finite_box b -> finite3 p -> BoundingBox_Contains b p = BoundingBox_Contains (box_val b) (val3 p).
Proof.
  intros [[A1 [A2 A3]] [B1 [B2 B3]]] [P1 [P2 P3]]. unfold BoundingBox_Contains, ngeb. cbn [box_val Min Max val3 x3 y3 z3].
  change (@nleb b64 Num_b64) with SFleb. rewrite !SFleb_val by assumption. reflexivity.
Qed.
Lemma contains_ok b p : finite_box b -> finite3 p -> (BoundingBox_Contains b p = true <-> in_box (val3 p) (box_val b)).
Proof. intros B P. rewrite contains_val by assumption. apply box_contains_spec. Qed.
Lemma contains_nan b p : nan3 p \/ nan3 (Min b) \/ nan3 (Max b) -> BoundingBox_Contains b p = false.
Proof.
  unfold nan3, BoundingBox_Contains, ngeb. change (@nleb b64 Num_b64) with SFleb.
  intros [[->|[->| ->]]|[[->|[->| ->]]|[->|[->| ->]]]]; rewrite ?nan_ltb_l, ?nan_ltb_r, ?andb_false_r, ?andb_false_l; reflexivity.
Qed.
Lemma C114_contains_lemma : forall (b : bbox b64) p,
  (finite_box b -> finite3 p -> (BoundingBox_Contains b p = true <-> in_box (val3 p) (box_val b))) /\
  (nan3 p \/ nan3 (Min b) \/ nan3 (Max b) -> BoundingBox_Contains b p = false).
Proof. intros b p. split; [apply contains_ok|apply contains_nan]. Qed.
Lemma C114_contains_box_lemma : forall b c : bbox b64, finite_box b -> finite_box c -> ordered (box_val c) ->
  (BoundingBox_Contains_box b c = true <-> box_incl (box_val c) (box_val b)).
Proof.
  intros b c B [C1 C2] O. unfold BoundingBox_Contains_box. rewrite !contains_val by assumption. exact (box_contains_box_spec (box_val b) (box_val c) O).
Qed.
Lemma C114_make_lemma : forall a b : vec3 b64, finite3 a -> finite3 b ->
  let m := BoundingBox_make a b in
  finite_box m /\ ordered (box_val m) /\ BoundingBox_Contains m a = true /\ BoundingBox_Contains m b = true /\
  forall d, in_box (val3 a) d -> in_box (val3 b) d -> box_incl (box_val m) d.
Proof.
  intros a b A B m. destruct (make_val a b A B) as [F V]. fold m in F, V. split; [exact F|]. rewrite !contains_ok by assumption. rewrite V.
  split; [apply box_make_ordered|]. split; [apply box_make_left|]. split; [apply box_make_right|]. intros d. apply box_make_least.
Qed.
Lemma C114_join_lemma : forall b c : bbox b64, finite_box b -> finite_box c -> ordered (box_val b) -> ordered (box_val c) ->
  let j := BoundingBox_ExpandToInclude_box b c in
  finite_box j /\ ordered (box_val j) /\ BoundingBox_Contains_box j b = true /\ BoundingBox_Contains_box j c = true /\
  forall d, box_incl (box_val b) d -> box_incl (box_val c) d -> box_incl (box_val j) d.
Proof.
  intros b c B C Ob Oc j. destruct (join_val b c B C) as [F V]. fold j in F, V. split; [exact F|]. rewrite !C114_contains_box_lemma by assumption. rewrite V.
  assert (forall q, in_box q (box_val b) -> ordered (BoundingBox_ExpandToInclude_box (box_val b) (box_val c))) as H.
  { intros q Hq. apply box_join_left with (c := box_val c) in Hq. destruct Hq as [[H1 [H2 H3]] [H4 [H5 H6]]]. repeat split; lra. }
  split; [|split; [apply box_join_left|split; [apply box_join_right|intros d; apply box_join_least; assumption]]].
  apply (H (Min (box_val b))). split; [|exact Ob]. repeat split; apply Rle_refl.
Qed.
Lemma C114_expand_lemma : forall (b : bbox b64) p, finite_box b -> finite3 p ->
  let e := BoundingBox_ExpandToInclude b p in
  finite_box e /\ BoundingBox_Contains e p = true /\ val3 (Max e) = val3 p /\ val3 (Min e) = v3min (val3 (Min b)) (val3 p).
Proof.
  intros b p B P e. destruct (expand_val b p B P) as [F V]. fold e in F, V. split; [exact F|]. rewrite contains_ok by assumption. rewrite V.
  split; [apply box_expand_contains|]. rewrite box_expand_point in V. split; [exact (f_equal Max V)|exact (f_equal Min V)].
Qed.

(** ** Centre *)
Lemma mid_fine (a b : b64) : coord_ok (bpow radix2 1022) a -> coord_ok (bpow radix2 1022) b -> val a <= val b ->
  mid_ok (nmul (nlit (1 # 2)) (nadd a b)) a b.
Proof.
  intros [Fa Ba] [Fb Bb] H. assert (bpow radix2 1023 = 2 * bpow radix2 1022) as E23 by (change 1023%Z with (1 + 1022)%Z; rewrite bpow_plus; reflexivity).
  destruct (add_round a b Fa Fb) as [Fs Vs]. { apply rnd64_big. rewrite E23. pose proof (Rabs_triang (val a) (val b)). lra. }
  destruct (mul_half (nadd a b) Fs) as [Fm Vm]. split; [exact Fm|]. rewrite Vm. clear Vm Fm.
  pose proof (val_format a Fa) as Ga. pose proof (val_format b Fb) as Gb.
  assert (2 * val a <= val (nadd a b) <= 2 * val b) as S. { rewrite Vs. rewrite <- (rnd64_id (2 * val a)) by (apply double_format; exact Ga). rewrite <- (rnd64_id (2 * val b)) by (apply double_format; exact Gb). split; apply rnd64_le; lra. }
  set (s := val (nadd a b)) in *. split.
  - rewrite <- (rnd64_id (val a)) at 1 by exact Ga. rewrite <- (rnd64_id (val b)) by exact Gb. split; apply rnd64_le; lra.
  - pose proof (rnd64_err (s / 2)) as E1. pose proof (rnd64_err (val a + val b)) as E2. rewrite <- Vs in E2. pose proof u64_53 as U. rewrite U in E1, E2.
    assert (/ 2 ^ 1074 = 2 * eta64) as ->.
    { unfold eta64. change (-1075)%Z with (-1074 + -1)%Z. rewrite bpow_plus. replace (bpow radix2 (-1)) with (/ 2) by reflexivity. change (bpow radix2 (-1074)) with (/ bpow radix2 1074). replace (bpow radix2 1074) with (2 ^ 1074); [field; apply pow_nonzero; lra|]. rewrite bpow_powerRZ. reflexivity. }
    assert (/ 2 ^ 52 = 2 * / 9007199254740992) as -> by lra. pose proof eta64_pos as Ep.
    assert (Rabs s <= (1 + / 9007199254740992) * Rabs (val a + val b) + eta64) as Bs. { pose proof (Rabs_triang (s - (val a + val b)) (val a + val b)) as T. replace (s - (val a + val b) + (val a + val b)) with s in T by ring. lra. }
    assert (Rabs (s / 2) = Rabs s / 2) as Es by (unfold Rdiv; rewrite Rabs_mult, (Rabs_pos_eq (/ 2)) by lra; reflexivity). rewrite Es in E1.
    pose proof (Rabs_pos (val a + val b)) as P0. set (t := Rabs (val a + val b)) in *. apply Rabs_le. apply Rabs_le_inv in E1, E2. lra.
Qed.
Lemma C114_center_lemma : forall b : bbox b64, small_box (bpow radix2 1022) b -> ordered (box_val b) ->
  let m := BoundingBox_Center b in
  mid_ok (x3 m) (x3 (Min b)) (x3 (Max b)) /\ mid_ok (y3 m) (y3 (Min b)) (y3 (Max b)) /\ mid_ok (z3 m) (z3 (Min b)) (z3 (Max b)) /\ BoundingBox_Contains b m = true.
Proof.
  intros b [[A1 [A2 A3]] [B1 [B2 B3]]] [O1 [O2 O3]] m. pose proof (mid_fine _ _ A1 B1 O1) as M1. pose proof (mid_fine _ _ A2 B2 O2) as M2. pose proof (mid_fine _ _ A3 B3 O3) as M3.
  split; [exact M1|]. split; [exact M2|]. split; [exact M3|]. destruct M1 as [F1 [[L1 U1] _]], M2 as [F2 [[L2 U2] _]], M3 as [F3 [[L3 U3] _]].
  apply contains_ok; [split; split; try apply A1; try apply B1; split; [apply A2|apply A3|apply B2|apply B3]|split; [exact F1|split; [exact F2|exact F3]]|].
  split; split; try assumption; split; assumption.
Qed.
(** the largest double *)
Definition dmax : b64 := S754_finite false 9007199254740991 971.
Lemma C114_center_overflow_lemma : exists b : bbox b64, finite_box b /\ ordered (box_val b) /\ x3 (BoundingBox_Center b) = S754_infinity false /\ BoundingBox_Contains b (BoundingBox_Center b) = false.
Proof.
  exists (BBox (Vec3 dmax dz dz) (Vec3 dmax dz dz)). assert (finite64 dmax) by (apply finb_spec; reflexivity). assert (finite64 dz) by (apply finb_spec; reflexivity).
  split; [split; split; try assumption; split; assumption|]. split; [split; [|split]; apply Rle_refl|]. split; vm_compute; reflexivity.
Qed.

(** ** Length and volume *)
Lemma side_fine (a b : b64) : coord_ok (bpow radix2 1022) a -> coord_ok (bpow radix2 1022) b -> val a <= val b -> side_ok (nsub b a) a b.
Proof.
  intros [Fa Ba] [Fb Bb] H. assert (bpow radix2 1023 = 2 * bpow radix2 1022) as E23 by (change 1023%Z with (1 + 1022)%Z; rewrite bpow_plus; reflexivity).
  destruct (sub_round b a Fb Fa) as [Fs Vs]. { apply rnd64_big. rewrite E23. apply Rabs_le. apply Rabs_le_inv in Ba, Bb. lra. }
  pose proof (val_format a Fa) as Ga. pose proof (val_format b Fb) as Gb.
  destruct (FLT_plus_error_N_ex radix2 (-1074) 53 (fun n => negb (Z.even n)) (val b) (- val a) Gb (generic_format_opp _ _ _ Ga)) as [eps [He E]].
  assert (u_ro radix2 53 = u64) as Eu by (unfold u_ro; change (/ 2) with (bpow radix2 (-1)); rewrite <- bpow_plus; reflexivity).
  assert (Rabs eps <= u64) as Hu. { refine (Rle_trans _ _ _ He _). rewrite Eu. pose proof u64_pos. apply (Rmult_le_reg_r (1 + u64)); [lra|]. unfold Rdiv. rewrite Rmult_assoc, Rinv_l by lra. nra. }
  change (rnd64 (val b - val a) = (val b - val a) * (1 + eps)) in E. rewrite E in Vs. clear He E. rewrite u64_53 in Hu. assert (Rabs eps <= / 2) as Hh by lra. apply Rabs_le_inv in Hh.
  split; [exact Fs|]. rewrite Vs. split; [nra|]. split.
  - split; intros Hz; [|rewrite Hz; ring]. apply Rmult_integral in Hz. destruct Hz as [Hz|Hz]; lra.
  - replace ((val b - val a) * (1 + eps) - (val b - val a)) with (eps * (val b - val a)) by ring. rewrite Rabs_mult, (Rabs_pos_eq (val b - val a)) by lra.
    apply Rmult_le_compat_r; [lra|]. lra.
Qed.
Lemma C114_length_lemma : forall b : bbox b64, small_box (bpow radix2 1022) b -> ordered (box_val b) ->
  let l := BoundingBox_Length b in side_ok (x3 l) (x3 (Min b)) (x3 (Max b)) /\ side_ok (y3 l) (y3 (Min b)) (y3 (Max b)) /\ side_ok (z3 l) (z3 (Min b)) (z3 (Max b)).
Proof.
  intros b [[A1 [A2 A3]] [B1 [B2 B3]]] [O1 [O2 O3]] l. split; [|split]; apply side_fine; assumption.
Qed.
Lemma side_ap (a b : b64) : coord_ok (2 ^ 300) a -> coord_ok (2 ^ 300) b -> val a <= val b -> ap 1 0 (nsub b a) (val b - val a) /\ 0 <= val b - val a <= 2 ^ 301.
Proof.
  intros [Fa Ba] [Fb Bb] H. assert (2 ^ 301 = 2 * 2 ^ 300) as E by (change 301%nat with (1 + 300)%nat; rewrite pow_add; ring).
  assert (Rabs (val b - val a) <= 2 ^ 301) as B by (rewrite E; apply Rabs_le; apply Rabs_le_inv in Ba, Bb; lra). split.
  - apply sub_exact; [exact Fb|exact Fa|]. eapply Rle_trans; [exact B|]. rewrite bpow_powerRZ. change (powerRZ (IZR radix2) 1023) with (2 ^ 1023). apply Rle_pow; [lra|lia].
  - apply Rabs_le_inv in B. lra.
Qed.
Lemma C114_volume_lemma : forall b : bbox b64, small_box (2 ^ 300) b -> ordered (box_val b) ->
  let v := ((val (x3 (Max b)) - val (x3 (Min b))) * (val (y3 (Max b)) - val (y3 (Min b))) * (val (z3 (Max b)) - val (z3 (Min b)))) in
  finite64 (BoundingBox_Volume b) /\ 0 <= val (BoundingBox_Volume b) /\ Rabs (val (BoundingBox_Volume b) - v) <= 15 / 2 ^ 53 * v + / 2 ^ 700.
Proof.
  intros b [[A1 [A2 A3]] [B1 [B2 B3]]] [O1 [O2 O3]] v. destruct (side_ap _ _ A1 B1 O1) as [P1 [X0 X1]]. destruct (side_ap _ _ A2 B2 O2) as [P2 [Y0 Y1]]. destruct (side_ap _ _ A3 B3 O3) as [P3 [Z0 Z1]].
  unfold BoundingBox_Volume, BoundingBox_Length, v3sub. cbn [x3 y3 z3].
  set (lx := nsub (x3 (Max b)) (x3 (Min b))) in *. set (ly := nsub (y3 (Max b)) (y3 (Min b))) in *. set (lz := nsub (z3 (Max b)) (z3 (Min b))) in *.
  set (x := val (x3 (Max b)) - val (x3 (Min b))) in *. set (y := val (y3 (Max b)) - val (y3 (Min b))) in *. set (z := val (z3 (Max b)) - val (z3 (Min b))) in *.
  pose proof u64_53 as U. pose proof u64_pos as U0. pose proof eta64_pos as Ep. assert (r64 = 1 + 2 * u64) as Er by reflexivity. assert (1 < r64 < 3 / 2) as Hr by (rewrite Er; lra).
  assert (r64 ^ 3 <= 4) as R3 by (cbn [pow]; nra). assert (r64 ^ 1 <= 2) as R1 by (cbn [pow]; lra). assert (1 <= r64 ^ 3) as R3' by apply r_pow_ge1. assert (1 <= r64 ^ 1) as R1' by apply r_pow_ge1.
  assert (eta64 <= / 2 ^ 1010) as Eta. { unfold eta64. rewrite bpow_powerRZ. change (powerRZ (IZR radix2) (-1075)) with (/ 2 ^ 1075). apply Rinv_le; [apply pow_lt; lra|]. apply Rle_pow; [lra|lia]. }
  assert (2 ^ 302 * 2 ^ 302 = 2 ^ 604) as E604 by (rewrite <- pow_add; reflexivity). assert (2 ^ 302 = 2 * 2 ^ 301) as E302 by (change 302%nat with (1 + 301)%nat; rewrite pow_add; ring).
  assert (0 < 2 ^ 301) as Q0 by (apply pow_lt; lra). assert (0 < 2 ^ 604) as Q604 by (apply pow_lt; lra).
  assert (bpow radix2 1023 = 2 ^ 1023) as E1023 by (rewrite bpow_powerRZ; reflexivity).
  assert (0 <= x * r64 ^ 1 <= 2 ^ 302) as Bx by (split; [apply Rmult_le_pos; lra|rewrite E302, Rmult_comm; apply Rmult_le_compat; lra]).
  assert (0 <= y * r64 ^ 1 <= 2 ^ 302) as By by (split; [apply Rmult_le_pos; lra|rewrite E302, Rmult_comm; apply Rmult_le_compat; lra]).
  assert (0 <= z * r64 ^ 1 <= 2 ^ 302) as Bz by (split; [apply Rmult_le_pos; lra|rewrite E302, Rmult_comm; apply Rmult_le_compat; lra]).
  assert (ap 3 eta64 (nmul lx ly) (x * y)) as Pxy.
  { refine (ap_weak _ _ _ _ _ _ _ _ (ap_mul 1 1 0 0 lx ly x y P1 P2 X0 Y0 (Rle_refl 0) (Rle_refl 0) _)); [lia|lra|].
    rewrite !Rplus_0_r. apply Rle_trans with (2 ^ 604); [rewrite <- E604; apply Rmult_le_compat; lra|]. rewrite E1023. apply Rle_pow; [lra|lia]. }
  assert (0 <= x * y <= 2 ^ 604) as Bxy. { split; [apply Rmult_le_pos; assumption|]. rewrite <- E604. apply Rmult_le_compat; lra. }
  assert (/ 2 ^ 1010 <= 1) as T1 by (rewrite <- Rinv_1; apply Rinv_le; [lra|apply pow_R1_Rle; lra]). assert (1 <= 2 ^ 604) as T604 by (apply pow_R1_Rle; lra).
  assert (0 <= x * y * r64 ^ 3) as Pos by (apply Rmult_le_pos; lra).
  assert (x * y * r64 ^ 3 <= 2 ^ 604 * 4) as Bxy3 by (apply Rmult_le_compat; lra).
  pose proof (ap_mul 3 1 eta64 0 (nmul lx ly) lz (x * y) z Pxy P3 (proj1 Bxy) Z0 (Rlt_le _ _ Ep) (Rle_refl 0)) as Pv.
  assert ((x * y * r64 ^ 3 + eta64) * (z * r64 ^ 1 + 0) <= bpow radix2 1023) as Ov.
  { rewrite Rplus_0_r, E1023. apply Rle_trans with (2 ^ 607 * 2 ^ 302); [|rewrite <- pow_add; apply Rle_pow; [lra|lia]].
    assert (2 ^ 607 = 8 * 2 ^ 604) as -> by (change 607%nat with (3 + 604)%nat; rewrite pow_add; ring). apply Rmult_le_compat; lra. }
  destruct (Pv Ov) as [Fv [rho [Fr Ab]]]. clear Pv Ov. split; [exact Fv|].
  assert (x * y * r64 ^ 3 * 0 + z * r64 ^ 1 * eta64 + eta64 * 0 = z * r64 ^ 1 * eta64) as Ez by ring. rewrite Ez in Ab. clear Ez.
  pose proof (fac_pos _ _ Fr) as Pr. pose proof (fac_abs _ _ Fr) as Fa. replace (INR (3 + 1 + 1)) with 5 in Fa by (cbn; lra). specialize (Fa ltac:(lra)).
  assert (0 <= x * y * z) as Pv by (apply Rmult_le_pos; [apply Bxy|exact Z0]).
  assert (z * r64 ^ 1 * eta64 * r64 + eta64 <= / 2 ^ 700) as Tiny.
  { assert (z * r64 ^ 1 * eta64 <= 2 ^ 302 * / 2 ^ 1010) as I1 by (apply Rmult_le_compat; lra).
    assert (2 ^ 302 * / 2 ^ 1010 = / 2 ^ 708) as I2 by (change 1010%nat with (302 + 708)%nat; rewrite pow_add; field; split; apply pow_nonzero; lra).
    assert (/ 2 ^ 1010 <= / 2 ^ 708) as I3 by (apply Rinv_le; [apply pow_lt; lra|apply Rle_pow; [lra|lia]]).
    assert (/ 2 ^ 700 = 256 * / 2 ^ 708) as -> by (change 708%nat with (8 + 700)%nat; rewrite pow_add; field; apply pow_nonzero; lra).
    assert (0 < / 2 ^ 708) by (apply Rinv_0_lt_compat, pow_lt; lra).
    assert (z * r64 ^ 1 * eta64 * r64 <= / 2 ^ 708 * 2) by (apply Rmult_le_compat; try lra; apply Rmult_le_pos; lra). lra. }
  split.
  - destruct P1 as [F1 [r1 [G1 H1]]], P2 as [F2 [r2 [G2 H2]]], P3 as [F3 [r3 [G3 H3]]].
    assert (forall L t s, fac 1 s -> 0 <= t -> Rabs (L - t * s) <= 0 -> 0 <= L) as Nn. { intros L t s G Ht H. pose proof (fac_pos _ _ G). apply Rabs_le_inv in H. nra. }
    pose proof (Nn _ _ _ G1 X0 H1) as N1. pose proof (Nn _ _ _ G2 Y0 H2) as N2. pose proof (Nn _ _ _ G3 Z0 H3) as N3.
    assert (forall p q : b64, finite64 p -> finite64 q -> finite64 (nmul p q) -> no_overflow (val p * val q) -> 0 <= val p -> 0 <= val q -> 0 <= val (nmul p q)) as Mn.
    { intros p q Fp Fq _ Ho Np Nq. destruct (mul_round p q Fp Fq Ho) as [_ ->]. rewrite <- (rnd64_id 0) by apply generic_format_0. apply rnd64_le. apply Rmult_le_pos; assumption. }
    assert (forall L t s : R, fac 1 s -> 0 <= t <= 2 ^ 301 -> Rabs (L - t * s) <= 0 -> L <= 2 ^ 302) as Up.
    { intros L t s G Ht H. pose proof (fac_pos _ _ G) as Ps. destruct G as [_ G]. apply Rabs_le_inv in H. assert (t * s <= 2 ^ 301 * 2) by (apply Rmult_le_compat; lra). lra. }
    pose proof (Up _ _ _ G1 (conj X0 X1) H1) as V1. pose proof (Up _ _ _ G2 (conj Y0 Y1) H2) as V2. pose proof (Up _ _ _ G3 (conj Z0 Z1) H3) as V3.
    assert (forall L1 L2 : R, 0 <= L1 <= 2 ^ 606 -> 0 <= L2 <= 2 ^ 302 -> no_overflow (L1 * L2)) as No.
    { intros L1 L2 Q1 Q2. apply rnd64_big. rewrite Rabs_pos_eq by (apply Rmult_le_pos; lra). apply Rle_trans with (2 ^ 606 * 2 ^ 302); [apply Rmult_le_compat; lra|]. rewrite <- pow_add, E1023. apply Rle_pow; [lra|lia]. }
    assert (2 ^ 302 <= 2 ^ 606) as L606 by (apply Rle_pow; [lra|lia]).
    assert (0 <= val (nmul lx ly)) as N12 by (apply Mn; try assumption; [apply Pxy|apply No; lra]).
    apply Mn; try assumption; [apply Pxy|]. apply No; [|lra]. split; [exact N12|]. destruct Pxy as [_ [r4 [G4 H4]]]. apply Rabs_le_inv in H4.
    assert (x * y * r4 <= 2 ^ 604 * 4). { apply Rmult_le_compat; try lra. - exact (Rlt_le _ _ (fac_pos _ _ G4)). - destruct G4 as [_ G4]. lra. }
    assert (2 ^ 606 = 4 * 2 ^ 604) as -> by (change 606%nat with (2 + 604)%nat; rewrite pow_add; ring).
    assert (val (nmul lx ly) <= 2 ^ 604 * 4); [|lra]. destruct (mul_round lx ly F1 F2) as [_ ->]; [apply No; lra|].
    assert (generic_format radix2 (FLT_exp (-1074) 53) (2 ^ 604)) as G604. { replace (2 ^ 604) with (bpow radix2 604) by (rewrite bpow_powerRZ; reflexivity). apply generic_format_bpow. vm_compute. discriminate. }
    assert (rnd64 (val lx * val ly) <= 2 ^ 604); [|lra]. rewrite <- (rnd64_id (2 ^ 604)) by exact G604. apply rnd64_le. rewrite <- E604. apply Rmult_le_compat; lra.
  - change v with (x * y * z). set (V := val (nmul (nmul lx ly) lz)) in *. set (w := x * y * z) in *.
    assert (Rabs (w * rho - w) <= 15 * u64 * w) as W. { replace (w * rho - w) with ((rho - 1) * w) by ring. rewrite Rabs_mult, (Rabs_pos_eq w) by exact Pv. apply Rmult_le_compat_r; lra. }
    replace (15 / 2 ^ 53) with (15 * u64) by (rewrite U; lra). apply Rabs_le. apply Rabs_le_inv in W, Ab. lra.
Qed.
(** 2^-400 *)
Definition dtiny : b64 := S754_finite false 4503599627370496 (-452).
Lemma C114_volume_zero_lemma : exists b : bbox b64, finite_box b /\ (val (x3 (Min b)) < val (x3 (Max b)) /\ val (y3 (Min b)) < val (y3 (Max b)) /\ val (z3 (Min b)) < val (z3 (Max b))) /\
  BoundingBox_Volume b = S754_zero false.
Proof.
  exists (BBox (Vec3 dz dz dz) (Vec3 dtiny dtiny dtiny)). assert (finite64 dtiny) by (apply finb_spec; reflexivity). assert (finite64 dz) by (apply finb_spec; reflexivity).
  split; [split; split; try assumption; split; assumption|]. assert (val dz < val dtiny) by (apply Rltb_true; rewrite <- SFltb_val by assumption; reflexivity).
  split; [split; [assumption|split; assumption]|]. vm_compute. reflexivity.
Qed.

(** ** An example *)
Definition boxq : vec3 b64 := Vec3 (dq (1 # 3)) dz (dq (- (1 # 7))).
Definition boxr : vec3 b64 := Vec3 (dq (- (2 # 3))) (dq (1 # 10)) done_.
Definition box_ex : bbox b64 := BoundingBox_make boxq boxr.
Lemma box_pts : finite3 boxq /\ finite3 boxr.
Proof. split; (split; [|split]); apply finb_spec; vm_compute; reflexivity. Qed.
Lemma box_fine : finite_box box_ex /\ ordered (box_val box_ex).
Proof. destruct (C114_make_lemma boxq boxr (proj1 box_pts) (proj2 box_pts)) as [A [B _]]. split; assumption. Qed.
Lemma coord_one M (x : b64) : 1 <= M -> finb x && SFleb dmone x && SFleb x done_ = true -> coord_ok M x.
Proof.
  intros HM H. rewrite !andb_true_iff, finb_spec in H. destruct H as [[Fx H1] H2]. split; [exact Fx|].
  rewrite SFleb_val in H1, H2 by (assumption || apply finite_done || (apply finb_spec; reflexivity)). rewrite Rleb_true in H1, H2. rewrite val_dmone in H1. rewrite ThCurveWit.val_done in H2. apply Rabs_le. lra.
Qed.
Lemma box_small M : 1 <= M -> small_box M box_ex.
Proof. intros HM. split; (split; [|split]); (apply coord_one; [exact HM|vm_compute; reflexivity]). Qed.
Lemma one_1022 : 1 <= bpow radix2 1022.
Proof. change 1 with (bpow radix2 0). apply bpow_le. discriminate. Qed.
