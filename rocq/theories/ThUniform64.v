(** KnotVector::Uniform on doubles (C100). *)
From Coq Require Import Reals ZArith List Lra Lia Bool SpecFloat.
From Flocq Require Import Core IEEE754.BinarySingleNaN.
From Verif Require Import Outcome Num ModelCore SpecCore ThOutcome ThReal ThKnots ThKnots2 ThVec ThB64 ThCoreWit ThRound ThErr ThBBox64.
Import ListNotations.
Open Scope Z_scope.

Lemma ofZ_val n : Z.abs n <= 2 ^ 53 -> finite64 (nofZ n : b64) /\ val (nofZ n) = IZR n.
Proof.
  intros H. change (nofZ n : b64) with (SpecFloat.binary_normalize 53 1024 n 0 false). rewrite normalize_equiv.
  pose proof (binary_normalize_correct 53 1024 ThRound.prec53 ThRound.emax1024 mode_NE n 0 false) as C. cbv zeta in C.
  assert (F2R (Float radix2 n 0) = IZR n) as E by (unfold F2R; cbn; ring). rewrite E in C.
  assert (round radix2 (SpecFloat.fexp 53 1024) (round_mode mode_NE) (IZR n) = IZR n) as Er.
  { apply round_generic; [typeclasses eauto|]. exact (int_format n H). }
  rewrite Er in C. rewrite Rlt_bool_true in C.
  2:{ rewrite <- abs_IZR. apply Rle_lt_trans with (IZR (2 ^ 53)); [apply IZR_le; exact H|].
      change (2 ^ 53) with (radix2 ^ 53). rewrite IZR_Zpower by lia. apply bpow_lt. lia. }
  destruct C as [V [Fi _]]. split.
  - split; [apply B_double|rewrite B_finite; exact Fi].
  - rewrite B_val. exact V.
Qed.

Lemma u64_53 : u64 = (/ 9007199254740992)%R.
Proof. reflexivity. Qed.
Lemma eta_tiny : (eta64 <= u64 * u64 * u64)%R.
Proof. unfold eta64, u64. rewrite <- !bpow_plus. apply bpow_le. lia. Qed.
Lemma rnd64_err x : (Rabs (rnd64 x - x) <= Rabs x * u64 + eta64)%R.
Proof.
  destruct (rnd64_rel x) as [e [t [He [Ht ->]]]]. replace (x * (1 + e) + t - x)%R with (x * e + t)%R by ring.
  eapply Rle_trans; [apply Rabs_triang|]. rewrite Rabs_mult. pose proof (Rabs_pos x). nra.
Qed.
Lemma small_ok x : (Rabs x <= 4)%R -> no_overflow x.
Proof. intros H. apply rnd64_big. eapply Rle_trans; [exact H|]. change 4%R with (bpow radix2 2). apply bpow_le. lia. Qed.

Section Middle.
  Variable k : Z.
  Hypothesis Hk : 0 <= k <= 2 ^ 31.
  Let g := (/ IZR (k + 1))%R.
  Lemma g_bounds : (/ 4294967296 <= g <= 1)%R /\ (IZR k * g = 1 - g)%R.
  Proof.
    assert (1 <= IZR (k + 1) <= 4294967296)%R as B by (split; apply IZR_le; lia). unfold g. split; [split|].
    - apply Rinv_le_contravar; lra.
    - rewrite <- Rinv_1. apply Rinv_le_contravar; lra.
    - rewrite plus_IZR. rewrite plus_IZR in B. field. lra.
  Qed.
  Definition step64 : b64 := SFdiv 53 1024 n1 (nofZ (k + 1)).
  Lemma step_ok : finite64 step64 /\ (Rabs (val step64 - g) <= g * u64 + eta64)%R.
  Proof.
    destruct g_bounds as [G _]. destruct (ofZ_val (k + 1) ltac:(lia)) as [F1 V1].
    assert (1 <= IZR (k + 1))%R as B by (apply IZR_le; lia).
    assert (val (n1 : b64) / val (nofZ (k + 1)) = g)%R as Eg by (rewrite V1, val_1; unfold g; lra).
    destruct (div_round (n1 : b64) (nofZ (k + 1)) finite_1 F1) as [q [Eq [Fd Vd]]].
    - rewrite V1. lra.
    - rewrite Eg. apply small_ok. rewrite Rabs_pos_eq; lra.
    - change (Ok step64 = Ok q) in Eq. assert (q = step64) as -> by congruence. split; [exact Fd|]. rewrite Vd, Eg.
      eapply Rle_trans; [apply rnd64_err|]. rewrite (Rabs_pos_eq g) by lra. lra.
  Qed.
  Definition knot64 (i : Z) : b64 := nmul (nofZ i) step64.
  Lemma knot_ok i : 1 <= i <= k -> finite64 (knot64 i) /\ (Rabs (val (knot64 i) - IZR i * g) <= 2 * u64)%R.
  Proof.
    intros Hi. destruct g_bounds as [G Gk]. destruct (ofZ_val i ltac:(lia)) as [Fi Vi]. destruct step_ok as [Fs Es].
    pose proof u64_53 as U. pose proof eta64_pos as Ep. pose proof eta_tiny as Et.
    assert (1 <= IZR i <= IZR k)%R as Bi by (split; apply IZR_le; lia).
    assert (IZR k <= 2147483648)%R as Bk by (apply IZR_le; lia).
    assert (0 < IZR i * g <= 1 - g)%R as Bx by (split; [apply Rmult_lt_0_compat; lra|rewrite <- Gk; apply Rmult_le_compat_r; lra]).
    set (x := (IZR i * g)%R) in *. set (s := val step64) in *.
    assert (Rabs (IZR i * s - x) <= x * u64 + IZR i * eta64)%R as E1.
    { replace (IZR i * s - x)%R with (IZR i * (s - g))%R by (unfold x; ring). rewrite Rabs_mult, (Rabs_pos_eq (IZR i)) by lra.
      eapply Rle_trans; [apply Rmult_le_compat_l; [lra|exact Es]|]. unfold x. lra. }
    assert (IZR i * eta64 <= 2147483648 * (u64 * u64 * u64))%R as E2.
    { apply Rmult_le_compat; try lra. }
    assert (Rabs (IZR i * s) <= 1)%R as B1.
    { apply Rabs_le. apply Rabs_le_inv in E1. rewrite U in *. nra. }
    destruct (mul_round (nofZ i) step64 Fi Fs) as [Fm Vm].
    { rewrite Vi. fold s. apply small_ok. lra. }
    split; [exact Fm|]. unfold knot64. rewrite Vm, Vi. fold s.
    pose proof (rnd64_err (IZR i * s)) as E3.
    replace (rnd64 (IZR i * s) - x)%R with ((rnd64 (IZR i * s) - IZR i * s) + (IZR i * s - x))%R by ring.
    eapply Rle_trans; [apply Rabs_triang|].
    assert (Rabs (IZR i * s) <= x + (x * u64 + IZR i * eta64))%R as B2.
    { apply Rabs_le. apply Rabs_le_inv in E1. lra. }
    assert (Rabs (IZR i * s) * u64 <= (x + (x * u64 + IZR i * eta64)) * u64)%R as B3 by (apply Rmult_le_compat_r; [rewrite U; lra|exact B2]).
    rewrite U in *. nra.
  Qed.
End Middle.

(** ** The knot vector *)
Lemma map_repeat_ {A B} (f : A -> B) a n : map f (repeat a n) = repeat (f a) n.
Proof. induction n as [|n IH]; [reflexivity|]. cbn. f_equal. exact IH. Qed.
Definition uniform64 (p k : Z) : list b64 :=
  repeat (n0 : b64) (Z.to_nat (p + 1)) ++ map (knot64 k) (zrange 1 (k + 1)) ++ repeat (n1 : b64) (Z.to_nat (p + 1)).
Section Vector.
  Variables (p k : Z).
  Hypothesis Hp : 0 <= p.
  Hypothesis Hk : 0 <= k <= 2 ^ 31.
  Lemma len_uniform64 : len (uniform64 p k) = k + 2 * (p + 1).
  Proof. unfold uniform64. rewrite !len_app, len_map, !len_repeat, len_zrange. lia. Qed.
  Lemma uniform64_finite : all_finite (uniform64 p k).
  Proof.
    unfold uniform64. apply Forall_app. split; [|apply Forall_app; split].
    - apply Forall_forall. intros x I. apply repeat_spec in I. subst x. exact finite_0.
    - apply Forall_forall. intros x I. apply in_map_iff in I. destruct I as [i [<- I]]. apply In_zrange in I. apply knot_ok; lia.
    - apply Forall_forall. intros x I. apply repeat_spec in I. subst x. exact finite_1.
  Qed.
  Lemma vals_uniform64 : vals (uniform64 p k) =
    repeat 0%R (Z.to_nat (p + 1)) ++ map (fun i => val (knot64 k i)) (zrange 1 (k + 1)) ++ repeat 1%R (Z.to_nat (p + 1)).
  Proof.
    unfold uniform64, vals. rewrite !map_app, map_map, !map_repeat_. rewrite <- val_1, <- val_0. reflexivity.
  Qed.
  Definition knotv (i : Z) : R := if i <=? p then 0%R else if i <=? p + k then val (knot64 k (i - p)) else 1%R.
  Lemma at_uniform64 i : 0 <= i < k + 2 * (p + 1) -> at_ (vals (uniform64 p k)) i = knotv i.
  Proof.
    intros Hi. rewrite vals_uniform64, at_znth. unfold knotv. destruct (Z.leb_spec i p).
    { rewrite znth_app1 by (rewrite ?len_repeat; lia). apply znth_repeat. lia. }
    rewrite znth_app2 by (rewrite len_repeat; lia). rewrite len_repeat.
    destruct (Z.leb_spec i (p + k)).
    - rewrite znth_app1 by (rewrite ?len_map, ?len_zrange; lia).
      rewrite znth_map with (d := 0) by (rewrite len_zrange; lia).
      rewrite znth_zrange by lia. f_equal. f_equal. lia.
    - rewrite znth_app2 by (rewrite len_map, len_zrange; lia). rewrite len_map, len_zrange. apply znth_repeat. lia.
  Qed.
  Lemma knotv_near i : (Rabs (knotv i - uniform_knot p k i) <= 2 * u64)%R.
  Proof.
    pose proof u64_53 as U. unfold knotv, uniform_knot. destruct (Z.leb_spec i p); [rewrite Rminus_0_r, Rabs_R0, U; lra|].
    destruct (Z.leb_spec i (p + k)); [|rewrite Rminus_eq_0, Rabs_R0, U; lra].
    apply knot_ok; lia.
  Qed.
  Lemma ideal_step i : p <= i <= p + k -> (uniform_knot p k (i + 1) - uniform_knot p k i = / IZR (k + 1))%R.
  Proof.
    intros Hi. assert (0 < IZR (k + 1))%R as K by (apply IZR_lt; lia). unfold uniform_knot.
    destruct (Z.leb_spec (i + 1) p); [lia|]. destruct (Z.leb_spec i p).
    - assert (i = p) as -> by lia. destruct (Z.leb_spec (p + 1) (p + k)).
      + replace (p + 1 - p) with 1 by lia. field. lra.
      + assert (k = 0) by lia. subst k. change (0 + 1) with 1. field.
    - destruct (Z.leb_spec i (p + k)); [|lia]. destruct (Z.leb_spec (i + 1) (p + k)).
      + replace (i + 1 - p) with (i - p + 1) by lia. rewrite (plus_IZR (i - p)). field. lra.
      + replace (i - p) with (k + 1 - 1) by lia. rewrite (minus_IZR (k + 1) 1). field. lra.
  Qed.
  Lemma knotv_step i : p <= i <= p + k -> (Rabs (knotv (i + 1) - knotv i - / IZR (k + 1)) <= 4 * u64)%R.
  Proof.
    intros Hi. rewrite <- (ideal_step i Hi). pose proof (knotv_near i) as A. pose proof (knotv_near (i + 1)) as B.
    apply Rabs_le. apply Rabs_le_inv in A, B. lra.
  Qed.
  Lemma knotv_flat i : i < p \/ p + k < i -> knotv (i + 1) = knotv i.
  Proof.
    intros Hi. unfold knotv. destruct (Z.leb_spec i p), (Z.leb_spec (i + 1) p); try lia; try reflexivity.
    destruct (Z.leb_spec i (p + k)), (Z.leb_spec (i + 1) (p + k)); try lia; reflexivity.
  Qed.
  Lemma knotv_lt i : p <= i <= p + k -> (knotv i < knotv (i + 1))%R.
  Proof.
    intros Hi. pose proof (knotv_step i Hi) as A. apply Rabs_le_inv in A. destruct (g_bounds k Hk) as [G _]. rewrite u64_53 in A. lra.
  Qed.
  Lemma knotv_step_le i : (knotv i <= knotv (i + 1))%R.
  Proof.
    destruct (Z.lt_ge_cases i p); [rewrite knotv_flat by lia; lra|].
    destruct (Z.lt_ge_cases (p + k) i); [rewrite knotv_flat by lia; lra|]. pose proof (knotv_lt i ltac:(lia)). lra.
  Qed.
  Lemma knotv_mono i n : (knotv i <= knotv (i + Z.of_nat n))%R.
  Proof.
    induction n as [|n IH]; [rewrite Z.add_0_r; lra|]. eapply Rle_trans; [exact IH|].
    replace (i + Z.of_nat (S n)) with (i + Z.of_nat n + 1) by lia. apply knotv_step_le.
  Qed.
  Lemma knotv_le i j : i <= j -> (knotv i <= knotv j)%R.
  Proof. intros H. pose proof (knotv_mono i (Z.to_nat (j - i))) as M. replace (i + Z.of_nat (Z.to_nat (j - i))) with j in M by lia. exact M. Qed.
  Lemma knotv_low i : i <= p -> knotv i = 0%R.
  Proof. intros. unfold knotv. destruct (Z.leb_spec i p); [reflexivity|lia]. Qed.
  Lemma knotv_high i : p + k < i -> knotv i = 1%R.
  Proof. intros. unfold knotv. destruct (Z.leb_spec i p); [lia|]. destruct (Z.leb_spec i (p + k)); [lia|reflexivity]. Qed.
  Lemma uniform64_clamped : clamped p (vals (uniform64 p k)).
  Proof.
    pose proof len_uniform64 as L. rewrite <- len_vals in L.
    constructor; rewrite ?L; try lia.
    - intros i j Hij Hj. rewrite L in Hj. rewrite !at_uniform64 by lia. apply knotv_le; lia.
    - intros i Hi. rewrite at_uniform64 by lia. apply knotv_low; lia.
    - rewrite at_uniform64 by lia. rewrite <- (knotv_low p) by lia. apply knotv_lt; lia.
    - rewrite at_uniform64 by lia. replace (k + 2 * (p + 1) - p - 2) with (p + k) by lia.
      rewrite <- (knotv_high (p + k + 1)) by lia. apply knotv_lt; lia.
    - intros i Hi. rewrite at_uniform64 by lia. apply knotv_high; lia.
  Qed.
End Vector.

(** ** IsUniform and DetectDegree on doubles *)
Lemma degree_loop_b64 l : all_finite l -> forall i, degree_loop i l = degree_loop i (vals l).
Proof.
  induction 1 as [|a l Fa _ IH]; intros i; [reflexivity|]. change (vals (a :: l)) with (val a :: vals l). cbn [degree_loop].
  change (nneb a n0) with (negb (SFeqb a (n0 : b64))). rewrite SFeqb_val by (try exact Fa; exact finite_0).
  replace (val n0) with 0%R by (symmetry; exact val_0). change (nneb (val a) n0) with (negb (Reqb (val a) 0)). rewrite IH. reflexivity.
Qed.
Section Loop.
  Variable g : R.
  Hypothesis Hg : (/ 4294967296 <= g <= 1)%R.
  Lemma near_g (d : R) : (Rabs (d - g) <= 4 * u64)%R -> (Rabs (rnd64 d - g) <= 6 * u64 /\ 0 < rnd64 d)%R.
  Proof.
    intros H. pose proof (rnd64_err d) as E. pose proof u64_53 as U. pose proof eta64_pos as Ep. pose proof eta_tiny as Et.
    assert (0 < d <= 1 + 4 * u64)%R as D by (apply Rabs_le_inv in H; rewrite U in *; lra). rewrite (Rabs_pos_eq d) in E by lra.
    assert (d * u64 + eta64 <= 2 * u64)%R as B by (rewrite U in *; nra).
    assert (Rabs (rnd64 d - g) <= 6 * u64)%R as Q.
    { apply Rabs_le. apply Rabs_le_inv in H, E. lra. }
    split; [exact Q|]. apply Rabs_le_inv in Q. rewrite U in *. lra.
  Qed.
  Lemma uniform_loop64 rest : forall interval prev : b64, finite64 interval -> finite64 prev -> all_finite rest ->
    (val interval = 0 \/ Rabs (val interval - g) <= 6 * u64)%R ->
    Forall (fun d => d = 0%R \/ (Rabs (d - g) <= 4 * u64)%R) (gaps (vals (prev :: rest))) -> uniform_loop interval prev rest = true.
  Proof.
    induction rest as [|a rest IH]; intros interval prev Fi Fp Fr Hi Fg; [reflexivity|].
    inversion Fr as [|? ? Fa Fr']; subst.
    change (gaps (vals (prev :: a :: rest))) with ((val a - val prev)%R :: gaps (vals (a :: rest))) in Fg.
    inversion Fg as [|? ? Hd Fg']; subst. pose proof u64_53 as U.
    assert (Rabs (val a - val prev) <= 2)%R as Bd.
    { destruct Hd as [->|Hd]; [rewrite Rabs_R0; lra|]. apply Rabs_le. apply Rabs_le_inv in Hd. rewrite U in *. lra. }
    destruct (sub_round a prev Fa Fp) as [Fc Vc]; [apply small_ok; lra|].
    assert (val (nsub a prev) = 0 \/ Rabs (val (nsub a prev) - g) <= 6 * u64 /\ 0 < val (nsub a prev))%R as Hc.
    { rewrite Vc.
      destruct Hd as [->|Hd]; [left; apply round_0; typeclasses eauto|right; apply near_g; exact Hd]. }
    set (curr := nsub a prev) in *. change (finite64 curr) in Fc.
    change (uniform_loop interval prev (a :: rest)) with
      (if SFeqb interval (n0 : b64) then uniform_loop curr a rest
       else if negb (Approx curr interval lit_1e_6) && negb (SFeqb curr (n0 : b64)) then false else uniform_loop interval a rest).
    rewrite (SFeqb_val interval), (SFeqb_val curr) by (try assumption; exact finite_0). replace (val n0) with 0%R by (symmetry; exact val_0).
    destruct (Reqb_spec (val interval) 0) as [E|E].
    - apply IH; try assumption. tauto.
    - destruct Hi as [Hi|Hi]; [contradiction|]. destruct Hc as [Hc|[Hc Pc]].
      + rewrite Hc. destruct (Reqb_spec 0 0); [|lra]. rewrite andb_false_r. apply IH; auto.
      + assert (Approx curr interval lit_1e_6 = true) as ->; [|apply IH; auto].
        destruct lit6 as [Fl Vl]. unfold Approx. assert (Rabs (val curr - val interval) <= 12 * u64)%R as Bc.
        { apply Rabs_le. apply Rabs_le_inv in Hc, Hi. lra. }
        destruct (sub_round curr interval Fc Fi) as [Fs Vs]; [apply small_ok; rewrite U in *; lra|].
        destruct (nabs_val (nsub curr interval) Fs) as [Fb Vb].
        change (SFltb (nabs (nsub curr interval)) (lit_1e_6 : b64) = true). rewrite SFltb_val, Vb by assumption.
        rewrite Vs.
        pose proof (rnd64_err (val curr - val interval)) as E3. pose proof eta_tiny as Et. pose proof eta64_pos as Ep.
        destruct (Rltb_spec (Rabs (rnd64 (val curr - val interval))) (val (lit_1e_6 : b64))) as [_|N]; [reflexivity|]. exfalso. apply N.
        eapply Rle_lt_trans; [|exact Vl]. change h20 with (/ 1048576)%R.
        pose proof (Rabs_triang_inv (rnd64 (val curr - val interval)) (val curr - val interval)) as T. rewrite U in *. nra.
  Qed.
End Loop.

Lemma Uniform64_eq p n : 0 <= p -> 2 * (p + 1) <= n <= 2 ^ 31 ->
  @KnotVector_Uniform b64 _ p n = Ok (uniform64 p (n - 2 * (p + 1))).
Proof.
  intros Hp Hn. unfold KnotVector_Uniform.
  destruct (Z.leb_spec 0 (n - (p + 1) * 2)); [|lia]. cbn [assert_ bind].
  destruct (Z.ltb_spec n 0); [lia|]. cbn [bind].
  set (k := n - 2 * (p + 1)). replace (n - (p + 1) * 2) with k by lia.
  change (ndiv (n1 : b64) (nofZ (k + 1))) with (Ok (step64 k)). cbn [bind].
  rewrite (tabulate_ok _ _ _ (knot64 k)) by reflexivity. cbn [bind].
  change (KnotVector_make (uniform64 p k) = Ok (uniform64 p k)).
  assert (0 <= k <= 2 ^ 31) as Hk by lia.
  unfold KnotVector_make. rewrite ValidateKnots_b64 by (apply uniform64_finite; assumption).
  pose proof (proj2 (ValidateKnots_R _) (clamped_acceptable _ _ (uniform64_clamped p k Hp Hk))) as ->. reflexivity.
Qed.

Lemma C100_lemma p n : 0 <= p -> 2 * (p + 1) <= n <= 2 ^ 31 ->
  exists l : list b64, KnotVector_Uniform p n = Ok l /\ all_finite l /\ len l = n /\ clamped p (vals l) /\
    (forall i, p <= i <= n - p - 2 -> (at_ (vals l) i < at_ (vals l) (i + 1))%R) /\
    (forall i, 0 <= i < n -> (Rabs (at_ (vals l) i - uniform_knot p (n - 2 * (p + 1)) i) <= / 2 ^ 52)%R) /\
    (4 <= n -> KnotVector_IsValid l = true) /\ KnotVector_IsUniform l = true /\ KnotVector_DetectDegree l = Ok p.
Proof.
  intros Hp Hn. set (k := n - 2 * (p + 1)). assert (0 <= k <= 2 ^ 31) as Hk by lia.
  assert (all_finite (uniform64 p k)) as Fa by (apply uniform64_finite; assumption). pose proof (uniform64_clamped p k Hp Hk) as C. assert (len (uniform64 p k) = k + 2 * (p + 1)) as L by (apply len_uniform64; assumption).
  exists (uniform64 p k). split; [apply Uniform64_eq; assumption|]. split; [exact Fa|]. split; [lia|]. split; [exact C|].
  split; [|split; [|split; [|split]]].
  - intros i Hi. rewrite !at_uniform64 by lia. apply knotv_lt; lia.
  - intros i Hi. rewrite at_uniform64 by lia. eapply Rle_trans; [apply knotv_near; lia|]. rewrite u64_53. lra.
  - intros H4. rewrite IsValid_b64 by exact Fa. apply clamped_valid with p; [exact C|]. rewrite len_vals. lia.
  - assert (Forall (fun d => d = 0%R \/ (Rabs (d - / IZR (k + 1)) <= 4 * u64)%R) (gaps (vals (uniform64 p k)))) as G.
    { apply Forall_forall. intros d Hd. apply (In_znth 0%R) in Hd. destruct Hd as [i [Hi Ei]]. rewrite <- at_znth in Ei.
      rewrite len_gaps, len_vals, L in Hi. subst d. rewrite at_gaps by (rewrite len_vals, L; lia). rewrite !at_uniform64 by lia.
      destruct (Z.lt_ge_cases i p); [left; rewrite knotv_flat by lia; lra|].
      destruct (Z.lt_ge_cases (p + k) i); [left; rewrite knotv_flat by lia; lra|]. right. apply knotv_step; lia. }
    destruct (uniform64 p k) as [|a r] eqn:E; [reflexivity|]. unfold KnotVector_IsUniform. inversion Fa; subst.
    apply (uniform_loop64 _ (proj1 (g_bounds k Hk))); try assumption; [exact finite_0|left; exact val_0].
  - unfold KnotVector_DetectDegree. rewrite degree_loop_b64 by exact Fa. apply (clamped_degree p _ C).
Qed.
