(** Knot removal with a positive tolerance: how far the curve moves.  Used by C87. *)
From Coq Require Import Reals ZArith List Lra Lia Bool Permutation.
From Verif Require Import Outcome Num ModelCore ModelAlgo ModelCurve SpecCore SpecBasis SpecCurve SpecSearch
  ThOutcome ThReal ThKnots ThVec ThSum ThSpline ThBasis ThCurve ThInsert ThSurface ThCurveWit ThRemove ThRemove2 ThRemove3 ThRemoveWit.
Import ListNotations.
Open Scope Z_scope.

(** ** Norms *)
Lemma v4norm_sq (a : vec4 R) : (v4norm a * v4norm a = x4 a * x4 a + y4 a * y4 a + z4 a * z4 a + w4 a * w4 a)%R.
Proof. unfold v4norm. norm_R. apply sqrt_sqrt. nra. Qed.
Lemma sq_le a b : (0 <= b)%R -> (a * a <= b * b)%R -> (a <= b)%R.
Proof. intros Hb H. destruct (Rle_dec a b); [assumption|]. nra. Qed.
Lemma v4norm_scale c (a : vec4 R) : (v4norm (v4scale c a) = Rabs c * v4norm a)%R.
Proof.
  pose proof (v4norm_nonneg a). pose proof (v4norm_nonneg (v4scale c a)). pose proof (Rabs_pos c).
  assert (v4norm (v4scale c a) * v4norm (v4scale c a) = (Rabs c * v4norm a) * (Rabs c * v4norm a))%R as E.
  { replace (Rabs c * v4norm a * (Rabs c * v4norm a))%R with ((Rabs c * Rabs c) * (v4norm a * v4norm a))%R by ring.
    rewrite !v4norm_sq. rewrite <- Rabs_mult, Rabs_right by nra. cbn [v4scale x4 y4 z4 w4]. norm_R. ring. }
  apply Rle_antisym; apply sq_le; try lra; try (apply Rmult_le_pos; assumption).
Qed.
Lemma v4norm_add (a b : vec4 R) : (v4norm (v4add a b) <= v4norm a + v4norm b)%R.
Proof.
  pose proof (v4norm_nonneg a) as A. pose proof (v4norm_nonneg b) as B. apply sq_le; [lra|].
  pose proof (v4norm_sq a) as SA. pose proof (v4norm_sq b) as SB.
  assert (x4 a * x4 b + y4 a * y4 b + z4 a * z4 b + w4 a * w4 b <= v4norm a * v4norm b)%R as CS.
  { apply sq_le; [apply Rmult_le_pos; assumption|].
    replace (v4norm a * v4norm b * (v4norm a * v4norm b))%R with ((v4norm a * v4norm a) * (v4norm b * v4norm b))%R by ring. rewrite SA, SB.
    set (p := x4 a). set (q := y4 a). set (r := z4 a). set (s := w4 a). set (p' := x4 b). set (q' := y4 b). set (r' := z4 b). set (s' := w4 b).
    pose proof (Rle_0_sqr (p * q' - q * p')). pose proof (Rle_0_sqr (p * r' - r * p')). pose proof (Rle_0_sqr (p * s' - s * p')).
    pose proof (Rle_0_sqr (q * r' - r * q')). pose proof (Rle_0_sqr (q * s' - s * q')). pose proof (Rle_0_sqr (r * s' - s * r')). unfold Rsqr in *. nra. }
  rewrite v4norm_sq. cbn [v4add x4 y4 z4 w4]. norm_R. nra.
Qed.
Definition norm3 (v : vec3 R) : R := dist3 v (Vec3 0 0 0)%R.
Lemma norm3_sq v : (norm3 v * norm3 v = x3 v * x3 v + y3 v * y3 v + z3 v * z3 v)%R.
Proof. unfold norm3, dist3. cbn [x3 y3 z3]. rewrite sqrt_sqrt; [ring|]. nra. Qed.
Lemma norm3_pos v : (0 <= norm3 v)%R.
Proof. apply sqrt_pos. Qed.
Lemma norm3_v3norm v : norm3 v = v3norm v.
Proof. unfold norm3, dist3, v3norm, v3dot. norm_R. cbn [x3 y3 z3]. f_equal. ring. Qed.
Lemma norm3_dist a b : dist3 a b = norm3 (v3sub a b).
Proof. unfold norm3, dist3, v3sub. norm_R. cbn [x3 y3 z3]. f_equal. ring. Qed.
Lemma norm3_dot a b : (x3 a * x3 b + y3 a * y3 b + z3 a * z3 b <= norm3 a * norm3 b)%R.
Proof.
  pose proof (norm3_pos a). pose proof (norm3_pos b). apply sq_le; [apply Rmult_le_pos; assumption|].
  replace (norm3 a * norm3 b * (norm3 a * norm3 b))%R with ((norm3 a * norm3 a) * (norm3 b * norm3 b))%R by ring. rewrite !norm3_sq.
  pose proof (Rle_0_sqr (x3 a * y3 b - y3 a * x3 b)). pose proof (Rle_0_sqr (x3 a * z3 b - z3 a * x3 b)). pose proof (Rle_0_sqr (y3 a * z3 b - z3 a * y3 b)). unfold Rsqr in *. nra.
Qed.
Lemma norm3_sub_scale e C k : (norm3 (v3sub e (v3scale k C)) <= norm3 e + Rabs k * norm3 C)%R.
Proof.
  pose proof (norm3_pos e). pose proof (norm3_pos C). pose proof (Rabs_pos k). apply sq_le; [nra|].
  pose proof (norm3_dot e (v3scale (- k)%R C)) as D. rewrite norm3_sq.
  assert (norm3 (v3scale (- k)%R C) = Rabs k * norm3 C)%R as E.
  { assert (norm3 (v3scale (- k)%R C) * norm3 (v3scale (- k)%R C) = (Rabs k * norm3 C) * (Rabs k * norm3 C))%R as E.
    { replace (Rabs k * norm3 C * (Rabs k * norm3 C))%R with ((Rabs k * Rabs k) * (norm3 C * norm3 C))%R by ring.
      rewrite !norm3_sq. rewrite <- Rabs_mult, Rabs_right by nra. cbn [v3scale x3 y3 z3]. norm_R. ring. }
    pose proof (norm3_pos (v3scale (- k)%R C)). apply Rle_antisym; apply sq_le; try lra; apply Rmult_le_pos; assumption. }
  rewrite E in D. pose proof (norm3_sq e) as SE. pose proof (norm3_sq C) as SC.
  assert (Rabs k * Rabs k = k * k)%R as KK by (rewrite <- Rabs_mult; apply Rabs_right; nra).
  cbn [v3sub v3scale x3 y3 z3] in *. norm_R. cbn [x3 y3 z3] in D.
  replace ((norm3 e + Rabs k * norm3 C) * (norm3 e + Rabs k * norm3 C))%R with
    (norm3 e * norm3 e + 2 * (norm3 e * (Rabs k * norm3 C)) + (Rabs k * Rabs k) * (norm3 C * norm3 C))%R by ring.
  rewrite KK, SE, SC. nra.
Qed.
Lemma norm3_head v : (norm3 (head3 v) <= v4norm v)%R.
Proof. apply sq_le; [apply v4norm_nonneg|]. rewrite norm3_sq, v4norm_sq. cbn [head3 x3 y3 z3]. nra. Qed.
Lemma abs_w v : (Rabs (w4 v) <= v4norm v)%R.
Proof. apply sq_le; [apply v4norm_nonneg|]. rewrite <- Rabs_mult, Rabs_right by nra. rewrite v4norm_sq. nra. Qed.

(** ** The tolerance in homogeneous coordinates *)
Lemma CalcTOL_bound (points : list (vec4 R)) eps : (0 <= eps)%R -> positive_weights points ->
  exists tol, CalcTOL points eps = Ok tol /\ (0 <= tol)%R /\ forall a b, In a points -> In b points -> (tol * (1 + norm3 (head3 b)) <= eps * w4 a)%R.
Proof.
  intros He Pw. unfold CalcTOL. norm_R.
  match goal with |- context [fold_left ?gg points (?a, ?b)] => set (g := gg); set (a0 := a); set (b0 := b) end.
  assert (forall l a b, (0 <= b)%R -> (0 <= a)%R -> positive_weights l -> let r := fold_left g l (a, b) in
     (0 <= fst r <= a)%R /\ (b <= snd r)%R /\ forall q, In q l -> (fst r <= w4 q)%R /\ (norm3 (head3 q) <= snd r)%R) as G.
  { induction l as [|q l IH]; intros a b Hb Ha Pl; [cbn; split; [lra|]; split; [lra|intros q []]|]. cbn [fold_left].
    assert (g (a, b) q = (if Rltb (w4 q) a then w4 q else a, if Rltb b (v3norm (head3 q)) then v3norm (head3 q) else b)) as -> by reflexivity.
    inversion Pl as [|q0 l0 Hq Hl]; subst. rewrite <- norm3_v3norm.
    assert (0 <= (if Rltb (w4 q) a then w4 q else a) <= a /\ (if Rltb (w4 q) a then w4 q else a) <= w4 q)%R as [A1 A2].
    { destruct (Rltb (w4 q) a) eqn:E; [apply Rltb_true in E|apply Rltb_false in E]; lra. }
    assert (b <= (if Rltb b (norm3 (head3 q)) then norm3 (head3 q) else b) /\ norm3 (head3 q) <= (if Rltb b (norm3 (head3 q)) then norm3 (head3 q) else b))%R as [B1 B2].
    { destruct (Rltb b (norm3 (head3 q))) eqn:E; [apply Rltb_true in E|apply Rltb_false in E]; lra. }
    destruct (IH _ _ ltac:(eapply Rle_trans; [exact Hb|exact B1]) (proj1 A1) Hl) as [I1 [I2 I3]]. split; [lra|]. split; [lra|].
    intros q' [<-|Hq']; [lra|]. apply I3. exact Hq'. }
  assert (0 <= a0)%R as A0. { unfold a0. unfold Q2R. simpl. lra. }
  destruct (G points a0 b0 ltac:(unfold b0; lra) A0 Pw) as [G1 [G2 G3]]. cbv zeta in *.
  destruct (fold_left g points (a0, b0)) as [wm dm]. cbn [fst snd] in *. unfold b0 in G2.
  rewrite Rdivo_ok by lra. eexists. split; [reflexivity|].
  assert (0 < / (1 + dm))%R as I by (apply Rinv_0_lt_compat; lra).
  assert (0 <= eps * wm / (1 + dm))%R as T by (apply Rmult_le_pos; [apply Rmult_le_pos; lra|lra]). split; [exact T|].
  intros a b Ha Hb. apply Rle_trans with (eps * wm / (1 + dm) * (1 + dm))%R.
  - apply Rmult_le_compat_l; [exact T|]. pose proof (proj2 (G3 b Hb)). lra.
  - unfold Rdiv. rewrite Rmult_assoc, Rinv_l, Rmult_1_r by lra. apply Rmult_le_compat_l; [exact He|]. apply (G3 a Ha).
Qed.

(** ** The loop of attempts *)
Section Loop.
  Variables (knots : list R) (p n : Z) (u : R) (r s : Z).
  Notation U := (kf knots).
  Hypothesis P0 : 0 <= p.
  Hypothesis LK : len knots = n + p + 2.
  Hypothesis R1 : p <= r <= n.
  Hypothesis S0 : 0 <= s <= p + 1.
  Hypothesis S1 : p <= r - s.
  Hypothesis Klow : forall k, k <= r - s -> (U k < u)%R.
  Hypothesis Khigh : forall k, r < k -> (u < U k)%R.
  Notation Lb := (Lb p r s). Notation Rb := (Rb p r s). Notation room := (room p n r s). Notation rooms := (rooms p n r s).
  Notation one := (one knots p u r s).

  (** [pts] holds [P] up to [L], and shifted by [t] from [Rt] *)
  Definition repB (t L Rt : Z) (P : Z -> vec4 R) (pts : list (vec4 R)) : Prop :=
    len pts = n + 1 /\ (forall k, 0 <= k <= L -> vget pts k = Ok (P k)) /\ (forall k, Rt <= k <= n -> vget pts k = Ok (P (k - t))).
  (** at most one entry was changed, by at most [tol] *)
  Definition near_one (tol : R) (t : Z) (P Q : Z -> vec4 R) : Prop :=
    (exists k e, (v4norm e <= tol)%R /\ one t (bump P k e) Q) /\ ((forall k, w4 (P k) = 1%R) -> forall k, w4 (Q k) = 1%R).
  Inductive chainE (tol : R) : nat -> Z -> (Z -> vec4 R) -> (Z -> vec4 R) -> Prop :=
  | chainE_0 t P : chainE tol 0 t P P
  | chainE_S N t P Q P' : near_one tol t P Q -> chainE tol N (t + 1) Q P' -> chainE tol (S N) t P P'.
  (** 1 when the last attempt left two candidates for one entry *)
  Definition two (t : Z) : Z := if Z.even (p - s + t) then 1 else 0.
  (** the compaction reads up to here and from there *)
  Definition cutL (T : Z) : Z := Z.quot (2 * r - s - p) 2 - (T - 1) / 2 - 1.
  Definition cutR (T : Z) : Z := Z.quot (2 * r - s - p) 2 + T / 2 + 1.

  Lemma weights_one t P (V : Z -> vec4 R) : 0 <= t -> (forall k, w4 (P k) = 1%R) ->
    (forall k, V k = sol (al knots p u t) (r - p - t) (r - s) P k) \/ (forall k, V k = solY (al knots p u t) (r - p - t) (r - s) P k) ->
    forall k, w4 (V k) = 1%R.
  Proof.
    intros T0 W. set (a := al knots p u t). set (f := r - p - t). set (l := r - s).
    assert (forall i, f <= i <= l -> (0 < a i < 1)%R) as A01 by (apply (one_01 knots p u r s); assumption).
    pose proof (rounds_spec f l ltac:(unfold f, l; lia)) as [R0 R2].
    assert (forall k, 0 <= k -> f + k <= l + 1 -> w4 (X a f P k) = 1%R) as WX.
    { intros k Hk. pattern k. apply natlike_ind; [| |exact Hk]; clear k Hk.
      - intros _. rewrite X_0. apply W.
      - intros k Hk IH H. unfold Z.succ in *. rewrite X_S by assumption. pose proof (A01 (f + k) ltac:(lia)).
        rewrite lin_scale, lin_sub, lin_scale, W, IH by (try apply lin_w; lia). field. lra. }
    assert (forall k, 0 <= k -> f <= l - k + 1 -> w4 (Y a l P k) = 1%R) as WY.
    { intros k Hk. pattern k. apply natlike_ind; [| |exact Hk]; clear k Hk.
      - intros _. rewrite Y_0. apply W.
      - intros k Hk IH H. unfold Z.succ in *. rewrite Y_S by assumption. pose proof (A01 (l - k) ltac:(lia)).
        rewrite lin_scale, lin_sub, lin_scale, W, IH by (try apply lin_w; lia). field. lra. }
    assert (forall k, w4 (sol a f l P k) = 1%R) as WS.
    { intros k. unfold sol. destruct (Z.ltb_spec k f); [apply W|]. destruct (Z.ltb_spec k (f + rounds f l)); [apply WX; lia|].
      destruct (Z.leb_spec k l); [apply WY; lia|apply W]. }
    intros [H|H] k; rewrite H; [apply WS|]. unfold solY. destruct (Z.ltb_spec (l - f - 2 * rounds f l) 0); cbn [andb]; [|apply WS].
    destruct (Z.eqb_spec k (l - rounds f l)); [apply WY; lia|apply WS].
  Qed.
  Lemma near_sol tol t P (V : Z -> vec4 R) : 0 <= t -> (v4norm (gap_vec (al knots p u t) (r - p - t) (r - s) P) <= tol)%R ->
    (forall k, V k = sol (al knots p u t) (r - p - t) (r - s) P k) \/ (forall k, V k = solY (al knots p u t) (r - p - t) (r - s) P k) ->
    near_one tol t P V.
  Proof.
    intros T0 G HV. split; [|intros W; apply (weights_one t P V T0 W HV)].
    destruct (gap_bump (al knots p u t) (r - p - t) (r - s) P) with (V := V) as [k [c [Hc [e [He I]]]]].
    - apply one_01; assumption.
    - lia.
    - exact HV.
    - exists k, e. split; [|exact I]. pose proof (v4norm_nonneg (gap_vec (al knots p u t) (r - p - t) (r - s) P)).
      destruct He as [-> | ->]; rewrite v4norm_scale, ?Rabs_Ropp, Rabs_right by lra; nra.
  Qed.

  Lemma loop_tol N tol : forall t P pts temp pts', rooms t (S N) -> repB t (Lb t) (Rb t + two t) P pts -> len temp = 2 * p + 1 ->
    removal_loop (S N) knots (p + 1) u tol t (r - p - t) (r - s + t) pts temp = Ok (t + Z.of_nat (S N), pts') ->
    exists P', chainE tol (S N) t P P' /\ repB (t + Z.of_nat (S N)) (cutL (t + Z.of_nat (S N))) (cutR (t + Z.of_nat (S N))) P' pts'.
  Proof.
    induction N as [|N IH]; intros t P pts temp pts' [T0 Rm] Rp Lt E.
    all: pose proof (Rm t ltac:(lia)) as [_ [F1 [L1 Tm]]]; destruct Rp as [Lp [PL PR]].
    all: assert (forall i, r - p - t <= i <= r - s -> (U i < u < U (i + (p + 1) + t)%Z)%R) as Kn by (intros i Hi; split; [apply Klow; lia|apply Khigh; lia]).
    - destruct (attempt_any knots p n u t (r - p - t) (r - s)) with (P := P) (points := pts) (L := Lb t) (Rt := Rb t + two t) (N' := 0%nat) (tol := tol) (temp := temp)
        as [p1 [t1 [A1 [A2 [A3 [A4 A5]]]]]]; try assumption; try lia.
      { unfold ThRemove2.Lb. Z.to_euclidean_division_equations. lia. }
      { unfold ThRemove2.Rb, rounds, two. rewrite Zeven_mod. destruct (Zeq_bool _ _) eqn:Ev; [apply Zeq_bool_eq in Ev|apply Zeq_bool_neq in Ev]; revert Ev; Z.to_euclidean_division_equations; lia. }
      rewrite A3 in E. norm_R. destruct (Rltb tol (v4norm (gap_vec (al knots p u t) (r - p - t) (r - s) P))) eqn:G; [inversion E; lia|].
      apply Rltb_false in G. apply Rnot_lt_le in G. cbn [removal_loop] in E. assert (pts' = p1) by congruence. subst pts'. clear E.
      replace (t + Z.of_nat 1) with (t + 1) in * by lia.
      set (a := al knots p u t) in *. set (f := r - p - t) in *. set (l := r - s) in *.
      pose proof (rounds_spec f l ltac:(unfold f, l; lia)) as [R0 R2].
      destruct (Z.eq_dec (Z.rem (t + 1) 2) 0) as [Od|Od].
      + (* even: the left candidate *)
        exists (sol a f l P). split.
        { econstructor; [|constructor]. apply near_sol; [exact T0|exact G|left; reflexivity]. }
        split; [exact A2|]. split.
        * intros k Hk. apply A4. revert Hk. unfold cutL, rounds, f, l. revert Od. Z.to_euclidean_division_equations. lia.
        * intros k Hk. rewrite A5.
          -- f_equal. unfold solY. destruct (Z.ltb_spec (l - f - 2 * rounds f l) 0), (Z.eqb_spec (k - (t + 1)) (l - rounds f l)); cbn [andb]; try reflexivity.
             exfalso. revert Hk Od e. unfold cutR, rounds, f, l. Z.to_euclidean_division_equations. lia.
          -- revert Hk. unfold cutR, rounds, f, l. revert Od. Z.to_euclidean_division_equations. lia.
      + exists (solY a f l P). split.
        { econstructor; [|constructor]. apply near_sol; [exact T0|exact G|right; reflexivity]. }
        split; [exact A2|]. split.
        * intros k Hk. rewrite A4.
          -- f_equal. unfold solY. destruct (Z.ltb_spec (l - f - 2 * rounds f l) 0), (Z.eqb_spec k (l - rounds f l)); cbn [andb]; try reflexivity.
             exfalso. revert Hk Od e. unfold cutL, rounds, f, l. Z.to_euclidean_division_equations. lia.
          -- revert Hk. unfold cutL, rounds, f, l. revert Od. Z.to_euclidean_division_equations. lia.
        * intros k Hk. apply A5. revert Hk. unfold cutR, rounds, f, l. revert Od. Z.to_euclidean_division_equations. lia.
    - destruct (attempt_any knots p n u t (r - p - t) (r - s)) with (P := P) (points := pts) (L := Lb t) (Rt := Rb t + two t) (N' := S N) (tol := tol) (temp := temp)
        as [p1 [t1 [A1 [A2 [A3 [A4 A5]]]]]]; try assumption; try lia.
      { unfold ThRemove2.Lb. Z.to_euclidean_division_equations. lia. }
      { unfold ThRemove2.Rb, rounds, two. rewrite Zeven_mod. destruct (Zeq_bool _ _) eqn:Ev; [apply Zeq_bool_eq in Ev|apply Zeq_bool_neq in Ev]; revert Ev; Z.to_euclidean_division_equations; lia. }
      rewrite A3 in E. norm_R. destruct (Rltb tol (v4norm (gap_vec (al knots p u t) (r - p - t) (r - s) P))) eqn:G; [inversion E; lia|].
      apply Rltb_false in G. apply Rnot_lt_le in G. replace (t + Z.of_nat (S (S N))) with (t + 1 + Z.of_nat (S N)) in * by lia.
      set (a := al knots p u t) in *. 
      destruct (IH (t + 1) (sol a (r - p - t) (r - s) P) p1 t1 pts') as [P' [Ch Rp']]; try assumption.
      + split; [lia|]. intros k Hk. apply Rm. lia.
      + pose proof (rounds_spec (r - p - t) (r - s) ltac:(lia)) as [R0 R2]. split; [exact A2|]. split.
        * intros k Hk. apply A4. revert Hk. unfold ThRemove2.Lb, rounds. Z.to_euclidean_division_equations. lia.
        * intros k Hk. revert Hk. unfold two. rewrite Zeven_mod. intros Hk. rewrite A5.
          -- f_equal. unfold solY. destruct (Z.ltb_spec (r - s - (r - p - t) - 2 * rounds (r - p - t) (r - s)) 0) as [Ov|Ov], (Z.eqb_spec (k - (t + 1)) (r - s - rounds (r - p - t) (r - s))); cbn [andb]; try reflexivity.
             exfalso. destruct (Zeq_bool _ _) eqn:Ev; [apply Zeq_bool_eq in Ev|apply Zeq_bool_neq in Ev]; revert Hk Ev Ov e; unfold ThRemove2.Rb, rounds; Z.to_euclidean_division_equations; lia.
          -- destruct (Zeq_bool _ _) eqn:Ev; revert Hk; unfold ThRemove2.Rb, rounds; Z.to_euclidean_division_equations; lia.
      + rewrite <- E. f_equal; lia.
      + exists P'. split; [|exact Rp']. econstructor; [|exact Ch]. apply near_sol; [exact T0|exact G|left; reflexivity].
  Qed.
  Lemma pts_loop2 T P pts : 1 <= T -> T <= s -> 2 * T <= p + s -> repB T (cutL T) (cutR T) P pts ->
    let J := Z.quot (2 * r - s - p) 2 in
    exists pts' j', for_up (J + T / 2 + 1) (n + 1) (fun k '(points, j) =>
          bind (vget points k) (fun q => bind (vset points j q) (fun points => Ok (points, j + 1)))) (pts, J - (T - 1) / 2) = Ok (pts', j') /\ len pts' = n + 1 /\
      forall q, 0 <= q < n + 1 - T -> vget pts' q = Ok (P q).
  Proof.
    intros HT Ts T2 [Lp [PL PR]] J. unfold cutL, cutR in *. fold J in PL, PR.
    assert (J = (2 * r - s - p) / 2) as EJ by (unfold J; Z.to_euclidean_division_equations; lia).
    assert (J + T / 2 + 1 - (J - (T - 1) / 2) = T) as D by (Z.to_euclidean_division_equations; lia).
    assert (0 <= J - (T - 1) / 2) as B0 by (rewrite EJ; Z.to_euclidean_division_equations; lia).
    assert (J + T / 2 + 1 <= n + 1) as B1 by (rewrite EJ; Z.to_euclidean_division_equations; lia).
    set (k0 := J + T / 2 + 1) in *. set (j0 := J - (T - 1) / 2) in *.
    match goal with |- exists _ _, for_up _ _ ?b _ = _ /\ _ =>
      destruct (for_up_inv (fun k (st : list (vec4 R) * Z) => snd st = k - T /\ len (fst st) = n + 1 /\
        (forall q, 0 <= q < k - T -> vget (fst st) q = Ok (P q)) /\ (forall q, k <= q <= n -> vget (fst st) q = Ok (P (q - T)))) k0 (n + 1) b (pts, j0)) as [[pts' j'] [E Q]] end; try lia.
    - cbn [fst snd]. split; [lia|]. split; [exact Lp|]. split; intros q Hq; [apply PL; lia|apply PR; lia].
    - intros k [ps j] Hk [Q1 [Q2 [Q3 Q4]]]. cbn [fst snd] in *. subst j. rewrite Q4 by lia. cbn [bind].
      destruct (vset_spec ps (k - T) (P (k - T))) as [ps' [Es [Ls [G1 G2]]]]; [lia|]. rewrite Es. cbn [bind].
      eexists. split; [reflexivity|]. cbn [fst snd]. split; [lia|]. split; [lia|]. split; intros q Hq.
      + destruct (Z.eq_dec q (k - T)) as [->|]; [exact G1|]. rewrite G2 by lia. apply Q3. lia.
      + rewrite G2 by lia. apply Q4. lia.
    - exists pts', j'. split; [exact E|]. cbn [fst snd] in Q. destruct Q as [_ [Q2 [Q3 _]]]. split; [exact Q2|].
      intros q Hq. apply Q3. lia.
  Qed.
End Loop.

(** ** The whole call *)
Section Whole.
  Variables (knots : list R) (p n : Z) (u : R) (r : Z).
  Notation U := (kf knots).
  Let s := count u knots.
  Hypothesis C : clamped p knots.
  Hypothesis LK : len knots = n + p + 2.
  Hypothesis Hu : (0 < u < 1)%R.
  Hypothesis K : knot_span p knots r u.
  Hypothesis Sep : separated u knots.
  Hypothesis Sp1 : s <= p + 1.
  Let P0 : 0 <= p := ThRemove3.P0 knots p C.
  Let R1 : p <= r <= n. Proof. apply (ThRemove3.R1 knots p n u r); assumption. Qed.
  Let S0 : 0 <= s <= p + 1. Proof. apply (ThRemove3.S0 knots p u r); assumption. Qed.
  Let S1 : p <= r - s. Proof. apply (ThRemove3.S1 knots p u r); assumption. Qed.
  Let Klow k : k <= r - s -> (U k < u)%R. Proof. apply (ThRemove3.Klow knots p u r); assumption. Qed.
  Let Khigh k : r < k -> (u < U k)%R. Proof. apply (ThRemove3.Khigh knots p u r); assumption. Qed.
  Let dl t := del knots r t.

  Lemma N_le_1 q l i x : clamped q l -> (0 <= x <= 1)%R -> 0 <= i < len l - q - 1 -> (SpecBasis.N (kf l) (Z.to_nat q) i x <= 1)%R.
  Proof.
    intros Cl Hx Hi. rewrite <- (basis_sum q l x Cl Hx). rewrite (zsum_split i) by lia. rewrite (zsum_first i) by lia.
    assert (0 <= zsum 0 i (fun j => SpecBasis.N (kf l) (Z.to_nat q) j x))%R by (apply zsum_nonneg; intros; apply N_nonneg; assumption).
    assert (0 <= zsum (i + 1) (len l - q - 1) (fun j => SpecBasis.N (kf l) (Z.to_nat q) j x))%R by (apply zsum_nonneg; intros; apply N_nonneg; assumption). lra.
  Qed.
  Lemma bump_sum q l P k e x : clamped q l -> (0 <= x <= 1)%R -> exists d, (v4norm d <= v4norm e)%R /\ forall f, lin f ->
    zsum 0 (len l - q - 1) (fun i => SpecBasis.N (kf l) (Z.to_nat q) i x * f (bump P k e i))%R =
    (zsum 0 (len l - q - 1) (fun i => SpecBasis.N (kf l) (Z.to_nat q) i x * f (P i)) + f d)%R.
  Proof.
    intros Cl Hx. pose proof (v4norm_nonneg e).
    assert (forall f, lin f -> zsum 0 (len l - q - 1) (fun i => SpecBasis.N (kf l) (Z.to_nat q) i x * f (bump P k e i))%R =
      (zsum 0 (len l - q - 1) (fun i => SpecBasis.N (kf l) (Z.to_nat q) i x * f (P i)) +
       zsum 0 (len l - q - 1) (fun i => SpecBasis.N (kf l) (Z.to_nat q) i x * (if i =? k then f e else 0)))%R) as Q.
    { intros f Lf. rewrite <- zsum_add. apply zsum_ext. intros i Hi. unfold bump. destruct (i =? k); [rewrite lin_add by assumption|]; ring. }
    destruct (Z_le_dec 0 k) as [K0|K0]; [destruct (Z_lt_le_dec k (len l - q - 1)) as [K1|K1]|].
    - exists (v4scale (SpecBasis.N (kf l) (Z.to_nat q) k x) e). pose proof (N_nonneg q l k x Cl Hx). pose proof (N_le_1 q l k x Cl Hx ltac:(lia)). split.
      + rewrite v4norm_scale, Rabs_right by lra. nra.
      + intros f Lf. rewrite Q by assumption. f_equal. rewrite (zsum_delta 0 _ k); [rewrite Z.eqb_refl, lin_scale by assumption; reflexivity|lia|].
        intros i Hi Ne. destruct (Z.eqb_spec i k); [lia|ring].
    - exists v4zero. split; [rewrite v4norm_zero; assumption|]. intros f Lf. rewrite Q by assumption. f_equal. rewrite lin_zero by assumption. apply zsum_zero.
      intros i Hi. destruct (Z.eqb_spec i k); [lia|ring].
    - exists v4zero. split; [rewrite v4norm_zero; assumption|]. intros f Lf. rewrite Q by assumption. f_equal. rewrite lin_zero by assumption. apply zsum_zero.
      intros i Hi. destruct (Z.eqb_spec i k); [lia|ring].
  Qed.
  Lemma chainE_sum tol x : (0 <= tol)%R -> (0 <= x <= 1)%R -> forall N t P P', 0 <= t -> t + Z.of_nat N <= s -> chainE knots p u r s tol N t P P' ->
    exists d, (v4norm d <= INR N * tol)%R /\ forall f, lin f ->
      zsum 0 (len (dl (t + Z.of_nat N)) - p - 1) (fun i => SpecBasis.N (kf (dl (t + Z.of_nat N))) (Z.to_nat p) i x * f (P' i))%R =
      (zsum 0 (len (dl t) - p - 1) (fun i => SpecBasis.N (kf (dl t)) (Z.to_nat p) i x * f (P i)) + f d)%R.
  Proof.
    intros Tol Hx. induction N as [|N IH]; intros t P P' Ht Hs Ch; inversion Ch; subst.
    - exists v4zero. rewrite v4norm_zero. split; [cbn [INR]; lra|]. intros f Lf. replace (t + Z.of_nat 0) with t by lia. rewrite lin_zero by assumption. ring.
    - replace (t + Z.of_nat (S N)) with (t + 1 + Z.of_nat N) in * by lia.
      destruct H0 as [[k [e [He Ho]]] _].
      destruct (IH (t + 1) Q P' ltac:(lia) ltac:(lia) H1) as [d' [Hd' Q']].
      destruct (bump_sum p (dl t) P k e x) as [d [Hd Qd]]; [apply (dl_clamped knots p n u r); try assumption; fold s; lia|exact Hx|].
      exists (v4add d d'). split.
      + rewrite S_INR. pose proof (v4norm_add d d'). lra.
      + intros f Lf. rewrite Q' by assumption. rewrite lin_add by assumption.
        assert (zsum 0 (len (dl (t + 1)) - p - 1) (fun i => SpecBasis.N (kf (dl (t + 1))) (Z.to_nat p) i x * f (Q i))%R =
          zsum 0 (len (dl t) - p - 1) (fun i => SpecBasis.N (kf (dl t)) (Z.to_nat p) i x * f (bump P k e i))%R) as ->.
        { assert (chain knots p u r s 1 t (bump P k e) Q) as Ch1 by (econstructor; [exact Ho|constructor]).
          pose proof (chain_sum knots p n u r C LK Hu K Sp1 f x Lf Hx 1 t _ Q ltac:(lia) ltac:(fold s; lia) Ch1) as Z.
          replace (t + Z.of_nat 1) with (t + 1) in Z by lia. symmetry. exact Z. }
        rewrite Qd by assumption. ring.
  Qed.

  Variable points : list (vec4 R).
  Hypothesis Lp : len points = n + 1.
  Lemma Removal_eq2 times eps tol : CalcTOL (map ToHomo points) eps = Ok tol ->
    forall pts P, removal_loop (Z.to_nat times) knots (p + 1) u tol 0 (r - p) (r - s) (map ToHomo points) (temp0 p) = Ok (times, pts) ->
    1 <= times <= s -> 2 * times <= p + s -> repB n times (cutL p r s times) (cutR p r s times) P pts ->
     KnotRemoval knots points p u times eps =
       bind (mapM FromHomo (map P (zrange 0 (n + 1 - times)))) (fun q => Ok (times, dl times, q)).
  Proof.
    intros Et pts P E HT T2 Rp. unfold KnotRemoval. cbv zeta. rewrite (ThRemove3.Mult knots u) by assumption.
    rewrite (ThRemove3.Find knots p u r) by assumption. cbn [bind]. rewrite Et. cbn [bind]. rewrite uninit_ok by lia. cbn [bind].
    fold (temp0 p). fold s. rewrite E. cbn [bind]. destruct (Z.eqb_spec times 0); [lia|].
    rewrite (ij_loop _ times) by lia. cbn [bind].
    destruct (pts_loop2 knots p n u r s) with (T := times) (P := P) (pts := pts) as [pts' [j' [E1 [L1 G1]]]]; try assumption; try lia.
    rewrite len_map, Lp. replace (n + 1 - 1) with n by lia. rewrite E1. cbn [bind].
    assert (vresize pts' (len pts' - times) v4zero = Ok (map P (zrange 0 (n + 1 - times)))) as ->.
    { unfold vresize. destruct (Z.ltb_spec (len pts' - times) 0); [lia|]. f_equal.
      replace (Z.to_nat (len pts' - times - len pts')) with O by lia. cbn [repeat]. rewrite app_nil_r.
      apply vget_ext; [rewrite len_firstn, len_map, len_zrange; lia|]. rewrite len_firstn. intros q Hq.
      rewrite vget_firstn by lia. rewrite G1 by lia. rewrite vget_zrange_map by lia. reflexivity. }
    cbn [bind]. destruct (knots_loop knots p n r) with (T := times) as [k' [E2 E3]]; try assumption; try lia.
    rewrite E2. cbn [bind]. norm_R. rewrite E3. cbn [bind]. reflexivity.
  Qed.
  Lemma Removal_tol times eps k' q' : 1 <= times <= s -> 2 * times <= p + s -> (0 <= eps)%R -> positive_weights points ->
    KnotRemoval knots points p u times eps = Ok (times, k', q') ->
    exists tol, CalcTOL (map ToHomo points) eps = Ok tol /\ k' = dl times /\ exists P', chainE knots p u r s tol (Z.to_nat times) 0 (hpt points) P' /\
      q' = map (fun i => fromh (P' i)) (zrange 0 (n + 1 - times)) /\ forall i, 0 <= i < n + 1 - times -> w4 (P' i) <> 0%R.
  Proof.
    intros HT T2 He Pw E. destruct (CalcTOL_ok (map ToHomo points) eps) as [tol [Et _]]. exists tol. split; [exact Et|].
    pose proof E as E'. unfold KnotRemoval in E'. cbv zeta in E'. rewrite (ThRemove3.Mult knots u) in E' by assumption. rewrite (ThRemove3.Find knots p u r) in E' by assumption. cbn [bind] in E'. rewrite Et in E'. cbn [bind] in E'.
    rewrite uninit_ok in E' by lia. cbn [bind] in E'. fold (temp0 p) in E'. fold s in E'.
    destruct (removal_loop (Z.to_nat times) knots (p + 1) u tol 0 (r - p) (r - s) (map ToHomo points) (temp0 p)) as [[t pts]| | | | |] eqn:El;
      cbn [bind] in E'; try discriminate.
    assert (t = times) as ->.
    { clear - E' HT. destruct (Z.eqb_spec t 0); [inversion E'; lia|].
      repeat match type of E' with bind ?m _ = _ => destruct m as [| | | | |]; cbn [bind] in E'; try discriminate
        | (let '(_, _) := ?q in _) = _ => destruct q end. inversion E'. reflexivity. }
    destruct (rep_start knots p n u r C LK Hu K Sp1 points Lp) as [B1 [B2 B3]]. fold s in B2, B3.
    replace (Z.to_nat times) with (S (Z.to_nat (times - 1))) in El by lia.
    destruct (loop_tol knots p n u r s) with (N := Z.to_nat (times - 1)) (tol := tol) (t := 0) (P := hpt points) (pts := map ToHomo points) (temp := temp0 p) (pts' := pts) as [P' [Ch Rp]]; try assumption.
    { replace (S (Z.to_nat (times - 1))) with (Z.to_nat times) by lia. apply (rooms_ok knots p n u r); assumption. }
    { split; [exact B1|]. split; [exact B2|]. intros k Hk. apply B3. revert Hk. unfold two. destruct (Z.even _); lia. }
    { eapply temp0_len; eassumption. }
    { replace (r - p - 0) with (r - p) by lia. replace (r - s + 0) with (r - s) by lia. rewrite El. do 2 f_equal. lia. }
    replace (S (Z.to_nat (times - 1))) with (Z.to_nat times) in * by lia.
    replace (0 + Z.of_nat (Z.to_nat times)) with times in Rp by lia.
    rewrite (Removal_eq2 times eps tol Et pts P' El HT T2 Rp) in E.
    destruct (mapM FromHomo (map P' (zrange 0 (n + 1 - times)))) as [qs| | | | |] eqn:Em; cbn [bind] in E; try discriminate.
    inversion E; subst. split; [reflexivity|]. exists P'. split; [exact Ch|].
    destruct (mapM_FromHomo_inv _ _ Em) as [Wn ->]. split; [apply map_map|].
    intros i Hi. rewrite Forall_forall in Wn. apply Wn. apply in_map_iff. exists i. split; [reflexivity|]. apply In_zrange. lia.
  Qed.
End Whole.

(** ** Curves *)
Lemma chainE_weights knots p u r s tol N : forall t P P', chainE knots p u r s tol N t P P' -> (forall k, w4 (P k) = 1%R) -> forall k, w4 (P' k) = 1%R.
Proof. induction N as [|N IH]; intros t P P' Ch W; inversion Ch; subst; [exact W|]. apply (IH _ _ _ H1). apply H0. exact W. Qed.
Lemma removal_moves c u times eps c' : wf_curve c -> (0 < u < 1)%R -> separated u (Knots c) ->
  1 <= times <= count u (Knots c) -> count u (Knots c) <= Degree c + 1 -> 2 * times <= Degree c + count u (Knots c) -> (0 <= eps)%R ->
  Curve_RemoveKnot c u times eps = Ok (c', times) ->
  exists tol, (0 <= tol)%R /\ (forall a b, In a (ControlPoints c) -> In b (ControlPoints c) -> (tol * (1 + w4 b * norm3 (head3 b)) <= eps * w4 a)%R) /\
    Degree c' = Degree c /\ clamped (Degree c') (Knots c') /\ len (ControlPoints c') = len (Knots c') - Degree c' - 1 /\
    forall x, (0 <= x <= 1)%R -> exists d, (v4norm d <= IZR times * tol)%R /\ (forall f, lin f -> hsum c' f x = (hsum c f x + f d)%R) /\
      (Forall (fun q => w4 q = 1%R) (ControlPoints c) -> hsum c' w4 x = 1%R).
Proof.
  intros W Hu Sep Ht Hm H2 He E. pose proof (wf_knots c W) as C. pose proof (wf_count c W) as Cn.
  destruct (span_find _ _ u C Hu) as [r [Er K]]. set (n := len (ControlPoints c) - 1).
  assert (len (Knots c) = n + Degree c + 2) as LK by (unfold n; lia).
  unfold Curve_RemoveKnot in E. destruct (asserts_ok u times Hu ltac:(lia)) as [A1 A2]. rewrite A1, A2 in E. cbn [assert_ bind] in E.
  destruct (KnotRemoval (Knots c) (ControlPoints c) (Degree c) u times eps) as [[[t k'] q']| | | | |] eqn:Ek; cbn [bind] in E; try discriminate.
  inversion E; subst c' t. clear E.
  destruct (Removal_tol (Knots c) (Degree c) n u r C LK Hu K Sep Hm (ControlPoints c) ltac:(unfold n; lia) times eps k' q' Ht H2 He (wf_weights c W) Ek) as [tol [Et [-> [P' [Ch [-> Wn]]]]]].
  destruct (CalcTOL_bound (map ToHomo (ControlPoints c)) eps He) as [tol' [Et' [T0 Tb]]].
  { apply Forall_forall. intros h Hh. apply in_map_iff in Hh. destruct Hh as [q [<- Hq]]. pose proof (wf_weights c W) as Pw. unfold positive_weights in Pw. rewrite Forall_forall in Pw. exact (Pw q Hq). }
  assert (tol' = tol) by congruence. subst tol'. exists tol. split; [exact T0|].
  assert (0 <= times <= count u (Knots c)) as Ht' by lia.
  pose proof (dl_clamped _ _ n u r C LK Hu K Hm times Ht') as C'.
  pose proof (dl_len _ _ n u r C LK Hu K Hm times Ht') as L'.
  set (c' := Curve (Degree c) (del (Knots c) r times) (map (fun i => fromh (P' i)) (zrange 0 (n + 1 - times)))).
  assert (len (ControlPoints c') = len (Knots c') - Degree c' - 1) as Cn'.
  { unfold c'. cbn [Degree Knots ControlPoints]. rewrite len_map, len_zrange, L'. pose proof (cl_len _ _ C'). lia. }
  split.
  { intros a b Ha Hb. pose proof (Tb (ToHomo a) (ToHomo b) (in_map _ _ _ Ha) (in_map _ _ _ Hb)) as Q. cbn [ToHomo w4] in Q.
    replace (norm3 (head3 (ToHomo b))) with (w4 b * norm3 (head3 b))%R in Q; [exact Q|].
    pose proof (wf_weights c W) as Pw. unfold positive_weights in Pw. rewrite Forall_forall in Pw. specialize (Pw b Hb).
    pose proof (norm3_pos (head3 b)). pose proof (norm3_pos (head3 (ToHomo b))).
    assert (norm3 (head3 (ToHomo b)) * norm3 (head3 (ToHomo b)) = (w4 b * norm3 (head3 b)) * (w4 b * norm3 (head3 b)))%R as S.
    { replace (w4 b * norm3 (head3 b) * (w4 b * norm3 (head3 b)))%R with (w4 b * w4 b * (norm3 (head3 b) * norm3 (head3 b)))%R by ring.
      rewrite !norm3_sq. unfold ToHomo. cbn [head3 x3 y3 z3 x4 y4 z4 w4 set_head3 v3scale]. norm_R. ring. }
    apply Rle_antisym; apply sq_le; try lra; apply Rmult_le_pos; lra. }
  split; [reflexivity|]. split; [exact C'|]. split; [exact Cn'|]. intros x Hx.
  destruct (chainE_sum (Knots c) (Degree c) n u r C LK Hu K Hm tol x T0 Hx (Z.to_nat times) 0 _ P' ltac:(lia) ltac:(lia) Ch) as [d [Hd Q]].
  replace (0 + Z.of_nat (Z.to_nat times)) with times in Q by lia. rewrite del_0 in Q.
  assert (forall f, hsum c' f x = zsum 0 (len (del (Knots c) r times) - Degree c - 1) (fun i => SpecBasis.N (kf (del (Knots c) r times)) (Z.to_nat (Degree c)) i x * f (P' i))%R) as Hs.
  { intros f. unfold hsum. rewrite Cn'. apply zsum_ext. intros i Hi. unfold basis_fun. f_equal. f_equal.
    unfold c' in Hi. cbn [Degree Knots] in Hi.
    unfold hp, cp, c'. cbn [ControlPoints]. change (nth (Z.to_nat i) ?l ?d0) with (znth d0 l i).
    assert (0 <= i < n + 1 - times) as Hi' by lia.
    rewrite (znth_map _ 0) by (rewrite len_zrange; lia). rewrite znth_zrange by lia. replace (0 + i) with i by lia.
    rewrite ToHomo_fromh by (apply Wn; lia). reflexivity. }
  exists d. split; [rewrite INR_IZR_INZ, Z2Nat.id in Hd by lia; exact Hd|]. split.
  - intros f Lf. rewrite Hs, Q by assumption. unfold hsum. rewrite Cn. reflexivity.
  - intros W1. rewrite Hs. rewrite <- (basis_sum _ _ x C' Hx). apply zsum_ext. intros i Hi.
    rewrite (chainE_weights _ _ _ _ _ _ _ _ _ _ Ch); [cbn [Degree]; ring|].
    intros k. unfold hpt. rewrite Forall_forall in W1.
    destruct (nth_in_or_default (Z.to_nat k) (ControlPoints c) (Vec4 0 0 0 1)%R) as [Hin|Hd0].
    + cbn [ToHomo w4]. apply W1. exact Hin.
    + rewrite Hd0. reflexivity.
Qed.
Lemma point_norm c x B : wf_curve c -> (0 <= x <= 1)%R -> Forall (fun q => (norm3 (head3 q) <= B)%R) (ControlPoints c) -> (norm3 (curve_point c x) <= B)%R.
Proof.
  intros W Hx HB. set (q := curve_point c x). pose proof (norm3_pos q) as N0.
  assert (0 <= B)%R as B0.
  { pose proof (cl_len _ _ (wf_knots c W)). pose proof (cl_degree _ _ (wf_knots c W)). pose proof (wf_count c W). rewrite Forall_forall in HB.
    destruct (ControlPoints c) as [|p0 ps] eqn:Ec; [unfold len in *; cbn in *; lia|]. specialize (HB p0 ltac:(left; reflexivity)). pose proof (norm3_pos (head3 p0)). lra. }
  pose proof (C29_lemma c x (x3 q) (y3 q) (z3 q) (norm3 q * B)%R q W) as H.
  assert (x3 q * x3 q + y3 q * y3 q + z3 q * z3 q <= norm3 q * B)%R as D.
  { apply H; [|apply Curve_Evaluate_ok; assumption]. intros i Hi _. rewrite Forall_forall in HB.
    pose proof (norm3_dot q (head3 (cp c i))) as D. cbn [head3 x3 y3 z3] in D.
    assert (norm3 (head3 (cp c i)) <= B)%R as Bi. { apply HB. unfold cp. apply nth_In. unfold len in Hi. lia. }
    nra. }
  rewrite <- norm3_sq in D. destruct (Req_EM_T (norm3 q) 0) as [->|Ne]; [exact B0|]. nra.
Qed.
Lemma den_ge c x m : wf_curve c -> (0 <= x <= 1)%R -> Forall (fun q => (m <= w4 q)%R) (ControlPoints c) -> (m <= hsum c w4 x)%R.
Proof.
  intros W Hx H. rewrite Forall_forall in H. pose proof (basis_sum _ _ x (wf_knots c W) Hx) as S1. rewrite <- (wf_count c W) in S1.
  rewrite <- (Rmult_1_r m), <- S1, <- zsum_scale. apply zsum_le. intros i Hi. unfold basis_fun at 1. rewrite Rmult_comm. apply Rmult_le_compat_l.
  - apply N_nonneg; [apply W|exact Hx].
  - unfold hp. cbn [ToHomo w4]. apply H. unfold cp. apply nth_In. unfold len in Hi. lia.
Qed.
(** the two projections *)
Lemma project_near c c' x d : (forall f, lin f -> hsum c' f x = (hsum c f x + f d)%R) -> hsum c w4 x <> 0%R -> (0 < hsum c' w4 x)%R ->
  (dist3 (curve_point c x) (curve_point c' x) * hsum c' w4 x <= norm3 (head3 d) + Rabs (w4 d) * norm3 (curve_point c x))%R.
Proof.
  intros H W0 W1. set (C := curve_point c x). set (C' := curve_point c' x).
  assert (v3sub C' C = v3scale (/ hsum c' w4 x)%R (v3sub (head3 d) (v3scale (w4 d) C))) as E.
  { unfold C, C'. rewrite !curve_point_hsum. unfold head3, v3sub, v3scale. norm_R. cbn [x3 y3 z3].
    rewrite !(H x4), !(H y4), !(H z4), !(H w4) in * by (unfold lin; auto). f_equal; field; split; lra. }
  replace (dist3 C C') with (dist3 C' C) by (unfold dist3; f_equal; ring). rewrite norm3_dist, E.
  replace (norm3 (v3scale (/ hsum c' w4 x)%R (v3sub (head3 d) (v3scale (w4 d) C)))) with (/ hsum c' w4 x * norm3 (v3sub (head3 d) (v3scale (w4 d) C)))%R.
  - pose proof (norm3_sub_scale (head3 d) C (w4 d)). rewrite Rmult_comm, <- Rmult_assoc, Rinv_r, Rmult_1_l by lra. lra.
  - assert (0 < / hsum c' w4 x)%R as I by (apply Rinv_0_lt_compat; exact W1). set (k := (/ hsum c' w4 x)%R) in *. set (v := v3sub (head3 d) (v3scale (w4 d) C)).
    pose proof (norm3_pos v). pose proof (norm3_pos (v3scale k v)).
    assert (norm3 (v3scale k v) * norm3 (v3scale k v) = (k * norm3 v) * (k * norm3 v))%R as S.
    { replace (k * norm3 v * (k * norm3 v))%R with (k * k * (norm3 v * norm3 v))%R by ring. rewrite !norm3_sq. cbn [v3scale x3 y3 z3]. norm_R. ring. }
    apply Rle_antisym; apply sq_le; try lra; apply Rmult_le_pos; lra.
Qed.
Lemma C87_polynomial_lemma c u times tol c' : wf_curve c -> Forall (fun q => w4 q = 1%R) (ControlPoints c) -> (0 < u < 1)%R -> separated u (Knots c) ->
  1 <= times <= count u (Knots c) -> count u (Knots c) <= Degree c + 1 -> 2 * times <= Degree c + count u (Knots c) -> (0 <= tol)%R ->
  Curve_RemoveKnot c u times tol = Ok (c', times) ->
  forall x b, (0 <= x <= 1)%R -> In b (ControlPoints c) ->
    exists y y', Curve_Evaluate c x = Ok y /\ Curve_Evaluate c' x = Ok y' /\ (dist3 y y' * (1 + norm3 (head3 b)) <= IZR times * tol)%R.
Proof.
  intros W W1 Hu Sep Ht Hm H2 He E x b Hx Hb. destruct (removal_moves c u times tol c' W Hu Sep Ht Hm H2 He E) as [e [E0 [Eb [Dg [C' [Cn' M]]]]]].
  destruct (M x Hx) as [d [Hd [Hs H1]]]. specialize (H1 W1).
  assert (hsum c w4 x = 1%R) as D1.
  { pose proof (basis_sum _ _ x (wf_knots c W) Hx) as S1. rewrite <- (wf_count c W) in S1. rewrite <- S1. unfold hsum. apply zsum_ext. intros i Hi.
    unfold hp. cbn [ToHomo w4]. rewrite Forall_forall in W1. rewrite W1; [unfold basis_fun; ring|]. unfold cp. apply nth_In. unfold len in Hi. lia. }
  exists (curve_point c x), (curve_point c' x). split; [apply Curve_Evaluate_ok; assumption|]. split.
  { apply Curve_Evaluate_gen; try assumption. rewrite den_hom. fold (hsum c' w4 x). lra. }
  pose proof (project_near c c' x d Hs ltac:(lra) ltac:(lra)) as P. rewrite H1 in P.
  assert (w4 d = 0%R) as Wd. { specialize (Hs w4 lin_w). lra. } rewrite Wd, Rabs_R0 in P. pose proof (norm3_head d).
  specialize (Eb b b Hb Hb). rewrite Forall_forall in W1. rewrite (W1 b Hb) in Eb. pose proof (norm3_pos (head3 b)).
  apply Rle_trans with ((IZR times * e) * (1 + norm3 (head3 b)))%R; [apply Rmult_le_compat_r; lra|].
  assert (0 <= IZR times)%R by (apply IZR_le; lia). replace (IZR times * e * (1 + norm3 (head3 b)))%R with (IZR times * (e * (1 + 1 * norm3 (head3 b))))%R by ring.
  apply Rmult_le_compat_l; lra.
Qed.
Lemma C87_rational_lemma c u times tol c' : wf_curve c -> (0 < u < 1)%R -> separated u (Knots c) ->
  1 <= times <= count u (Knots c) -> count u (Knots c) <= Degree c + 1 -> 2 * times <= Degree c + count u (Knots c) -> (0 <= tol)%R ->
  Curve_RemoveKnot c u times tol = Ok (c', times) ->
  forall x b B, (0 <= x <= 1)%R -> In b (ControlPoints c) -> Forall (fun q => (norm3 (head3 q) <= B)%R) (ControlPoints c) ->
    (IZR times * tol < 1 + w4 b * norm3 (head3 b))%R ->
    exists y y', Curve_Evaluate c x = Ok y /\ Curve_Evaluate c' x = Ok y' /\
      (dist3 y y' * (1 + w4 b * norm3 (head3 b) - IZR times * tol) <= IZR times * tol * (1 + B))%R.
Proof.
  intros W Hu Sep Ht Hm H2 He E x b B Hx Hb HB Hlt. destruct (removal_moves c u times tol c' W Hu Sep Ht Hm H2 He E) as [e [E0 [Eb [Dg [C' [Cn' M]]]]]].
  destruct (M x Hx) as [d [Hd [Hs _]]].
  set (h := (w4 b * norm3 (head3 b))%R) in *. pose proof (wf_weights c W) as Pw. unfold positive_weights in Pw. rewrite Forall_forall in Pw.
  assert (0 <= h)%R as H0 by (apply Rmult_le_pos; [pose proof (Pw b Hb); lra|apply norm3_pos]).
  set (k := (IZR times * tol)%R) in *. assert (0 <= IZR times)%R as T0 by (apply IZR_le; lia). assert (0 <= k)%R as K0 by (apply Rmult_le_pos; assumption).
  (* the smallest weight *)
  assert (exists m, (0 < m)%R /\ Forall (fun q => (m <= w4 q)%R) (ControlPoints c) /\ (IZR times * e * (1 + h) <= k * m)%R) as [m [M0 [Mw Me]]].
  { assert (forall l, (exists q, In q l) -> exists a, In a l /\ Forall (fun q => (w4 a <= w4 q)%R) l) as Min.
    { induction l as [|q l IH]; [intros [q []]|]. intros _. destruct l as [|q2 l2].
      - exists q. split; [left; reflexivity|]. constructor; [lra|constructor].
      - destruct (IH ltac:(exists q2; left; reflexivity)) as [a [Ia Fa]]. destruct (Rle_dec (w4 q) (w4 a)).
        + exists q. split; [left; reflexivity|]. constructor; [lra|]. eapply Forall_impl; [|exact Fa]. cbv beta. intros; lra.
        + exists a. split; [right; exact Ia|]. constructor; [lra|exact Fa]. }
    destruct (Min (ControlPoints c) (ex_intro _ b Hb)) as [a [Ia Fa]]. exists (w4 a). split; [apply Pw; exact Ia|]. split; [exact Fa|].
    specialize (Eb a b Ia Hb). fold h in Eb. unfold k. replace (IZR times * tol * w4 a)%R with (IZR times * (tol * w4 a))%R by ring. rewrite Rmult_assoc. apply Rmult_le_compat_l; assumption. }
  set (dl := (IZR times * e)%R) in *. assert (0 <= dl)%R as D0 by (apply Rmult_le_pos; assumption).
  pose proof (den_ge c x m W Hx Mw) as Dg1. pose proof (abs_w d) as Aw. pose proof (norm3_head d) as Nh.
  assert (m - dl <= hsum c' w4 x)%R as Dg2. { rewrite (Hs w4 lin_w). pose proof (Rle_abs (- w4 d)) as Q. rewrite Rabs_Ropp in Q. lra. }
  assert (0 < 1 + h - k)%R as Q0 by lra.
  assert (m * (1 + h - k) <= (m - dl) * (1 + h))%R as Q1 by nra.
  assert (0 < m - dl)%R as Q2. { assert (0 < m * (1 + h - k))%R by (apply Rmult_lt_0_compat; assumption). assert (0 < 1 + h)%R by lra. destruct (Rlt_dec 0 (m - dl)); [assumption|]. nra. }
  exists (curve_point c x), (curve_point c' x). split; [apply Curve_Evaluate_ok; assumption|]. split.
  { apply Curve_Evaluate_gen; try assumption. rewrite den_hom. fold (hsum c' w4 x). lra. }
  pose proof (project_near c c' x d Hs ltac:(lra) ltac:(lra)) as P. pose proof (point_norm c x B W Hx HB) as Nc.
  pose proof (norm3_pos (curve_point c x)) as Nc0. pose proof (norm3_pos (head3 d)) as Nd0. pose proof (Rabs_pos (w4 d)) as Ab0.
  set (D := dist3 (curve_point c x) (curve_point c' x)) in *. assert (0 <= D)%R as Dp by (apply sqrt_pos).
  assert (D * (m - dl) <= dl * (1 + B))%R as P2.
  { apply Rle_trans with (D * hsum c' w4 x)%R; [apply Rmult_le_compat_l; assumption|]. eapply Rle_trans; [exact P|].
    replace (dl * (1 + B))%R with (dl + dl * B)%R by ring. apply Rplus_le_compat; [lra|]. apply Rmult_le_compat; lra. }
  (* multiply by (1 + h) / m *)
  assert (m * (D * (1 + h - k)) <= m * (k * (1 + B)))%R as P3.
  { apply Rle_trans with (D * ((m - dl) * (1 + h)))%R.
    - replace (m * (D * (1 + h - k)))%R with (D * (m * (1 + h - k)))%R by ring. apply Rmult_le_compat_l; assumption.
    - replace (D * ((m - dl) * (1 + h)))%R with (D * (m - dl) * (1 + h))%R by ring.
      apply Rle_trans with (dl * (1 + B) * (1 + h))%R; [apply Rmult_le_compat_r; lra|].
      replace (dl * (1 + B) * (1 + h))%R with (dl * (1 + h) * (1 + B))%R by ring. replace (m * (k * (1 + B)))%R with (k * m * (1 + B))%R by ring.
      apply Rmult_le_compat_r; [lra|exact Me]. }
  apply Rmult_le_reg_l with m; assumption.
Qed.
