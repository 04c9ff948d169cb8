(** Derivatives of basis functions, curves and surfaces (C16, C17, C31, C49). *)
From Coq Require Import Reals ZArith List Lra Lia Bool.
From Coquelicot Require Import Coquelicot.
From Verif Require Import Outcome Num ModelCore ModelBasis ModelCurve ModelSurface SpecCore SpecBasis SpecCurve SpecSurface SpecDeriv
  ThOutcome ThReal ThMath ThKnots ThGrid ThVec ThSum ThSpline ThBasis ThCurve ThSurface ThDeriv ThDers ThLeib.
Import ListNotations.
Open Scope Z_scope.

Lemma open_span l p j t : clamped p l -> (kf l j < t < kf l (j + 1)%Z)%R -> span_at (kf l) j t.
Proof. intros C H. left. lra. Qed.

Lemma span_at_in l i u : 0 <= i < len l - 1 -> span_at (kf l) i u -> in_span l i u.
Proof. intros Hi H. unfold in_span, span_at in *. rewrite <- !kf_at by lia. lra. Qed.

(** ** basis functions *)
Lemma N_piece p l j r k x : clamped (Z.of_nat p) l -> span_at (kf l) j x ->
  piece_derivative (N (kf l) p r) (kf l j) (kf l (j + 1)) k x (DBk (kf l) j p r k x).
Proof.
  intros C Sp. pose proof (clamped_mono _ _ C) as M. pose proof (clamped_le1 _ _ C) as L1.
  exists (fun n t => DBk (kf l) j p r n t). split; [|split; [|reflexivity]].
  - intros t Ht. rewrite DBk_0. apply (N_local _ _ _ M L1). left. lra.
  - intros n t Ht. apply (DBk_derive (kf l) j M (span_nonempty _ _ _ Sp)).
Qed.
Lemma EvaluateAll_ok p l x order : clamped p l -> (0 <= x <= 1)%R -> 0 <= order ->
  exists j m, KnotVector_FindSpanIndex l p x = Ok j /\ p <= j <= len l - p - 2 /\ span_at (kf l) j x /\
    Basis_EvaluateAll p l j x order = Ok m /\ mwf m (order + 1) (p + 1) /\
    forall k r, 0 <= k <= order -> 0 <= r <= p -> mget m k r = Ok (DBk (kf l) j (Z.to_nat p) (j - p + r) (Z.to_nat k) x).
Proof.
  intros C Hx Ho. destruct (clamped_span p l x C Hx) as [j [E [Hj Sp]]]. pose proof (cl_degree _ _ C) as P0.
  destruct (EvaluateAll_DBk l j x (Z.to_nat p) (clamped_mono _ _ C) (span_nonempty _ _ _ Sp)) with (order := order) as [m [Em [Wm Gm]]];
    try (rewrite nn_of by lia; lia); try lia.
  rewrite nn_of in * by lia. exists j, m. auto 10.
Qed.
Lemma DBk_over U j p r k x : (p < k)%nat -> DBk U j p r k x = 0%R.
Proof. intros. unfold DBk. rewrite ffact_over by assumption. ring. Qed.

Lemma C16_lemma p (l : list R) x order : clamped p l -> (0 <= x <= 1)%R -> 0 <= order ->
  exists j m, Basis_EvaluateAll_kv p l x order = Ok m /\ in_span l j x /\ p <= j <= len l - p - 2 /\
    mrows m = order + 1 /\ mcols m = p + 1 /\
    forall k r, 0 <= k <= order -> 0 <= r <= p -> exists v, mget m k r = Ok v /\
      piece_derivative (N (kf l) (Z.to_nat p) (j - p + r)) (at_ l j) (at_ l (j + 1)) (Z.to_nat k) x v /\
      ((at_ l j < x < at_ l (j + 1))%R -> is_derive_n (N (kf l) (Z.to_nat p) (j - p + r)) (Z.to_nat k) x v).
Proof.
  intros C Hx Ho. destruct (EvaluateAll_ok p l x order C Hx Ho) as [j [m [E [Hj [Sp [Em [Wm Gm]]]]]]].
  pose proof (cl_degree _ _ C) as P0. exists j, m. split; [unfold Basis_EvaluateAll_kv; rewrite E; exact Em|].
  split; [apply span_at_in; [lia|exact Sp]|]. split; [exact Hj|].
  split; [apply Wm|]. split; [apply Wm|]. intros k r Hk Hr. eexists. split; [apply Gm; lia|].
  rewrite <- !kf_at by lia. pose proof (N_piece (Z.to_nat p) l j (j - p + r) (Z.to_nat k) x) as Q.
  assert (clamped p l -> clamped (Z.of_nat (Z.to_nat p)) l) as Cp by (rewrite Z2Nat.id by lia; auto).
  assert (piece_derivative (N (kf l) (Z.to_nat p) (j - p + r)) (kf l j) (kf l (j + 1)) (Z.to_nat k) x
     (DBk (kf l) j (Z.to_nat p) (j - p + r) (Z.to_nat k) x)) as Pd by (apply Q; auto).
  split; [exact Pd|]. apply piece_interior. exact Pd.
Qed.
Lemma C16_row0_lemma p (l : list R) x order : clamped p l -> (0 <= x <= 1)%R -> 0 <= order ->
  exists m b, Basis_EvaluateAll_kv p l x order = Ok m /\ Basis_Evaluate_kv p l x = Ok b /\ len b = p + 1 /\
    forall r, 0 <= r <= p -> mget m 0 r = vget b r.
Proof.
  intros C Hx Ho. destruct (EvaluateAll_ok p l x order C Hx Ho) as [j [m [E [Hj [Sp [Em [Wm Gm]]]]]]].
  destruct (Basis_Evaluate_N p l x C Hx) as [j' [res [E1 [E2 [E3 [_ [_ [Lr [Gr _]]]]]]]]].
  assert (j' = j) by congruence. subst j'.
  exists m, res. split; [unfold Basis_EvaluateAll_kv; rewrite E; exact Em|]. split; [exact E2|]. split; [exact Lr|].
  intros r Hr. rewrite Gm, Gr by lia. rewrite (N_local _ _ _ (clamped_mono _ _ C) (clamped_le1 _ _ C) Sp).
  change (Z.to_nat 0) with O. rewrite DBk_0. reflexivity.
Qed.
Lemma C16_single_lemma p (l : list R) x order k : clamped p l -> (0 <= x <= 1)%R -> 0 <= k <= order ->
  exists m d, Basis_EvaluateAll_kv p l x order = Ok m /\ Basis_EvaluateDerivative_kv p l x k = Ok d /\ len d = p + 1 /\
    forall r, 0 <= r <= p -> mget m k r = vget d r.
Proof.
  intros C Hx Hk. destruct (EvaluateAll_ok p l x order C Hx ltac:(lia)) as [j [m [E [Hj [Sp [Em [Wm Gm]]]]]]].
  destruct (EvaluateAll_ok p l x k C Hx ltac:(lia)) as [j' [m' [E' [_ [_ [Em' [Wm' Gm']]]]]]].
  assert (j' = j) by congruence. subst j'. pose proof (cl_degree _ _ C).
  destruct (tabulate_spec 0 (p + 1) (fun r => mget m' k r) (fun r => DBk (kf l) j (Z.to_nat p) (j - p + r) (Z.to_nat k) x)) as [d [Ed [Ld Gd]]];
    [lia|intros; apply Gm'; lia|].
  exists m, d. split; [unfold Basis_EvaluateAll_kv; rewrite E; exact Em|].
  split; [|split; [lia|]].
  - unfold Basis_EvaluateDerivative_kv. rewrite E. cbn [bind]. unfold Basis_EvaluateDerivative. rewrite Em'. cbn [bind].
    destruct Wm' as [_ [-> _]]. exact Ed.
  - intros r Hr. rewrite Gm, Gd by lia. do 2 f_equal; lia.
Qed.
Lemma C17_lemma p (l : list R) x order : clamped p l -> (0 <= x <= 1)%R -> 0 <= order ->
  exists m, Basis_EvaluateAll_kv p l x order = Ok m /\ mrows m = order + 1 /\ mcols m = p + 1 /\
    forall k r, p < k <= order -> 0 <= r <= p -> mget m k r = Ok 0%R.
Proof.
  intros C Hx Ho. destruct (EvaluateAll_ok p l x order C Hx Ho) as [j [m [E [Hj [Sp [Em [Wm Gm]]]]]]].
  exists m. split; [unfold Basis_EvaluateAll_kv; rewrite E; exact Em|]. split; [apply Wm|]. split; [apply Wm|].
  intros k r Hk Hr. pose proof (cl_degree _ _ C). rewrite Gm by lia. rewrite DBk_over by lia. reflexivity.
Qed.

(** ** spline pieces *)
Section Piece.
  Variables (p : Z) (l : list R) (j : Z).
  Hypothesis C : clamped p l.
  Hypothesis Sp : (kf l j < kf l (j + 1)%Z)%R.
  Hypothesis Hj : p <= j <= len l - p - 2.
  Definition piece (k : Z) (P : Z -> R) (t : R) : R :=
    zsum 0 (len l - p - 1) (fun i => DBk (kf l) j (Z.to_nat p) i (Z.to_nat k) t * P i)%R.
  Lemma piece_derive k P t : 0 <= k -> is_derive (piece k P) t (piece (k + 1) P t).
  Proof.
    intros Hk. apply (zsum_derive 0 (len l - p - 1) (fun i t => DBk (kf l) j (Z.to_nat p) i (Z.to_nat k) t * P i)%R
      (fun i t => DBk (kf l) j (Z.to_nat p) i (Z.to_nat (k + 1)) t * P i)%R).
    intros i Hi. replace (Z.to_nat (k + 1)) with (S (Z.to_nat k)) by lia.
    apply (is_derive_ext (fun t => P i * DBk (kf l) j (Z.to_nat p) i (Z.to_nat k) t)%R); [intros; apply Rmult_comm|].
    rewrite Rmult_comm. apply dscal. apply (DBk_derive (kf l) j (clamped_mono _ _ C) Sp).
  Qed.
  Lemma piece_0 P t : span_at (kf l) j t -> piece 0 P t = spl p l P t.
  Proof.
    intros S. apply zsum_ext. intros i Hi. change (Z.to_nat 0) with O. rewrite DBk_0.
    rewrite (N_local _ _ _ (clamped_mono _ _ C) (clamped_le1 _ _ C) S). reflexivity.
  Qed.
  Lemma piece_pos P t : (kf l j <= t <= kf l (j + 1)%Z)%R -> (forall i, 0 <= i < len l - p - 1 -> (0 < P i)%R) -> (0 < piece 0 P t)%R.
  Proof.
    intros Ht H. destruct (min_exists _ P H) as [m [M0 M1]]. pose proof (cl_degree _ _ C).
    apply Rlt_le_trans with m; [exact M0|].
    apply Rle_trans with (zsum 0 (len l - p - 1) (fun i => B (kf l) j (Z.to_nat p) i t * m)%R).
    - rewrite zsum_scale_r. rewrite (zsum_support 0 (len l - p - 1) (j - p) (j + 1)); try lia.
      + pose proof (B_sum (kf l) j (clamped_mono _ _ C) Sp (Z.to_nat p) t) as S1. rewrite nn_of in S1 by lia. rewrite S1. lra.
      + intros i Hi Ho. apply B_support. rewrite nn_of by lia. lia.
    - unfold piece. apply zsum_le. intros i Hi. change (Z.to_nat 0) with O. rewrite DBk_0. apply Rmult_le_compat_l; [|apply M1; lia].
      apply B_nonneg; [apply (clamped_mono _ _ C)|exact Sp|exact Ht].
  Qed.
  (** only the coefficients of the active span matter *)
  Lemma piece_active k P t n : 0 <= k -> n = p + 1 ->
    zsum (j - p) (j - p + n) (fun i => DBk (kf l) j (Z.to_nat p) i (Z.to_nat k) t * P i)%R = piece k P t.
  Proof.
    intros Hk ->. pose proof (cl_degree _ _ C). symmetry. apply zsum_support; try lia. intros i Hi Ho.
    destruct (le_lt_dec (Z.to_nat k) (Z.to_nat p)) as [L|L]; [|rewrite DBk_over by assumption; ring].
    unfold DBk. rewrite zsum_zero; [ring|]. intros m Hm. rewrite nn_of in Hm by lia.
    rewrite B_support; [ring|]. unfold nn. lia.
  Qed.
End Piece.

(** ** curves *)
Lemma Binomial_29 n i : 0 <= i <= n -> n <= 29 -> exists b, Binomial n i = Ok b /\ IZR b = ch n i.
Proof.
  intros Hi Hn. exists (choose (Z.to_nat n) (Z.to_nat i)). split; [|reflexivity].
  pose proof (Binomial_ok (Z.to_nat n) (Z.to_nat i) ltac:(lia)) as Q. rewrite !Z2Nat.id in Q by lia.
  apply Q; [unfold INT_MAX; lia|]. apply binomial_fits_29; lia.
Qed.
Definition hder (c : curve R) (j : Z) (f : vec4 R -> R) (k : Z) (t : R) : R :=
  piece (Degree c) (Knots c) j k (fun i => f (hp c i)) t.
Lemma HomogeneousDerivative_ok c x order : wf_curve c -> (0 <= x <= 1)%R -> 0 <= order ->
  exists j h, Degree c <= j <= len (Knots c) - Degree c - 2 /\ span_at (kf (Knots c)) j x /\
    Curve_HomogeneousDerivative c x order = Ok h /\ len h = order + 1 /\
    forall k, 0 <= k <= order -> exists v, vget h k = Ok v /\ forall f, lin f -> f v = hder c j f k x.
Proof.
  intros W Hx Ho. pose proof (wf_knots c W) as C. pose proof (wf_count c W) as Cn. pose proof (cl_degree _ _ C) as P0.
  destruct (EvaluateAll_ok _ _ x order C Hx Ho) as [j [m [E [Hj [Sp [Em [Wm Gm]]]]]]].
  exists j. unfold Curve_HomogeneousDerivative. rewrite unit_assert by assumption. cbn [assert_ bind].
  rewrite E. cbn [bind]. rewrite Em. cbn [bind]. destruct Wm as [W1 [W2 _]]. rewrite W1, W2, !Z.eqb_refl. cbn [assert_ bind].
  assert (forall k, 0 <= k <= order -> exists v, for_up 0 (Degree c + 1) (fun i tmp =>
            p <- vget (ControlPoints c) (j - Degree c + i) ;; b <- mget m k i ;;
            Ok (v4add tmp (v4scale b (ToHomo p)))) v4zero = Ok v /\ forall f, lin f -> f v = hder c j f k x) as Row.
  { intros k Hk. destruct (sum_loop c (j - Degree c) (mget m k) (fun i => DBk (kf (Knots c)) j (Z.to_nat (Degree c)) (j - Degree c + i) (Z.to_nat k) x) (Degree c + 1)) as [h [Eh Qh]]; try lia.
    - intros i Hi. apply Gm; lia.
    - exists h. split; [exact Eh|]. intros f Lf. rewrite Qh by assumption. unfold hder.
      rewrite <- (piece_active (Degree c) (Knots c) j C Hj k _ x (Degree c + 1)) by lia.
      apply zsum_ext. intros i Hi. do 2 f_equal. lia. }
  set (g := fun k => (Vec4 (hder c j x4 k x) (hder c j y4 k x) (hder c j z4 k x) (hder c j w4 k x))).
  destruct (tabulate_spec 0 (order + 1) (fun k => for_up 0 (Degree c + 1) (fun i tmp =>
            p <- vget (ControlPoints c) (j - Degree c + i) ;; b <- mget m k i ;;
            Ok (v4add tmp (v4scale b (ToHomo p)))) v4zero) g) as [h [Eh [Lh Gh]]].
  - lia.
  - intros k Hk. destruct (Row k ltac:(lia)) as [v [Ev Qv]]. rewrite Ev. f_equal. apply lin_ext. intros f Lf. rewrite Qv by assumption.
    destruct Lf as [-> | [-> | [-> | ->]]]; reflexivity.
  - exists h. split; [exact Hj|]. split; [exact Sp|]. split; [exact Eh|]. split; [lia|]. intros k Hk. exists (g k).
    split; [rewrite Gh by lia; do 2 f_equal; lia|]. intros f [-> | [-> | [-> | ->]]]; reflexivity.
Qed.

(** one-dimensional quotient family *)
Definition one (A : Z -> R -> R) (k l : Z) (u v : R) : R := if l =? 0 then A k u else 0%R.
Definition quo1 (A w : Z -> R -> R) (k : Z) (t : R) : R := quo2 (one A) (one w) k 0 t 0%R.
Lemma quo1_eq A w k t : 0 <= k -> quo1 A w k t = ((A k t - zsum 1 (k + 1) (fun i => ch k i * w i t * quo1 A w (k - i)%Z t)) / w 0%Z t)%R.
Proof.
  intros Hk. unfold quo1 at 1. unfold quo2. rewrite quo_eq by lia. unfold one at 1 4. change (0 =? 0) with true. cbv iota. do 2 f_equal.
  unfold bsum. rewrite (zsum_one 0), ch_0, Rmult_1_l. rewrite zsum_first by lia. rewrite off_00.
  replace (0 + 1) with 1 by lia.
  rewrite (zsum_ext 1 (k + 1) _ (fun i => ch k i * w i t * quo1 A w (k - i)%Z t)%R); [ring|].
  intros i Hi. rewrite off_ij by lia. unfold one at 1. change (0 =? 0) with true. cbv iota.
  change (0 - 0) with 0. unfold quo1, quo2, one. ring.
Qed.
Lemma quo1_derive A w k t : (forall k t, 0 <= k -> is_derive (A k) t (A (k + 1) t)) -> (forall k t, 0 <= k -> is_derive (w k) t (w (k + 1) t)) ->
  0 <= k -> w 0 t <> 0%R -> is_derive (quo1 A w k) t (quo1 A w (k + 1) t).
Proof.
  intros HA Hw Hk W0. apply (quo2_du (one A) (one w)); try assumption; try lia.
  - intros k' l u v Hk' Hl. unfold one. destruct (l =? 0); [apply HA; assumption|apply dconst].
  - intros k' l u v Hk' Hl. unfold one. destruct (l =? 0); [apply Hw; assumption|apply dconst].
Qed.
Lemma quo1_0 A w t : quo1 A w 0 t = (A 0%Z t / w 0%Z t)%R.
Proof. rewrite quo1_eq by lia. rewrite zsum_empty by lia. f_equal. ring. Qed.

Definition cder (c : curve R) (j : Z) (f : vec4 R -> R) (k : Z) (t : R) : R := quo1 (hder c j f) (hder c j w4) k t.
Definition cder3 (c : curve R) (j k : Z) (t : R) : vec3 R := Vec3 (cder c j x4 k t) (cder c j y4 k t) (cder c j z4 k t).

Lemma hder_w_pos c j t : wf_curve c -> Degree c <= j <= len (Knots c) - Degree c - 2 ->
  (kf (Knots c) j < kf (Knots c) (j + 1)%Z)%R -> (kf (Knots c) j <= t <= kf (Knots c) (j + 1)%Z)%R -> (0 < hder c j w4 0 t)%R.
Proof.
  intros W Hj Sp Ht. apply piece_pos; [apply (wf_knots c W)|exact Sp|exact Hj|exact Ht|]. intros i Hi.
  apply cp_weight. apply (wf_weights c W).
Qed.
Lemma Curve_EvaluateAll_ok c x order : wf_curve c -> (0 <= x <= 1)%R -> 0 <= order <= 29 ->
  exists j res, Degree c <= j <= len (Knots c) - Degree c - 2 /\ span_at (kf (Knots c)) j x /\
    Curve_EvaluateAll c x order = Ok res /\ len res = order + 1 /\
    forall k, 0 <= k <= order -> vget res k = Ok (cder3 c j k x).
Proof.
  intros W Hx Ho. destruct (HomogeneousDerivative_ok c x order W Hx ltac:(lia)) as [j [h [Hj [Sp [Eh [Lh Gh]]]]]].
  exists j. pose proof (hder_w_pos c j x W Hj (span_nonempty _ _ _ Sp) (span_bounds _ _ _ Sp)) as Wp.
  unfold Curve_EvaluateAll. rewrite Eh. cbn [bind].
  destruct (vmake_spec (order + 1) (v3zero : vec3 R)) as [r0 [E0 [L0 _]]]; [lia|]. rewrite E0; cbn [bind].
  destruct (Gh 0 ltac:(lia)) as [h0 [Eh0 Qh0]]. rewrite Eh0. cbn [bind]. cbv zeta. rewrite (Qh0 w4 lin_w).
  match goal with |- context [for_up 0 (order + 1) ?b r0] =>
    destruct (for_up_inv (fun k r => len r = order + 1 /\ forall k', 0 <= k' < k -> vget r k' = Ok (cder3 c j k' x)) 0 (order + 1) b r0) as [res [Er [Lr Gr]]] end.
  - lia.
  - split; [exact L0|]. intros; lia.
  - intros k r Hk [Lr Gr]. destruct (Gh k ltac:(lia)) as [hk [Ek Qk]]. rewrite Ek. cbn [bind].
    match goal with |- context [for_up 1 (k + 1) ?b (head3 hk)] =>
      destruct (for_up_inv (fun i a => forall f g, lin f -> (f = x4 /\ g = x3 \/ f = y4 /\ g = y3 \/ f = z4 /\ g = z3) ->
        g a = (hder c j f k x - zsum 1 i (fun i => ch k i * hder c j w4 i x * cder c j f (k - i)%Z x))%R) 1 (k + 1) b (head3 hk)) as [a [Ea Qa]] end.
    + lia.
    + intros f g Lf Fg. rewrite zsum_empty by lia. rewrite Rminus_0_r. rewrite <- Qk by assumption.
      destruct Fg as [[-> ->]|[[-> ->]|[-> ->]]]; reflexivity.
    + intros i a Hi Qa. destruct (Gh i ltac:(lia)) as [hi [Ei Qi]]. rewrite Ei. cbn [bind]. cbv zeta.
      destruct (Binomial_29 k i ltac:(lia) ltac:(lia)) as [b [Eb Hb]]. rewrite Eb. cbn [bind]. rewrite Gr by lia. cbn [bind].
      eexists. split; [reflexivity|]. intros f g Lf Fg. rewrite zsum_last' by lia. pose proof (Qa f g Lf Fg) as Qf.
      rewrite <- Hb, <- (Qi w4 lin_w).
      destruct Fg as [[-> ->]|[[-> ->]|[-> ->]]]; cbn [x3 y3 z3 v3sub v3scale cder3]; norm_R; rewrite Qf; unfold cder3; cbn [x3 y3 z3]; ring.
    + rewrite Ea. cbn [bind]. rewrite v3div_ok by lra. cbn [bind].
      match goal with |- context [vset r k ?v] => destruct (vset_spec r k v) as [r' [E' [L' [G1 G2]]]] end; [lia|]. rewrite E'.
      eexists. split; [reflexivity|]. split; [lia|]. intros k' Hk'. destruct (Z.eq_dec k' k) as [->|Ne].
      * rewrite G1. f_equal. unfold cder3, cder. rewrite !(quo1_eq _ _ k) by lia.
        rewrite (Qa x4 x3), (Qa y4 y3), (Qa z4 z3) by (unfold lin; tauto). reflexivity.
      * rewrite G2 by lia. apply Gr; lia.
  - exists res. split; [exact Hj|]. split; [exact Sp|]. split; [exact Er|]. split; [exact Lr|]. intros. apply Gr; lia.
Qed.
Lemma hder_0 c j f t : wf_curve c -> span_at (kf (Knots c)) j t -> hder c j f 0 t = hsum c f t.
Proof.
  intros W Sp. unfold hder. rewrite piece_0 by (try apply (wf_knots c W); exact Sp). unfold spl, hsum, basis_fun. rewrite (wf_count c W). reflexivity.
Qed.
Lemma cder3_0 c j t : wf_curve c -> span_at (kf (Knots c)) j t -> cder3 c j 0 t = curve_point c t.
Proof.
  intros W Sp. rewrite curve_point_hsum. unfold cder3, cder. rewrite !quo1_0. rewrite !hder_0 by assumption. reflexivity.
Qed.
Lemma cder_piece c j f g k x : wf_curve c -> Degree c <= j <= len (Knots c) - Degree c - 2 -> span_at (kf (Knots c)) j x -> 0 <= k ->
  (forall t, span_at (kf (Knots c)) j t -> g (curve_point c t) = cder c j f 0 t) ->
  piece_derivative (fun t => g (curve_point c t)) (kf (Knots c) j) (kf (Knots c) (j + 1)) (Z.to_nat k) x (cder c j f k x).
Proof.
  intros W Hj Sp Hk H. exists (fun n t => cder c j f (Z.of_nat n) t). split; [|split].
  - intros t Ht. apply H. left. lra.
  - intros n t Ht. replace (Z.of_nat (S n)) with (Z.of_nat n + 1) by lia. apply quo1_derive.
    + intros; apply piece_derive; [apply (wf_knots c W)|apply (span_nonempty _ _ _ Sp)|assumption].
    + intros; apply piece_derive; [apply (wf_knots c W)|apply (span_nonempty _ _ _ Sp)|assumption].
    + lia.
    + pose proof (hder_w_pos c j t W Hj (span_nonempty _ _ _ Sp) Ht). lra.
  - rewrite Z2Nat.id by lia. reflexivity.
Qed.
Lemma C31_lemma c x order : wf_curve c -> (0 <= x <= 1)%R -> 0 <= order <= 29 ->
  exists j res, in_span (Knots c) j x /\ Curve_EvaluateAll c x order = Ok res /\ len res = order + 1 /\
    vget res 0 = Curve_Evaluate c x /\
    forall k, 0 <= k <= order -> exists v, vget res k = Ok v /\ Curve_EvaluateDerivative c x k = Ok v /\
      piece_derivative3 (curve_point c) (at_ (Knots c) j) (at_ (Knots c) (j + 1)) (Z.to_nat k) x v /\
      ((at_ (Knots c) j < x < at_ (Knots c) (j + 1))%R -> is_derive_n3 (curve_point c) (Z.to_nat k) x v).
Proof.
  intros W Hx Ho. destruct (Curve_EvaluateAll_ok c x order W Hx Ho) as [j [res [Hj [Sp [Er [Lr Gr]]]]]].
  pose proof (cl_degree _ _ (wf_knots c W)) as P0.
  exists j, res. split; [apply span_at_in; [lia|exact Sp]|]. split; [exact Er|]. split; [exact Lr|]. split.
  { rewrite Gr by lia. rewrite cder3_0, Curve_Evaluate_ok by assumption. reflexivity. }
  intros k Hk. exists (cder3 c j k x). split; [apply Gr; lia|]. split.
  { unfold Curve_EvaluateDerivative. destruct (Curve_EvaluateAll_ok c x k W Hx ltac:(lia)) as [j' [res' [Hj' [Sp' [Er' [Lr' Gr']]]]]].
    rewrite Er'. cbn [bind]. rewrite Gr' by lia. do 2 f_equal.
    destruct (Z.lt_trichotomy j j') as [L|[L|L]]; [exfalso|symmetry; assumption|exfalso];
      pose proof (clamped_mono _ _ (wf_knots c W)) as M; pose proof (clamped_le1 _ _ (wf_knots c W)) as L1.
    - pose proof (M (j + 1) j' ltac:(lia)). pose proof (M (j' + 1) (j' + 1) ltac:(lia)). pose proof (L1 (j' + 1)). destruct Sp, Sp'; lra.
    - pose proof (M (j' + 1) j ltac:(lia)). pose proof (L1 (j + 1)). destruct Sp, Sp'; lra. }
  assert (piece_derivative3 (curve_point c) (kf (Knots c) j) (kf (Knots c) (j + 1)) (Z.to_nat k) x (cder3 c j k x)) as Pd.
  { repeat split; cbn [cder3 x3 y3 z3]; (apply cder_piece; [assumption|assumption|assumption|lia|]);
      intros t St; rewrite <- (cder3_0 c j t W St); reflexivity. }
  rewrite <- !kf_at by lia. split; [exact Pd|]. apply piece_interior3. exact Pd.
Qed.
