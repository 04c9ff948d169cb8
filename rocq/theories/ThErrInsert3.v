(** Accuracy of knot insertion in binary64: how far the curve moves. *)
From Coq Require Import Reals ZArith List Lra Lia Psatz Floats.SpecFloat Permutation.
From Flocq Require Import Core.
From Verif Require Import Outcome Num ModelCore ModelBasis ModelCurve ModelSurface SpecCore SpecBasis SpecCurve SpecErr SpecErrIns ThOutcome ThReal ThB64 ThRound ThVec ThKnots ThSum ThSpline ThBasis ThCurve ThCurveWit ThInsert ThErr ThErrBasis ThErrSum ThErrCurve ThSafe ThSafe2 ThErrInsert ThErrInsert2.
Import ListNotations.
Open Scope R_scope.

(** ** Moving the control points and the weights of a rational sum *)
Lemma zsum_abs n f g : (forall i, (0 <= i < n)%Z -> Rabs (f i) <= g i) -> Rabs (zsum 0 n f) <= zsum 0 n g.
Proof.
  intros H. apply Rabs_le. split.
  - rewrite <- zsum_opp. apply zsum_le. intros i Hi. specialize (H i Hi). apply Rabs_le_inv in H. lra.
  - apply zsum_le. intros i Hi. specialize (H i Hi). apply Rabs_le_inv in H. lra.
Qed.
Lemma quotient_move n (b wc wd xc xd : Z -> R) M delta eta :
  (forall i, (0 <= i < n)%Z -> 0 <= b i /\ 0 < wd i /\ 0 < wc i /\ Rabs (xd i) <= M /\ Rabs (xc i - xd i) <= delta /\ Rabs (wc i - wd i) <= eta * wd i) ->
  0 < zsum 0 n (fun i => b i * wd i) -> 0 <= eta <= / 1000 -> 0 <= M ->
  Rabs (zsum 0 n (fun i => b i * wc i * xc i) / zsum 0 n (fun i => b i * wc i) - zsum 0 n (fun i => b i * wd i * xd i) / zsum 0 n (fun i => b i * wd i)) <= delta + 201 / 100 * eta * M.
Proof.
  intros H Dp He HM. set (D := zsum 0 n (fun i => b i * wd i)) in *. set (C := zsum 0 n (fun i => b i * wc i)).
  set (X := zsum 0 n (fun i => b i * wd i * xd i) / D).
  assert (Rabs (zsum 0 n (fun i => b i * wd i * xd i)) <= M * D) as NB.
  { unfold D. rewrite <- zsum_scale. apply zsum_abs. intros i Hi. destruct (H i Hi) as [B [W [_ [Xb _]]]].
    rewrite Rabs_mult, (Rabs_pos_eq (b i * wd i)) by nra. assert (0 <= b i * wd i) by nra. nra. }
  assert (Rabs X <= M) as XB.
  { unfold X, Rdiv. rewrite Rabs_mult, Rabs_inv, (Rabs_pos_eq D) by lra. apply (Rmult_le_reg_r D); [lra|]. rewrite Rmult_assoc, Rinv_l by lra. lra. }
  assert (C - D = zsum 0 n (fun i => b i * (wc i - wd i))) as CD by (unfold C, D; rewrite <- zsum_sub; apply zsum_ext; intros; ring).
  assert (Rabs (C - D) <= eta * D) as CDb.
  { rewrite CD. unfold D. rewrite <- zsum_scale. apply zsum_abs. intros i Hi. destruct (H i Hi) as [B [_ [_ [_ [_ W]]]]]. rewrite Rabs_mult, (Rabs_pos_eq (b i)) by lra. nra. }
  assert (999 / 1000 * D <= C) as Cp by (apply Rabs_le_inv in CDb; nra).
  assert (zsum 0 n (fun i => b i * wc i * xc i) - X * C = zsum 0 n (fun i => b i * wc i * (xc i - xd i)) + zsum 0 n (fun i => b i * (wc i - wd i) * (xd i - X))) as E.
  { assert (zsum 0 n (fun i => b i * wd i * (xd i - X)) = 0) as Z.
    { transitivity (zsum 0 n (fun i => b i * wd i * xd i) - D * X).
      - unfold D. rewrite <- zsum_scale_r, <- zsum_sub. apply zsum_ext. intros. ring.
      - unfold X. field. lra. }
    rewrite <- (Rplus_0_r (_ + zsum 0 n (fun i => b i * (wc i - wd i) * (xd i - X)))), <- Z. rewrite <- !zsum_add. unfold C. rewrite <- zsum_scale, <- zsum_sub. apply zsum_ext. intros. ring. }
  assert (Rabs (zsum 0 n (fun i => b i * wc i * (xc i - xd i))) <= delta * C) as T1.
  { unfold C. rewrite <- zsum_scale. apply zsum_abs. intros i Hi. destruct (H i Hi) as [B [_ [W [_ [Xd _]]]]]. rewrite Rabs_mult, (Rabs_pos_eq (b i * wc i)) by nra. assert (0 <= b i * wc i) by nra. nra. }
  assert (Rabs (zsum 0 n (fun i => b i * (wc i - wd i) * (xd i - X))) <= eta * (2 * M) * D) as T2.
  { unfold D. rewrite <- zsum_scale. apply zsum_abs. intros i Hi. destruct (H i Hi) as [B [W0 [_ [Xd [_ W]]]]]. rewrite !Rabs_mult, (Rabs_pos_eq (b i)) by lra.
    assert (Rabs (xd i - X) <= 2 * M). { pose proof (Rabs_triang (xd i) (- X)) as T. rewrite Rabs_Ropp in T. unfold Rminus. lra. }
    assert (Rabs (wc i - wd i) * Rabs (xd i - X) <= eta * wd i * (2 * M)) by (apply Rmult_le_compat; try assumption; apply Rabs_pos). nra. }
  replace (zsum 0 n (fun i => b i * wc i * xc i) / C - X) with ((zsum 0 n (fun i => b i * wc i * xc i) - X * C) / C) by (field; nra).
  rewrite E. unfold Rdiv. rewrite Rabs_mult, Rabs_inv, (Rabs_pos_eq C) by nra. assert (0 < C) as C0 by nra.
  apply (Rmult_le_reg_r C); [exact C0|]. rewrite Rmult_assoc, Rinv_l, Rmult_1_r by lra.
  pose proof (Rabs_triang (zsum 0 n (fun i => b i * wc i * (xc i - xd i))) (zsum 0 n (fun i => b i * (wc i - wd i) * (xd i - X)))) as T.
  assert (eta * M * (2 * D) <= eta * M * (201 / 100 * C)) by (apply Rmult_le_compat_l; nra). nra.
Qed.

Definition coord (j : nat) {T} (p : vec4 T) : T := match j with 0%nat => x4 p | 1%nat => y4 p | _ => z4 p end.
Definition bounded4 (M : R) (p : vec4 R) : Prop := Rabs (x4 p) <= M /\ Rabs (y4 p) <= M /\ Rabs (z4 p) <= M.
Definition close4 (eps eta : R) (q p : vec4 R) : Prop :=
  Rabs (x4 q - x4 p) <= eps /\ Rabs (y4 q - y4 p) <= eps /\ Rabs (z4 q - z4 p) <= eps /\ Rabs (w4 q - w4 p) <= eta * w4 p.
Lemma curve_move c d M eps eta x : wf_curve c -> wf_curve d -> Degree c = Degree d -> Knots c = Knots d -> len (ControlPoints c) = len (ControlPoints d) ->
  (forall i, (0 <= i < len (ControlPoints d))%Z -> bounded4 M (cp d i) /\ close4 eps eta (cp c i) (cp d i)) -> 0 <= eta <= / 1000 -> 0 <= M -> 0 <= x <= 1 ->
  within3 (eps + 201 / 100 * eta * M) (curve_point c x) (curve_point d x).
Proof.
  intros Wc Wd Ed Ek El H He HM Hx.
  assert (forall i, basis_fun c i x = basis_fun d i x) as Eb by (intros i; unfold basis_fun; rewrite Ed, Ek; reflexivity).
  pose proof (curve_den_pos d x Wd Hx) as Dp.
  assert (curve_den c x = zsum 0 (len (ControlPoints d)) (fun i => basis_fun d i x * w4 (cp c i))) as Ec by (unfold curve_den; rewrite El; apply zsum_ext; intros; rewrite Eb; reflexivity).
  assert (forall (f : vec4 R -> R), curve_num c f x = zsum 0 (len (ControlPoints d)) (fun i => basis_fun d i x * w4 (cp c i) * f (cp c i))) as En.
  { intros f. unfold curve_num. rewrite El. apply zsum_ext. intros. rewrite Eb. ring. }
  assert (forall (f : vec4 R -> R), curve_num d f x = zsum 0 (len (ControlPoints d)) (fun i => basis_fun d i x * w4 (cp d i) * f (cp d i))) as En'.
  { intros f. unfold curve_num. apply zsum_ext. intros. ring. }
  unfold within3, curve_point. cbn [x3 y3 z3]. rewrite !En, !En', Ec. unfold curve_den in *.
  split; [|split]; (apply (quotient_move (len (ControlPoints d)) (fun i => basis_fun d i x) (fun i => w4 (cp c i)) (fun i => w4 (cp d i)));
    [intros i Hi; destruct (H i Hi) as [[B1 [B2 B3]] [C1 [C2 [C3 C4]]]]|assumption|assumption|assumption];
    split; [apply (basis_nonneg d i x Wd Hx)|]; split; [apply cp_weight, (wf_weights d Wd)|]; split; [apply cp_weight, (wf_weights c Wc)|]; auto).
Qed.

Lemma den_move c d M eps eta x : wf_curve d -> Degree c = Degree d -> Knots c = Knots d -> len (ControlPoints c) = len (ControlPoints d) ->
  (forall i, (0 <= i < len (ControlPoints d))%Z -> bounded4 M (cp d i) /\ close4 eps eta (cp c i) (cp d i)) -> 0 <= x <= 1 ->
  Rabs (curve_den c x - curve_den d x) <= eta * curve_den d x.
Proof.
  intros Wd Ed Ek El H Hx. assert (curve_den c x - curve_den d x = zsum 0 (len (ControlPoints d)) (fun i => basis_fun d i x * (w4 (cp c i) - w4 (cp d i)))) as ->.
  { unfold curve_den. rewrite El, <- zsum_sub. apply zsum_ext. intros i Hi. unfold basis_fun. rewrite Ed, Ek. ring. }
  unfold curve_den. rewrite <- zsum_scale. apply zsum_abs. intros i Hi. destruct (H i Hi) as [_ [_ [_ [_ C4]]]]. pose proof (basis_nonneg d i x Wd Hx) as B.
  rewrite Rabs_mult, (Rabs_pos_eq _ B). assert (basis_fun d i x * Rabs (w4 (cp c i) - w4 (cp d i)) <= basis_fun d i x * (eta * w4 (cp d i))) by (apply Rmult_le_compat_l; assumption). lra.
Qed.

(** ** The invariant of repeated insertion *)
Definition sane (M lo hi : R) (p : vec4 b64) : Prop :=
  finite64 (x4 p) /\ finite64 (y4 p) /\ finite64 (z4 p) /\ finite64 (w4 p) /\ lo <= val (w4 p) <= hi /\
  Rabs (val (x4 p)) <= M /\ Rabs (val (y4 p)) <= M /\ Rabs (val (z4 p)) <= M.
Lemma sane_tame M lo hi p : bpow radix2 (-100) <= lo -> hi <= bpow radix2 100 -> sane M lo hi p -> tame M p.
Proof. rewrite bpow_100, bpow_m100. unfold sane, tame. intros H1 H2 H. intuition lra. Qed.
Lemma tame_wf c M : sound_curve c -> Forall (tame M) (ControlPoints c) -> wf_curve (curve_val c).
Proof.
  intros [[Fl Cl] Cn] T. constructor.
  - exact Cl.
  - unfold curve_val. cbn [ControlPoints Knots Degree]. rewrite len_map, len_vals. exact Cn.
  - unfold curve_val. cbn [ControlPoints]. apply Forall_forall. intros q Hq. apply in_map_iff in Hq. destruct Hq as [p [<- Hp]]. rewrite Forall_forall in T.
    pose proof (tame_w M p (T p Hp)). pose proof (bpow_gt_0 radix2 (-100)). cbn [w4 val4]. lra.
Qed.
Lemma blend_in a p q M lo hi : 0 <= a <= 1 -> 0 < lo -> lo <= w4 p <= hi -> lo <= w4 q <= hi -> bounded4 M p -> bounded4 M q ->
  lo <= w4 (blend a p q) <= hi /\ bounded4 M (blend a p q).
Proof.
  intros A L Hp Hq [P1 [P2 P3]] [Q1 [Q2 Q3]]. change (w4 (blend a p q)) with (a * w4 p + (1 - a) * w4 q).
  assert (lo <= a * w4 p + (1 - a) * w4 q <= hi) as B by (split; nra). split; [exact B|].
  assert (forall x y, Rabs x <= M -> Rabs y <= M -> Rabs ((a * (x * w4 p) + (1 - a) * (y * w4 q)) / (a * w4 p + (1 - a) * w4 q)) <= M) as Q.
  { intros x y Hx Hy. apply Rabs_le_inv in Hx. apply Rabs_le_inv in Hy. assert (0 <= a * w4 p) as S1 by nra. assert (0 <= (1 - a) * w4 q) as S2 by nra.
    set (s := a * w4 p) in *. set (t := (1 - a) * w4 q) in *. replace ((a * (x * w4 p) + (1 - a) * (y * w4 q)) / (s + t)) with ((x * s + y * t) / (s + t)) by (unfold s, t; field; fold s t; lra).
    apply Rabs_le. split; apply (Rmult_le_reg_r (s + t)); try lra; unfold Rdiv; rewrite Rmult_assoc, Rinv_l by lra; nra. }
  unfold bounded4. split; [|split]; apply Q; assumption.
Qed.
Lemma sane_cp c M lo hi i : 0 < lo -> Forall (sane M lo hi) (ControlPoints c) -> (0 <= i < len (ControlPoints c))%Z ->
  lo <= w4 (cp (curve_val c) i) <= hi /\ bounded4 M (cp (curve_val c) i).
Proof.
  intros L F Hi. destruct (vget_ex _ _ Hi) as [p E]. rewrite (cp_val _ _ _ E). rewrite Forall_forall in F. specialize (F p (vget_in _ _ _ E)). unfold sane in F. unfold bounded4. cbn [w4 x4 y4 z4 val4]. tauto.
Qed.
Lemma ins_in c M lo hi k u i : sound_curve c -> 0 < lo -> Forall (sane M lo hi) (ControlPoints c) -> knot_span (Degree c) (vals (Knots c)) k u ->
  (0 <= i < len (ControlPoints c) + 1)%Z ->
  let q := ins_pts (kf (vals (Knots c))) (Degree c) k u (cp (curve_val c)) i in lo <= w4 q <= hi /\ bounded4 M q.
Proof.
  intros [[_ Cl] Cn] L F [Hk Ku] Hi. cbv zeta. unfold ins_pts. rewrite len_vals in Hk. pose proof (cl_degree _ _ Cl).
  destruct (Z.leb_spec i (k - Degree c)); [apply sane_cp; try assumption; lia|]. destruct (Z.leb_spec i k); [|apply sane_cp; try assumption; lia].
  destruct (sane_cp c M lo hi i L F ltac:(lia)) as [A1 A2]. destruct (sane_cp c M lo hi (i - 1) L F ltac:(lia)) as [B1 B2].
  apply blend_in; try assumption. apply (ins_den _ _ k u i (clamped_mono _ _ Cl) Ku). lia.
Qed.

(** one insertion *)
Lemma step_near c c' k u M lo hi eps eta : sound_curve c -> Forall (sane M lo hi) (ControlPoints c) -> bpow radix2 (-100) <= lo -> hi <= bpow radix2 100 -> 0 <= M ->
  inner64 u -> knot_span (Degree c) (vals (Knots c)) k (val u) -> near_inserted c c' k (val u) eps eta -> 0 <= eta <= / 1000 ->
  Forall (sane (M + eps) (lo * (1 - eta)) (hi * (1 + eta))) (ControlPoints c') /\
  (bpow radix2 (-100) <= lo * (1 - eta) -> hi * (1 + eta) <= bpow radix2 100 -> forall x, 0 <= x <= 1 -> within3 (eps + 201 / 100 * eta * M) (curve_point (curve_val c') x) (curve_point (curve_val c) x) /\
    Rabs (curve_den (curve_val c') x - curve_den (curve_val c) x) <= eta * curve_den (curve_val c) x).
Proof.
  intros Sc F Hlo Hhi HM [Fu Hu] K [D [I [Sc' [L G]]]] He. pose proof (bpow_gt_0 radix2 (-100)) as B0.
  assert (Forall (sane (M + eps) (lo * (1 - eta)) (hi * (1 + eta))) (ControlPoints c')) as F'.
  { apply Forall_forall. intros q Hq. destruct (In_nth_error _ _ Hq) as [m Em]. assert (0 <= Z.of_nat m < len (ControlPoints c'))%Z as Hm.
    { unfold len. split; [lia|]. apply Nat2Z.inj_lt. apply nth_error_Some. congruence. }
    destruct (G (Z.of_nat m) Hm) as [q' [Eq [N1 [N2 [N3 [N4 [N5 [N6 [N7 N8]]]]]]]]].
    assert (q' = q) as ->. { unfold vget in Eq. destruct (Z.ltb_spec (Z.of_nat m) 0); [lia|]. rewrite Nat2Z.id, Em in Eq. congruence. }
    destruct (ins_in c M lo hi k (val u) (Z.of_nat m) Sc ltac:(lra) F K ltac:(lia)) as [W [X1 [X2 X3]]].
    set (e := ins_pts _ _ _ _ _ _) in *.
    assert (forall a b, Rabs (a - b) <= eps -> Rabs b <= M -> Rabs a <= M + eps) as Q. { intros a b Ha Hb. replace a with ((a - b) + b) by ring. pose proof (Rabs_triang (a - b) b). lra. }
    split; [exact N1|]. split; [exact N2|]. split; [exact N3|]. split; [exact N4|]. split; [apply Rabs_le_inv in N8; split; nra|].
    split; [exact (Q _ _ N5 X1)|]. split; [exact (Q _ _ N6 X2)|exact (Q _ _ N7 X3)]. }
  split; [exact F'|]. intros Hlo' Hhi' x Hx.
  assert (Forall (tame M) (ControlPoints c)) as T by (eapply Forall_impl; [|exact F]; intros a; apply (sane_tame M lo hi); assumption).
  assert (Forall (tame (M + eps)) (ControlPoints c')) as T' by (eapply Forall_impl; [|exact F']; intros a; apply (sane_tame _ (lo * (1 - eta)) (hi * (1 + eta))); assumption).
  pose proof (tame_wf _ _ Sc T) as Wc. pose proof (tame_wf _ _ Sc' T') as Wc'.
  set (g := fun i : nat => ins_pts (kf (vals (Knots c))) (Degree c) k (val u) (cp (curve_val c)) (Z.of_nat i)).
  set (d := Curve (Degree c) (vals (Knots c')) (map g (seq 0 (Z.to_nat (len (ControlPoints c')))))).
  assert (len (ControlPoints d) = len (ControlPoints c')) as Ld. { unfold d, len. cbn [ControlPoints]. rewrite map_length, seq_length. lia. }
  assert (forall i, (0 <= i < len (ControlPoints c'))%Z -> cp d i = ins_pts (kf (vals (Knots c))) (Degree c) k (val u) (cp (curve_val c)) i) as Cd.
  { intros i Hi. unfold cp at 1. unfold d. cbn [ControlPoints]. rewrite (nth_indep _ _ (g 0%nat)) by (rewrite map_length, seq_length; lia).
    rewrite map_nth, seq_nth by lia. unfold g. f_equal. lia. }
  assert (inserted (curve_val c) d k (val u)) as Id.
  { split; [reflexivity|]. split; [exact I|]. rewrite Ld. split; [unfold curve_val; cbn [ControlPoints]; rewrite len_map; exact L|]. exact Cd. }
  pose proof (inserted_wf _ _ _ _ Wc K Hu Id) as Wd. rewrite <- (inserted_same _ _ _ _ Wc K Hu Id x Hx).
  assert (curve_den d x = curve_den (curve_val c) x) as Ed by (apply (inserted_hsum (curve_val c) d k (val u) w4 x Wc K Hu Id); [unfold lin; auto|exact Hx]).
  assert (forall i, (0 <= i < len (ControlPoints d))%Z -> bounded4 M (cp d i) /\ close4 eps eta (cp (curve_val c') i) (cp d i)) as Q.
  { rewrite Ld. intros i Hi. rewrite Cd by exact Hi. destruct (G i Hi) as [q [Eq [_ [_ [_ [_ N]]]]]]. rewrite (cp_val _ _ _ Eq). split; [|exact N].
    apply (ins_in c M lo hi k (val u) i Sc ltac:(lra) F K). lia. }
  assert (len (ControlPoints (curve_val c')) = len (ControlPoints d)) as Lc by (unfold curve_val; cbn [ControlPoints]; rewrite len_map, Ld; reflexivity).
  split.
  - apply (curve_move (curve_val c') d M eps eta x); try assumption. reflexivity.
  - rewrite <- Ed. apply (den_move (curve_val c') d M eps eta x); try assumption. reflexivity.
Qed.
