(** Knot insertions into surfaces commute. *)
From Coq Require Import Reals ZArith List Lra Lia Bool Permutation.
From Verif Require Import Outcome Num ModelCore ModelBasis ModelCurve ModelSurface SpecCore SpecBasis SpecCurve SpecSurface
  ThOutcome ThReal ThKnots ThVec ThSum ThSpline ThBasis ThCurve ThInsert ThGrid ThSurface ThSurface2 ThOrder.
Import ListNotations.
Open Scope Z_scope.

(** the control polygon with second index [j] (first index [i]) as a curve *)
Definition zlist {A} (n : Z) (f : Z -> A) : list A := map (fun i => f (Z.of_nat i)) (seq 0 (Z.to_nat n)).
Definition colU (s : surface R) (j : Z) : curve R := Curve (DegreeU s) (KnotsU s) (zlist (UCount (Net s)) (fun i => gp s i j)).
Definition rowV (s : surface R) (i : Z) : curve R := Curve (DegreeV s) (KnotsV s) (zlist (VCount (Net s)) (fun j => gp s i j)).

Lemma zlist_len {A} n (f : Z -> A) : 0 <= n -> len (zlist n f) = n.
Proof. intros. unfold zlist, len. rewrite map_length, seq_length. lia. Qed.
Lemma zlist_nth {A} (d : A) n f i : 0 <= i < n -> nth (Z.to_nat i) (zlist n f) d = f i.
Proof.
  intros H. unfold zlist. rewrite (nth_indep _ d (f (Z.of_nat 0))) by (rewrite map_length, seq_length; lia).
  rewrite (map_nth (fun i => f (Z.of_nat i))). rewrite seq_nth by lia. f_equal. lia.
Qed.
Lemma zlist_Forall {A} (P : A -> Prop) n f : (forall i, 0 <= i < n -> P (f i)) -> Forall P (zlist n f).
Proof. intros H. unfold zlist. apply Forall_forall. intros x Hx. apply in_map_iff in Hx. destruct Hx as [i [<- Hi]]. apply in_seq in Hi. apply H. lia. Qed.

Lemma ucount_nonneg s : wf_surface s -> 0 <= UCount (Net s).
Proof. intros W. rewrite (ws_countU s W). pose proof (cl_len _ _ (ws_knotsU s W)). pose proof (cl_degree _ _ (ws_knotsU s W)). lia. Qed.
Lemma vcount_nonneg s : wf_surface s -> 0 <= VCount (Net s).
Proof. intros W. rewrite (ws_countV s W). pose proof (cl_len _ _ (ws_knotsV s W)). pose proof (cl_degree _ _ (ws_knotsV s W)). lia. Qed.
Lemma colU_wf s j : wf_surface s -> wf_curve (colU s j).
Proof.
  intros W. constructor.
  - apply W.
  - cbn [colU ControlPoints Knots Degree]. rewrite zlist_len by (apply ucount_nonneg; exact W). apply W.
  - apply zlist_Forall. intros i _. apply gp_weight, W.
Qed.
Lemma rowV_wf s i : wf_surface s -> wf_curve (rowV s i).
Proof.
  intros W. constructor.
  - apply W.
  - cbn [rowV ControlPoints Knots Degree]. rewrite zlist_len by (apply vcount_nonneg; exact W). apply W.
  - apply zlist_Forall. intros j _. apply gp_weight, W.
Qed.
Lemma colU_cp s i j : 0 <= i < UCount (Net s) -> cp (colU s j) i = gp s i j.
Proof. intros H. unfold cp. cbn [colU ControlPoints]. apply (zlist_nth _ _ (fun i => gp s i j)). exact H. Qed.
Lemma rowV_cp s i j : 0 <= j < VCount (Net s) -> cp (rowV s i) j = gp s i j.
Proof. intros H. unfold cp. cbn [rowV ControlPoints]. apply (zlist_nth _ _ (fun j => gp s i j)). exact H. Qed.

Lemma ins_pts_ext U p k u P Q n i : (forall q, 0 <= q < n -> P q = Q q) -> 0 <= p -> p <= k -> k < n -> 0 <= i < n + 1 -> ins_pts U p k u P i = ins_pts U p k u Q i.
Proof.
  intros E Hp Hk Hn Hi. unfold ins_pts. destruct (Z.leb_spec i (k - p)); [apply E; lia|]. destruct (Z.leb_spec i k); [|apply E; lia].
  rewrite (E i), (E (i - 1)) by lia. reflexivity.
Qed.
Lemma insertedU_col s s' k u j : wf_surface s -> knot_span (DegreeU s) (KnotsU s) k u -> insertedU s s' k u -> 0 <= j < VCount (Net s) ->
  inserted (colU s j) (colU s' j) k u.
Proof.
  intros W K [D1 [D2 [E [I G]]]] Hj. pose proof (ucount_nonneg s W) as N0. pose proof G as [Gu _]. pose proof (ws_countU s W) as C. pose proof (cl_degree _ _ (ws_knotsU s W)) as P0.
  split; [exact D1|]. split; [exact I|]. cbn [colU ControlPoints]. rewrite !zlist_len, Gu by lia. split; [reflexivity|]. intros i Hi.
  rewrite colU_cp by lia. rewrite (gp_grid _ _ _ _ i j G) by lia. cbn [colU rowV Knots Degree]. symmetry. pose proof K as [K1 K2]. apply (ins_pts_ext _ _ _ _ _ _ (UCount (Net s))); try lia.
  all: try (intros q Hq; apply colU_cp; exact Hq). all: try lia.
Qed.
Lemma insertedV_row s s' k u i : wf_surface s -> knot_span (DegreeV s) (KnotsV s) k u -> insertedV s s' k u -> 0 <= i < UCount (Net s) ->
  inserted (rowV s i) (rowV s' i) k u.
Proof.
  intros W K [D1 [D2 [E [I G]]]] Hj. pose proof (vcount_nonneg s W) as N0. pose proof G as [Gu [Gv _]]. pose proof (ws_countV s W) as C. pose proof (cl_degree _ _ (ws_knotsV s W)) as P0.
  split; [exact D2|]. split; [exact I|]. cbn [rowV ControlPoints]. rewrite !zlist_len, Gv by lia. split; [reflexivity|]. intros j Hi.
  rewrite rowV_cp by lia. rewrite (gp_grid _ _ _ _ i j G) by lia. cbn [colU rowV Knots Degree]. symmetry. pose proof K as [K1 K2]. apply (ins_pts_ext _ _ _ _ _ _ (VCount (Net s))); try lia.
  intros q Hq. apply rowV_cp. exact Hq.
Qed.

(** surfaces with equal columns are equal *)
Lemma surface_ext s d : wf_surface s -> wf_surface d -> DegreeU s = DegreeU d -> DegreeV s = DegreeV d -> KnotsU s = KnotsU d -> KnotsV s = KnotsV d ->
  (forall i j, 0 <= i < UCount (Net s) -> 0 <= j < VCount (Net s) -> gp s i j = gp d i j) -> s = d.
Proof.
  intros W X D1 D2 K1 K2 H. pose proof (ucount_nonneg s W) as N0. pose proof (vcount_nonneg s W) as N1.
  assert (UCount (Net s) = UCount (Net d)) as Cu by (rewrite (ws_countU s W), (ws_countU d X); congruence).
  assert (VCount (Net s) = VCount (Net d)) as Cv by (rewrite (ws_countV s W), (ws_countV d X); congruence).
  assert (Net s = Net d) as En.
  { pose proof (ws_values s W) as L1. pose proof (ws_values d X) as L2. destruct s as [? ? ? ? [nu nv l]], d as [? ? ? ? [nu' nv' l']]. unfold gp in H. cbn in *. subst nu' nv'. f_equal.
    apply (znth_ext (Vec4 0 0 0 1)%R); [unfold len in *; congruence|]. intros i Hi. rewrite L1, Z.mul_comm in Hi. destruct (idx_ex _ _ _ N0 Hi) as [r [c [Hr [Hc ->]]]].
    apply H; assumption. }
  destruct s, d. cbn in *. congruence.
Qed.
Lemma insertedU_same s s' k u : insertedU s s' k u -> DegreeU s' = DegreeU s /\ DegreeV s' = DegreeV s /\ KnotsV s' = KnotsV s /\ VCount (Net s') = VCount (Net s) /\ UCount (Net s') = UCount (Net s) + 1.
Proof. intros [D1 [D2 [E [I [G1 [G2 _]]]]]]. repeat split; assumption. Qed.
Lemma insertedV_same s s' k u : insertedV s s' k u -> DegreeU s' = DegreeU s /\ DegreeV s' = DegreeV s /\ KnotsU s' = KnotsU s /\ VCount (Net s') = VCount (Net s) + 1 /\ UCount (Net s') = UCount (Net s).
Proof. intros [D1 [D2 [E [I [G1 [G2 _]]]]]]. repeat split; assumption. Qed.

Lemma insertedU_swap s c1 c2 d1 d2 a b a' b' u v : wf_surface s -> (0 < u < 1)%R -> (0 < v < 1)%R -> (u < v)%R ->
  knot_span (DegreeU s) (KnotsU s) a u -> insertedU s c1 a u -> knot_span (DegreeU c1) (KnotsU c1) b' v -> insertedU c1 c2 b' v ->
  knot_span (DegreeU s) (KnotsU s) b v -> insertedU s d1 b v -> knot_span (DegreeU d1) (KnotsU d1) a' u -> insertedU d1 d2 a' u -> c2 = d2.
Proof.
  intros W Hu Hv L Ka Ia Kb' Ib' Kb Ib Ka' Ia'.
  pose proof (insertedU_wf _ _ _ _ W Ka Hu Ia) as W1. pose proof (insertedU_wf _ _ _ _ W1 Kb' Hv Ib') as W2.
  pose proof (insertedU_wf _ _ _ _ W Kb Hv Ib) as X1. pose proof (insertedU_wf _ _ _ _ X1 Ka' Hu Ia') as X2.
  destruct (insertedU_same _ _ _ _ Ia) as [A1 [A2 [A3 [A4 A5]]]]. destruct (insertedU_same _ _ _ _ Ib) as [B1 [B2 [B3 [B4 B5]]]].
  destruct (insertedU_same _ _ _ _ Ia') as [A1' [A2' [A3' [A4' A5']]]]. destruct (insertedU_same _ _ _ _ Ib') as [B1' [B2' [B3' [B4' B5']]]].
  assert (forall j, 0 <= j < VCount (Net s) -> colU c2 j = colU d2 j) as G.
  { intros j Hj. apply (inserted_swap (colU s j) (colU c1 j) (colU c2 j) (colU d1 j) (colU d2 j) a b a' b' u v); try assumption.
    - apply colU_wf; exact W.
    - apply insertedU_col; assumption.
    - apply insertedU_col; try assumption. lia.
    - apply insertedU_col; assumption.
    - apply insertedU_col; try assumption. lia. }
  pose proof (cl_len _ _ (ws_knotsV s W)) as Lv. pose proof (ws_countV s W) as Cv. pose proof (cl_degree _ _ (ws_knotsV s W)).
  apply surface_ext; try assumption; try congruence.
  - apply (f_equal Knots (G 0 ltac:(lia))).
  - intros i j Hi Hj. rewrite <- (colU_cp c2), <- (colU_cp d2) by lia. rewrite G by lia. reflexivity.
Qed.
Lemma insertedV_swap s c1 c2 d1 d2 a b a' b' u v : wf_surface s -> (0 < u < 1)%R -> (0 < v < 1)%R -> (u < v)%R ->
  knot_span (DegreeV s) (KnotsV s) a u -> insertedV s c1 a u -> knot_span (DegreeV c1) (KnotsV c1) b' v -> insertedV c1 c2 b' v ->
  knot_span (DegreeV s) (KnotsV s) b v -> insertedV s d1 b v -> knot_span (DegreeV d1) (KnotsV d1) a' u -> insertedV d1 d2 a' u -> c2 = d2.
Proof.
  intros W Hu Hv L Ka Ia Kb' Ib' Kb Ib Ka' Ia'.
  pose proof (insertedV_wf _ _ _ _ W Ka Hu Ia) as W1. pose proof (insertedV_wf _ _ _ _ W1 Kb' Hv Ib') as W2.
  pose proof (insertedV_wf _ _ _ _ W Kb Hv Ib) as X1. pose proof (insertedV_wf _ _ _ _ X1 Ka' Hu Ia') as X2.
  destruct (insertedV_same _ _ _ _ Ia) as [A1 [A2 [A3 [A4 A5]]]]. destruct (insertedV_same _ _ _ _ Ib) as [B1 [B2 [B3 [B4 B5]]]].
  destruct (insertedV_same _ _ _ _ Ia') as [A1' [A2' [A3' [A4' A5']]]]. destruct (insertedV_same _ _ _ _ Ib') as [B1' [B2' [B3' [B4' B5']]]].
  assert (forall i, 0 <= i < UCount (Net s) -> rowV c2 i = rowV d2 i) as G.
  { intros i Hi. apply (inserted_swap (rowV s i) (rowV c1 i) (rowV c2 i) (rowV d1 i) (rowV d2 i) a b a' b' u v); try assumption.
    - apply rowV_wf; exact W.
    - apply insertedV_row; assumption.
    - apply insertedV_row; try assumption. lia.
    - apply insertedV_row; assumption.
    - apply insertedV_row; try assumption. lia. }
  pose proof (cl_len _ _ (ws_knotsU s W)) as Lv. pose proof (ws_countU s W) as Cv. pose proof (cl_degree _ _ (ws_knotsU s W)).
  apply surface_ext; try assumption; try congruence.
  - apply (f_equal Knots (G 0 ltac:(lia))).
  - intros i j Hi Hj. rewrite <- (rowV_cp c2), <- (rowV_cp d2) by lia. rewrite G by lia. reflexivity.
Qed.

(** rows and columns *)
Lemma cross_coef U V p q a b u v P i j : mono U -> mono V -> (U a <= u < U (a + 1)%Z)%R -> (V b <= v < V (b + 1)%Z)%R ->
  ins_coef V q b v (fun j => ins_coef U p a u (fun i => P i j) i) j = ins_coef U p a u (fun i => ins_coef V q b v (fun j => P i j) j) i.
Proof.
  intros MU MV Ka Kb. pose proof (nn_nonneg p). pose proof (nn_nonneg q). unfold ins_coef, step.
  destruct (Z.leb_spec i (a - nn p)), (Z.leb_spec i a), (Z.leb_spec j (b - nn q)), (Z.leb_spec j b); try reflexivity.
  assert (U i <= U a)%R by (apply MU; lia). assert (U (a + 1)%Z <= U (i + nn p)%Z)%R by (apply MU; lia).
  assert (V j <= V b)%R by (apply MV; lia). assert (V (b + 1)%Z <= V (j + nn q)%Z)%R by (apply MV; lia).
  field. split; lra.
Qed.
Lemma inserted_cross s c1 c2 d1 d2 a b a' b' u v : wf_surface s -> (0 < u < 1)%R -> (0 < v < 1)%R ->
  knot_span (DegreeU s) (KnotsU s) a u -> insertedU s c1 a u -> knot_span (DegreeV c1) (KnotsV c1) b' v -> insertedV c1 c2 b' v ->
  knot_span (DegreeV s) (KnotsV s) b v -> insertedV s d1 b v -> knot_span (DegreeU d1) (KnotsU d1) a' u -> insertedU d1 d2 a' u -> c2 = d2.
Proof.
  intros W Hu Hv Ka Ia Kb' Ib' Kb Ib Ka' Ia'.
  pose proof (insertedU_wf _ _ _ _ W Ka Hu Ia) as W1. pose proof (insertedV_wf _ _ _ _ W1 Kb' Hv Ib') as W2.
  pose proof (insertedV_wf _ _ _ _ W Kb Hv Ib) as X1. pose proof (insertedU_wf _ _ _ _ X1 Ka' Hu Ia') as X2.
  destruct (insertedU_same _ _ _ _ Ia) as [A1 [A2 [A3 [A4 A5]]]]. destruct (insertedV_same _ _ _ _ Ib) as [B1 [B2 [B3 [B4 B5]]]].
  destruct (insertedU_same _ _ _ _ Ia') as [A1' [A2' [A3' [A4' A5']]]]. destruct (insertedV_same _ _ _ _ Ib') as [B1' [B2' [B3' [B4' B5']]]].
  assert (a' = a) as ->. { rewrite B1, B3 in Ka'. apply (span_unique _ _ _ _ u (ws_knotsU s W) Ka' Ka). }
  assert (b' = b) as ->. { rewrite A2, A3 in Kb'. apply (span_unique _ _ _ _ v (ws_knotsV s W) Kb' Kb). }
  pose proof Ia as [_ [_ [_ [Ja Ga]]]]. pose proof Ib as [_ [_ [_ [Jb Gb]]]]. pose proof Ia' as [_ [_ [_ [Ja' Ga']]]]. pose proof Ib' as [_ [_ [_ [Jb' Gb']]]].
  pose proof (ws_countU s W). pose proof (ws_countV s W). pose proof (cl_degree _ _ (ws_knotsU s W)). pose proof (cl_degree _ _ (ws_knotsV s W)).
  assert (KnotsU c2 = KnotsU d2) as KU. { rewrite B3'. destruct Ja as [l1 h1], Ja' as [l2 h2]. apply kf_ext; [rewrite B3 in *; lia|]. intros i. rewrite h1, h2, B3. reflexivity. }
  assert (KnotsV c2 = KnotsV d2) as KV. { rewrite A3'. destruct Jb as [l1 h1], Jb' as [l2 h2]. apply kf_ext; [rewrite A3 in *; lia|]. intros i. rewrite h1, h2, A3. reflexivity. }
  apply surface_ext; try assumption; try congruence.
  intros i j Hi Hj. rewrite (gp_grid _ _ _ _ i j Gb') by lia. rewrite (gp_grid _ _ _ _ i j Ga') by lia.
  pose proof (ws_knotsU s W) as CU. pose proof (ws_knotsV s W) as CV.
  assert (forall i j, 0 < w4 (gp s i j))%R as Ps by (intros; apply gp_weight, W). assert (forall i j, 0 < w4 (gp c1 i j))%R as Pc by (intros; apply gp_weight, W1). assert (forall i j, 0 < w4 (gp d1 i j))%R as Pd by (intros; apply gp_weight, X1).
  rewrite A2, A3, B1, B3. destruct Ka as [Ra Sa], Kb as [Rb Sb].
  apply ToHomo_inj.
  - apply ins_pts_w; [apply (clamped_mono _ _ CV)|exact Sb|]. intros; apply Pc.
  - apply ins_pts_w; [apply (clamped_mono _ _ CU)|exact Sa|]. intros; apply Pd.
  - intros f Lf. rewrite !ins_pts_coef; try assumption; try (apply clamped_mono with (1 := CV)); try (apply clamped_mono with (1 := CU)); try (intros; apply Pc); try (intros; apply Pd).
    rewrite (ins_coef_ext _ _ b v _ (fun j => ins_coef (kf (KnotsU s)) (Z.to_nat (DegreeU s)) a u (fun i => f (ToHomo (gp s i j))) i) (VCount (Net s)) j); try (rewrite ?nn_of by lia; lia).
    + rewrite (ins_coef_ext _ _ a u _ (fun i => ins_coef (kf (KnotsV s)) (Z.to_nat (DegreeV s)) b v (fun j => f (ToHomo (gp s i j))) j) (UCount (Net s)) i); try (rewrite ?nn_of by lia; lia).
      * apply cross_coef; try assumption; [apply (clamped_mono _ _ CU)|apply (clamped_mono _ _ CV)].
      * intros i' Hi'. rewrite (gp_grid _ _ _ _ i' j Gb) by lia. apply ins_pts_coef; try assumption. apply (clamped_mono _ _ CV). intros; apply Ps.
    + intros j' Hj'. rewrite (gp_grid _ _ _ _ i j' Ga) by lia. apply ins_pts_coef; try assumption. apply (clamped_mono _ _ CU). intros; apply Ps.
Qed.

(** ** the operations *)
Lemma InsertKnotU_swap jk s u v : wf_surface s -> 1 <= DegreeU s -> (0 < u < 1)%R -> (0 < v < 1)%R ->
  (s1 <- Surface_InsertKnotU jk s u ;; Surface_InsertKnotU jk s1 v)%outcome = (s1 <- Surface_InsertKnotU jk s v ;; Surface_InsertKnotU jk s1 u)%outcome.
Proof.
  assert (forall u v, wf_surface s -> 1 <= DegreeU s -> (0 < u < 1)%R -> (0 < v < 1)%R -> (u < v)%R ->
    (s1 <- Surface_InsertKnotU jk s u ;; Surface_InsertKnotU jk s1 v)%outcome = (s1 <- Surface_InsertKnotU jk s v ;; Surface_InsertKnotU jk s1 u)%outcome) as G.
  { clear u v. intros u v W P Hu Hv L.
    destruct (Surface_InsertKnotU_ok jk s u W P Hu) as [c1 [a [E1 [Ka Ia]]]]. pose proof (insertedU_wf _ _ _ _ W Ka Hu Ia) as W1.
    destruct (Surface_InsertKnotU_ok jk s v W P Hv) as [d1 [b [F1 [Kb Ib]]]]. pose proof (insertedU_wf _ _ _ _ W Kb Hv Ib) as X1.
    destruct (insertedU_same _ _ _ _ Ia) as [A1 _]. destruct (insertedU_same _ _ _ _ Ib) as [B1 _].
    destruct (Surface_InsertKnotU_ok jk c1 v W1 ltac:(lia) Hv) as [c2 [b' [E2 [Kb' Ib']]]].
    destruct (Surface_InsertKnotU_ok jk d1 u X1 ltac:(lia) Hu) as [d2 [a' [F2 [Ka' Ia']]]].
    rewrite E1, F1. cbn [bind]. rewrite E2, F2. f_equal. apply (insertedU_swap s c1 c2 d1 d2 a b a' b' u v); assumption. }
  intros W P Hu Hv. destruct (Rtotal_order u v) as [L|[->|L]]; [apply G; assumption|reflexivity|symmetry; apply G; assumption].
Qed.
Lemma InsertKnotV_swap s u v : wf_surface s -> 1 <= DegreeV s -> (0 < u < 1)%R -> (0 < v < 1)%R ->
  (s1 <- Surface_InsertKnotV s u ;; Surface_InsertKnotV s1 v)%outcome = (s1 <- Surface_InsertKnotV s v ;; Surface_InsertKnotV s1 u)%outcome.
Proof.
  assert (forall u v, wf_surface s -> 1 <= DegreeV s -> (0 < u < 1)%R -> (0 < v < 1)%R -> (u < v)%R ->
    (s1 <- Surface_InsertKnotV s u ;; Surface_InsertKnotV s1 v)%outcome = (s1 <- Surface_InsertKnotV s v ;; Surface_InsertKnotV s1 u)%outcome) as G.
  { clear u v. intros u v W P Hu Hv L.
    destruct (Surface_InsertKnotV_ok s u W P Hu) as [c1 [a [E1 [Ka Ia]]]]. pose proof (insertedV_wf _ _ _ _ W Ka Hu Ia) as W1.
    destruct (Surface_InsertKnotV_ok s v W P Hv) as [d1 [b [F1 [Kb Ib]]]]. pose proof (insertedV_wf _ _ _ _ W Kb Hv Ib) as X1.
    destruct (insertedV_same _ _ _ _ Ia) as [_ [A1 _]]. destruct (insertedV_same _ _ _ _ Ib) as [_ [B1 _]].
    destruct (Surface_InsertKnotV_ok c1 v W1 ltac:(lia) Hv) as [c2 [b' [E2 [Kb' Ib']]]].
    destruct (Surface_InsertKnotV_ok d1 u X1 ltac:(lia) Hu) as [d2 [a' [F2 [Ka' Ia']]]].
    rewrite E1, F1. cbn [bind]. rewrite E2, F2. f_equal. apply (insertedV_swap s c1 c2 d1 d2 a b a' b' u v); assumption. }
  intros W P Hu Hv. destruct (Rtotal_order u v) as [L|[->|L]]; [apply G; assumption|reflexivity|symmetry; apply G; assumption].
Qed.
Lemma InsertKnotUV_swap jk s u v : wf_surface s -> 1 <= DegreeU s -> 1 <= DegreeV s -> (0 < u < 1)%R -> (0 < v < 1)%R ->
  (s1 <- Surface_InsertKnotU jk s u ;; Surface_InsertKnotV s1 v)%outcome = (s1 <- Surface_InsertKnotV s v ;; Surface_InsertKnotU jk s1 u)%outcome.
Proof.
  intros W P Q Hu Hv.
  destruct (Surface_InsertKnotU_ok jk s u W P Hu) as [c1 [a [E1 [Ka Ia]]]]. pose proof (insertedU_wf _ _ _ _ W Ka Hu Ia) as W1.
  destruct (Surface_InsertKnotV_ok s v W Q Hv) as [d1 [b [F1 [Kb Ib]]]]. pose proof (insertedV_wf _ _ _ _ W Kb Hv Ib) as X1.
  destruct (insertedU_same _ _ _ _ Ia) as [_ [A1 _]]. destruct (insertedV_same _ _ _ _ Ib) as [B1 _].
  destruct (Surface_InsertKnotV_ok c1 v W1 ltac:(lia) Hv) as [c2 [b' [E2 [Kb' Ib']]]].
  destruct (Surface_InsertKnotU_ok jk d1 u X1 ltac:(lia) Hu) as [d2 [a' [F2 [Ka' Ia']]]].
  rewrite E1, F1. cbn [bind]. rewrite E2, F2. f_equal. apply (inserted_cross s c1 c2 d1 d2 a b a' b' u v); assumption.
Qed.

(** any sequence of insertions [(true, u)] in the first and [(false, v)] in the second direction *)
Definition insert_any (jk : vec4 R) (s : surface R) (ix : bool * R) : outcome (surface R) :=
  if fst ix then Surface_InsertKnotU jk s (snd ix) else Surface_InsertKnotV s (snd ix).
Lemma insert_any_ok jk s ix : wf_surface s -> 1 <= DegreeU s -> 1 <= DegreeV s -> (0 < snd ix < 1)%R ->
  exists s', insert_any jk s ix = Ok s' /\ wf_surface s' /\ DegreeU s' = DegreeU s /\ DegreeV s' = DegreeV s.
Proof.
  intros W P Q H. unfold insert_any. destruct (fst ix).
  - destruct (Surface_InsertKnotU_ok jk s _ W P H) as [s' [k [E [K I]]]]. exists s'. split; [exact E|]. split; [apply (insertedU_wf _ _ _ _ W K H I)|]. destruct (insertedU_same _ _ _ _ I) as [? [? _]]. auto.
  - destruct (Surface_InsertKnotV_ok s _ W Q H) as [s' [k [E [K I]]]]. exists s'. split; [exact E|]. split; [apply (insertedV_wf _ _ _ _ W K H I)|]. destruct (insertedV_same _ _ _ _ I) as [? [? _]]. auto.
Qed.
Lemma insert_any_swap jk s a b : wf_surface s -> 1 <= DegreeU s -> 1 <= DegreeV s -> (0 < snd a < 1)%R -> (0 < snd b < 1)%R ->
  (s1 <- insert_any jk s a ;; insert_any jk s1 b)%outcome = (s1 <- insert_any jk s b ;; insert_any jk s1 a)%outcome.
Proof.
  intros W P Q Ha Hb. unfold insert_any. destruct a as [[] u], b as [[] v]; cbn [fst snd] in *.
  - apply InsertKnotU_swap; assumption.
  - apply InsertKnotUV_swap; assumption.
  - symmetry. apply InsertKnotUV_swap; assumption.
  - apply InsertKnotV_swap; assumption.
Qed.
Lemma insert_any_perm jk l l' : Permutation l l' -> forall s, wf_surface s -> 1 <= DegreeU s -> 1 <= DegreeV s -> Forall (fun ix => 0 < snd ix < 1)%R l ->
  foldM (insert_any jk) l s = foldM (insert_any jk) l' s.
Proof.
  induction 1 as [|x l l' P IH|x y l|l1 l2 l3 P1 IH1 P2 IH2]; intros s W D1 D2 F.
  - reflexivity.
  - inversion F; subst. cbn [foldM]. destruct (insert_any_ok jk s x W D1 D2) as [s' [E [W' [E1 E2]]]]; [assumption|]. rewrite E. cbn [bind]. apply IH; try assumption; lia.
  - inversion F as [|? ? Hy F']; subst. inversion F' as [|? ? Hx F'']; subst. cbn [foldM]. pose proof (insert_any_swap jk s y x W D1 D2 Hy Hx) as S.
    destruct (insert_any_ok jk s x W D1 D2 Hx) as [sx [Ex _]]. destruct (insert_any_ok jk s y W D1 D2 Hy) as [sy [Ey _]].
    rewrite Ex, Ey in *. cbn [bind] in *. rewrite S. reflexivity.
  - rewrite IH1, IH2; auto. rewrite <- P1. exact F.
Qed.
Lemma insertU_list_perm jk us us' : Permutation us us' -> forall s, wf_surface s -> 1 <= DegreeU s -> Forall (fun u => 0 < u < 1)%R us ->
  Surface_InsertKnotU_list jk s us = Surface_InsertKnotU_list jk s us'.
Proof.
  unfold Surface_InsertKnotU_list. induction 1 as [|x l l' P IH|x y l|l1 l2 l3 P1 IH1 P2 IH2]; intros s W D1 F.
  - reflexivity.
  - inversion F; subst. cbn [foldM]. destruct (Surface_InsertKnotU_ok jk s x W D1) as [s' [k [E [K I]]]]; [assumption|]. rewrite E. cbn [bind]. destruct (insertedU_same _ _ _ _ I) as [D _].
    apply IH; try assumption; [|lia]. apply (insertedU_wf _ _ _ _ W K); assumption.
  - inversion F as [|? ? Hy F']; subst. inversion F' as [|? ? Hx F'']; subst. cbn [foldM]. pose proof (InsertKnotU_swap jk s y x W D1 Hy Hx) as S.
    destruct (Surface_InsertKnotU_ok jk s x W D1 Hx) as [sx [? [Ex _]]]. destruct (Surface_InsertKnotU_ok jk s y W D1 Hy) as [sy [? [Ey _]]].
    rewrite Ex, Ey in *. cbn [bind] in *. rewrite S. reflexivity.
  - rewrite IH1, IH2; auto. rewrite <- P1. exact F.
Qed.
Lemma insertV_list_perm us us' : Permutation us us' -> forall s, wf_surface s -> 1 <= DegreeV s -> Forall (fun u => 0 < u < 1)%R us ->
  Surface_InsertKnotV_list s us = Surface_InsertKnotV_list s us'.
Proof.
  unfold Surface_InsertKnotV_list. induction 1 as [|x l l' P IH|x y l|l1 l2 l3 P1 IH1 P2 IH2]; intros s W D1 F.
  - reflexivity.
  - inversion F; subst. cbn [foldM]. destruct (Surface_InsertKnotV_ok s x W D1) as [s' [k [E [K I]]]]; [assumption|]. rewrite E. cbn [bind]. destruct (insertedV_same _ _ _ _ I) as [_ [D _]].
    apply IH; try assumption; [|lia]. apply (insertedV_wf _ _ _ _ W K); assumption.
  - inversion F as [|? ? Hy F']; subst. inversion F' as [|? ? Hx F'']; subst. cbn [foldM]. pose proof (InsertKnotV_swap s y x W D1 Hy Hx) as S.
    destruct (Surface_InsertKnotV_ok s x W D1 Hx) as [sx [? [Ex _]]]. destruct (Surface_InsertKnotV_ok s y W D1 Hy) as [sy [? [Ey _]]].
    rewrite Ex, Ey in *. cbn [bind] in *. rewrite S. reflexivity.
  - rewrite IH1, IH2; auto. rewrite <- P1. exact F.
Qed.
