(** Surfaces: corners, convex hull, transformation, knot insertion. *)
From Coq Require Import Reals ZArith List Lra Lia Bool Permutation.
From Verif Require Import Outcome Num ModelCore ModelBasis ModelCurve ModelSurface SpecCore SpecBasis SpecCurve SpecSurface
  ThOutcome ThReal ThKnots ThGrid ThVec ThSum ThSpline ThBasis ThCurve ThInsert ThCurveWit ThSurface.
Import ListNotations.
Open Scope Z_scope.

Lemma basis_uv_nonneg s i j u v : wf_surface s -> (0 <= u <= 1)%R -> (0 <= v <= 1)%R -> (0 <= basis_uv s i j u v)%R.
Proof. intros W Hu Hv. apply Rmult_le_pos; apply N_nonneg; auto; apply W. Qed.
Lemma surf_den_pos s u v : wf_surface s -> (0 <= u <= 1)%R -> (0 <= v <= 1)%R -> (0 < surf_den s u v)%R.
Proof. intros. rewrite surf_den_hsurf by assumption. apply hsurf_w_pos; assumption. Qed.

(** ** Corners *)
Definition corner (b : bool) (n : Z) : Z := if b then n - 1 else 0.
Definition bit (b : bool) : R := if b then 1%R else 0%R.
Lemma spl_corner p l P b : clamped p l -> spl p l P (bit b) = P (corner b (len l - p - 1)).
Proof.
  intros C. destruct b; simpl.
  - rewrite spl_end by assumption. f_equal. lia.
  - apply spl_start; assumption.
Qed.
Lemma surf_corner s bu bv : wf_surface s ->
  surf_point s (bit bu) (bit bv) = point3 (gp s (corner bu (UCount (Net s))) (corner bv (VCount (Net s)))).
Proof.
  intros W. rewrite surf_point_hsurf by assumption. unfold hsurf. rewrite !spl_corner by apply W.
  rewrite (ws_countU s W), (ws_countV s W).
  match goal with |- context [ghp s ?a ?b] => pose proof (gp_weight s a b (ws_weights s W)) as Wp; unfold ghp; destruct (gp s a b) as [x y z w] end.
  unfold ToHomo, point3. cbn [x4 y4 z4 w4] in *. norm_R. f_equal; field; lra.
Qed.

(** ** C47 *)
Lemma surf_half_space s u v a b d e : wf_surface s -> (0 <= u <= 1)%R -> (0 <= v <= 1)%R ->
  (forall i j, 0 <= i < UCount (Net s) -> 0 <= j < VCount (Net s) -> basis_uv s i j u v <> 0%R ->
     (a * x4 (gp s i j) + b * y4 (gp s i j) + d * z4 (gp s i j) <= e)%R) ->
  (a * x3 (surf_point s u v) + b * y3 (surf_point s u v) + d * z3 (surf_point s u v) <= e)%R.
Proof.
  intros W Hu Hv H. pose proof (surf_den_pos s u v W Hu Hv) as Dp. unfold surf_point. cbn [x3 y3 z3].
  replace (a * (surf_num s x4 u v / surf_den s u v) + b * (surf_num s y4 u v / surf_den s u v) + d * (surf_num s z4 u v / surf_den s u v))%R
    with ((a * surf_num s x4 u v + b * surf_num s y4 u v + d * surf_num s z4 u v) / surf_den s u v)%R by (field; lra).
  apply Rmult_le_reg_r with (surf_den s u v); [assumption|]. unfold Rdiv. rewrite Rmult_assoc, Rinv_l, Rmult_1_r by lra.
  unfold surf_num, surf_den. rewrite <- !zsum_scale, <- !zsum_add. apply zsum_le. intros i Hi.
  rewrite <- !zsum_scale, <- !zsum_add. apply zsum_le. intros j Hj.
  destruct (Req_EM_T (basis_uv s i j u v) 0) as [E|E]; [rewrite E; lra|].
  specialize (H i j Hi Hj E). pose proof (basis_uv_nonneg s i j u v W Hu Hv). pose proof (gp_weight s i j (ws_weights s W)).
  assert (0 <= basis_uv s i j u v * w4 (gp s i j))%R as G by (apply Rmult_le_pos; lra).
  apply (Rmult_le_compat_l _ _ _ G) in H. lra.
Qed.

(** ** C48 *)
Lemma stransform_gp s m i j : wf_surface s -> 0 <= i < UCount (Net s) -> 0 <= j < VCount (Net s) ->
  gp (Surface_Transform s m) i j = set_head3 (gp s i j) (m3mul m (head3 (gp s i j))).
Proof.
  intros W Hi Hj. unfold gp. simpl.
  refine (znth_map _ (Vec4 0 0 0 1)%R _ _ (j * UCount (Net s) + i) _).
  rewrite (ws_values s W), (Z.mul_comm (UCount (Net s))). apply idx_range; assumption.
Qed.
Lemma stransform_wf s m : wf_surface s -> wf_surface (Surface_Transform s m).
Proof.
  intros [A B C D E F]. constructor; simpl; auto.
  - rewrite len_map. exact E.
  - unfold positive_weights in *. apply Forall_map. simpl. exact F.
Qed.
Lemma stransform_point s m u v : wf_surface s -> (0 <= u <= 1)%R -> (0 <= v <= 1)%R ->
  surf_point (Surface_Transform s m) u v = mat_apply m (surf_point s u v).
Proof.
  intros W Hu Hv. pose proof (surf_den_pos s u v W Hu Hv) as Dp.
  assert (surf_den (Surface_Transform s m) u v = surf_den s u v) as Ed.
  { unfold surf_den. apply zsum_ext. intros i Hi. apply zsum_ext. intros j Hj. rewrite stransform_gp by assumption. reflexivity. }
  assert (forall f r, lin f -> (forall p, f (set_head3 p (m3mul m (head3 p))) = (x3 r * x4 p + y3 r * y4 p + z3 r * z4 p)%R) ->
    surf_num (Surface_Transform s m) f u v = (x3 r * surf_num s x4 u v + y3 r * surf_num s y4 u v + z3 r * surf_num s z4 u v)%R) as En.
  { intros f r Lf Hf. unfold surf_num. rewrite <- !zsum_scale, <- !zsum_add. apply zsum_ext. intros i Hi.
    rewrite <- !zsum_scale, <- !zsum_add. apply zsum_ext. intros j Hj.
    rewrite stransform_gp by assumption. rewrite Hf. simpl. unfold basis_uv. simpl. ring. }
  unfold surf_point. rewrite Ed, (En x4 (row0 m)), (En y4 (row1 m)), (En z4 (row2 m)) by (unfold lin; auto).
  unfold mat_apply. simpl. f_equal; field; lra.
Qed.

(** ** Grids given by their entries *)
Lemma gp_grid s nu nv f i j : grid_is (Net s) nu nv f -> 0 <= i < nu -> 0 <= j < nv -> gp s i j = f i j.
Proof.
  intros G Hi Hj. pose proof (grid_is_ze _ _ _ _ G i j Hi Hj) as Z1. destruct G as [Gu _]. unfold gp, ze in *. rewrite Gu.
  apply nth_error_nth. exact Z1.
Qed.
Lemma wf_of_grid s f : clamped (DegreeU s) (KnotsU s) -> clamped (DegreeV s) (KnotsV s) ->
  grid_is (Net s) (len (KnotsU s) - DegreeU s - 1) (len (KnotsV s) - DegreeV s - 1) f ->
  (forall i j, 0 <= i < len (KnotsU s) - DegreeU s - 1 -> 0 <= j < len (KnotsV s) - DegreeV s - 1 -> (0 < w4 (f i j))%R) ->
  wf_surface s.
Proof.
  intros CU CV G P. pose proof (grid_is_ze _ _ _ _ G) as Z1. destruct G as [Gu [Gv [Hu [Hv [L _]]]]].
  constructor; auto; [congruence|]. apply Forall_forall. intros q Hq.
  destruct (In_znth (Vec4 0 0 0 1)%R _ _ Hq) as [k [Hk Ek]]. rewrite L, Z.mul_comm in Hk.
  destruct (idx_ex _ _ _ Hu Hk) as [r [c [Hr [Hc ->]]]]. specialize (Z1 c r Hc Hr). unfold znth, ze in *.
  rewrite (nth_error_nth _ _ _ Z1) in Ek. subst q. apply P; assumption.
Qed.
(** nested loops that set every cell of a rectangle *)
Lemma fill_rows {A} (g : grid A) nu nv f lo hi n val body :
  grid_is g nu nv f -> 0 <= lo <= hi -> hi <= nu -> 0 <= n <= nv ->
  (forall i j g', lo <= i < hi -> 0 <= j < n -> body i j g' = Grid_Set g' i j (val i j)) ->
  exists g', for_up 0 n (fun j g => for_up lo hi (fun i g => body i j g) g) g = Ok g' /\
    grid_is g' nu nv (fun i j => if (lo <=? i) && (i <? hi) && (j <? n) then val i j else f i j).
Proof.
  intros G Hlo Hhi Hn Hb.
  apply (for_up_inv (fun n' g' => grid_is g' nu nv (fun i j => if (lo <=? i) && (i <? hi) && (j <? n') then val i j else f i j)) 0 n).
  - lia.
  - apply (grid_is_eq _ _ _ _ _ G). intros i j Hi Hj. destruct (Z.ltb_spec j 0); [lia|]. rewrite andb_false_r. reflexivity.
  - intros j g1 Hj G1.
    destruct (for_up_inv (fun h g' => grid_is g' nu nv (fun i j' => if (lo <=? i) && (i <? h) && (j' =? j) then val i j'
        else if (lo <=? i) && (i <? hi) && (j' <? j) then val i j' else f i j')) lo hi (fun i g => body i j g) g1) as [g2 [E2 G2]].
    + lia.
    + apply (grid_is_eq _ _ _ _ _ G1). intros i j' Hi Hj'.
      destruct (Z.leb_spec lo i), (Z.ltb_spec i lo), (Z.eqb_spec j' j); simpl; try reflexivity; lia.
    + intros i g2 Hi G2. rewrite Hb by lia. destruct (Grid_Set_ok g2 nu nv _ i j (val i j) G2) as [g3 [E3 G3]]; try lia.
      exists g3. split; [exact E3|]. apply (grid_is_eq _ _ _ _ _ G3). intros i' j' Hi' Hj'.
      destruct (Z.eqb_spec i' i), (Z.eqb_spec j' j), (Z.leb_spec lo i'), (Z.ltb_spec i' i), (Z.ltb_spec i' (i + 1)), (Z.ltb_spec i' hi), (Z.ltb_spec j' j);
        simpl; subst; try reflexivity; lia.
    + exists g2. split; [exact E2|]. apply (grid_is_eq _ _ _ _ _ G2). intros i' j' Hi' Hj'.
      destruct (Z.eqb_spec j' j), (Z.leb_spec lo i'), (Z.ltb_spec i' hi), (Z.ltb_spec j' j), (Z.ltb_spec j' (j + 1));
        simpl; subst; try reflexivity; lia.
Qed.
Lemma fill_cols {A} (g : grid A) nu nv f lo hi n val body :
  grid_is g nu nv f -> 0 <= lo <= hi -> hi <= nv -> 0 <= n <= nu ->
  (forall i j g', lo <= j < hi -> 0 <= i < n -> body i j g' = Grid_Set g' i j (val i j)) ->
  exists g', for_up 0 n (fun i g => for_up lo hi (fun j g => body i j g) g) g = Ok g' /\
    grid_is g' nu nv (fun i j => if (lo <=? j) && (j <? hi) && (i <? n) then val i j else f i j).
Proof.
  intros G Hlo Hhi Hn Hb.
  apply (for_up_inv (fun n' g' => grid_is g' nu nv (fun i j => if (lo <=? j) && (j <? hi) && (i <? n') then val i j else f i j)) 0 n).
  - lia.
  - apply (grid_is_eq _ _ _ _ _ G). intros i j Hi Hj. destruct (Z.ltb_spec i 0); [lia|]. rewrite andb_false_r. reflexivity.
  - intros i g1 Hi G1.
    destruct (for_up_inv (fun h g' => grid_is g' nu nv (fun i' j => if (lo <=? j) && (j <? h) && (i' =? i) then val i' j
        else if (lo <=? j) && (j <? hi) && (i' <? i) then val i' j else f i' j)) lo hi (fun j g => body i j g) g1) as [g2 [E2 G2]].
    + lia.
    + apply (grid_is_eq _ _ _ _ _ G1). intros i' j Hi' Hj.
      destruct (Z.leb_spec lo j), (Z.ltb_spec j lo), (Z.eqb_spec i' i); simpl; try reflexivity; lia.
    + intros j g2 Hj G2. rewrite Hb by lia. destruct (Grid_Set_ok g2 nu nv _ i j (val i j) G2) as [g3 [E3 G3]]; try lia.
      exists g3. split; [exact E3|]. apply (grid_is_eq _ _ _ _ _ G3). intros i' j' Hi' Hj'.
      destruct (Z.eqb_spec i' i), (Z.eqb_spec j' j), (Z.leb_spec lo j'), (Z.ltb_spec j' j), (Z.ltb_spec j' (j + 1)), (Z.ltb_spec j' hi), (Z.ltb_spec i' i);
        simpl; subst; try reflexivity; lia.
    + exists g2. split; [exact E2|]. apply (grid_is_eq _ _ _ _ _ G2). intros i' j' Hi' Hj'.
      destruct (Z.eqb_spec i' i), (Z.leb_spec lo j'), (Z.ltb_spec j' hi), (Z.ltb_spec i' i), (Z.ltb_spec i' (i + 1));
        simpl; subst; try reflexivity; lia.
Qed.

(** ** C50 *)
Definition insertedU (s s' : surface R) (k : Z) (u : R) : Prop :=
  DegreeU s' = DegreeU s /\ DegreeV s' = DegreeV s /\ KnotsV s' = KnotsV s /\ ins_list (KnotsU s) (KnotsU s') k u /\
  grid_is (Net s') (UCount (Net s) + 1) (VCount (Net s))
    (fun i j => ins_pts (kf (KnotsU s)) (DegreeU s) k u (fun i => gp s i j) i).
Definition insertedV (s s' : surface R) (k : Z) (u : R) : Prop :=
  DegreeU s' = DegreeU s /\ DegreeV s' = DegreeV s /\ KnotsU s' = KnotsU s /\ ins_list (KnotsV s) (KnotsV s') k u /\
  grid_is (Net s') (UCount (Net s)) (VCount (Net s) + 1)
    (fun i j => ins_pts (kf (KnotsV s)) (DegreeV s) k u (fun j => gp s i j) j).

Lemma insertedU_wf s s' k u : wf_surface s -> knot_span (DegreeU s) (KnotsU s) k u -> (0 < u < 1)%R -> insertedU s s' k u -> wf_surface s'.
Proof.
  intros W K Hu [D1 [D2 [E [I G]]]]. pose proof (ws_countU s W). pose proof (ws_countV s W). destruct (I) as [L _].
  eapply wf_of_grid.
  - rewrite D1. apply (ins_clamped _ _ _ _ _ (ws_knotsU s W) K Hu I).
  - rewrite D2, E. apply W.
  - rewrite D1, D2, E. replace (len (KnotsU s') - DegreeU s - 1) with (UCount (Net s) + 1) by lia.
    replace (len (KnotsV s) - DegreeV s - 1) with (VCount (Net s)) by lia. exact G.
  - intros i j Hi Hj. apply ins_pts_w; [apply (clamped_mono _ _ (ws_knotsU s W))|apply K|]. intros. apply gp_weight. apply W.
Qed.
Lemma insertedV_wf s s' k u : wf_surface s -> knot_span (DegreeV s) (KnotsV s) k u -> (0 < u < 1)%R -> insertedV s s' k u -> wf_surface s'.
Proof.
  intros W K Hu [D1 [D2 [E [I G]]]]. pose proof (ws_countU s W). pose proof (ws_countV s W). destruct (I) as [L _].
  eapply wf_of_grid.
  - rewrite D1, E. apply W.
  - rewrite D2. apply (ins_clamped _ _ _ _ _ (ws_knotsV s W) K Hu I).
  - rewrite D1, D2, E. replace (len (KnotsV s') - DegreeV s - 1) with (VCount (Net s) + 1) by lia.
    replace (len (KnotsU s) - DegreeU s - 1) with (UCount (Net s)) by lia. exact G.
  - intros i j Hi Hj. apply ins_pts_w; [apply (clamped_mono _ _ (ws_knotsV s W))|apply K|]. intros. apply gp_weight. apply W.
Qed.
Lemma insertedU_hsurf s s' k u f x y : wf_surface s -> knot_span (DegreeU s) (KnotsU s) k u -> (0 < u < 1)%R -> insertedU s s' k u ->
  lin f -> (0 <= x <= 1)%R -> hsurf s' f x y = hsurf s f x y.
Proof.
  intros W K Hu [D1 [D2 [E [I G]]]] Lf Hx. unfold hsurf. rewrite D1, D2, E. apply spl_ext. intros j Hj.
  pose proof (ws_countU s W). pose proof (ws_countV s W). pose proof (ws_knotsU s W) as C. destruct (I) as [L _].
  unfold spl at 2. rewrite <- (ins_sum _ _ _ k u _ x C K Hu I Hx). apply zsum_ext. intros i Hi. f_equal.
  unfold ghp at 1. rewrite (gp_grid _ _ _ _ i j G) by lia.
  apply ins_pts_coef; [apply (cl_degree _ _ C)|apply (clamped_mono _ _ C)|apply K| |exact Lf]. intros; apply gp_weight; apply W.
Qed.
Lemma hsurf_swap s f x y : hsurf s f x y = spl (DegreeU s) (KnotsU s) (fun i => spl (DegreeV s) (KnotsV s) (fun j => f (ghp s i j)) y) x.
Proof. apply spl_swap. Qed.
Lemma insertedV_hsurf s s' k u f x y : wf_surface s -> knot_span (DegreeV s) (KnotsV s) k u -> (0 < u < 1)%R -> insertedV s s' k u ->
  lin f -> (0 <= y <= 1)%R -> hsurf s' f x y = hsurf s f x y.
Proof.
  intros W K Hu [D1 [D2 [E [I G]]]] Lf Hx. rewrite !hsurf_swap. rewrite D1, D2, E. apply spl_ext. intros i Hi.
  pose proof (ws_countU s W). pose proof (ws_countV s W). pose proof (ws_knotsV s W) as C. destruct (I) as [L _].
  unfold spl at 2. rewrite <- (ins_sum _ _ _ k u _ y C K Hu I Hx). apply zsum_ext. intros j Hj. f_equal.
  unfold ghp at 1. rewrite (gp_grid _ _ _ _ i j G) by lia.
  apply ins_pts_coef; [apply (cl_degree _ _ C)|apply (clamped_mono _ _ C)|apply K| |exact Lf]. intros; apply gp_weight; apply W.
Qed.
Lemma hsurf_same s s' : wf_surface s -> wf_surface s' ->
  (forall f x y, lin f -> (0 <= x <= 1)%R -> (0 <= y <= 1)%R -> hsurf s' f x y = hsurf s f x y) ->
  forall u v, Surface_Evaluate s' u v = Surface_Evaluate s u v.
Proof.
  intros W W' H u v.
  destruct (Rle_dec 0 u) as [A|A]; [destruct (Rle_dec u 1) as [A'|A'];
    [destruct (Rle_dec 0 v) as [B|B]; [destruct (Rle_dec v 1) as [B'|B']|]|]|];
    try (rewrite !Surface_Evaluate_outside by lra; reflexivity).
  rewrite !Surface_Evaluate_ok by auto. rewrite !surf_point_hsurf by assumption. rewrite !H by (auto; unfold lin; auto). reflexivity.
Qed.

Lemma insert_alphas_ok p l k u : clamped p l -> 0 <= p -> knot_span p l k u ->
  exists al, insert_alphas l p k u = Ok al /\ forall i, k - p + 1 <= i < k + 1 -> vget al (i - k + p - 1) = Ok (ins_alpha (kf l) p u i).
Proof.
  intros C P0 K. pose proof K as [Hk Ku]. unfold insert_alphas. rewrite vmake_ok by assumption. cbn [bind].
  destruct (for_up_inv (fun i al => len al = p /\ forall q, k - p + 1 <= q < i -> vget al (q - k + p - 1) = Ok (ins_alpha (kf l) p u q))
    (k - p + 1) (k + 1) (fun i alphas =>
        let idx := i - k + p - 1 in
        ki <- vget l i ;;
        kip <- vget l (i + p) ;;
        alpha <- ndiv (nsub u ki) (nsub kip ki) ;;
        vset alphas idx alpha) (repeat n0 (Z.to_nat p))) as [al [E [L G]]].
  - lia.
  - split; [rewrite len_repeat; lia|]. intros; lia.
  - intros i al Hi [L G]. destruct (ins_den (kf l) p k u i (clamped_mono _ _ C) Ku ltac:(lia)) as [D A1]. cbv zeta.
    rewrite !vget_kf by lia. cbn [bind]. norm_R. rewrite Rdivo_ok by lra. cbn [bind]. fold (ins_alpha (kf l) p u i).
    destruct (vset_spec al (i - k + p - 1) (ins_alpha (kf l) p u i)) as [al' [E' [L' [S1 S2]]]]; [lia|].
    exists al'. split; [exact E'|]. split; [lia|]. intros q Hq. destruct (Z.eq_dec q i) as [->|]; [exact S1|].
    rewrite S2 by lia. apply G. lia.
  - exists al. split; [exact E|exact G].
Qed.

Lemma Surface_InsertKnotU_ok jk s u : wf_surface s -> 1 <= DegreeU s -> (0 < u < 1)%R ->
  exists s' k, Surface_InsertKnotU jk s u = Ok s' /\ knot_span (DegreeU s) (KnotsU s) k u /\ insertedU s s' k u.
Proof.
  intros W D1 Hu. pose proof (ws_knotsU s W) as C. pose proof (ws_countU s W) as Cn. pose proof (wf_grid s W) as G.
  destruct (kv_insert _ _ u C Hu) as [l' [k [E [_ [K I]]]]].
  pose proof K as [Hk Ku]. set (p := DegreeU s) in *. pose proof (clamped_mono _ _ C) as M.
  unfold Surface_InsertKnotU. fold p. rewrite E. cbn [bind].
  destruct (Grid_InsertU_ok jk (Net s) _ _ _ k v4zero G) as [g1 [E1 G1]]; [lia|]. rewrite E1. cbn [bind]. cbv zeta.
  destruct (insert_alphas_ok p _ k u C ltac:(lia) K) as [al [Ea Ga]]. rewrite Ea. cbn [bind].
  assert (VCount g1 = VCount (Net s)) as -> by apply G1. pose proof (ws_countV s W) as CnV. pose proof (cl_len _ _ (ws_knotsV s W)).
  pose proof (cl_degree _ _ (ws_knotsV s W)).
  destruct (fill_rows g1 _ _ _ (k - p + 1) (k + 1) (VCount (Net s))
    (fun i j => ins_pts (kf (KnotsU s)) p k u (fun i => gp s i j) i)
    (fun i j net => pi <- Grid_Get (Net s) i j ;;
        pim1 <- Grid_Get (Net s) (i - 1) j ;;
        alpha <- vget al (i - k + p - 1) ;;
        q <- FromHomo (v4add (v4scale alpha (ToHomo pi)) (v4scale (nsub n1 alpha) (ToHomo pim1))) ;;
        Grid_Set net i j q) G1) as [g2 [E2 G2]]; try lia.
  - intros i j g' Hi Hj. rewrite !(Grid_Get_ok _ _ _ _ _ _ G) by lia. cbn [bind]. rewrite Ga by lia. cbn [bind]. norm_R.
    fold (blend_h (ins_alpha (kf (KnotsU s)) p u i) (gp s i j) (gp s (i - 1) j)).
    destruct (ins_den (kf (KnotsU s)) p k u i M Ku ltac:(lia)) as [D A1].
    pose proof (blend_w _ _ _ A1 (gp_weight s i j (ws_weights s W)) (gp_weight s (i - 1) j (ws_weights s W))).
    rewrite FromHomo_ok by lra. cbn [bind]. f_equal. unfold ins_pts.
    destruct (Z.leb_spec i (k - p)); [lia|]. destruct (Z.leb_spec i k); [reflexivity|lia].
  - rewrite E2. cbn [bind]. eexists _, k. split; [reflexivity|]. split; [exact K|].
    repeat split; cbn [KnotsU]; try apply I; try apply G2. intros i j Hi Hj. cbn [Net].
    pose proof (grid_is_ze _ _ _ _ G2 i j Hi Hj) as Z1. unfold ze in Z1. rewrite Z1. f_equal. fold p. unfold ins_pts.
    destruct (Z.leb_spec (k - p + 1) i), (Z.ltb_spec i (k + 1)), (Z.ltb_spec j (VCount (Net s))), (Z.leb_spec i (k - p)), (Z.leb_spec i k), (Z.ltb_spec i k), (Z.eqb_spec i k);
     simpl; try reflexivity; lia.
Qed.
Lemma Surface_InsertKnotV_ok s u : wf_surface s -> 1 <= DegreeV s -> (0 < u < 1)%R ->
  exists s' k, Surface_InsertKnotV s u = Ok s' /\ knot_span (DegreeV s) (KnotsV s) k u /\ insertedV s s' k u.
Proof.
  intros W D1 Hu. pose proof (ws_knotsV s W) as C. pose proof (ws_countV s W) as Cn. pose proof (wf_grid s W) as G.
  destruct (kv_insert _ _ u C Hu) as [l' [k [E [_ [K I]]]]].
  pose proof K as [Hk Ku]. set (p := DegreeV s) in *. pose proof (clamped_mono _ _ C) as M.
  unfold Surface_InsertKnotV. fold p. rewrite E. cbn [bind].
  destruct (Grid_InsertV_ok (Net s) _ _ _ k v4zero G) as [g1 [E1 G1]]; [lia|]. rewrite E1. cbn [bind]. cbv zeta.
  destruct (insert_alphas_ok p _ k u C ltac:(lia) K) as [al [Ea Ga]]. rewrite Ea. cbn [bind].
  assert (UCount g1 = UCount (Net s)) as -> by apply G1. pose proof (ws_countU s W) as CnV. pose proof (cl_len _ _ (ws_knotsU s W)).
  pose proof (cl_degree _ _ (ws_knotsU s W)).
  destruct (fill_cols g1 _ _ _ (k - p + 1) (k + 1) (UCount (Net s))
    (fun j i => ins_pts (kf (KnotsV s)) p k u (fun i => gp s j i) i)
    (fun j i net => pi <- Grid_Get (Net s) j i ;;
        pim1 <- Grid_Get (Net s) j (i - 1) ;;
        alpha <- vget al (i - k + p - 1) ;;
        q <- FromHomo (v4add (v4scale alpha (ToHomo pi)) (v4scale (nsub n1 alpha) (ToHomo pim1))) ;;
        Grid_Set net j i q) G1) as [g2 [E2 G2]]; try lia.
  - intros j i g' Hi Hj. rewrite !(Grid_Get_ok _ _ _ _ _ _ G) by lia. cbn [bind]. rewrite Ga by lia. cbn [bind]. norm_R.
    fold (blend_h (ins_alpha (kf (KnotsV s)) p u i) (gp s j i) (gp s j (i - 1))).
    destruct (ins_den (kf (KnotsV s)) p k u i M Ku ltac:(lia)) as [D A1].
    pose proof (blend_w _ _ _ A1 (gp_weight s j i (ws_weights s W)) (gp_weight s j (i - 1) (ws_weights s W))).
    rewrite FromHomo_ok by lra. cbn [bind]. f_equal. unfold ins_pts.
    destruct (Z.leb_spec i (k - p)); [lia|]. destruct (Z.leb_spec i k); [reflexivity|lia].
  - rewrite E2. cbn [bind]. eexists _, k. split; [reflexivity|]. split; [exact K|].
    repeat split; cbn [KnotsV]; try apply I; try apply G2. intros j i Hi Hj. cbn [Net].
    pose proof (grid_is_ze _ _ _ _ G2 j i Hi Hj) as Z1. unfold ze in Z1. rewrite Z1. f_equal. fold p. unfold ins_pts.
    destruct (Z.leb_spec (k - p + 1) i), (Z.ltb_spec i (k + 1)), (Z.ltb_spec j (UCount (Net s))), (Z.leb_spec i (k - p)), (Z.leb_spec i k), (Z.ltb_spec i k), (Z.eqb_spec i k);
     simpl; try reflexivity; lia.
Qed.
