(** Accuracy of knot insertion into surfaces in binary64. *)
From Coq Require Import Reals ZArith List Lra Lia Psatz Floats.SpecFloat Permutation.
From Flocq Require Import Core.
From Verif Require Import Outcome Num ModelCore ModelBasis ModelCurve ModelSurface SpecCore SpecBasis SpecCurve SpecSurface SpecErr SpecErrIns SpecRows ThOutcome ThReal ThB64 ThRound ThVec ThKnots ThSum ThSpline ThBasis ThCurve ThCurveWit ThInsert ThErr ThErrBasis ThErrSum ThErrCurve ThSafe ThSafe2 ThBBoxWit ThGrid ThSurface ThSurface2 ThSurfWit ThOrder2 ThMeta2 ThErrSurf ThErrInsert ThErrInsert2 ThErrInsert3 ThErrInsert4 ThRows ThRows2.
Import ListNotations.
Open Scope R_scope.

Lemma point_bound c M x : wf_curve c -> (forall i, (0 <= i < len (ControlPoints c))%Z -> bounded4 M (cp c i)) -> 0 <= x <= 1 ->
  Rabs (x3 (curve_point c x)) <= M /\ Rabs (y3 (curve_point c x)) <= M /\ Rabs (z3 (curve_point c x)) <= M.
Proof.
  intros W B Hx. pose proof (curve_den_pos c x W Hx) as Dp.
  assert (forall (f : vec4 R -> R), (forall i, (0 <= i < len (ControlPoints c))%Z -> Rabs (f (cp c i)) <= M) -> Rabs (curve_num c f x / curve_den c x) <= M) as Q.
  { intros f H. unfold Rdiv. rewrite Rabs_mult, Rabs_inv, (Rabs_pos_eq (curve_den c x)) by lra. apply (Rmult_le_reg_r (curve_den c x)); [exact Dp|]. rewrite Rmult_assoc, Rinv_l, Rmult_1_r by lra.
    unfold curve_num, curve_den. rewrite <- zsum_scale. apply zsum_abs. intros i Hi. specialize (H i Hi). pose proof (basis_nonneg c i x W Hx) as Bn. pose proof (cp_weight c i (wf_weights c W)) as Wp.
    rewrite !Rabs_mult, (Rabs_pos_eq _ Bn), (Rabs_pos_eq (w4 (cp c i))) by lra. assert (0 <= basis_fun c i x * w4 (cp c i)) as P by (apply Rmult_le_pos; lra).
    assert (basis_fun c i x * w4 (cp c i) * Rabs (f (cp c i)) <= basis_fun c i x * w4 (cp c i) * M) by (apply Rmult_le_compat_l; assumption). lra. }
  unfold curve_point. cbn [x3 y3 z3]. split; [|split]; apply Q; intros i Hi; destruct (B i Hi) as [B1 [B2 B3]]; assumption.
Qed.

(** ** Moving the lines of a surface *)
Lemma surf_move_u s s' M delta eta u v : wf_surface s -> wf_surface s' -> DegreeV s' = DegreeV s -> KnotsV s' = KnotsV s -> 0 <= u <= 1 -> 0 <= v <= 1 ->
  (forall j, (0 <= j < VCount (Net s))%Z -> within3 delta (curve_point (colU s' j) u) (curve_point (colU s j) u) /\
     Rabs (curve_den (colU s' j) u - curve_den (colU s j) u) <= eta * curve_den (colU s j) u /\
     (forall i, (0 <= i < UCount (Net s))%Z -> bounded4 M (gp s i j))) ->
  0 <= eta <= / 1000 -> 0 <= M -> within3 (delta + 201 / 100 * eta * M) (surf_point s' u v) (surf_point s u v).
Proof.
  intros W W' D K Hu Hv H He HM. rewrite !surf_point_hsurf by assumption. unfold within3. cbn [x3 y3 z3]. pose proof (ws_countV s W) as Cn.
  set (b := fun j => N (kf (KnotsV s)) (Z.to_nat (DegreeV s)) j v).
  assert (forall j, (0 < curve_den (colU s j) u)) as P1 by (intros j; apply (curve_den_pos _ _ (colU_wf s j W) Hu)).
  assert (forall j, (0 < curve_den (colU s' j) u)) as P2 by (intros j; apply (curve_den_pos _ _ (colU_wf s' j W') Hu)).
  assert (forall j, 0 <= b j) as Bn. { intros j. apply (N_nonneg _ _ _ _ (ws_knotsV s W) Hv). }
  assert (forall f, hsurf s f u v = zsum 0 (VCount (Net s)) (fun j => b j * hsum (colU s j) f u)) as E1.
  { intros f. unfold hsurf, spl. rewrite Cn. apply zsum_ext. intros j Hj. unfold b. rewrite col_hsum by exact W. reflexivity. }
  assert (forall f, hsurf s' f u v = zsum 0 (VCount (Net s)) (fun j => b j * hsum (colU s' j) f u)) as E2.
  { intros f. unfold hsurf, spl at 1. rewrite D, K, Cn. apply zsum_ext. intros j Hj. unfold b. rewrite col_hsum by exact W'. reflexivity. }
  assert (0 < hsurf s w4 u v) as Dp. { apply hsurf_w_pos; assumption. }
  rewrite !E1, !E2. rewrite E1 in Dp.
  assert (forall (f : vec4 R -> R) (g : vec3 R -> R), (forall c, wf_curve c -> hsum c f u = curve_den c u * g (curve_point c u)) ->
     (forall p q e, within3 e p q -> Rabs (g p - g q) <= e) -> (forall c, wf_curve c -> (forall i, (0 <= i < len (ControlPoints c))%Z -> bounded4 M (cp c i)) -> Rabs (g (curve_point c u)) <= M) ->
     Rabs (zsum 0 (VCount (Net s)) (fun j => b j * hsum (colU s' j) f u) / zsum 0 (VCount (Net s)) (fun j => b j * hsum (colU s' j) w4 u) -
       zsum 0 (VCount (Net s)) (fun j => b j * hsum (colU s j) f u) / zsum 0 (VCount (Net s)) (fun j => b j * hsum (colU s j) w4 u)) <= delta + 201 / 100 * eta * M) as Q.
  { intros f g Hf Hw Hb.
    rewrite (zsum_ext 0 _ (fun j => b j * hsum (colU s' j) f u) (fun j => b j * curve_den (colU s' j) u * g (curve_point (colU s' j) u))) by (intros j _; rewrite Hf by (apply colU_wf; assumption); ring).
    rewrite (zsum_ext 0 _ (fun j => b j * hsum (colU s j) f u) (fun j => b j * curve_den (colU s j) u * g (curve_point (colU s j) u))) by (intros j _; rewrite Hf by (apply colU_wf; assumption); ring).
    apply (quotient_move (VCount (Net s)) b (fun j => curve_den (colU s' j) u) (fun j => curve_den (colU s j) u)); try assumption.
    intros j Hj. destruct (H j Hj) as [H1 [H2 H3]]. split; [apply Bn|]. split; [apply P1|]. split; [apply P2|]. split; [|split; [apply Hw; exact H1|exact H2]].
    apply Hb; [apply colU_wf; assumption|]. intros i Hi. assert (0 <= i < UCount (Net s))%Z as Hi'. { cbn [colU ControlPoints] in Hi. rewrite zlist_len in Hi by (apply ucount_nonneg; exact W). exact Hi. }
    rewrite colU_cp by exact Hi'. apply H3. exact Hi'. }
  assert (forall c f, wf_curve c -> hsum c f u = curve_den c u * (hsum c f u / hsum c w4 u)) as Qd.
  { intros c f Wc. pose proof (curve_den_pos c u Wc Hu) as Dc. change (curve_den c u) with (hsum c w4 u) in *. field. lra. }
  split; [|split].
  - apply (Q x4 x3); [intros c Wc; rewrite curve_point_hsum; cbn [x3]; apply Qd; exact Wc|intros p q e [A _]; exact A|intros c Wc Bc; apply (point_bound c M u Wc Bc Hu)].
  - apply (Q y4 y3); [intros c Wc; rewrite curve_point_hsum; cbn [y3]; apply Qd; exact Wc|intros p q e [_ [A _]]; exact A|intros c Wc Bc; apply (point_bound c M u Wc Bc Hu)].
  - apply (Q z4 z3); [intros c Wc; rewrite curve_point_hsum; cbn [z3]; apply Qd; exact Wc|intros p q e [_ [_ A]]; exact A|intros c Wc Bc; apply (point_bound c M u Wc Bc Hu)].
Qed.
Lemma surf_move_v s s' M delta eta u v : wf_surface s -> wf_surface s' -> DegreeU s' = DegreeU s -> KnotsU s' = KnotsU s -> 0 <= u <= 1 -> 0 <= v <= 1 ->
  (forall j, (0 <= j < UCount (Net s))%Z -> within3 delta (curve_point (rowV s' j) v) (curve_point (rowV s j) v) /\
     Rabs (curve_den (rowV s' j) v - curve_den (rowV s j) v) <= eta * curve_den (rowV s j) v /\
     (forall i, (0 <= i < VCount (Net s))%Z -> bounded4 M (gp s j i))) ->
  0 <= eta <= / 1000 -> 0 <= M -> within3 (delta + 201 / 100 * eta * M) (surf_point s' u v) (surf_point s u v).
Proof.
  intros W W' D K Hu Hv H He HM. rewrite !surf_point_hsurf by assumption. unfold within3. cbn [x3 y3 z3]. pose proof (ws_countU s W) as Cn.
  set (b := fun j => N (kf (KnotsU s)) (Z.to_nat (DegreeU s)) j u).
  assert (forall j, (0 < curve_den (rowV s j) v)) as P1 by (intros j; apply (curve_den_pos _ _ (rowV_wf s j W) Hv)).
  assert (forall j, (0 < curve_den (rowV s' j) v)) as P2 by (intros j; apply (curve_den_pos _ _ (rowV_wf s' j W') Hv)).
  assert (forall j, 0 <= b j) as Bn. { intros j. apply (N_nonneg _ _ _ _ (ws_knotsU s W) Hu). }
  assert (forall f, hsurf s f u v = zsum 0 (UCount (Net s)) (fun j => b j * hsum (rowV s j) f v)) as E1.
  { intros f. rewrite hsurf_swap. unfold spl at 1. rewrite Cn. apply zsum_ext. intros j Hj. unfold b. rewrite row_hsum by exact W. reflexivity. }
  assert (forall f, hsurf s' f u v = zsum 0 (UCount (Net s)) (fun j => b j * hsum (rowV s' j) f v)) as E2.
  { intros f. rewrite hsurf_swap. unfold spl at 1. rewrite D, K, Cn. apply zsum_ext. intros j Hj. unfold b. rewrite row_hsum by exact W'. reflexivity. }
  assert (0 < hsurf s w4 u v) as Dp. { apply hsurf_w_pos; assumption. }
  rewrite !E1, !E2. rewrite E1 in Dp.
  assert (forall (f : vec4 R -> R) (g : vec3 R -> R), (forall c, wf_curve c -> hsum c f v = curve_den c v * g (curve_point c v)) ->
     (forall p q e, within3 e p q -> Rabs (g p - g q) <= e) -> (forall c, wf_curve c -> (forall i, (0 <= i < len (ControlPoints c))%Z -> bounded4 M (cp c i)) -> Rabs (g (curve_point c v)) <= M) ->
     Rabs (zsum 0 (UCount (Net s)) (fun j => b j * hsum (rowV s' j) f v) / zsum 0 (UCount (Net s)) (fun j => b j * hsum (rowV s' j) w4 v) -
       zsum 0 (UCount (Net s)) (fun j => b j * hsum (rowV s j) f v) / zsum 0 (UCount (Net s)) (fun j => b j * hsum (rowV s j) w4 v)) <= delta + 201 / 100 * eta * M) as Q.
  { intros f g Hf Hw Hb.
    rewrite (zsum_ext 0 _ (fun j => b j * hsum (rowV s' j) f v) (fun j => b j * curve_den (rowV s' j) v * g (curve_point (rowV s' j) v))) by (intros j _; rewrite Hf by (apply rowV_wf; assumption); ring).
    rewrite (zsum_ext 0 _ (fun j => b j * hsum (rowV s j) f v) (fun j => b j * curve_den (rowV s j) v * g (curve_point (rowV s j) v))) by (intros j _; rewrite Hf by (apply rowV_wf; assumption); ring).
    apply (quotient_move (UCount (Net s)) b (fun j => curve_den (rowV s' j) v) (fun j => curve_den (rowV s j) v)); try assumption.
    intros j Hj. destruct (H j Hj) as [H1 [H2 H3]]. split; [apply Bn|]. split; [apply P1|]. split; [apply P2|]. split; [|split; [apply Hw; exact H1|exact H2]].
    apply Hb; [apply rowV_wf; assumption|]. intros i Hi. assert (0 <= i < VCount (Net s))%Z as Hi'. { cbn [rowV ControlPoints] in Hi. rewrite zlist_len in Hi by (apply vcount_nonneg; exact W). exact Hi. }
    rewrite rowV_cp by exact Hi'. apply H3. exact Hi'. }
  assert (forall c f, wf_curve c -> hsum c f v = curve_den c v * (hsum c f v / hsum c w4 v)) as Qd.
  { intros c f Wc. pose proof (curve_den_pos c v Wc Hv) as Dc. change (curve_den c v) with (hsum c w4 v) in *. field. lra. }
  split; [|split].
  - apply (Q x4 x3); [intros c Wc; rewrite curve_point_hsum; cbn [x3]; apply Qd; exact Wc|intros p q e [A _]; exact A|intros c Wc Bc; apply (point_bound c M v Wc Bc Hv)].
  - apply (Q y4 y3); [intros c Wc; rewrite curve_point_hsum; cbn [y3]; apply Qd; exact Wc|intros p q e [_ [A _]]; exact A|intros c Wc Bc; apply (point_bound c M v Wc Bc Hv)].
  - apply (Q z4 z3); [intros c Wc; rewrite curve_point_hsum; cbn [z3]; apply Qd; exact Wc|intros p q e [_ [_ A]]; exact A|intros c Wc Bc; apply (point_bound c M v Wc Bc Hv)].
Qed.

(** ** The lines of a net of doubles *)
Lemma tame_wf_surf s M : sound_surface s -> Forall (tame M) (Values (Net s)) -> wf_surface (surface_val s).
Proof.
  intros [[F1 C1] [[F2 C2] [N1 [N2 L]]]] T. constructor; cbn [surface_val DegreeU DegreeV KnotsU KnotsV Net UCount VCount Values]; rewrite ?len_vals, ?len_map; try assumption.
  apply Forall_forall. intros q Hq. apply in_map_iff in Hq. destruct Hq as [p [<- Hp]]. rewrite Forall_forall in T.
  pose proof (tame_w M p (T p Hp)). pose proof (bpow_gt_0 radix2 (-100)). cbn [w4 val4]. lra.
Qed.
Lemma gp_cell (s : surface b64) i j : (0 <= j * UCount (Net s) + i < len (Values (Net s)))%Z -> gp (surface_val s) i j = val4 (cell (Net s) i j).
Proof.
  intros H. unfold gp, cell, znth, surface_val. cbn [Net UCount Values]. rewrite (nth_indep _ _ (val4 v4zero)) by (rewrite map_length; unfold len in H; lia). apply map_nth.
Qed.
Lemma row_val (s : surface b64) j l : full_grid (Net s) -> line_u (Net s) j l -> colU (surface_val s) j = curve_val (Curve (DegreeU s) (KnotsU s) l).
Proof.
  intros G L. pose proof L as [Hj [Ll _]]. pose proof G as [Hu [Hv Lv]]. rewrite (list_tab l (UCount (Net s)) (fun i => cell (Net s) i j)); [|exact Hu|exact Ll|intros i Hi; apply line_u_get; assumption].
  unfold colU, curve_val. cbn [surface_val DegreeU KnotsU Net UCount Degree Knots ControlPoints]. f_equal. unfold zlist, zrange. rewrite !map_map, Z.sub_0_r. apply map_ext_in.
  intros n Hn. apply in_seq in Hn. rewrite Z.add_0_l. apply gp_cell. pose proof (idx_range j (Z.of_nat n) (VCount (Net s)) (UCount (Net s)) Hj ltac:(lia)). lia.
Qed.
Lemma column_val (s : surface b64) i l : full_grid (Net s) -> line_v (Net s) i l -> rowV (surface_val s) i = curve_val (Curve (DegreeV s) (KnotsV s) l).
Proof.
  intros G L. pose proof L as [Hj [Ll _]]. pose proof G as [Hu [Hv Lv]]. rewrite (list_tab l (VCount (Net s)) (fun j => cell (Net s) i j)); [|exact Hv|exact Ll|intros j Hi; apply line_v_get; assumption].
  unfold rowV, curve_val. cbn [surface_val DegreeV KnotsV Net VCount Degree Knots ControlPoints]. f_equal. unfold zlist, zrange. rewrite !map_map, Z.sub_0_r. apply map_ext_in.
  intros n Hn. apply in_seq in Hn. rewrite Z.add_0_l. apply gp_cell. pose proof (idx_range (Z.of_nat n) i (VCount (Net s)) (UCount (Net s)) ltac:(lia) Hj). lia.
Qed.
Lemma cell_in (g : grid (vec4 b64)) i j : full_grid g -> (0 <= i < UCount g)%Z -> (0 <= j < VCount g)%Z -> In (cell g i j) (Values g).
Proof. intros [Hu [Hv L]] Hi Hj. pose proof (idx_range j i _ _ Hj Hi). apply znth_In. lia. Qed.
Lemma line_u_in (g : grid (vec4 b64)) j l p : full_grid g -> line_u g j l -> In p l -> In p (Values g).
Proof.
  intros G L H. pose proof L as [Hj [Ll _]]. pose proof G as [Hu _]. rewrite (list_tab l (UCount g) (fun i => cell g i j)) in H; [|exact Hu|exact Ll|intros i Hi; apply line_u_get; assumption].
  apply in_map_iff in H. destruct H as [i [<- Hi]]. apply In_zrange in Hi. apply cell_in; assumption.
Qed.
Lemma line_v_in (g : grid (vec4 b64)) j l p : full_grid g -> line_v g j l -> In p l -> In p (Values g).
Proof.
  intros G L H. pose proof L as [Hj [Ll _]]. pose proof G as [_ [Hv _]]. rewrite (list_tab l (VCount g) (fun i => cell g j i)) in H; [|exact Hv|exact Ll|intros i Hi; apply line_v_get; assumption].
  apply in_map_iff in H. destruct H as [i [<- Hi]]. apply In_zrange in Hi. apply cell_in; assumption.
Qed.
Lemma in_cell (g : grid (vec4 b64)) p : full_grid g -> In p (Values g) -> exists i j, (0 <= i < UCount g)%Z /\ (0 <= j < VCount g)%Z /\ p = cell g i j.
Proof.
  intros [Hu [Hv L]] H. destruct (In_znth v4zero _ _ H) as [m [Hm E]]. rewrite L, Z.mul_comm in Hm. destruct (idx_ex _ _ _ Hu Hm) as [r [c [Hr [Hc ->]]]]. exists c, r. unfold cell. auto.
Qed.
Lemma Forall_lines_u (P : vec4 b64 -> Prop) (g : grid (vec4 b64)) : full_grid g -> (forall j, (0 <= j < VCount g)%Z -> exists l, line_u g j l /\ Forall P l) -> Forall P (Values g).
Proof.
  intros G H. apply Forall_forall. intros p Hp. destruct (in_cell g p G Hp) as [i [j [Hi [Hj ->]]]]. destruct (H j Hj) as [l [Ll F]]. rewrite Forall_forall in F. apply F.
  eapply vget_in. apply line_u_get; eassumption.
Qed.
Lemma Forall_lines_v (P : vec4 b64 -> Prop) (g : grid (vec4 b64)) : full_grid g -> (forall i, (0 <= i < UCount g)%Z -> exists l, line_v g i l /\ Forall P l) -> Forall P (Values g).
Proof.
  intros G H. apply Forall_forall. intros p Hp. destruct (in_cell g p G Hp) as [i [j [Hi [Hj ->]]]]. destruct (H i Hi) as [l [Ll F]]. rewrite Forall_forall in F. apply F.
  eapply vget_in. apply line_v_get; eassumption.
Qed.

(** ** A list of insertions *)
Section list.
  Variables (s : surface b64) (us : list b64) (M lo hi rho : R).
  Hypothesis Ss : sound_surface s.
  Hypothesis T : Forall (tame M) (Values (Net s)).
  Hypothesis HM : 0 <= M <= 2 ^ 98.
  Hypothesis Hw : weights_in lo hi (Values (Net s)).
  Hypothesis L : / 2 ^ 99 <= lo.
  Hypothesis Hh : hi <= 2 ^ 99.
  Hypothesis H : hi <= rho * lo.
  Hypothesis Hr : rho <= 2 ^ 29.
  Hypothesis Hn : INR (length us) * rho <= 2 ^ 35.
  Hypothesis Iu : Forall inner64 us.

  Lemma cell_bound i j : (0 <= i < UCount (Net s))%Z -> (0 <= j < VCount (Net s))%Z -> bounded4 M (gp (surface_val s) i j).
  Proof.
    intros Hi Hj. destruct (sound_full s Ss) as [G _]. pose proof G as [_ [_ Lv]]. pose proof (idx_range j i _ _ Hj Hi). rewrite gp_cell by lia.
    pose proof T as T'. rewrite Forall_forall in T'. specialize (T' _ (cell_in _ i j G Hi Hj)). destruct T' as [_ [_ [_ [_ [_ [B1 [B2 B3]]]]]]]. unfold bounded4. cbn [x4 y4 z4 val4]. auto.
  Qed.
  Lemma list_small : 0 <= 160 * INR (length us) * rho / 2 ^ 53 <= / 1000 /\ INR (length us) * rho <= 2 ^ 43.
  Proof.
    assert (0 <= rho) as R0.
    { destruct (sound_full s Ss) as [[_ [_ Lv]] [C1 C2]]. unfold weights_in in Hw. destruct (Values (Net s)) as [|q l]; [unfold len in Lv; cbn [length] in Lv; nia|]. inversion Hw; subst.
      assert (0 < / 2 ^ 99) by (apply Rinv_0_lt_compat, pow_lt; lra). nra. }
    pose proof (pos_INR (length us)). assert (0 <= INR (length us) * rho) by (apply Rmult_le_pos; lra). split; [|lra]. unfold Rdiv.
    assert (0 < / 2 ^ 53) by (apply Rinv_0_lt_compat, pow_lt; lra). split; [apply Rmult_le_pos; lra|].
    replace (160 * INR (length us) * rho) with (160 * (INR (length us) * rho)) by ring. apply (Rle_trans _ (160 * 2 ^ 35 * / 2 ^ 53)); [apply Rmult_le_compat_r; lra|lra].
  Qed.
  Lemma surf_total : 1200 * INR (length us) * rho / 2 ^ 53 * M + / 2 ^ 390 + 201 / 100 * (160 * INR (length us) * rho / 2 ^ 53) * M <= 1600 * INR (length us) * rho / 2 ^ 53 * M + / 2 ^ 390.
  Proof.
    destruct list_small as [[Q _] _]. unfold Rdiv in *. set (x := INR (length us) * rho * / 2 ^ 53). replace (160 * INR (length us) * rho * / 2 ^ 53) with (160 * x) in * by (unfold x; ring).
    replace (1200 * INR (length us) * rho * / 2 ^ 53) with (1200 * x) by (unfold x; ring). replace (1600 * INR (length us) * rho * / 2 ^ 53) with (1600 * x) by (unfold x; ring).
    assert (0 <= x * M) by (apply Rmult_le_pos; lra). generalize (/ 2 ^ 390). intros. lra.
  Qed.

  Lemma surfaceU_final jk : (1 <= DegreeU s)%Z ->
    exists s', Surface_InsertKnotU_list jk s us = Ok s' /\ sound_surface s' /\ rows_inserted s s' us /\ Forall (tame (2 * M + / 2 ^ 400)) (Values (Net s')) /\
      forall u v, 0 <= u <= 1 -> 0 <= v <= 1 -> within3 (1600 * INR (length us) * rho / 2 ^ 53 * M + / 2 ^ 390) (surf_point (surface_val s') u v) (surf_point (surface_val s) u v).
  Proof.
    intros P. destruct (insertU_fold64 jk us s Ss P Iu) as [s' [E [Ss' R]]]. exists s'. split; [exact E|]. split; [exact Ss'|]. split; [exact R|].
    destruct R as [G' [D1 [D2 [K1 [N1 [N2 R]]]]]]. destruct (sound_full s Ss) as [G [C1 C2]]. destruct list_small as [He Hn'].
    assert (forall j, (0 <= j < VCount (Net s))%Z -> exists l l', line_u (Net s) j l /\ line_u (Net s') j l' /\ Forall (tame (2 * M + / 2 ^ 400)) l' /\
      forall u, 0 <= u <= 1 -> within3 (1200 * INR (length us) * rho / 2 ^ 53 * M + / 2 ^ 390) (curve_point (colU (surface_val s') j) u) (curve_point (colU (surface_val s) j) u) /\
        Rabs (curve_den (colU (surface_val s') j) u - curve_den (colU (surface_val s) j) u) <= 160 * INR (length us) * rho / 2 ^ 53 * curve_den (colU (surface_val s) j) u) as Q.
    { intros j Hj. pose proof (line_u_ex _ _ _ _ j (full_is _ G) Hj) as Ll. set (l := map _ _) in Ll. destruct (R j l Ll) as [l' [Ll' El]].
      pose proof Ss as [S1 [S2 [S3 [S4 S5]]]].
      destruct (list_final (Curve (DegreeU s) (KnotsU s) l) us M lo hi rho) as [c' [Ec [Sc [Dc [Tc Wc]]]]]; try assumption.
      - split; [exact S1|]. cbn [ControlPoints Knots Degree]. destruct Ll as [_ [Ll _]]. lia.
      - cbn [ControlPoints]. apply Forall_forall. intros p Hp. rewrite Forall_forall in T. apply T. eapply line_u_in; eassumption.
      - unfold weights_in in *. cbn [ControlPoints]. apply Forall_forall. intros p Hp. rewrite Forall_forall in Hw. apply Hw. eapply line_u_in; eassumption.
      - rewrite El in Ec. injection Ec as <-. exists l, l'. split; [exact Ll|]. split; [exact Ll'|]. split; [exact Tc|].
        rewrite (row_val s j l G Ll). rewrite (row_val s' j l' G' Ll'). rewrite D1. exact Wc. }
    assert (Forall (tame (2 * M + / 2 ^ 400)) (Values (Net s'))) as T'.
    { apply Forall_lines_u; [exact G'|]. intros j Hj. destruct (Q j ltac:(lia)) as [l [l' [_ [A [B _]]]]]. eauto. }
    split; [exact T'|]. intros u v Hu Hv. eapply within_weak; [apply surf_total|].
    apply (surf_move_u (surface_val s) (surface_val s')); try assumption; try (exact (tame_wf_surf _ _ Ss T)); try (exact (tame_wf_surf _ _ Ss' T')); try lra.
    - cbn [surface_val KnotsV]. congruence.
    - cbn [surface_val Net UCount VCount]. intros j Hj. destruct (Q j Hj) as [l [l' [_ [_ [_ W]]]]]. destruct (W u Hu) as [W1 W2]. split; [exact W1|]. split; [exact W2|]. intros i Hi. apply cell_bound; assumption.
  Qed.
  Lemma surfaceV_final : (1 <= DegreeV s)%Z ->
    exists s', Surface_InsertKnotV_list s us = Ok s' /\ sound_surface s' /\ columns_inserted s s' us /\ Forall (tame (2 * M + / 2 ^ 400)) (Values (Net s')) /\
      forall u v, 0 <= u <= 1 -> 0 <= v <= 1 -> within3 (1600 * INR (length us) * rho / 2 ^ 53 * M + / 2 ^ 390) (surf_point (surface_val s') u v) (surf_point (surface_val s) u v).
  Proof.
    intros P. destruct (insertV_fold64 us s Ss P Iu) as [s' [E [Ss' R]]]. exists s'. split; [exact E|]. split; [exact Ss'|]. split; [exact R|].
    destruct R as [G' [D1 [D2 [K1 [N1 [N2 R]]]]]]. destruct (sound_full s Ss) as [G [C1 C2]]. destruct list_small as [He Hn'].
    assert (forall j, (0 <= j < UCount (Net s))%Z -> exists l l', line_v (Net s) j l /\ line_v (Net s') j l' /\ Forall (tame (2 * M + / 2 ^ 400)) l' /\
      forall u, 0 <= u <= 1 -> within3 (1200 * INR (length us) * rho / 2 ^ 53 * M + / 2 ^ 390) (curve_point (rowV (surface_val s') j) u) (curve_point (rowV (surface_val s) j) u) /\
        Rabs (curve_den (rowV (surface_val s') j) u - curve_den (rowV (surface_val s) j) u) <= 160 * INR (length us) * rho / 2 ^ 53 * curve_den (rowV (surface_val s) j) u) as Q.
    { intros j Hj. pose proof (line_v_ex _ _ _ _ j (full_is _ G) Hj) as Ll. set (l := map _ _) in Ll. destruct (R j l Ll) as [l' [Ll' El]].
      pose proof Ss as [S1 [S2 [S3 [S4 S5]]]].
      destruct (list_final (Curve (DegreeV s) (KnotsV s) l) us M lo hi rho) as [c' [Ec [Sc [Dc [Tc Wc]]]]]; try assumption.
      - split; [exact S2|]. cbn [ControlPoints Knots Degree]. destruct Ll as [_ [Ll _]]. lia.
      - cbn [ControlPoints]. apply Forall_forall. intros p Hp. rewrite Forall_forall in T. apply T. eapply line_v_in; eassumption.
      - unfold weights_in in *. cbn [ControlPoints]. apply Forall_forall. intros p Hp. rewrite Forall_forall in Hw. apply Hw. eapply line_v_in; eassumption.
      - rewrite El in Ec. injection Ec as <-. exists l, l'. split; [exact Ll|]. split; [exact Ll'|]. split; [exact Tc|].
        rewrite (column_val s j l G Ll). rewrite (column_val s' j l' G' Ll'). rewrite D2. exact Wc. }
    assert (Forall (tame (2 * M + / 2 ^ 400)) (Values (Net s'))) as T'.
    { apply Forall_lines_v; [exact G'|]. intros j Hj. destruct (Q j ltac:(lia)) as [l [l' [_ [A [B _]]]]]. eauto. }
    split; [exact T'|]. intros u v Hu Hv. eapply within_weak; [apply surf_total|].
    apply (surf_move_v (surface_val s) (surface_val s')); try assumption; try (exact (tame_wf_surf _ _ Ss T)); try (exact (tame_wf_surf _ _ Ss' T')); try lra.
    - cbn [surface_val KnotsU]. congruence.
    - cbn [surface_val Net UCount VCount]. intros j Hj. destruct (Q j Hj) as [l [l' [_ [_ [_ W]]]]]. destruct (W v Hv) as [W1 W2]. split; [exact W1|]. split; [exact W2|]. intros i Hi. apply cell_bound; assumption.
  Qed.
End list.
