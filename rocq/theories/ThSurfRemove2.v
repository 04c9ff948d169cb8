(** Knot removal on surfaces: round trip with insertion, exactness, witnesses. *)
From Coq Require Import Reals ZArith List Lra Lia Bool Permutation SpecFloat.
From Verif Require Import ThB64 ThCoreWit ThDecide ThSurfWit Outcome Num ModelCore ModelAlgo ModelCurve ModelSurface SpecCore SpecBasis SpecCurve SpecSurface
  ThOutcome ThReal ThKnots ThGrid ThVec ThSum ThSpline ThBasis ThCurve ThInsert ThCurveWit ThSurface ThSurface2 ThGeom
  ThRemove ThRemove2 ThRemove3 ThRemoveWit ThSurfRemove.
Import ListNotations.
Open Scope Z_scope.

(** ** Rows as curves *)
Definition curveU (s : surface R) (j : Z) : curve R := Curve (DegreeU s) (KnotsU s) (rowU (UCount (Net s)) (gp s) j).
Definition curveV (s : surface R) (i : Z) : curve R := Curve (DegreeV s) (KnotsV s) (rowV (VCount (Net s)) (gp s) i).
Lemma cp_tab d k (f : Z -> vec4 R) n i : 0 <= i < n -> cp (Curve d k (map f (zrange 0 n))) i = f i.
Proof.
  intros Hi. unfold cp. cbn [ControlPoints]. change (nth (Z.to_nat i) ?l ?d0) with (znth d0 l i).
  rewrite (znth_map _ 0) by (rewrite len_zrange; lia). rewrite znth_zrange by lia. f_equal.
Qed.
Lemma wf_counts s : wf_surface s -> 0 < UCount (Net s) /\ 0 < VCount (Net s).
Proof.
  intros W. pose proof (ws_countU s W). pose proof (ws_countV s W). pose proof (cl_len _ _ (ws_knotsU s W)). pose proof (cl_len _ _ (ws_knotsV s W)).
  pose proof (cl_degree _ _ (ws_knotsU s W)). pose proof (cl_degree _ _ (ws_knotsV s W)). lia.
Qed.
Lemma weights_tab (f : Z -> vec4 R) n : (forall i, (0 < w4 (f i))%R) -> positive_weights (map f (zrange 0 n)).
Proof. intros H. apply Forall_forall. intros q Hq. apply in_map_iff in Hq. destruct Hq as [i [<- _]]. apply H. Qed.
Lemma curveU_wf s j : wf_surface s -> wf_curve (curveU s j).
Proof.
  intros W. pose proof (wf_counts s W). constructor; cbn [Degree Knots ControlPoints curveU].
  - apply W.
  - unfold rowU. rewrite len_map, len_zrange. pose proof (ws_countU s W). lia.
  - apply weights_tab. intros i. apply gp_weight. apply W.
Qed.
Lemma curveV_wf s i : wf_surface s -> wf_curve (curveV s i).
Proof.
  intros W. pose proof (wf_counts s W). constructor; cbn [Degree Knots ControlPoints curveV].
  - apply W.
  - unfold rowV. rewrite len_map, len_zrange. pose proof (ws_countV s W). lia.
  - apply weights_tab. intros j. apply gp_weight. apply W.
Qed.
Lemma ins_pts_ext U p k u P Q n i : 0 <= p <= k -> k < n -> 0 <= i <= n -> (forall i, 0 <= i < n -> P i = Q i) ->
  ins_pts U p k u P i = ins_pts U p k u Q i.
Proof.
  intros Hp Hk Hi H. unfold ins_pts. destruct (Z.leb_spec i (k - p)); [apply H; lia|]. destruct (Z.leb_spec i k).
  - rewrite (H i) by lia. rewrite (H (i - 1)) by lia. reflexivity.
  - apply H. lia.
Qed.
Lemma curveU_ins s d k u j : wf_surface s -> knot_span (DegreeU s) (KnotsU s) k u -> insertedU s d k u -> 0 <= j < VCount (Net s) ->
  inserted (curveU s j) (curveU d j) k u.
Proof.
  intros W [K1 K2] [D1 [D2 [E [I G]]]] Hj. pose proof (wf_counts s W). pose proof (ws_countU s W). pose proof (cl_degree _ _ (ws_knotsU s W)).
  assert (UCount (Net d) = UCount (Net s) + 1) as Eu by apply G.
  unfold inserted, curveU. cbn [Degree Knots ControlPoints]. split; [exact D1|]. split; [exact I|].
  split; [unfold rowU; rewrite !len_map, !len_zrange; lia|].
  unfold rowU. rewrite len_map, len_zrange. intros i Hi. rewrite cp_tab by lia. rewrite (gp_grid _ _ _ _ i j G) by lia.
  apply ins_pts_ext with (n := UCount (Net s)); try lia. intros i' Hi'. rewrite cp_tab by lia. reflexivity.
Qed.
Lemma curveV_ins s d k u i : wf_surface s -> knot_span (DegreeV s) (KnotsV s) k u -> insertedV s d k u -> 0 <= i < UCount (Net s) ->
  inserted (curveV s i) (curveV d i) k u.
Proof.
  intros W [K1 K2] [D1 [D2 [E [I G]]]] Hj. pose proof (wf_counts s W). pose proof (ws_countV s W). pose proof (cl_degree _ _ (ws_knotsV s W)).
  assert (VCount (Net d) = VCount (Net s) + 1) as Eu by apply G.
  unfold inserted, curveV. cbn [Degree Knots ControlPoints]. split; [exact D2|]. split; [exact I|].
  split; [unfold rowV; rewrite !len_map, !len_zrange; lia|].
  unfold rowV. rewrite len_map, len_zrange. intros j Hi. rewrite cp_tab by lia. rewrite (gp_grid _ _ _ _ i j G) by lia.
  apply ins_pts_ext with (n := VCount (Net s)); try lia. intros i' Hi'. rewrite cp_tab by lia. reflexivity.
Qed.
(** a sequence of insertions of [u] *)
Lemma insertU_seq jk s u : wf_surface s -> 1 <= DegreeU s -> (0 < u < 1)%R -> forall n,
  exists d, Surface_InsertKnotU_list jk s (repeat u n) = Ok d /\ wf_surface d /\ DegreeU d = DegreeU s /\ DegreeV d = DegreeV s /\
    KnotsV d = KnotsV s /\ UCount (Net d) = UCount (Net s) + Z.of_nat n /\ VCount (Net d) = VCount (Net s) /\
    forall j, 0 <= j < VCount (Net s) -> ins_seq u (curveU s j) n (curveU d j).
Proof.
  intros W D1 Hu. induction n as [|n [d [E [Wd [A [B [C [F [G H]]]]]]]]].
  - exists s. split; [reflexivity|]. split; [exact W|]. repeat split; try lia. intros. constructor.
  - destruct (Surface_InsertKnotU_ok jk d u Wd ltac:(lia) Hu) as [e [k [Ee [K I]]]]. exists e. split.
    { replace (repeat u (S n)) with (repeat u n ++ [u]) by apply repeat_snoc. unfold Surface_InsertKnotU_list in *.
      rewrite foldM_app, E. cbn [bind foldM]. rewrite Ee. reflexivity. }
    split; [apply (insertedU_wf d e k u); assumption|]. pose proof I as [I1 [I2 [I3 [I4 I5]]]].
    destruct (I5) as [I6 [I7 _]]. repeat split; try congruence; try lia.
    intros j Hj. econstructor; [apply H; exact Hj|exact K|]. apply curveU_ins; try assumption. lia.
Qed.
Lemma insertV_seq s u : wf_surface s -> 1 <= DegreeV s -> (0 < u < 1)%R -> forall n,
  exists d, Surface_InsertKnotV_list s (repeat u n) = Ok d /\ wf_surface d /\ DegreeU d = DegreeU s /\ DegreeV d = DegreeV s /\
    KnotsU d = KnotsU s /\ UCount (Net d) = UCount (Net s) /\ VCount (Net d) = VCount (Net s) + Z.of_nat n /\
    forall i, 0 <= i < UCount (Net s) -> ins_seq u (curveV s i) n (curveV d i).
Proof.
  intros W D1 Hu. induction n as [|n [d [E [Wd [A [B [C [F [G H]]]]]]]]].
  - exists s. split; [reflexivity|]. split; [exact W|]. repeat split; try lia. intros. constructor.
  - destruct (Surface_InsertKnotV_ok d u Wd ltac:(lia) Hu) as [e [k [Ee [K I]]]]. exists e. split.
    { replace (repeat u (S n)) with (repeat u n ++ [u]) by apply repeat_snoc. unfold Surface_InsertKnotV_list in *.
      rewrite foldM_app, E. cbn [bind foldM]. rewrite Ee. reflexivity. }
    split; [apply (insertedV_wf d e k u); assumption|]. pose proof I as [I1 [I2 [I3 [I4 I5]]]].
    destruct (I5) as [I6 [I7 _]]. repeat split; try congruence; try lia.
    intros j Hj. econstructor; [apply H; exact Hj|exact K|]. apply curveV_ins; try assumption. lia.
Qed.
Lemma surface_ext (s d : surface R) : DegreeU s = DegreeU d -> DegreeV s = DegreeV d -> KnotsU s = KnotsU d -> KnotsV s = KnotsV d -> Net s = Net d -> s = d.
Proof. destruct s, d. simpl. intros; subst. reflexivity. Qed.
Lemma remove_row c d u n tol : Curve_RemoveKnot c u n tol = Ok (d, n) ->
  KnotRemoval (Knots c) (ControlPoints c) (Degree c) u n tol = Ok (n, Knots d, ControlPoints d).
Proof.
  unfold Curve_RemoveKnot. destruct (_ && _); cbn [assert_ bind]; [|discriminate]. destruct (0 <? n); cbn [assert_ bind]; [|discriminate].
  destruct (KnotRemoval _ _ _ _ _ _) as [[[? ?] ?]| | | | |]; cbn [bind]; try discriminate. intros H. inversion H. reflexivity.
Qed.

Lemma C51_roundU_lemma jk s u n tol : wf_surface s -> 1 <= DegreeU s -> (0 < u < 1)%R -> separated u (KnotsU s) -> 1 <= n ->
  count u (KnotsU s) + n <= DegreeU s + 1 -> n <= DegreeU s + count u (KnotsU s) -> (0 <= tol)%R -> UCount (Net s) * VCount (Net s) <= INT_MAX ->
  exists s', Surface_InsertKnotU_times jk s u n = Ok s' /\ Surface_RemoveKnotU s' u n tol = Ok (s, n).
Proof.
  intros W D1 Hu Sep Hn Hm H2 Ht Fit. destruct (insertU_seq jk s u W D1 Hu (Z.to_nat n)) as [d [E [Wd [A [B [C [F [G H]]]]]]]].
  pose proof (wf_counts s W) as [U0 V0]. exists d. split.
  { unfold Surface_InsertKnotU_times. rewrite vmake_ok by lia. cbn [bind]. exact E. }
  unfold Surface_RemoveKnotU. rewrite F, G. replace (UCount (Net s) + Z.of_nat (Z.to_nat n) - n) with (UCount (Net s)) by lia.
  unfold grid_uninit. destruct (Grid_make_ok (UCount (Net s)) (VCount (Net s)) (@None (vec4 R))) as [g0 [E0 G0]]; try lia.
  rewrite E0. cbn [bind]. pose proof (wf_grid d Wd) as Gd. rewrite (removeU_eq d _ _ _ Gd).
  destruct (rows_ok (Grid_GetV (Net d)) Grid_SetV (DegreeU d) u n tol (VCount (Net d)) (UCount (Net s)) (rowU (UCount (Net d)) (gp d))
       (fun net g => grid_is net (UCount (Net s)) (VCount (Net d)) (fun i j => g j i))) with
     (n := Z.to_nat (VCount (Net s))) (it := 0) (t0 := 0) (t := n) (k' := KnotsU s) (knots := KnotsU d)
     (q := rowU (UCount (Net s)) (gp s)) (net := g0) (f := fun _ _ : Z => @None (vec4 R)) as [net' [Er Gr]].
  - intros r Hr. apply (getV_row d _ _ _ Gd). exact Hr.
  - intros net g r w Gn Hr. apply (Grid_SetV_ok net _ _ _ r w Gn Hr).
  - intros net g r l net' Gn Hr. apply (setV_len _ _ _ _ _ _ _ Gn Hr).
  - intros net g g' Ex Gn. apply (grid_is_eq _ _ _ _ _ Gn). intros; apply Ex; assumption.
  - lia.
  - lia.
  - lia.
  - lia.
  - lia.
  - rewrite G. exact G0.
  - intros j Hj. split; [|unfold rowU; rewrite len_map, len_zrange; lia].
    apply (remove_row (curveU d j) (curveU s j) u n tol).
    apply remove_seq; try assumption; [apply curveU_wf; exact W|]. apply H. lia.
  - rewrite Er. cbn [bind]. assert (grid_is net' (UCount (Net s)) (VCount (Net d)) (fun i j => Some (gp s i j))) as G1.
    { apply (grid_is_eq _ _ _ _ _ Gr). intros i j Hi Hj. cbv beta. destruct (Z.leb_spec 0 j); [|lia]. f_equal.
      unfold rowU. rewrite (znth_map _ 0) by (rewrite len_zrange; lia). rewrite znth_zrange by lia. f_equal. }
    destruct (grid_freeze_ok _ _ _ _ G1) as [g3 [E3 G3]]. rewrite E3. cbn [bind]. f_equal. f_equal.
    apply surface_ext; simpl; try congruence. rewrite G in G3. apply (grid_is_unique _ _ _ _ _ G3 (wf_grid s W)).
Qed.
Lemma C51_roundV_lemma s u n tol : wf_surface s -> 1 <= DegreeV s -> (0 < u < 1)%R -> separated u (KnotsV s) -> 1 <= n ->
  count u (KnotsV s) + n <= DegreeV s + 1 -> n <= DegreeV s + count u (KnotsV s) -> (0 <= tol)%R -> UCount (Net s) * VCount (Net s) <= INT_MAX ->
  exists s', Surface_InsertKnotV_times s u n = Ok s' /\ Surface_RemoveKnotV s' u n tol = Ok (s, n).
Proof.
  intros W D1 Hu Sep Hn Hm H2 Ht Fit. destruct (insertV_seq s u W D1 Hu (Z.to_nat n)) as [d [E [Wd [A [B [C [F [G H]]]]]]]].
  pose proof (wf_counts s W) as [U0 V0]. exists d. split.
  { unfold Surface_InsertKnotV_times. rewrite vmake_ok by lia. cbn [bind]. exact E. }
  unfold Surface_RemoveKnotV. rewrite F, G. replace (VCount (Net s) + Z.of_nat (Z.to_nat n) - n) with (VCount (Net s)) by lia.
  unfold grid_uninit. destruct (Grid_make_ok (UCount (Net s)) (VCount (Net s)) (@None (vec4 R))) as [g0 [E0 G0]]; try lia.
  rewrite E0. cbn [bind]. pose proof (wf_grid d Wd) as Gd. rewrite (removeV_eq d _ _ _ Gd).
  destruct (rows_ok (Grid_GetU (Net d)) Grid_SetU (DegreeV d) u n tol (UCount (Net d)) (VCount (Net s)) (rowV (VCount (Net d)) (gp d))
       (fun net g => grid_is net (UCount (Net d)) (VCount (Net s)) g)) with
     (n := Z.to_nat (UCount (Net s))) (it := 0) (t0 := 0) (t := n) (k' := KnotsV s) (knots := KnotsV d)
     (q := rowV (VCount (Net s)) (gp s)) (net := g0) (f := fun _ _ : Z => @None (vec4 R)) as [net' [Er Gr]].
  - intros r Hr. apply (getU_row d _ _ _ Gd). exact Hr.
  - intros net g r w Gn Hr. apply (Grid_SetU_ok net _ _ _ r w Gn Hr).
  - intros net g r l net' Gn Hr. apply (setU_len _ _ _ _ _ _ _ Gn Hr).
  - intros net g g' Ex Gn. apply (grid_is_eq _ _ _ _ _ Gn). intros; apply Ex; assumption.
  - lia.
  - lia.
  - lia.
  - lia.
  - lia.
  - rewrite F. exact G0.
  - intros j Hj. split; [|unfold rowV; rewrite len_map, len_zrange; lia].
    apply (remove_row (curveV d j) (curveV s j) u n tol).
    apply remove_seq; try assumption; [apply curveV_wf; exact W|]. apply H. lia.
  - rewrite Er. cbn [bind]. assert (grid_is net' (UCount (Net d)) (VCount (Net s)) (fun i j => Some (gp s i j))) as G1.
    { apply (grid_is_eq _ _ _ _ _ Gr). intros i j Hi Hj. cbv beta. destruct (Z.leb_spec 0 i); [|lia]. f_equal.
      unfold rowV. rewrite (znth_map _ 0) by (rewrite len_zrange; lia). rewrite znth_zrange by lia. f_equal. }
    destruct (grid_freeze_ok _ _ _ _ G1) as [g3 [E3 G3]]. rewrite E3. cbn [bind]. f_equal. f_equal.
    apply surface_ext; simpl; try congruence. rewrite F in G3. apply (grid_is_unique _ _ _ _ _ G3 (wf_grid s W)).
Qed.

(** ** Exact removal *)
Definition nthp (q : list (vec4 R)) (i : Z) : vec4 R := nth (Z.to_nat i) q (Vec4 0 0 0 1)%R.
Lemma row_exact p knots points u times k' q' : clamped p knots -> len points = len knots - p - 1 -> (0 < u < 1)%R -> separated u knots ->
  1 <= times <= count u knots -> count u knots <= p + 1 -> 2 * times <= p + count u knots ->
  KnotRemoval knots points p u times 0%R = Ok (times, k', q') ->
  clamped p k' /\ len q' = len k' - p - 1 /\ Permutation knots (repeat u (Z.to_nat times) ++ k') /\
  forall f x, lin f -> (0 <= x <= 1)%R -> spl p k' (fun i => f (ToHomo (nthp q' i))) x = spl p knots (fun i => f (ToHomo (nthp points i))) x.
Proof.
  intros C Cn Hu Sep Ht Hm H2 Ek. destruct (span_find _ _ u C Hu) as [r [Er K]]. set (n := len points - 1).
  assert (len knots = n + p + 2) as LK by (unfold n; lia).
  destruct (Removal_sound knots p n u r C LK Hu K Sep Hm points ltac:(unfold n; lia) times k' q' Ht H2 Ek) as [-> [P' [Ch [-> Wn]]]].
  assert (0 <= times <= count u knots) as Ht' by lia.
  pose proof (dl_clamped _ _ n u r C LK Hu K Hm times Ht') as C'.
  pose proof (dl_len _ _ n u r C LK Hu K Hm times Ht') as L'.
  split; [exact C'|]. split; [rewrite len_map, len_zrange, L'; pose proof (cl_len _ _ C'); pose proof (cl_degree _ _ C'); lia|].
  split; [apply (dl_perm _ _ n u r C LK Hu K Hm times Ht')|]. intros f x Lf Hx.
  pose proof (chain_sum knots p n u r C LK Hu K Hm f x Lf Hx (Z.to_nat times) 0 _ P' ltac:(lia) ltac:(lia) Ch) as Q.
  replace (0 + Z.of_nat (Z.to_nat times)) with times in Q by lia. rewrite del_0 in Q.
  unfold spl. etransitivity; [|symmetry; exact Q]. apply zsum_ext. intros i Hi. f_equal. f_equal.
  unfold nthp. change (nth (Z.to_nat i) ?l ?d0) with (znth d0 l i).
  assert (0 <= i < n + 1 - times) as Hi' by lia.
  rewrite (znth_map _ 0) by (rewrite len_zrange; lia). rewrite znth_zrange by lia. replace (0 + i) with i by lia.
  apply ToHomo_fromh. apply Wn. lia.
Qed.
Lemma hsurf_same_gen s s' : wf_surface s -> clamped (DegreeU s') (KnotsU s') -> clamped (DegreeV s') (KnotsV s') ->
  UCount (Net s') = len (KnotsU s') - DegreeU s' - 1 -> VCount (Net s') = len (KnotsV s') - DegreeV s' - 1 ->
  len (Values (Net s')) = UCount (Net s') * VCount (Net s') ->
  (forall f x y, lin f -> (0 <= x <= 1)%R -> (0 <= y <= 1)%R -> hsurf s' f x y = hsurf s f x y) ->
  forall u v, Surface_Evaluate s' u v = Surface_Evaluate s u v.
Proof.
  intros W CU CV NU NV L H u v.
  destruct (Rle_dec 0 u) as [A|A]; [destruct (Rle_dec u 1) as [A'|A'];
    [destruct (Rle_dec 0 v) as [B|B]; [destruct (Rle_dec v 1) as [B'|B']|]|]|];
    try (rewrite !Surface_Evaluate_outside by lra; reflexivity).
  assert (0 <= u <= 1)%R as Hu by lra. assert (0 <= v <= 1)%R as Hv by lra. pose proof (hsurf_w_pos s u v W Hu Hv).
  rewrite (Surface_Evaluate_ok s) by assumption. rewrite surf_point_hsurf by assumption.
  assert (forall f, lin f -> hsurf s' f u v = hsurf s f u v) as H' by (intros; apply H; assumption).
  rewrite Surface_Evaluate_gen; try assumption.
  - rewrite !H' by (unfold lin; auto). reflexivity.
  - rewrite H' by (unfold lin; auto). lra.
Qed.
Lemma nthp_tab (f : Z -> vec4 R) n i : 0 <= i < n -> nthp (map f (zrange 0 n)) i = f i.
Proof. intros Hi. unfold nthp. apply (cp_tab 0 []). exact Hi. Qed.
Lemma C51_exactU_lemma s u times s' : wf_surface s -> (0 < u < 1)%R -> separated u (KnotsU s) ->
  1 <= times <= count u (KnotsU s) -> count u (KnotsU s) <= DegreeU s + 1 -> 2 * times <= DegreeU s + count u (KnotsU s) ->
  Surface_RemoveKnotU s u times 0%R = Ok (s', times) ->
  DegreeU s' = DegreeU s /\ DegreeV s' = DegreeV s /\ KnotsV s' = KnotsV s /\
  clamped (DegreeU s') (KnotsU s') /\ Permutation (KnotsU s) (repeat u (Z.to_nat times) ++ KnotsU s') /\
  UCount (Net s') = UCount (Net s) - times /\ VCount (Net s') = VCount (Net s) /\ len (Values (Net s')) = UCount (Net s') * VCount (Net s') /\
  forall x y, Surface_Evaluate s' x y = Surface_Evaluate s x y.
Proof.
  intros W Hu Sep Ht Hm H2 E. pose proof (wf_counts s W) as [U0 V0]. pose proof (ws_countU s W) as NU. pose proof (ws_countV s W) as NV.
  destruct (RemoveKnotU_inv s s' _ _ _ u times 0%R times (wf_grid s W) V0 E) as [[A _]|A]; [lia|].
  destruct A as [_ [D1 [D2 [KV [UC [VC [LV [Tn [q [Q Val]]]]]]]]]].
  assert (forall j, 0 <= j < VCount (Net s) -> clamped (DegreeU s) (KnotsU s') /\ len (q j) = len (KnotsU s') - DegreeU s - 1 /\
    Permutation (KnotsU s) (repeat u (Z.to_nat times) ++ KnotsU s') /\
    forall f x, lin f -> (0 <= x <= 1)%R -> spl (DegreeU s) (KnotsU s') (fun i => f (ToHomo (nthp (q j) i))) x =
      spl (DegreeU s) (KnotsU s) (fun i => f (ghp s i j)) x) as Rw.
  { intros j Hj. destruct (Q (VCount (Net s) - 1) ltac:(lia)) as [kl [El [_ [_ Kl]]]]. specialize (Kl eq_refl).
    destruct (Q j Hj) as [k [Ek _]].
    assert (len (rowU (UCount (Net s)) (gp s) j) = len (KnotsU s) - DegreeU s - 1) as Lj by (unfold rowU; rewrite len_map, len_zrange; lia).
    assert (len (rowU (UCount (Net s)) (gp s) (VCount (Net s) - 1)) = len (KnotsU s) - DegreeU s - 1) as Ll by (unfold rowU; rewrite len_map, len_zrange; lia).
    assert (k = kl) as ->.
    { destruct (span_find _ _ u (ws_knotsU s W) Hu) as [r [Er K]].
      pose proof (Removal_sound (KnotsU s) (DegreeU s) (UCount (Net s) - 1) u r (ws_knotsU s W) ltac:(lia) Hu K Sep Hm _ ltac:(rewrite Lj; lia) times k _ Ht H2 Ek) as [-> _].
      pose proof (Removal_sound (KnotsU s) (DegreeU s) (UCount (Net s) - 1) u r (ws_knotsU s W) ltac:(lia) Hu K Sep Hm _ ltac:(rewrite Ll; lia) times kl _ Ht H2 El) as [-> _].
      reflexivity. }
    rewrite Kl. destruct (row_exact _ _ _ _ _ _ _ (ws_knotsU s W) Lj Hu Sep Ht Hm H2 Ek) as [X1 [X2 [X3 X4]]].
    split; [exact X1|]. split; [exact X2|]. split; [exact X3|]. intros f x Lf Hx. rewrite X4 by assumption. apply spl_ext. intros i Hi. unfold rowU. rewrite nthp_tab by lia. reflexivity. }
  destruct (Rw 0 ltac:(lia)) as [C' [Lq [Pm _]]]. destruct (Q 0 ltac:(lia)) as [_ [_ [Lq0 _]]].
  rewrite D1, D2, KV. split; [reflexivity|]. split; [reflexivity|]. split; [reflexivity|]. split; [exact C'|]. split; [exact Pm|].
  split; [exact UC|]. split; [exact VC|]. split; [rewrite UC, VC; exact LV|].
  apply hsurf_same_gen; rewrite ?D1, ?D2, ?KV; try apply W; try assumption; try lia.
  intros f x y Lf Hx Hy. unfold hsurf. rewrite D1, D2, KV. apply spl_ext. intros j Hj.
  destruct (Rw j ltac:(lia)) as [_ [Lj [_ Sj]]]. destruct (Q j ltac:(lia)) as [_ [_ [Lqj _]]]. rewrite <- Sj by assumption. apply spl_ext. intros i Hi. f_equal. unfold ghp. f_equal.
  unfold gp, nthp. rewrite UC. specialize (Val i j ltac:(lia) ltac:(lia)). unfold znth in Val.
  assert (0 <= j * (UCount (Net s) - times) + i < len (Values (Net s'))) as Hr.
  { rewrite LV. pose proof (idx_range j i (VCount (Net s)) (UCount (Net s) - times) ltac:(lia) ltac:(lia)). lia. }
  rewrite (nth_indep _ _ dflt) by (unfold len in Hr; lia). rewrite Val. apply nth_indep. unfold len in Lqj. lia.
Qed.
Lemma C51_exactV_lemma s u times s' : wf_surface s -> (0 < u < 1)%R -> separated u (KnotsV s) ->
  1 <= times <= count u (KnotsV s) -> count u (KnotsV s) <= DegreeV s + 1 -> 2 * times <= DegreeV s + count u (KnotsV s) ->
  Surface_RemoveKnotV s u times 0%R = Ok (s', times) ->
  DegreeU s' = DegreeU s /\ DegreeV s' = DegreeV s /\ KnotsU s' = KnotsU s /\
  clamped (DegreeV s') (KnotsV s') /\ Permutation (KnotsV s) (repeat u (Z.to_nat times) ++ KnotsV s') /\
  UCount (Net s') = UCount (Net s) /\ VCount (Net s') = VCount (Net s) - times /\ len (Values (Net s')) = UCount (Net s') * VCount (Net s') /\
  forall x y, Surface_Evaluate s' x y = Surface_Evaluate s x y.
Proof.
  intros W Hu Sep Ht Hm H2 E. pose proof (wf_counts s W) as [U0 V0]. pose proof (ws_countU s W) as NU. pose proof (ws_countV s W) as NV.
  destruct (RemoveKnotV_inv s s' _ _ _ u times 0%R times (wf_grid s W) U0 E) as [[A _]|A]; [lia|].
  destruct A as [_ [D1 [D2 [KV [UC [VC [LV [Tn [q [Q Val]]]]]]]]]].
  assert (forall j, 0 <= j < UCount (Net s) -> clamped (DegreeV s) (KnotsV s') /\ len (q j) = len (KnotsV s') - DegreeV s - 1 /\
    Permutation (KnotsV s) (repeat u (Z.to_nat times) ++ KnotsV s') /\
    forall f x, lin f -> (0 <= x <= 1)%R -> spl (DegreeV s) (KnotsV s') (fun i => f (ToHomo (nthp (q j) i))) x =
      spl (DegreeV s) (KnotsV s) (fun i => f (ghp s j i)) x) as Rw.
  { intros j Hj. destruct (Q (UCount (Net s) - 1) ltac:(lia)) as [kl [El [_ [_ Kl]]]]. specialize (Kl eq_refl).
    destruct (Q j Hj) as [k [Ek _]].
    assert (len (rowV (VCount (Net s)) (gp s) j) = len (KnotsV s) - DegreeV s - 1) as Lj by (unfold rowV; rewrite len_map, len_zrange; lia).
    assert (len (rowV (VCount (Net s)) (gp s) (UCount (Net s) - 1)) = len (KnotsV s) - DegreeV s - 1) as Ll by (unfold rowV; rewrite len_map, len_zrange; lia).
    assert (k = kl) as ->.
    { destruct (span_find _ _ u (ws_knotsV s W) Hu) as [r [Er K]].
      pose proof (Removal_sound (KnotsV s) (DegreeV s) (VCount (Net s) - 1) u r (ws_knotsV s W) ltac:(lia) Hu K Sep Hm _ ltac:(rewrite Lj; lia) times k _ Ht H2 Ek) as [-> _].
      pose proof (Removal_sound (KnotsV s) (DegreeV s) (VCount (Net s) - 1) u r (ws_knotsV s W) ltac:(lia) Hu K Sep Hm _ ltac:(rewrite Ll; lia) times kl _ Ht H2 El) as [-> _].
      reflexivity. }
    rewrite Kl. destruct (row_exact _ _ _ _ _ _ _ (ws_knotsV s W) Lj Hu Sep Ht Hm H2 Ek) as [X1 [X2 [X3 X4]]].
    split; [exact X1|]. split; [exact X2|]. split; [exact X3|]. intros f x Lf Hx. rewrite X4 by assumption. apply spl_ext. intros i Hi. unfold rowV. rewrite nthp_tab by lia. reflexivity. }
  destruct (Rw 0 ltac:(lia)) as [C' [Lq [Pm _]]]. destruct (Q 0 ltac:(lia)) as [_ [_ [Lq0 _]]].
  rewrite D1, D2, KV. split; [reflexivity|]. split; [reflexivity|]. split; [reflexivity|]. split; [exact C'|]. split; [exact Pm|].
  split; [exact UC|]. split; [exact VC|]. split; [rewrite UC, VC; exact LV|].
  apply hsurf_same_gen; rewrite ?D1, ?D2, ?KV; try apply W; try assumption; try lia.
  intros f x y Lf Hx Hy. rewrite !hsurf_swap. rewrite D1, D2, KV. apply spl_ext. intros j Hj.
  destruct (Rw j ltac:(lia)) as [_ [Lj [_ Sj]]]. destruct (Q j ltac:(lia)) as [_ [_ [Lqj _]]]. rewrite <- Sj by assumption. apply spl_ext. intros i Hi. f_equal. unfold ghp. f_equal.
  unfold gp, nthp. rewrite UC. specialize (Val j i ltac:(lia) ltac:(lia)). unfold znth in Val.
  assert (0 <= i * (UCount (Net s)) + j < len (Values (Net s'))) as Hr.
  { rewrite LV. pose proof (idx_range i j (VCount (Net s) - times) (UCount (Net s)) ltac:(lia) ltac:(lia)). lia. }
  rewrite (nth_indep _ _ dflt) by (unfold len in Hr; lia). rewrite Val. apply nth_indep. unfold len in Lqj. lia.
Qed.

(** ** Witnesses *)
Definition wf64s (s : surface b64) : bool :=
  clampedb (DegreeU s) (KnotsU s) && clampedb (DegreeV s) (KnotsV s) &&
  (UCount (Net s) =? len (KnotsU s) - DegreeU s - 1) && (VCount (Net s) =? len (KnotsV s) - DegreeV s - 1) &&
  (len (Values (Net s)) =? UCount (Net s) * VCount (Net s)) && weightsb (Values (Net s)).
Lemma wf64s_ok s : wf64s s = true -> wf_surface (surface_val s).
Proof.
  unfold wf64s. rewrite !andb_true_iff, !Z.eqb_eq. intros [[[[[A B] C] D] E] F]. constructor; unfold surface_val; cbn [DegreeU DegreeV KnotsU KnotsV Net UCount VCount Values];
    rewrite ?len_vals, ?len_map; try assumption; try (apply clampedb_ok; assumption). apply weightsb_ok. exact F.
Qed.
Definition flat64 : list b64 := [dz; dz; done_; done_].
Definition swap4 (q : vec4 b64) : vec4 b64 := Vec4 (x4 q) (y4 q) done_ (w4 q).
Definition extrudeU (c : curve b64) : surface b64 :=
  Surface (Degree c) 1 (Knots c) flat64 (Grid (len (ControlPoints c)) 2 (ControlPoints c ++ map swap4 (ControlPoints c))).
Definition extrudeV (c : curve b64) : surface b64 :=
  Surface 1 (Degree c) flat64 (Knots c) (Grid 2 (len (ControlPoints c)) (flat_map (fun q => [q; swap4 q]) (ControlPoints c))).
Lemma C51_refuted_lemma :
  (exists (s : surface b64) u times s' t, wf_surface (surface_val s) /\ (0 < val u < 1)%R /\
     Surface_RemoveKnotU s u times dz = Ok (s', t) /\ 0 < t < times /\
     len (KnotsU s') <> len (KnotsU s) - t /\ UCount (Net s') <> UCount (Net s) - t) /\
  (exists (s : surface b64) v times s' t, wf_surface (surface_val s) /\ (0 < val v < 1)%R /\
     Surface_RemoveKnotV s v times dz = Ok (s', t) /\ 0 < t < times /\
     len (KnotsV s') <> len (KnotsV s) - t /\ VCount (Net s') <> VCount (Net s) - t).
Proof.
  split.
  - exists (extrudeU hat64), dhalf, 2. do 2 eexists. split; [apply wf64s_ok; vm_compute; reflexivity|].
    split; [apply innerb_ok; vm_compute; reflexivity|]. split; [vm_compute; reflexivity|]. split; [lia|]. split; vm_compute; discriminate.
  - exists (extrudeV hat64), dhalf, 2. do 2 eexists. split; [apply wf64s_ok; vm_compute; reflexivity|].
    split; [apply innerb_ok; vm_compute; reflexivity|]. split; [vm_compute; reflexivity|]. split; [lia|]. split; vm_compute; discriminate.
Qed.
Lemma C51_not_a_knot_lemma :
  (exists (s : surface b64) u, wf_surface (surface_val s) /\ (0 < val u < 1)%R /\ ~ In (val u) (vals (KnotsU s)) /\
     Surface_RemoveKnotU s u 1 dz = Undefined OutOfBounds) /\
  (exists (s : surface b64) v, wf_surface (surface_val s) /\ (0 < val v < 1)%R /\ ~ In (val v) (vals (KnotsV s)) /\
     Surface_RemoveKnotV s v 1 dz = Undefined OutOfBounds).
Proof.
  split.
  - exists (extrudeU bezier64), dhalf. split; [apply wf64s_ok; vm_compute; reflexivity|].
    split; [apply innerb_ok; vm_compute; reflexivity|]. split; [apply absentb_ok; vm_compute; reflexivity|]. vm_compute. reflexivity.
  - exists (extrudeV bezier64), dhalf. split; [apply wf64s_ok; vm_compute; reflexivity|].
    split; [apply innerb_ok; vm_compute; reflexivity|]. split; [apply absentb_ok; vm_compute; reflexivity|]. vm_compute. reflexivity.
Qed.
Lemma C51_round_ex_lemma : wf_surface surf_ex /\ 1 <= DegreeU surf_ex /\ 1 <= DegreeV surf_ex /\ (0 < 1/4 < 1)%R /\
  separated (1/4) (KnotsU surf_ex) /\ separated (1/4) (KnotsV surf_ex) /\
  count (1/4) (KnotsU surf_ex) = 0 /\ count (1/4) (KnotsV surf_ex) = 0 /\ UCount (Net surf_ex) * VCount (Net surf_ex) <= INT_MAX.
Proof.
  split; [exact surf_ex_wf|]. cbn [DegreeU DegreeV KnotsU KnotsV Net UCount VCount surf_ex]. split; [lia|]. split; [lia|]. split; [lra|].
  split; [apply separated_ex; simpl; intros v H; repeat destruct H as [<-|H]; try contradiction; lra|].
  split; [apply separated_ex; simpl; intros v H; repeat destruct H as [<-|H]; try contradiction; lra|].
  split; [apply count_none; simpl; intros v H; repeat destruct H as [<-|H]; try contradiction; lra|].
  split; [apply count_none; simpl; intros v H; repeat destruct H as [<-|H]; try contradiction; lra|]. unfold INT_MAX. lia.
Qed.
Lemma count_self u : count u [u] = 1.
Proof. unfold count. simpl. destruct (Req_EM_T u u); [reflexivity|tauto]. Qed.
Lemma C51_exactU_ex_lemma : exists s s', wf_surface s /\ (0 < 1/4 < 1)%R /\ separated (1/4) (KnotsU s) /\
  1 <= 1 <= count (1/4) (KnotsU s) /\ count (1/4) (KnotsU s) <= DegreeU s + 1 /\ 2 * 1 <= DegreeU s + count (1/4) (KnotsU s) /\
  Surface_RemoveKnotU s (1/4)%R 1 0%R = Ok (s', 1).
Proof.
  destruct C51_round_ex_lemma as [W [D1 [_ [Hu [Sep [_ [C0 [_ Fit]]]]]]]].
  destruct (C51_roundU_lemma v4zero surf_ex (1/4)%R 1 0%R W D1 Hu Sep ltac:(lia) ltac:(rewrite C0; lia) ltac:(rewrite C0; lia) ltac:(lra) Fit) as [s [E Er]].
  destruct (Surface_InsertKnotU_ok v4zero surf_ex (1/4)%R W D1 Hu) as [d [k [E' [K I]]]].
  unfold Surface_InsertKnotU_times in E. rewrite vmake_ok in E by lia. change (Z.to_nat 1) with 1%nat in E.
  unfold Surface_InsertKnotU_list in E. cbn [bind repeat foldM] in E. rewrite E' in E. cbn [bind] in E. inversion E; subst d.
  destruct (insertedU_refines surf_ex s k _ W K Hu I) as [Wc [Dc [_ [Pm _]]]].
  exists s, surf_ex. split; [exact Wc|]. split; [exact Hu|]. rewrite (count_perm _ _ _ Pm), count_app, C0, count_self, Dc. split.
  - intros v Hv. apply (Permutation_in v Pm) in Hv. destruct Hv as [<-|Hv]; [left; reflexivity|]. apply Sep. exact Hv.
  - repeat split; try lia. exact Er.
Qed.
Lemma C51_exactV_ex_lemma : exists s s', wf_surface s /\ (0 < 1/4 < 1)%R /\ separated (1/4) (KnotsV s) /\
  1 <= 1 <= count (1/4) (KnotsV s) /\ count (1/4) (KnotsV s) <= DegreeV s + 1 /\ 2 * 1 <= DegreeV s + count (1/4) (KnotsV s) /\
  Surface_RemoveKnotV s (1/4)%R 1 0%R = Ok (s', 1).
Proof.
  destruct C51_round_ex_lemma as [W [_ [D1 [Hu [_ [Sep [_ [C0 Fit]]]]]]]].
  destruct (C51_roundV_lemma surf_ex (1/4)%R 1 0%R W D1 Hu Sep ltac:(lia) ltac:(rewrite C0; lia) ltac:(rewrite C0; lia) ltac:(lra) Fit) as [s [E Er]].
  destruct (Surface_InsertKnotV_ok surf_ex (1/4)%R W D1 Hu) as [d [k [E' [K I]]]].
  unfold Surface_InsertKnotV_times in E. rewrite vmake_ok in E by lia. change (Z.to_nat 1) with 1%nat in E.
  unfold Surface_InsertKnotV_list in E. cbn [bind repeat foldM] in E. rewrite E' in E. cbn [bind] in E. inversion E; subst d.
  destruct (insertedV_refines surf_ex s k _ W K Hu I) as [Wc [Dc [Dd [_ [Pm _]]]]].
  exists s, surf_ex. split; [exact Wc|]. split; [exact Hu|]. rewrite (count_perm _ _ _ Pm), count_app, C0, count_self, Dd. split.
  - intros v Hv. apply (Permutation_in v Pm) in Hv. destruct Hv as [<-|Hv]; [left; reflexivity|]. apply Sep. exact Hv.
  - repeat split; try lia. exact Er.
Qed.
