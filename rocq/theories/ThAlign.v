(** AlignParameterDomain: the operations on the control net and the surface. *)
From Coq Require Import Reals ZArith List Lra Lia Bool Permutation.
From Verif Require Import Outcome Num ModelCore ModelBasis ModelCurve ModelSurface SpecCore SpecBasis SpecCurve SpecSurface SpecAlign
  ThOutcome ThReal ThKnots ThGrid ThVec ThSum ThSpline ThBasis ThCurve ThInsert ThSurface ThSurface2 ThGeom ThKnots2 ThReverse.
Import ListNotations.
Open Scope Z_scope.

(** ** Control net *)
Lemma transpose_net_ok (g : grid (vec4 R)) nu nv f : grid_is g nu nv f -> nu * nv <= INT_MAX ->
  exists g', transpose_net g = Ok g' /\ grid_is g' nv nu (fun i j => f j i).
Proof.
  intros G Fit. destruct (G) as [Gu [Gv [Hu [Hv _]]]]. unfold transpose_net, grid_uninit. rewrite Gu, Gv.
  destruct (Grid_make_ok nv nu (@None (vec4 R))) as [g0 [E0 G0]]; try lia. rewrite E0. cbn [bind].
  destruct (fill_rows g0 nv nu _ 0 nv nu (fun i j => Some (f j i)) (fun v u tg => p <- Grid_Get g u v;; Grid_Set tg v u (Some p)) G0) as [g1 [E1 G1]]; try lia.
  - intros i j g' Hi Hj. rewrite (Grid_Get_ok _ _ _ _ _ _ G) by lia. reflexivity.
  - rewrite E1. cbn [bind]. apply grid_freeze_ok. apply (grid_is_eq _ _ _ _ _ G1). intros i j Hi Hj.
    destruct (Z.leb_spec 0 i); [|lia]. destruct (Z.ltb_spec i nv); [|lia]. destruct (Z.ltb_spec j nu); [|lia]. reflexivity.
Qed.
Lemma grid_swap_ok (g : grid (vec4 R)) nu nv f u v u' v' : grid_is g nu nv f ->
  0 <= u < nu -> 0 <= v < nv -> 0 <= u' < nu -> 0 <= v' < nv ->
  exists g', grid_swap g u v u' v' = Ok g' /\
    grid_is g' nu nv (fun i j => if (i =? u') && (j =? v') then f u v else if (i =? u) && (j =? v) then f u' v' else f i j).
Proof.
  intros G Hu Hv Hu' Hv'. unfold grid_swap. rewrite !(Grid_Get_ok _ _ _ _ _ _ G) by lia. cbn [bind].
  destruct (Grid_Set_ok g nu nv f u v (f u' v') G Hu Hv) as [g1 [E1 G1]]. rewrite E1. cbn [bind].
  apply (Grid_Set_ok g1 nu nv _ u' v' (f u v) G1); lia.
Qed.
Lemma quot2 n : 0 <= n -> 2 * Z.quot n 2 <= n < 2 * Z.quot n 2 + 2.
Proof. intros H. rewrite Z.quot_div_nonneg by lia. pose proof (Z.div_mod n 2 ltac:(lia)). pose proof (Z.mod_pos_bound n 2 ltac:(lia)). lia. Qed.

Ltac zcases := repeat match goal with
  | |- context [Z.eqb ?a ?b] => destruct (Z.eqb_spec a b)
  | |- context [Z.ltb ?a ?b] => destruct (Z.ltb_spec a b)
  | |- context [Z.leb ?a ?b] => destruct (Z.leb_spec a b)
  end; cbn [andb orb]; subst; try reflexivity; try lia; try (f_equal; lia).

Lemma reverse_netU_ok (g : grid (vec4 R)) nu nv f : grid_is g nu nv f ->
  exists g', reverse_netU g = Ok g' /\ grid_is g' nu nv (fun i j => f (nu - 1 - i) j).
Proof.
  intros G. destruct (G) as [Gu [Gv [Hu [Hv _]]]]. unfold reverse_netU. rewrite Gv. pose proof (quot2 nu Hu).
  destruct (for_up_inv (fun n g' => grid_is g' nu nv (fun i j => if j <? n then f (nu - 1 - i) j else f i j)) 0 nv
    (fun v g => for_up 0 (Z.quot (UCount g) 2) (fun u g => grid_swap g u v (UCount g - 1 - u) v) g) g) as [g' [E' G']].
  - lia.
  - apply (grid_is_eq _ _ _ _ _ G). intros i j Hi Hj. zcases.
  - intros n g1 Hn G1. destruct (G1) as [G1u _]. rewrite G1u.
    destruct (for_up_inv (fun h g' => grid_is g' nu nv (fun i j => if (j <? n) || ((j =? n) && ((i <? h) || (nu - 1 - h <? i))) then f (nu - 1 - i) j else f i j))
      0 (Z.quot nu 2) (fun u g => grid_swap g u n (UCount g - 1 - u) n) g1) as [g2 [E2 G2]].
    + lia.
    + apply (grid_is_eq _ _ _ _ _ G1). intros i j Hi Hj. zcases.
    + intros h g2 Hh G2. destruct (G2) as [G2u _]. rewrite G2u.
      destruct (grid_swap_ok g2 nu nv _ h n (nu - 1 - h) n G2) as [g3 [E3 G3]]; try lia.
      exists g3. split; [exact E3|]. apply (grid_is_eq _ _ _ _ _ G3). intros i j Hi Hj. zcases.
    + exists g2. split; [exact E2|]. apply (grid_is_eq _ _ _ _ _ G2). intros i j Hi Hj. zcases.
  - exists g'. split; [exact E'|]. apply (grid_is_eq _ _ _ _ _ G'). intros i j Hi Hj. zcases.
Qed.
Lemma reverse_netV_ok (g : grid (vec4 R)) nu nv f : grid_is g nu nv f ->
  exists g', reverse_netV g = Ok g' /\ grid_is g' nu nv (fun i j => f i (nv - 1 - j)).
Proof.
  intros G. destruct (G) as [Gu [Gv [Hu [Hv _]]]]. unfold reverse_netV. rewrite Gu. pose proof (quot2 nv Hv).
  destruct (for_up_inv (fun n g' => grid_is g' nu nv (fun i j => if i <? n then f i (nv - 1 - j) else f i j)) 0 nu
    (fun u g => for_up 0 (Z.quot (VCount g) 2) (fun v g => grid_swap g u v u (VCount g - 1 - v)) g) g) as [g' [E' G']].
  - lia.
  - apply (grid_is_eq _ _ _ _ _ G). intros i j Hi Hj. zcases.
  - intros n g1 Hn G1. destruct (G1) as [_ [G1v _]]. rewrite G1v.
    destruct (for_up_inv (fun h g' => grid_is g' nu nv (fun i j => if (i <? n) || ((i =? n) && ((j <? h) || (nv - 1 - h <? j))) then f i (nv - 1 - j) else f i j))
      0 (Z.quot nv 2) (fun v g => grid_swap g n v n (VCount g - 1 - v)) g1) as [g2 [E2 G2]].
    + lia.
    + apply (grid_is_eq _ _ _ _ _ G1). intros i j Hi Hj. zcases.
    + intros h g2 Hh G2. destruct (G2) as [_ [G2v _]]. rewrite G2v.
      destruct (grid_swap_ok g2 nu nv _ n h n (nv - 1 - h) G2) as [g3 [E3 G3]]; try lia.
      exists g3. split; [exact E3|]. apply (grid_is_eq _ _ _ _ _ G3). intros i j Hi Hj. zcases.
    + exists g2. split; [exact E2|]. apply (grid_is_eq _ _ _ _ _ G2). intros i j Hi Hj. zcases.
  - exists g'. split; [exact E'|]. apply (grid_is_eq _ _ _ _ _ G'). intros i j Hi Hj. zcases.
Qed.

(** ** Surface *)
(** corner of the result that is corner (bu, bv) of the original, seen from the result *)
Definition corner_sym (sw ru rv : bool) (bu bv : bool) : bool * bool :=
  let a := xorb ru bu in let b := xorb rv bv in if sw then (b, a) else (a, b).
Definition sym_of (s d : surface R) (sw ru rv : bool) : Prop :=
  wf_surface d /\ reparameterised s d sw ru rv /\
  UCount (Net d) * VCount (Net d) = UCount (Net s) * VCount (Net s) /\
  forall bu bv, let q := corner_sym sw ru rv bu bv in net_corner d bu bv = net_corner s (fst q) (snd q).
Lemma eval_of_hsurf s d u v u' v' : wf_surface s -> wf_surface d ->
  ((0 <= u <= 1)%R /\ (0 <= v <= 1)%R <-> (0 <= u' <= 1)%R /\ (0 <= v' <= 1)%R) ->
  ((0 <= u <= 1)%R -> (0 <= v <= 1)%R -> forall f, hsurf d f u v = hsurf s f u' v') ->
  Surface_Evaluate d u v = Surface_Evaluate s u' v'.
Proof.
  intros Ws Wd I H.
  assert ({(0 <= u <= 1)%R /\ (0 <= v <= 1)%R} + {~ ((0 <= u <= 1)%R /\ (0 <= v <= 1)%R)}) as [D|D].
  { destruct (Rle_dec 0 u); [destruct (Rle_dec u 1); [destruct (Rle_dec 0 v); [destruct (Rle_dec v 1)|]|]|];
      try (right; lra). left. lra. }
  - destruct (D) as [Du Dv]. apply I in D. destruct D as [Du' Dv'].
    rewrite !Surface_Evaluate_ok, !surf_point_hsurf by assumption. rewrite !(H Du Dv). reflexivity.
  - rewrite Surface_Evaluate_outside by assumption. rewrite Surface_Evaluate_outside by tauto. reflexivity.
Qed.

Lemma sym_refl s : wf_surface s -> sym_of s s false false false.
Proof.
  intros W. split; [exact W|]. split; [intros u v; cbn; reflexivity|]. split; [reflexivity|]. intros [] []; reflexivity.
Qed.
Lemma sym_swap s : wf_surface s -> UCount (Net s) * VCount (Net s) <= INT_MAX ->
  exists g, transpose_net (Net s) = Ok g /\
  let d := Surface (DegreeV s) (DegreeU s) (KnotsV s) (KnotsU s) g in sym_of s d true false false.
Proof.
  intros W Fit. pose proof (wf_grid s W) as G. destruct (transpose_net_ok _ _ _ _ G Fit) as [g [E Gg]].
  exists g. split; [exact E|]. intros d.
  assert (wf_surface d) as Wd.
  { apply (wf_of_grid d (fun i j => gp s j i)); try apply W.
    - cbn. rewrite <- (ws_countU s W), <- (ws_countV s W). exact Gg.
    - intros. apply gp_weight. apply W. }
  assert (forall i j, 0 <= i < VCount (Net s) -> 0 <= j < UCount (Net s) -> gp d i j = gp s j i) as Gp
    by (intros; apply (gp_grid d _ _ _ i j Gg); assumption).
  pose proof (cl_len _ _ (ws_knotsU s W)). pose proof (cl_degree _ _ (ws_knotsU s W)). pose proof (ws_countU s W).
  pose proof (cl_len _ _ (ws_knotsV s W)). pose proof (cl_degree _ _ (ws_knotsV s W)). pose proof (ws_countV s W).
  destruct (Gg) as [Gu [Gv _]].
  split; [exact Wd|]. split; [|split].
  - intros u v q _ _. unfold q. cbn. apply eval_of_hsurf; auto; [tauto|]. intros Hu Hv f. unfold hsurf. cbn.
    rewrite spl_swap. apply spl_ext. intros i Hi. apply spl_ext. intros j Hj. unfold ghp. rewrite Gp by lia. reflexivity.
  - cbn. rewrite Gu, Gv. lia.
  - intros bu bv. cbn. unfold net_corner. cbn [Net d]. rewrite Gu, Gv. rewrite Gp by (destruct bu, bv; lia). destruct bu, bv; reflexivity.
Qed.
Lemma sym_reverseU s : wf_surface s ->
  exists g, reverse_netU (Net s) = Ok g /\
  let d := Surface (DegreeU s) (DegreeV s) (KnotVector_Reverse (KnotsU s)) (KnotsV s) g in sym_of s d false true false.
Proof.
  intros W. pose proof (wf_grid s W) as G. destruct (reverse_netU_ok _ _ _ _ G) as [g [E Gg]].
  exists g. split; [exact E|]. intros d.
  pose proof (cl_len _ _ (ws_knotsU s W)). pose proof (cl_degree _ _ (ws_knotsU s W)). pose proof (ws_countU s W).
  pose proof (cl_len _ _ (ws_knotsV s W)). pose proof (cl_degree _ _ (ws_knotsV s W)). pose proof (ws_countV s W).
  assert (wf_surface d) as Wd.
  { apply (wf_of_grid d (fun i j => gp s (UCount (Net s) - 1 - i) j)); cbn.
    - apply Reverse_clamped. apply W.
    - apply W.
    - rewrite len_Reverse. rewrite <- (ws_countU s W), <- (ws_countV s W). exact Gg.
    - intros. apply gp_weight. apply W. }
  assert (forall i j, 0 <= i < UCount (Net s) -> 0 <= j < VCount (Net s) -> gp d i j = gp s (UCount (Net s) - 1 - i) j) as Gp
    by (intros; apply (gp_grid d _ _ _ i j Gg); assumption).
  destruct (Gg) as [Gu [Gv _]].
  split; [exact Wd|]. split; [|split].
  - intros u v q Ju _. unfold q in *. cbn in *. apply eval_of_hsurf; auto; [lra|]. intros Hu Hv f. unfold hsurf. cbn.
    apply spl_ext. intros j Hj. apply spl_reverse; [apply W|exact Hu|exact (Ju eq_refl)|]. intros i Hi. unfold ghp. rewrite Gp by lia.
    do 3 f_equal. lia.
  - cbn. rewrite Gu, Gv. lia.
  - intros bu bv. cbn. unfold net_corner. cbn [Net d]. rewrite Gu, Gv. rewrite Gp by (destruct bu, bv; lia).
    destruct bu, bv; cbn; f_equal; lia.
Qed.
Lemma sym_reverseV s : wf_surface s ->
  exists g, reverse_netV (Net s) = Ok g /\
  let d := Surface (DegreeU s) (DegreeV s) (KnotsU s) (KnotVector_Reverse (KnotsV s)) g in sym_of s d false false true.
Proof.
  intros W. pose proof (wf_grid s W) as G. destruct (reverse_netV_ok _ _ _ _ G) as [g [E Gg]].
  exists g. split; [exact E|]. intros d.
  pose proof (cl_len _ _ (ws_knotsU s W)). pose proof (cl_degree _ _ (ws_knotsU s W)). pose proof (ws_countU s W).
  pose proof (cl_len _ _ (ws_knotsV s W)). pose proof (cl_degree _ _ (ws_knotsV s W)). pose proof (ws_countV s W).
  assert (wf_surface d) as Wd.
  { apply (wf_of_grid d (fun i j => gp s i (VCount (Net s) - 1 - j))); cbn.
    - apply W.
    - apply Reverse_clamped. apply W.
    - rewrite len_Reverse. rewrite <- (ws_countU s W), <- (ws_countV s W). exact Gg.
    - intros. apply gp_weight. apply W. }
  assert (forall i j, 0 <= i < UCount (Net s) -> 0 <= j < VCount (Net s) -> gp d i j = gp s i (VCount (Net s) - 1 - j)) as Gp
    by (intros; apply (gp_grid d _ _ _ i j Gg); assumption).
  destruct (Gg) as [Gu [Gv _]].
  split; [exact Wd|]. split; [|split].
  - intros u v q _ Jv. unfold q in *. cbn in *. apply eval_of_hsurf; auto; [lra|]. intros Hu Hv f. unfold hsurf. cbn.
    apply spl_reverse; [apply W|exact Hv|exact (Jv eq_refl)|]. intros j Hj. apply spl_ext. intros i Hi. unfold ghp. rewrite Gp by lia.
    do 3 f_equal. lia.
  - cbn. rewrite Gu, Gv. lia.
  - intros bu bv. cbn. unfold net_corner. cbn [Net d]. rewrite Gu, Gv. rewrite Gp by (destruct bu, bv; lia).
    destruct bu, bv; cbn; f_equal; lia.
Qed.

Lemma align_apply_ok s sw ru rv : wf_surface s -> UCount (Net s) * VCount (Net s) <= INT_MAX ->
  exists d, align_apply s sw ru rv = Ok d /\ sym_of s d sw ru rv.
Proof.
  intros W Fit. unfold align_apply.
  assert (exists s1, (if sw then net <- transpose_net (Net s);; Ok (Surface (DegreeV s) (DegreeU s) (KnotsV s) (KnotsU s) net) else Ok s) = Ok s1 /\
    sym_of s s1 sw false false /\
    (if sw then DegreeU s1 = DegreeV s /\ KnotsU s1 = KnotsV s /\ DegreeV s1 = DegreeU s /\ KnotsV s1 = KnotsU s
     else DegreeU s1 = DegreeU s /\ KnotsU s1 = KnotsU s /\ DegreeV s1 = DegreeV s /\ KnotsV s1 = KnotsV s)) as [s1 [E1 [S1 D1]]].
  { destruct sw.
    - destruct (sym_swap s W Fit) as [g [E S]]. rewrite E. cbn [bind]. eexists. split; [reflexivity|]. split; [exact S|]. cbn. auto.
    - exists s. split; [reflexivity|]. split; [apply sym_refl; exact W|]. auto. }
  rewrite E1. cbn [bind]. destruct S1 as [W1 [R1 [C1 N1]]].
  assert (exists s2, (if ru then net <- reverse_netU (Net s1);; Ok (Surface (DegreeU s1) (DegreeV s1) (KnotVector_Reverse (KnotsU s1)) (KnotsV s1) net) else Ok s1) = Ok s2 /\
    sym_of s1 s2 false ru false /\ DegreeV s2 = DegreeV s1 /\ KnotsV s2 = KnotsV s1) as [s2 [E2 [S2 D2]]].
  { destruct ru.
    - destruct (sym_reverseU s1 W1) as [g [E S]]. rewrite E. cbn [bind]. eexists. split; [reflexivity|]. split; [exact S|]. cbn. auto.
    - exists s1. split; [reflexivity|]. split; [apply sym_refl; exact W1|]. auto. }
  rewrite E2. cbn [bind]. destruct S2 as [W2 [R2 [C2 N2]]].
  assert (exists s3, (if rv then net <- reverse_netV (Net s2);; Ok (Surface (DegreeU s2) (DegreeV s2) (KnotsU s2) (KnotVector_Reverse (KnotsV s2)) net) else Ok s2) = Ok s3 /\
    sym_of s2 s3 false false rv) as [s3 [E3 S3]].
  { destruct rv.
    - destruct (sym_reverseV s2 W2) as [g [E S]]. rewrite E. cbn [bind]. eexists. split; [reflexivity|]. exact S.
    - exists s2. split; [reflexivity|]. apply sym_refl; exact W2. }
  rewrite E3. exists s3. split; [reflexivity|]. destruct S3 as [W3 [R3 [C3 N3]]].
  split; [exact W3|]. split; [|split].
  - intros u v q Ju Jv. destruct D2 as [D2 D2'].
    assert (ru = true -> ~ jump_at (DegreeU s1) (KnotsU s1) (flip ru u)) as Ju1.
    { unfold q in Ju, Jv. destruct sw; cbn in Ju, Jv; destruct D1 as [D11 [D12 [D13 D14]]]; rewrite ?D11, ?D12, ?D13, ?D14; auto. }
    assert (rv = true -> ~ jump_at (DegreeV s2) (KnotsV s2) (flip rv v)) as Jv1.
    { rewrite D2, D2'. unfold q in Ju, Jv. destruct sw; cbn in Ju, Jv; destruct D1 as [D11 [D12 [D13 D14]]]; rewrite ?D11, ?D12, ?D13, ?D14; auto. }
    rewrite (R3 u v); [|discriminate|exact Jv1]. cbn.
    rewrite (R2 u (flip rv v)); [|exact Ju1|discriminate]. cbn.
    rewrite (R1 (flip ru u) (flip rv v)) by (destruct sw; discriminate). unfold q. destruct sw; reflexivity.
  - lia.
  - intros bu bv q. rewrite N3, N2, N1. unfold q. destruct sw, ru, rv, bu, bv; reflexivity.
Qed.
