(** Affine images, control polygons of refined curves, isoparametric curves, end tangents. *)
From Coq Require Import Reals ZArith List Lra Lia Bool Permutation.
From Coquelicot Require Import Coquelicot.
From Verif Require Import Outcome Num ModelCore ModelBasis ModelAlgo ModelCurve ModelSurface SpecCore SpecBasis SpecCurve SpecSurface SpecDeriv SpecMeta
  ThOutcome ThReal ThKnots ThVec ThSum ThSpline ThBasis ThCurve ThReverse ThInsert ThCurveWit ThGrid ThSurface ThSurface2 ThDeriv ThDers ThLeib ThDerivs ThUnique ThOrder ThOrder2 ThSmooth.
Import ListNotations.
Open Scope Z_scope.

(** ** affine images of curves *)
Section Affine.
  Variables (m : mat3 R) (t : vec3 R) (k : R).
  Hypothesis Hk : (0 < k)%R.
  Lemma affine_len c : len (ControlPoints (affine_curve m t k c)) = len (ControlPoints c).
  Proof. cbn [affine_curve ControlPoints]. apply len_map. Qed.
  Lemma affine_cp c i : 0 <= i < len (ControlPoints c) -> cp (affine_curve m t k c) i = affine4 m t k (cp c i).
  Proof. intros Hi. unfold cp. cbn [affine_curve ControlPoints]. exact (znth_map _ (Vec4 0 0 0 1)%R _ _ _ Hi). Qed.
  Lemma affine_weights l : positive_weights l -> positive_weights (map (affine4 m t k) l).
  Proof. intros W. unfold positive_weights in *. apply Forall_map. eapply Forall_impl; [|exact W]. intros p Hp. cbn. apply Rmult_lt_0_compat; assumption. Qed.
  Lemma affine_wf c : wf_curve c -> wf_curve (affine_curve m t k c).
  Proof.
    intros [C Cn W]. constructor; [exact C| |apply affine_weights; exact W]. rewrite affine_len. exact Cn.
  Qed.
  Lemma affine_point c x : wf_curve c -> (0 <= x <= 1)%R -> curve_point (affine_curve m t k c) x = affine3 m t (curve_point c x).
  Proof.
    intros W Hx. pose proof (curve_den_pos c x W Hx) as Dp.
    assert (curve_den (affine_curve m t k c) x = k * curve_den c x)%R as Ed.
    { unfold curve_den. rewrite affine_len, <- zsum_scale. apply zsum_ext. intros i Hi. rewrite affine_cp by assumption. cbn [affine4 w4]. unfold basis_fun. cbn [affine_curve Degree Knots]. ring. }
    assert (forall f r e, lin f -> (forall p, f (affine4 m t k p) = (x3 r * x4 p + y3 r * y4 p + z3 r * z4 p + e)%R) ->
      curve_num (affine_curve m t k c) f x = (k * (x3 r * curve_num c x4 x + y3 r * curve_num c y4 x + z3 r * curve_num c z4 x + e * curve_den c x))%R) as En.
    { intros f r e Lf Hf. unfold curve_num, curve_den. rewrite affine_len, <- !zsum_scale, <- !zsum_add, <- zsum_scale. apply zsum_ext. intros i Hi.
      rewrite affine_cp by assumption. rewrite Hf. cbn [affine4 w4]. unfold basis_fun. cbn [affine_curve Degree Knots]. ring. }
    unfold curve_point. rewrite Ed, (En x4 (row0 m) (x3 t)), (En y4 (row1 m) (y3 t)), (En z4 (row2 m) (z3 t)) by (unfold lin; auto).
    unfold affine3, mat_apply. cbn [x3 y3 z3]. f_equal; field; split; lra.
  Qed.
  Lemma affine_Evaluate c x q : wf_curve c -> Curve_Evaluate c x = Ok q -> Curve_Evaluate (affine_curve m t k c) x = Ok (affine3 m t q).
  Proof.
    intros W E. destruct (Rle_dec 0 x) as [A|A]; [destruct (Rle_dec x 1) as [B|B]|]; try (rewrite Curve_Evaluate_outside in E by lra; discriminate).
    rewrite Curve_Evaluate_ok in * by (try assumption; try (apply affine_wf; assumption); lra). injection E as <-. f_equal. apply affine_point; [exact W|lra].
  Qed.
  Lemma affine_blend a p q : (0 <= a <= 1)%R -> (0 < w4 p)%R -> (0 < w4 q)%R -> blend a (affine4 m t k p) (affine4 m t k q) = affine4 m t k (blend a p q).
  Proof.
    intros Ha Hp Hq. pose proof (blend_w a p q Ha Hp Hq) as Bw. destruct m as [[a1 a2 a3] [b1 b2 b3] [c1 c2 c3]], t as [t1 t2 t3], p as [px py pz pw], q as [qx qy qz qw].
    unfold blend, fromh, affine4, affine3, mat_apply, blend_h, ToHomo, v4add, v4scale in *. cbn [x3 y3 z3 x4 y4 z4 w4 row0 row1 row2] in *. norm_R.
    assert (a * pw + (1 - a) * qw <> 0)%R by lra. f_equal; [| | |ring]; field; split; try lra; replace (a * (k * pw) + (1 - a) * (k * qw))%R with (k * (a * pw + (1 - a) * qw))%R by ring; apply Rmult_integral_contrapositive; split; lra.
  Qed.
  Lemma affine_ins_pts U p n u P i : mono U -> (U n <= u < U (n + 1)%Z)%R -> (forall i, (0 < w4 (P i))%R) -> ins_pts U p n u (fun i => affine4 m t k (P i)) i = affine4 m t k (ins_pts U p n u P i).
  Proof.
    intros M K W. unfold ins_pts. destruct (Z.leb_spec i (n - p)); [reflexivity|]. destruct (Z.leb_spec i n); [|reflexivity].
    apply affine_blend; [apply (ins_den U p n u i M K); lia|apply W|apply W].
  Qed.
  Lemma affine_inserted c c' n u : wf_curve c -> knot_span (Degree c) (Knots c) n u -> inserted c c' n u -> inserted (affine_curve m t k c) (affine_curve m t k c') n u.
  Proof.
    intros W K [D [I [L G]]]. pose proof (wf_count c W) as Nc. pose proof (cl_degree _ _ (wf_knots c W)) as P0. destruct K as [K1 K2]. split; [exact D|]. split; [exact I|]. rewrite !affine_len. split; [exact L|]. intros i Hi. rewrite affine_cp by exact Hi. rewrite G by exact Hi.
    cbn [affine_curve Degree Knots]. rewrite <- affine_ins_pts; [|apply (clamped_mono _ _ (wf_knots c W))|exact K2|intros; apply cp_weight, (wf_weights c W)].
    symmetry. apply (ins_pts_ext _ _ _ _ _ _ (len (ControlPoints c))); try lia. intros q Hq. apply affine_cp. exact Hq.
  Qed.
  Lemma affine_insert_one c u : wf_curve c -> (0 < u < 1)%R -> forall c', insert_one (Degree c) (Knots c, ControlPoints c) u = Ok (Knots c', ControlPoints c') -> Degree c' = Degree c ->
    insert_one (Degree c) (Knots c, ControlPoints (affine_curve m t k c)) u = Ok (Knots c', ControlPoints (affine_curve m t k c')).
  Proof.
    intros W Hu c' E D. destruct (insert_one_ok c u W Hu) as [c1 [n [E1 [K I]]]]. rewrite E in E1. injection E1 as Ek Ep.
    assert (c1 = c') as ->. { destruct I as [D1 _]. destruct c1, c'; cbn in *; congruence. }
    destruct (insert_one_ok _ u (affine_wf c W) Hu) as [d [n' [F [K' J]]]]. change (insert_one (Degree c) (Knots c, ControlPoints (affine_curve m t k c)) u = Ok (Knots d, ControlPoints d)) in F. rewrite F.
    assert (n' = n) as -> by (apply (span_unique _ _ _ _ u (wf_knots c W) K' K)).
    rewrite (inserted_unique _ _ _ _ _ J (affine_inserted c c' n u W K I)). reflexivity.
  Qed.
  Lemma affine_insert_list us : forall c, wf_curve c -> List.Forall (fun u => 0 < u < 1)%R us -> forall c', Curve_InsertKnot_list c us = Ok c' -> Curve_InsertKnot_list (affine_curve m t k c) us = Ok (affine_curve m t k c').
  Proof.
    intros c W F c' E. unfold Curve_InsertKnot_list in *. destruct (insert_list_gen us c W F) as [c1 [E1 [R1 _]]]. rewrite E1 in E. cbn [bind] in E. assert (c1 = c') as <-. { destruct R1 as [_ [D _]]. destruct c1, c'; cbn in *. congruence. }
    cbn [affine_curve Degree Knots]. clear E.
    assert (forall us c c1, wf_curve c -> List.Forall (fun u => 0 < u < 1)%R us -> foldM (insert_one (Degree c)) us (Knots c, ControlPoints c) = Ok (Knots c1, ControlPoints c1) ->
      foldM (insert_one (Degree c)) us (Knots c, ControlPoints (affine_curve m t k c)) = Ok (Knots c1, ControlPoints (affine_curve m t k c1))) as G.
    { clear - Hk. induction us as [|u us IH]; intros c c1 W F E.
      - cbn [foldM] in *. injection E as Ek Ep. cbn [affine_curve ControlPoints]. rewrite Ek, Ep. reflexivity.
      - inversion F as [|? ? Hu F']; subst. cbn [foldM] in *. destruct (insert_one_ok c u W Hu) as [d [n [Ed [K I]]]]. pose proof I as [Dd _]. rewrite Ed in E. cbn [bind] in E.
        rewrite (affine_insert_one c u W Hu d Ed Dd). cbn [bind]. rewrite <- Dd in *. apply IH; try assumption. rewrite Dd in K. apply (inserted_wf c d n u W K Hu I). }
    rewrite (G us c c1 W F E1). cbn [bind]. destruct R1 as [_ [D _]]. rewrite <- D. reflexivity.
  Qed.
  Lemma affine_insert c u c' : wf_curve c -> 1 <= Degree c -> (0 < u < 1)%R -> Curve_InsertKnot c u = Ok c' -> Curve_InsertKnot (affine_curve m t k c) u = Ok (affine_curve m t k c').
  Proof.
    intros W D Hu E. destruct (Curve_InsertKnot_ok c u W D Hu) as [c1 [n [E1 [K I]]]]. rewrite E in E1. injection E1 as <-.
    destruct (Curve_InsertKnot_ok (affine_curve m t k c) u (affine_wf c W) D Hu) as [d [n' [F [K' J]]]]. rewrite F. f_equal.
    assert (n' = n) as -> by (apply (span_unique _ _ _ _ u (wf_knots c W) K' K)). apply (inserted_unique _ _ _ _ _ J (affine_inserted c c' n u W K I)).
  Qed.
  (** surfaces *)
  Lemma affine_gp s i j : wf_surface s -> 0 <= i < UCount (Net s) -> 0 <= j < VCount (Net s) -> gp (affine_surface m t k s) i j = affine4 m t k (gp s i j).
  Proof.
    intros W Hi Hj. unfold gp. cbn [affine_surface Net UCount Values]. pose proof (idx_range j i _ _ Hj Hi) as Hr. pose proof (ws_values s W) as L.
    assert (0 <= j * UCount (Net s) + i < len (Values (Net s))) as Hq by (rewrite L; lia). exact (znth_map _ (Vec4 0 0 0 1)%R _ _ _ Hq).
  Qed.
  Lemma affine_surface_wf s : wf_surface s -> wf_surface (affine_surface m t k s).
  Proof.
    intros [A1 A2 A3 A4 A5 A6]. constructor; cbn [affine_surface DegreeU DegreeV KnotsU KnotsV Net UCount VCount Values]; try assumption; [rewrite len_map; exact A5|apply affine_weights; exact A6].
  Qed.
  Lemma affine_surf_point s u v : wf_surface s -> (0 <= u <= 1)%R -> (0 <= v <= 1)%R -> surf_point (affine_surface m t k s) u v = affine3 m t (surf_point s u v).
  Proof.
    intros W Hu Hv. pose proof (hsurf_w_pos s u v W Hu Hv) as Dp. rewrite <- surf_den_hsurf in Dp by assumption.
    assert (surf_den (affine_surface m t k s) u v = k * surf_den s u v)%R as Ed.
    { unfold surf_den. cbn [affine_surface Net UCount VCount]. rewrite <- zsum_scale. apply zsum_ext. intros i Hi. rewrite <- zsum_scale. apply zsum_ext. intros j Hj. fold (affine_surface m t k s). rewrite affine_gp by assumption. cbn [affine4 w4]. unfold basis_uv. cbn [affine_surface DegreeU DegreeV KnotsU KnotsV]. ring. }
    assert (forall f r e, lin f -> (forall p, f (affine4 m t k p) = (x3 r * x4 p + y3 r * y4 p + z3 r * z4 p + e)%R) ->
      surf_num (affine_surface m t k s) f u v = (k * (x3 r * surf_num s x4 u v + y3 r * surf_num s y4 u v + z3 r * surf_num s z4 u v + e * surf_den s u v))%R) as En.
    { intros f r e Lf Hf. unfold surf_num, surf_den. cbn [affine_surface Net UCount VCount]. rewrite <- !zsum_scale, <- !zsum_add, <- zsum_scale. apply zsum_ext. intros i Hi.
      rewrite <- !zsum_scale, <- !zsum_add, <- zsum_scale. apply zsum_ext. intros j Hj. fold (affine_surface m t k s). rewrite affine_gp by assumption. rewrite Hf. cbn [affine4 w4]. unfold basis_uv. cbn [affine_surface DegreeU DegreeV KnotsU KnotsV]. ring. }
    unfold surf_point. rewrite Ed, (En x4 (row0 m) (x3 t)), (En y4 (row1 m) (y3 t)), (En z4 (row2 m) (z3 t)) by (unfold lin; auto).
    unfold affine3, mat_apply. cbn [x3 y3 z3]. f_equal; field; split; lra.
  Qed.
  Lemma affine_Surface_Evaluate s u v q : wf_surface s -> Surface_Evaluate s u v = Ok q -> Surface_Evaluate (affine_surface m t k s) u v = Ok (affine3 m t q).
  Proof.
    intros W E. destruct (Rle_dec 0 u) as [A|A]; [destruct (Rle_dec u 1) as [B|B]; [destruct (Rle_dec 0 v) as [A'|A']; [destruct (Rle_dec v 1) as [B'|B']|]|]|];
      try (rewrite Surface_Evaluate_outside in E by lra; discriminate).
    rewrite Surface_Evaluate_ok in * by (try assumption; try (apply affine_surface_wf; assumption); lra). injection E as <-. f_equal. apply affine_surf_point; [exact W|lra|lra].
  Qed.
End Affine.

(** ** the control polygon of a refined curve *)
Lemma insert_invariant (Q : curve R -> Prop) : (forall c c' n u, wf_curve c -> knot_span (Degree c) (Knots c) n u -> (0 < u < 1)%R -> inserted c c' n u -> Q c -> Q c') ->
  forall us c c', wf_curve c -> List.Forall (fun u => 0 < u < 1)%R us -> Curve_InsertKnot_list c us = Ok c' -> Q c -> Q c'.
Proof.
  intros H us c c' W F E q. unfold Curve_InsertKnot_list in E.
  assert (forall us c, wf_curve c -> List.Forall (fun u => 0 < u < 1)%R us -> Q c -> exists c', foldM (insert_one (Degree c)) us (Knots c, ControlPoints c) = Ok (Knots c', ControlPoints c') /\ Degree c' = Degree c /\ Q c') as G.
  { clear - H. induction us as [|u us IH]; intros c W F q.
    - exists c. split; [reflexivity|]. split; [reflexivity|exact q].
    - inversion F as [|? ? Hu F']; subst. cbn [foldM]. destruct (insert_one_ok c u W Hu) as [d [n [Ed [K I]]]]. rewrite Ed. cbn [bind]. pose proof I as [Dd _].
      destruct (IH d (inserted_wf c d n u W K Hu I) F' (H c d n u W K Hu I q)) as [c' [E' [D' q']]]. exists c'. rewrite <- Dd. split; [exact E'|]. split; assumption. }
  destruct (G us c W F q) as [c1 [E1 [D1 q1]]]. rewrite E1 in E. cbn [bind] in E. replace c' with c1; [exact q1|]. destruct c1, c'. cbn in *. congruence.
Qed.
(** between two positively weighted points *)
Lemma blend_half a p q A B D e : (0 <= a <= 1)%R -> (0 < w4 p)%R -> (0 < w4 q)%R -> (A * x4 p + B * y4 p + D * z4 p <= e)%R -> (A * x4 q + B * y4 q + D * z4 q <= e)%R ->
  (A * x4 (blend a p q) + B * y4 (blend a p q) + D * z4 (blend a p q) <= e)%R.
Proof.
  intros Ha Hp Hq Lp Lq. pose proof (blend_w a p q Ha Hp Hq) as Bw. destruct p as [px py pz pw], q as [qx qy qz qw].
  unfold blend, fromh, blend_h, ToHomo, v4add, v4scale in *. cbn [x4 y4 z4 w4] in *. repeat change (nmul ?x ?y) with (x * y)%R in *. repeat change (nadd ?x ?y) with (x + y)%R in *.
  apply Rmult_le_reg_r with (a * pw + (1 - a) * qw)%R; [exact Bw|].
  match goal with |- (?l * _ <= _)%R => replace (l * (a * pw + (1 - a) * qw))%R with (a * pw * (A * px + B * py + D * pz) + (1 - a) * qw * (A * qx + B * qy + D * qz))%R by (field; lra) end.
  replace (e * (a * pw + (1 - a) * qw))%R with (a * pw * e + (1 - a) * qw * e)%R by ring.
  assert (0 <= a * pw)%R by (apply Rmult_le_pos; lra). assert (0 <= (1 - a) * qw)%R by (apply Rmult_le_pos; lra).
  apply Rplus_le_compat; apply Rmult_le_compat_l; assumption.
Qed.
Lemma blend_weight_le a p q lo hi : (0 <= a <= 1)%R -> (lo <= w4 p <= hi)%R -> (lo <= w4 q <= hi)%R -> (lo <= w4 (blend a p q) <= hi)%R.
Proof.
  intros Ha Hp Hq. destruct p as [px py pz pw], q as [qx qy qz qw]. unfold blend, fromh, blend_h, ToHomo, v4add, v4scale. cbn [x4 y4 z4 w4] in *. norm_R. nra.
Qed.
Lemma inserted_points (Q : vec4 R -> Prop) c c' n u : wf_curve c -> knot_span (Degree c) (Knots c) n u -> inserted c c' n u ->
  (forall a p q, (0 <= a <= 1)%R -> (0 < w4 p)%R -> (0 < w4 q)%R -> Q p -> Q q -> Q (blend a p q)) -> List.Forall Q (ControlPoints c) -> List.Forall Q (ControlPoints c').
Proof.
  intros W K [D [I [L G]]] H F. pose proof (wf_count c W) as Nc. pose proof (cl_degree _ _ (wf_knots c W)) as P0. destruct K as [K1 K2].
  assert (forall i, 0 <= i < len (ControlPoints c) -> Q (cp c i)) as Fc. { intros i Hi. rewrite Forall_forall in F. apply F. unfold cp. apply nth_In. unfold len in Hi. lia. }
  apply Forall_forall. intros p Hp. destruct (In_znth (Vec4 0 0 0 1)%R _ _ Hp) as [i [Hi Ei]]. unfold znth in Ei. change (cp c' i = p) in Ei. rewrite <- Ei, G by exact Hi.
  unfold ins_pts. destruct (Z.leb_spec i (n - Degree c)); [apply Fc; lia|]. destruct (Z.leb_spec i n); [|apply Fc; lia].
  apply H; [apply (ins_den (kf (Knots c)) (Degree c) n u i (clamped_mono _ _ (wf_knots c W)) K2); lia|apply cp_weight, (wf_weights c W)|apply cp_weight, (wf_weights c W)|apply Fc; lia|apply Fc; lia].
Qed.
Lemma insert_hull c us c' A B D e : wf_curve c -> List.Forall (fun u => 0 < u < 1)%R us -> Curve_InsertKnot_list c us = Ok c' ->
  List.Forall (fun p => A * x4 p + B * y4 p + D * z4 p <= e)%R (ControlPoints c) -> List.Forall (fun p => A * x4 p + B * y4 p + D * z4 p <= e)%R (ControlPoints c').
Proof.
  intros W F E. apply (insert_invariant (fun c => List.Forall (fun p => A * x4 p + B * y4 p + D * z4 p <= e)%R (ControlPoints c))) with (us := us); try assumption.
  intros d d' n u Wd K Hu I. apply (inserted_points _ d d' n u Wd K I). intros a p q Ha Hp Hq. apply blend_half; assumption.
Qed.
Lemma insert_weights c us c' lo hi : wf_curve c -> List.Forall (fun u => 0 < u < 1)%R us -> Curve_InsertKnot_list c us = Ok c' ->
  List.Forall (fun p => lo <= w4 p <= hi)%R (ControlPoints c) -> List.Forall (fun p => lo <= w4 p <= hi)%R (ControlPoints c').
Proof.
  intros W F E. apply (insert_invariant (fun c => List.Forall (fun p => lo <= w4 p <= hi)%R (ControlPoints c))) with (us := us); try assumption.
  intros d d' n u Wd K Hu I. apply (inserted_points _ d d' n u Wd K I). intros a p q Ha _ _. apply blend_weight_le; assumption.
Qed.
Lemma IsRational_R (c : curve R) : Curve_IsRational c = false -> ControlPoints c = [] \/ exists w, List.Forall (fun p => (w <= w4 p <= w)%R) (ControlPoints c).
Proof.
  unfold Curve_IsRational. destruct (ControlPoints c) as [|p0 rest]; [left; reflexivity|]. intros E. right. exists (w4 p0). constructor; [lra|].
  apply Forall_forall. intros p Hp. destruct (existsb_exists (fun p => nneb (w4 p) (w4 p0)) rest) as [_ H]. destruct (nneb (w4 p) (w4 p0)) eqn:En; [rewrite H in E; [discriminate|exists p; split; assumption]|].
  unfold nneb in En. apply negb_false_iff in En. apply Reqb_true in En. lra.
Qed.
Lemma IsRational_back (c : curve R) w : List.Forall (fun p => (w <= w4 p <= w)%R) (ControlPoints c) -> Curve_IsRational c = false.
Proof.
  unfold Curve_IsRational. destruct (ControlPoints c) as [|p0 rest]; [reflexivity|]. intros F. inversion F as [|? ? H0 F']; subst.
  destruct (existsb _ rest) eqn:E; [|reflexivity]. apply existsb_exists in E. destruct E as [p [Hp En]]. rewrite Forall_forall in F'. specialize (F' p Hp).
  exfalso. unfold nneb in En. apply negb_true_iff in En. assert (neqb (w4 p) (w4 p0) = true) as E1 by (apply Reqb_true; lra). congruence.
Qed.
Lemma insert_rational c us c' : wf_curve c -> List.Forall (fun u => 0 < u < 1)%R us -> Curve_InsertKnot_list c us = Ok c' -> Curve_IsRational c = false -> Curve_IsRational c' = false.
Proof.
  intros W F E H. destruct (IsRational_R c H) as [Em|[w Hw]].
  - exfalso. pose proof (wf_count c W) as Nc. pose proof (cl_len _ _ (wf_knots c W)). pose proof (cl_degree _ _ (wf_knots c W)). rewrite Em in Nc. unfold len in *. cbn in Nc. lia.
  - apply (IsRational_back c' w). apply (insert_weights c us c' w w W F E Hw).
Qed.

(** ** isoparametric curves *)
Lemma hsum_spl c f x : wf_curve c -> hsum c f x = spl (Degree c) (Knots c) (fun i => f (hp c i)) x.
Proof. intros W. unfold hsum, spl, basis_fun. rewrite (wf_count c W). reflexivity. Qed.
Lemma row_curve_eq s j : row_curve s j = colU s j.
Proof. reflexivity. Qed.
Lemma column_curve_eq s i : column_curve s i = rowV s i.
Proof. reflexivity. Qed.
(** homogeneous points of the row and column curves *)
Lemma col_hsum s j f x : wf_surface s -> hsum (colU s j) f x = spl (DegreeU s) (KnotsU s) (fun i => f (ghp s i j)) x.
Proof.
  intros W. rewrite hsum_spl by (apply colU_wf; exact W). cbn [colU Degree Knots]. apply spl_ext. intros i Hi. fold (colU s j). unfold hp, ghp. rewrite colU_cp; [reflexivity|]. rewrite (ws_countU s W). exact Hi.
Qed.
Lemma row_hsum s i f x : wf_surface s -> hsum (rowV s i) f x = spl (DegreeV s) (KnotsV s) (fun j => f (ghp s i j)) x.
Proof.
  intros W. rewrite hsum_spl by (apply rowV_wf; exact W). cbn [rowV Degree Knots]. apply spl_ext. intros j Hj. fold (rowV s i). unfold hp, ghp. rewrite rowV_cp; [reflexivity|]. rewrite (ws_countV s W). exact Hj.
Qed.
Lemma same_point c s (x u v : R) : wf_curve c -> wf_surface s -> (0 <= x <= 1)%R -> (0 <= u <= 1)%R -> (0 <= v <= 1)%R -> (forall f, lin f -> hsurf s f u v = hsum c f x) -> Surface_Evaluate s u v = Curve_Evaluate c x.
Proof.
  intros W X Hx Hu Hv E. rewrite Surface_Evaluate_ok, Curve_Evaluate_ok by assumption. f_equal. rewrite surf_point_hsurf, curve_point_hsum by assumption. rewrite !E by (unfold lin; auto). reflexivity.
Qed.
Lemma boundary_v0 s u : wf_surface s -> Surface_Evaluate s u 0%R = Curve_Evaluate (row_curve s 0) u.
Proof.
  intros W. rewrite row_curve_eq. destruct (Rle_dec 0 u) as [A|A]; [destruct (Rle_dec u 1) as [B|B]|]; try (rewrite Surface_Evaluate_outside, Curve_Evaluate_outside by lra; reflexivity).
  apply same_point; try lra; [apply colU_wf; exact W|exact W|]. intros f Lf. rewrite col_hsum by exact W. unfold hsurf. rewrite spl_start by apply W. reflexivity.
Qed.
Lemma boundary_v1 s u : wf_surface s -> Surface_Evaluate s u 1%R = Curve_Evaluate (row_curve s (VCount (Net s) - 1)) u.
Proof.
  intros W. rewrite row_curve_eq. destruct (Rle_dec 0 u) as [A|A]; [destruct (Rle_dec u 1) as [B|B]|]; try (rewrite Surface_Evaluate_outside, Curve_Evaluate_outside by lra; reflexivity).
  apply same_point; try lra; [apply colU_wf; exact W|exact W|]. intros f Lf. rewrite col_hsum by exact W. unfold hsurf. rewrite spl_end by apply W. rewrite (ws_countV s W). replace (len (KnotsV s) - DegreeV s - 1 - 1) with (len (KnotsV s) - DegreeV s - 2) by lia. reflexivity.
Qed.
Lemma boundary_u0 s v : wf_surface s -> Surface_Evaluate s 0%R v = Curve_Evaluate (column_curve s 0) v.
Proof.
  intros W. rewrite column_curve_eq. destruct (Rle_dec 0 v) as [A|A]; [destruct (Rle_dec v 1) as [B|B]|]; try (rewrite Surface_Evaluate_outside, Curve_Evaluate_outside by lra; reflexivity).
  apply same_point; try lra; [apply rowV_wf; exact W|exact W|]. intros f Lf. rewrite row_hsum by exact W. rewrite hsurf_swap. rewrite spl_start by apply W. reflexivity.
Qed.
Lemma boundary_u1 s v : wf_surface s -> Surface_Evaluate s 1%R v = Curve_Evaluate (column_curve s (UCount (Net s) - 1)) v.
Proof.
  intros W. rewrite column_curve_eq. destruct (Rle_dec 0 v) as [A|A]; [destruct (Rle_dec v 1) as [B|B]|]; try (rewrite Surface_Evaluate_outside, Curve_Evaluate_outside by lra; reflexivity).
  apply same_point; try lra; [apply rowV_wf; exact W|exact W|]. intros f Lf. rewrite row_hsum by exact W. rewrite hsurf_swap. rewrite spl_end by apply W. rewrite (ws_countU s W). replace (len (KnotsU s) - DegreeU s - 1 - 1) with (len (KnotsU s) - DegreeU s - 2) by lia. reflexivity.
Qed.
Definition hvec (c : curve R) (x : R) : vec4 R := Vec4 (hsum c x4 x) (hsum c y4 x) (hsum c z4 x) (hsum c w4 x).
Lemma hvec_lin c x f : lin f -> f (hvec c x) = hsum c f x.
Proof. intros [-> | [-> | [-> | ->]]]; reflexivity. Qed.
Lemma iso_v s v : wf_surface s -> (0 <= v <= 1)%R -> exists c, wf_curve c /\ Degree c = DegreeU s /\ Knots c = KnotsU s /\
  (forall i, 0 <= i < UCount (Net s) -> exists p, nth_error (ControlPoints c) (Z.to_nat i) = Some p /\
     Curve_Evaluate (column_curve s i) v = Ok (Vec3 (x4 p) (y4 p) (z4 p)) /\ w4 p = curve_den (column_curve s i) v) /\
  forall u, Surface_Evaluate s u v = Curve_Evaluate c u.
Proof.
  intros W Hv. set (g := fun i => fromh (hvec (rowV s i) v)). pose proof (ucount_nonneg s W) as N0.
  assert (forall i, (0 < hsum (rowV s i) w4 v)%R) as Wp. { intros i. exact (curve_den_pos (rowV s i) v (rowV_wf s i W) Hv). }
  set (c := Curve (DegreeU s) (KnotsU s) (zlist (UCount (Net s)) g)). exists c.
  assert (wf_curve c) as Wc.
  { constructor; cbn [c ControlPoints Knots Degree]; [apply W|rewrite zlist_len by exact N0; apply W|]. apply zlist_Forall. intros i _. cbn [g fromh w4 hvec]. apply Wp. }
  split; [exact Wc|]. split; [reflexivity|]. split; [reflexivity|]. split.
  - intros i Hi. exists (g i). split.
    + rewrite (nth_error_nth' _ (Vec4 0 0 0 1)%R); [cbn [c ControlPoints]; rewrite zlist_nth by exact Hi; reflexivity|]. cbn [c ControlPoints]. pose proof (zlist_len (UCount (Net s)) g N0) as L. unfold len in L. lia.
    + rewrite column_curve_eq. split; [|reflexivity]. rewrite Curve_Evaluate_ok by (try apply rowV_wf; assumption). f_equal. rewrite curve_point_hsum. reflexivity.
  - intros u. destruct (Rle_dec 0 u) as [A|A]; [destruct (Rle_dec u 1) as [B|B]|]; try (rewrite Surface_Evaluate_outside, Curve_Evaluate_outside by lra; reflexivity).
    apply same_point; try assumption; try lra. intros f Lf. rewrite hsurf_swap, hsum_spl by exact Wc. cbn [c Degree Knots]. apply spl_ext. intros i Hi. fold c. unfold hp, cp. cbn [c ControlPoints].
    rewrite zlist_nth by (rewrite (ws_countU s W); exact Hi). unfold g. rewrite ToHomo_fromh by (cbn [hvec w4]; pose proof (Wp i); lra). rewrite hvec_lin by exact Lf. rewrite row_hsum by exact W. reflexivity.
Qed.
Lemma iso_u s u : wf_surface s -> (0 <= u <= 1)%R -> exists c, wf_curve c /\ Degree c = DegreeV s /\ Knots c = KnotsV s /\
  (forall j, 0 <= j < VCount (Net s) -> exists p, nth_error (ControlPoints c) (Z.to_nat j) = Some p /\
     Curve_Evaluate (row_curve s j) u = Ok (Vec3 (x4 p) (y4 p) (z4 p)) /\ w4 p = curve_den (row_curve s j) u) /\
  forall v, Surface_Evaluate s u v = Curve_Evaluate c v.
Proof.
  intros W Hv. set (g := fun i => fromh (hvec (colU s i) u)). pose proof (vcount_nonneg s W) as N0.
  assert (forall i, (0 < hsum (colU s i) w4 u)%R) as Wp. { intros i. exact (curve_den_pos (colU s i) u (colU_wf s i W) Hv). }
  set (c := Curve (DegreeV s) (KnotsV s) (zlist (VCount (Net s)) g)). exists c.
  assert (wf_curve c) as Wc.
  { constructor; cbn [c ControlPoints Knots Degree]; [apply W|rewrite zlist_len by exact N0; apply W|]. apply zlist_Forall. intros i _. cbn [g fromh w4 hvec]. apply Wp. }
  split; [exact Wc|]. split; [reflexivity|]. split; [reflexivity|]. split.
  - intros i Hi. exists (g i). split.
    + rewrite (nth_error_nth' _ (Vec4 0 0 0 1)%R); [cbn [c ControlPoints]; rewrite zlist_nth by exact Hi; reflexivity|]. cbn [c ControlPoints]. pose proof (zlist_len (VCount (Net s)) g N0) as L. unfold len in L. lia.
    + rewrite row_curve_eq. split; [|reflexivity]. rewrite Curve_Evaluate_ok by (try apply colU_wf; assumption). f_equal. rewrite curve_point_hsum. reflexivity.
  - intros v. destruct (Rle_dec 0 v) as [A|A]; [destruct (Rle_dec v 1) as [B|B]|]; try (rewrite Surface_Evaluate_outside, Curve_Evaluate_outside by lra; reflexivity).
    apply same_point; try assumption; try lra. intros f Lf. unfold hsurf. rewrite hsum_spl by exact Wc. cbn [c Degree Knots]. apply spl_ext. intros i Hi. fold c. unfold hp, cp. cbn [c ControlPoints].
    rewrite zlist_nth by (rewrite (ws_countV s W); exact Hi). unfold g. rewrite ToHomo_fromh by (cbn [hvec w4]; pose proof (Wp i); lra). rewrite hvec_lin by exact Lf. rewrite col_hsum by exact W. reflexivity.
Qed.
