(** Stationary points of the searches, and searches that end farther away (C84). *)
From Coq Require Import Reals ZArith List Lra Lia QArith Bool SpecFloat.
From Coquelicot Require Import Coquelicot.
From Verif Require Import Outcome Num ModelCore ModelBasis ModelCurve ModelSurface SpecCore SpecBasis SpecCurve SpecSurface SpecSearch
  SpecIter ThReal ThB64 ThOutcome ThCurve ThSurface2 ThCoreWit ThCurveWit ThDecide ThSurfWit ThSurfRemove2 ThSearch ThIter.
Import ListNotations.
Open Scope R_scope.

Lemma clamp01_id x : unit_interval x -> clamp01 x = x.
Proof. unfold unit_interval, clamp01, Rmax, Rmin. intros. repeat destruct (Rle_dec _ _); lra. Qed.
Lemma run_stationary (dist : R -> R) (slope : R -> R -> Prop) m eps mx x : unit_interval x -> slope x 0 -> (forall g g', slope x g -> slope x g' -> g = g') ->
  forall k r h u, search_run dist slope m eps mx k x r h u -> u = x.
Proof.
  intros Hx S0 Un k r h u Run. assert (G : forall y, search_run dist slope m eps mx k y r h u -> y = x -> u = x); [|apply (G x Run eq_refl)].
  clear Run. intros z Run.
  induction Run as [k y r h _|k y r h g y' g' h' u _ _ Sg B _ _ _ IH]; intros Hy; [exact Hy|].
  subst y. assert (g = 0) by (apply (Un g 0); assumption). subst g.
  destruct B as [j [_ [-> _]]].
  assert (E : forall t, clamp01 (x - t * (h * 0)) = x) by (intros t; rewrite !Rmult_0_r, Rminus_0_r; apply clamp01_id; exact Hx).
  rewrite E in *. apply IH. reflexivity.
Qed.
Lemma run2_stationary (dist : R * R -> R) (slope : R * R -> R * R -> Prop) m eps mx x : unit_square x -> slope x (0, 0) -> (forall g g', slope x g -> slope x g' -> g = g') ->
  forall k r h u, search_run2 dist slope m eps mx k x r h u -> u = x.
Proof.
  intros [Hx Hx'] S0 Un k r h u Run. assert (G : forall y, search_run2 dist slope m eps mx k y r h u -> y = x -> u = x); [|apply (G x Run eq_refl)].
  clear Run. intros z Run.
  induction Run as [k y r h _|k y r h g y' g' h' u _ _ Sg B _ _ _ IH]; intros Hy; [exact Hy|].
  subst y. assert (g = (0, 0)) by (apply (Un g (0, 0)); assumption). subst g.
  destruct B as [j [_ [-> _]]].
  assert (E : forall t, clamp01_2 (along x t (apply2 h (0, 0))) = x).
  { intros t. unfold clamp01_2, along, apply2. cbn [fst snd]. rewrite !Rmult_0_r, !Rplus_0_r, !Rmult_0_r, !Rplus_0_r, !clamp01_id by assumption. now destruct x. }
  rewrite E in *. apply IH. reflexivity.
Qed.
Lemma C84_curve_lemma c P init eps mx n : wf_curve c -> unit_interval init -> mx <= INR n ->
  slope_at (Knots c) (fun x => half_sq (curve_point c x) P) init 0 -> Curve_SearchParameter n c P init eps mx = Ok init.
Proof.
  intros W Hi Hn S0. destruct (proj1 (C44_lemma c P init eps mx W Hi) n Hn) as [u [Eu _]]. rewrite Eu. f_equal.
  apply C81_lemma in Eu; auto. apply (run_stationary _ _ _ _ _ _ Hi S0) in Eu; [exact Eu|].
  intros g g'. apply (slope_at_unique (Degree c)), (wf_knots c W).
Qed.
Lemma C84_surface_lemma s P a b eps mx n : wf_surface s -> unit_square (a, b) -> mx <= INR n ->
  slope2_at (KnotsU s) (KnotsV s) (fun u v => half_sq (surf_point s u v) P) (a, b) (0, 0) -> Surface_SearchParameter n s P a b eps mx = Ok (a, b).
Proof.
  intros W Hi Hn S0. destruct (proj1 (C54_search_lemma s P a b eps mx W Hi) n Hn) as [u [Eu _]]. rewrite Eu. f_equal.
  apply C82_lemma in Eu; auto. apply (run2_stationary _ _ _ _ _ _ Hi S0) in Eu; [exact Eu|].
  intros g g' [A1 A2] [B1 B2]. destruct g as [g1 g2], g' as [g1' g2']. cbn [fst snd] in *. f_equal.
  + apply (slope_at_unique (DegreeU s) _ _ _ _ _ (ws_knotsU s W) A1 B1).
  + apply (slope_at_unique (DegreeV s) _ _ _ _ _ (ws_knotsV s W) A2 B2).
Qed.
(** on the target itself the slope is zero *)
Lemma slope_on_target c P x : wf_curve c -> unit_interval x -> curve_point c x = P ->
  slope_at (Knots c) (fun t => half_sq (curve_point c t) P) x 0.
Proof.
  intros W Hx E. destruct (curve_slope c P x W Hx) as [g [Eg Sg]].
  rewrite eval_ok in Eg by assumption. cbn [bind] in Eg. destruct (deriv1_ok c x W Hx) as [d Ed]. rewrite Ed in Eg. cbn [bind] in Eg.
  rewrite E in Eg. assert (Eg' : g = v3dot (v3sub P P) d) by congruence. replace 0 with g; [exact Sg|]. rewrite Eg'. unfold v3dot, v3sub. cbn [x3 y3 z3]. norm_R. ring.
Qed.
Lemma slope2_on_target s P u v : wf_surface s -> unit_interval u -> unit_interval v -> surf_point s u v = P ->
  slope2_at (KnotsU s) (KnotsV s) (fun a b => half_sq (surf_point s a b) P) (u, v) (0, 0).
Proof.
  intros W Hu Hv E. destruct (surf_slope s P u v W Hu Hv) as [du [dv [_ [_ [S1 S2]]]]]. rewrite E in S1, S2.
  assert (Z : forall d, v3dot (v3sub P P) d = 0) by (intros d; unfold v3dot, v3sub; cbn [x3 y3 z3]; norm_R; ring).
  rewrite Z in S1, S2. split; assumption.
Qed.
Lemma C84_target_lemma c P init eps mx n : wf_curve c -> unit_interval init -> mx <= INR n -> curve_point c init = P ->
  Curve_SearchParameter n c P init eps mx = Ok init.
Proof. intros W Hi Hn E. apply C84_curve_lemma; auto. apply slope_on_target; assumption. Qed.
Lemma C84_target2_lemma s P a b eps mx n : wf_surface s -> unit_square (a, b) -> mx <= INR n -> surf_point s a b = P ->
  Surface_SearchParameter n s P a b eps mx = Ok (a, b).
Proof. intros W Hi Hn E. apply C84_surface_lemma; auto. destruct Hi. apply slope2_on_target; assumption. Qed.

(** The polyline -9, 3, 2 on the x axis with the inner knot 3/4: at 1/2 it is at
    -1; the first step runs to the end of the domain, which the search cannot
    leave any more. *)
Definition zigzag64 : curve b64 :=
  Curve 1 [dz; dz; dq (3 # 4); done_; done_] [pt (-9) 0 0 1; pt 3 0 0 1; pt 2 0 0 1].
(** One iteration, and an iteration that changes nothing. *)
Definition next_h (s y h : b64) : outcome b64 :=
  let '(h, ys) := if nltb (nabs (nmul y s)) (nlit (1 # 10000000000000000)) then (n1, nlit (1 # 10000000000)) else (h, nmul y s) in
  rho <- ndiv n1 ys ;;
  Ok (nadd (nmul (nmul (nsub n1 (nmul (nmul rho y) s)) h) (nsub n1 (nmul (nmul rho s) y))) (nmul (nmul rho s) s)).
Definition one_step (Rn fi : b64 -> outcome b64) (ls : nat) (x r h : b64) : outcome (b64 * b64 * b64) :=
  g <- fi x ;; x' <- line_search Rn x r h g ls n1 ;; g' <- fi x' ;; h' <- next_h (nsub x' x) (nsub g' g) h ;; r' <- Rn x' ;; Ok (x', r', h').
Lemma loop_step Rn fi ls eps mx f k x r h x' r' h' : one_step Rn fi ls x r h = Ok (x', r', h') -> nltb r eps = false -> nleb mx (nofZ k) = false ->
  search_loop Rn fi ls eps mx (S f) k x r h = search_loop Rn fi ls eps mx f (k + 1) x' r' h'.
Proof.
  intros E Hr Hk. cbn [search_loop]. rewrite Hr, Hk. unfold one_step, next_h in E.
  destruct (fi x) as [g| | | | |]; cbn [bind] in *; try discriminate.
  destruct (line_search _ _ _ _ _ _ _) as [x1| | | | |]; cbn [bind] in *; try discriminate.
  destruct (fi x1) as [g1| | | | |]; cbn [bind] in *; try discriminate.
  destruct (if nltb _ _ then _ else _) as [h1 ys]. destruct (ndiv n1 ys) as [rho| | | | |]; cbn [bind] in *; try discriminate.
  destruct (Rn x1) as [r1| | | | |]; cbn [bind] in *; try discriminate.
  apply (f_equal (fun o => match o with Ok z => z | _ => (x, r, h) end)) in E. cbn beta iota in E.
  pose proof (f_equal snd E) as E3. pose proof (f_equal (fun z => snd (fst z)) E) as E2. pose proof (f_equal (fun z => fst (fst z)) E) as E1.
  cbn [fst snd] in E1, E2, E3. now rewrite E3, E2, E1.
Qed.
Lemma loop_stuck Rn fi ls eps mx x r h : one_step Rn fi ls x r h = Ok (x, r, h) -> nltb r eps = false ->
  forall f k, nleb mx (nofZ (k + Z.of_nat f)) = true -> search_loop Rn fi ls eps mx f k x r h = Ok x.
Proof.
  intros St Hr f. induction f as [|f IH]; intros k Hk.
  - rewrite Z.add_0_r in Hk. cbn [search_loop]. now rewrite Hr, Hk.
  - destruct (nleb mx (nofZ k)) eqn:E; [cbn [search_loop]; now rewrite Hr, E|].
    rewrite (loop_step _ _ _ _ _ _ _ _ _ _ _ _ _ St Hr E). apply IH. rewrite <- Hk. do 2 f_equal. lia.
Qed.
Lemma C84_farther_lemma : exists (c : curve b64) P u a b, wf_curve (curve_val c) /\
  Curve_SearchParameter 512 c P dhalf (dq (1 # 100000000)) (b64_of_Z 512) = Ok u /\
  Curve_Evaluate c dhalf = Ok a /\ Curve_Evaluate c u = Ok b /\
  v3norm (v3sub a P) = b64_of_Z 1 /\ v3norm (v3sub b P) = b64_of_Z 2.
Proof.
  exists zigzag64, (Vec3 dz dz dz), done_, (Vec3 (b64_of_Z (-1)) dz dz), (Vec3 (b64_of_Z 2) dz dz).
  split; [apply wf64_ok; vm_compute; reflexivity|].
  split; [|split; [vm_compute; reflexivity|split; [vm_compute; reflexivity|split; vm_compute; reflexivity]]].
  unfold Curve_SearchParameter. set (Rn := fun u : b64 => _). set (fi := fun u : b64 => _).
  set (h1 := match one_step Rn fi LS_MAX dhalf DBL_MAX n1 with Ok (_, _, h) => h | _ => n1 end).
  assert (S1 : one_step Rn fi LS_MAX dhalf DBL_MAX n1 = Ok (done_, b64_of_Z 2, h1)) by (vm_compute; reflexivity).
  assert (S2 : one_step Rn fi LS_MAX done_ (b64_of_Z 2) h1 = Ok (done_, b64_of_Z 2, n1)) by (vm_compute; reflexivity).
  assert (S3 : one_step Rn fi LS_MAX done_ (b64_of_Z 2) n1 = Ok (done_, b64_of_Z 2, n1)) by (vm_compute; reflexivity).
  assert (L1 : nltb DBL_MAX (dq (1 # 100000000)) = false) by (vm_compute; reflexivity).
  assert (L2 : nltb (b64_of_Z 2) (dq (1 # 100000000)) = false) by (vm_compute; reflexivity).
  assert (K1 : nleb (b64_of_Z 512) (nofZ 0) = false) by (vm_compute; reflexivity).
  assert (K2 : nleb (b64_of_Z 512) (nofZ (0 + 1)) = false) by (vm_compute; reflexivity).
  rewrite (loop_step _ _ _ _ _ 511 _ _ _ _ _ _ _ S1 L1 K1), (loop_step _ _ _ _ _ 510 _ _ _ _ _ _ _ S2 L2 K2).
  apply (loop_stuck _ _ _ _ _ _ _ _ S3 L2). vm_compute. reflexivity.
Qed.
Definition zigzag64s : surface b64 :=
  Surface 1 1 [dz; dz; dq (3 # 4); done_; done_] [dz; dz; done_; done_]
    (Grid 3 2 [pt (-9) 0 0 1; pt 3 0 0 1; pt 2 0 0 1; pt (-9) 0 1 1; pt 3 0 1 1; pt 2 0 1 1]).
Lemma C84_farther2_lemma : exists (s : surface b64) P u v a b, wf_surface (surface_val s) /\
  Surface_SearchParameter 20 s P dhalf dz (dq (1 # 100000000)) (b64_of_Z 20) = Ok (u, v) /\
  Surface_SearchParameterOn 20 s P 1 dz dhalf (dq (1 # 100000000)) (b64_of_Z 20) = Ok (u, v) /\
  Surface_Evaluate s dhalf dz = Ok a /\ Surface_Evaluate s u v = Ok b /\
  v3norm (v3sub a P) = b64_of_Z 1 /\ v3norm (v3sub b P) = b64_of_Z 2.
Proof.
  exists zigzag64s, (Vec3 dz dz dz), done_, dz, (Vec3 (b64_of_Z (-1)) dz dz), (Vec3 (b64_of_Z 2) dz dz).
  split; [apply wf64s_ok; vm_compute; reflexivity|]. split; [vm_compute; reflexivity|]. split; [vm_compute; reflexivity|].
  split; [vm_compute; reflexivity|]. split; [vm_compute; reflexivity|]. split; vm_compute; reflexivity.
Qed.

(** ** Concrete data for the examples *)
(** towards 1/2 on a line, one step reaches the target and the run stops *)
Lemma dbl_max_big : 10 <= dbl_max.
Proof. unfold dbl_max. apply IZR_le. discriminate. Qed.
Lemma slope_line a x : unit_interval x -> slope_at [0; 0; 1; 1] (fun t => (t - a) ^ 2 / 2) x (x - a).
Proof.
  intros Hx. exists 1%Z. split; [cbn; lia|]. split.
  - unfold in_span. change (at_ [0; 0; 1; 1] 1) with 0. change (at_ [0; 0; 1; 1] (1 + 1)) with 1. unfold unit_interval in Hx. lra.
  - exists (fun t => (t - a) ^ 2 / 2). split; [reflexivity|]. auto_derive; [exact I|field].
Qed.
Lemma C81_ex_lemma : search_run (fun x => Rabs (x - 1 / 2)) (slope_at [0; 0; 1; 1] (fun x => (x - 1 / 2) ^ 2 / 2)) 20 (1 / 10) 5 0 0 dbl_max 1 (1 / 2).
Proof.
  pose proof dbl_max_big as B. assert (E0 : clamp01 (0 - (9 / 10) ^ 0 * (1 * (0 - 1 / 2))) = 1 / 2).
  { cbn [pow]. unfold clamp01, Rmax, Rmin. repeat destruct (Rle_dec _ _); lra. }
  apply (run_step _ _ _ _ _ _ _ _ _ (0 - 1 / 2) (1 / 2) (1 / 2 - 1 / 2) 1).
  - lra.
  - cbn [INR]. lra.
  - apply slope_line. unfold unit_interval; lra.
  - exists 0%nat. split; [lia|]. split; [symmetry; exact E0|]. split; [intros; lia|]. intros _. rewrite E0.
    replace (1 / 2 - 1 / 2) with 0 by lra. rewrite Rabs_R0. cbn [pow]. lra.
  - apply slope_line. unfold unit_interval; lra.
  - split; [intros _; field|]. intros L. exfalso. revert L. rewrite Rabs_right by lra. lra.
  - apply run_stop. left. replace (1 / 2 - 1 / 2) with 0 by lra. rewrite Rabs_R0. lra.
Qed.
Lemma C82_ex_lemma : search_run2 (fun x => Rabs (fst x - 1 / 2) + Rabs (snd x - 1 / 4))
  (slope2_at [0; 0; 1; 1] [0; 0; 1; 1] (fun u v => (u - 1 / 2) ^ 2 / 2 + (v - 1 / 4) ^ 2 / 2)) 20 (1 / 10) 5 0 (0, 0) dbl_max one2 (1 / 2, 1 / 4).
Proof.
  assert (Sl : forall x, unit_square x -> slope2_at [0; 0; 1; 1] [0; 0; 1; 1] (fun u v => (u - 1 / 2) ^ 2 / 2 + (v - 1 / 4) ^ 2 / 2) x (fst x - 1 / 2, snd x - 1 / 4)).
  { intros [u v] [Hu Hv]. cbn [fst snd] in *. split; cbn [fst snd].
    - exists 1%Z. split; [cbn; lia|]. split; [unfold in_span; change (at_ [0; 0; 1; 1] 1) with 0; change (at_ [0; 0; 1; 1] (1 + 1)) with 1; unfold unit_interval in *; lra|].
      exists (fun u => (u - 1 / 2) ^ 2 / 2 + (v - 1 / 4) ^ 2 / 2). split; [reflexivity|]. auto_derive; [exact I|field].
    - exists 1%Z. split; [cbn; lia|]. split; [unfold in_span; change (at_ [0; 0; 1; 1] 1) with 0; change (at_ [0; 0; 1; 1] (1 + 1)) with 1; unfold unit_interval in *; lra|].
      exists (fun v => (u - 1 / 2) ^ 2 / 2 + (v - 1 / 4) ^ 2 / 2). split; [reflexivity|]. auto_derive; [exact I|field]. }
  pose proof dbl_max_big as B.
  assert (E0 : clamp01_2 (along (0, 0) (- (9 / 10) ^ 0) (apply2 one2 (0 - 1 / 2, 0 - 1 / 4))) = (1 / 2, 1 / 4)).
  { unfold clamp01_2, along, apply2, one2. cbn [fst snd s11 s12 s22 pow]. unfold clamp01, Rmax, Rmin. f_equal; repeat destruct (Rle_dec _ _); lra. }
  assert (Z0 : Rabs (1 / 2 - 1 / 2) + Rabs (1 / 4 - 1 / 4) = 0).
  { rewrite !Rminus_diag_eq by reflexivity. rewrite Rabs_R0. lra. }
  apply (run2_step _ _ _ _ _ _ _ _ _ (0 - 1 / 2, 0 - 1 / 4) (1 / 2, 1 / 4) (1 / 2 - 1 / 2, 1 / 4 - 1 / 4) (upd one2 (diff2 (1 / 2, 1 / 4) (0, 0)) (diff2 (1 / 2 - 1 / 2, 1 / 4 - 1 / 4) (0 - 1 / 2, 0 - 1 / 4)) (5 / 16))).
  - lra.
  - cbn [INR]. lra.
  - apply (Sl (0, 0)). split; cbn [fst snd]; unfold unit_interval; lra.
  - exists 0%nat. split; [lia|]. split; [symmetry; exact E0|]. split; [intros; lia|]. intros _. rewrite E0. cbn [fst snd].
    rewrite Z0. unfold quad, apply2, dot2, one2. cbn [fst snd s11 s12 s22 pow]. lra.
  - apply (Sl (1 / 2, 1 / 4)). split; cbn [fst snd]; unfold unit_interval; lra.
  - assert (E : dot2 (diff2 (1 / 2, 1 / 4) (0, 0)) (diff2 (1 / 2 - 1 / 2, 1 / 4 - 1 / 4) (0 - 1 / 2, 0 - 1 / 4)) = 5 / 16).
    { unfold dot2, diff2. cbn [fst snd]. field. }
    split; rewrite E; intros L; [apply upd_form; lra|]. exfalso. revert L. rewrite Rabs_right by lra. lra.
  - apply run2_stop. left. cbn [fst snd]. rewrite Z0. lra.
Qed.
