(** Degree elevation on doubles, and on the reals whatever the control points. *)
From Coq Require Import Reals ZArith List Lia Lra Bool SpecFloat.
From Flocq Require Import Core IEEE754.BinarySingleNaN.
From Verif Require Import Outcome Num ModelCore ModelAlgo ModelCurve ModelSurface SpecCore SpecBasis SpecCurve SpecBezier SpecElevate SpecErr
  ThOutcome ThReal ThVec ThGrid ThB64 ThKnots ThCoreWit ThDecide ThSum ThSpline ThBasis ThCurve ThInsert ThReverse ThElevKnots ThElevPos ThElevForm ThElevate ThElevSurf ThSafe ThSafeRem ThSafeRem2 ThElevSim ThAlign64 SpecRows ThSurfRemove ThSurfRemove2 ThRemove.
Import ListNotations.
Open Scope Z_scope.

(** ** Division *)
Lemma R_not_total : ~ total_division R.
Proof. intros T. destruct (T 1%R 0%R) as [a [E _]]. cbn in E. destruct (Req_EM_T 0 0); [discriminate|congruence]. Qed.
Lemma R_div (a b : R) : runs (ndiv a b) (fun _ => True) \/ ndiv a b = NotFinite /\ ~ total_division R.
Proof. cbn [ndiv Num_R]. destruct (Req_EM_T b 0); [right; split; [reflexivity|exact R_not_total]|left; apply runs_ok; exact I]. Qed.
Lemma b64_div (a b : b64) : runs (ndiv a b) (fun _ => True) \/ ndiv a b = NotFinite /\ ~ total_division b64.
Proof. left. apply total_b64. Qed.

Lemma sim_Ok {T1 T2 : Type} {N1 : Num T1} {N2 : Num T2} {A B} (Q : A -> B -> Prop) a m : @sim T1 T2 N1 N2 A B Q (Ok a) m ->
  (exists b, m = Ok b /\ Q a b) \/ m = NotFinite /\ ~ total_division T2.
Proof. intros S. inversion S; subst; [left; eauto|right; auto]. Qed.

(** ** The points do not matter *)
Lemma F2_eq {A} (l l' : list A) : Forall2 eq l l' -> l = l'.
Proof. induction 1; [reflexivity|]. subst. reflexivity. Qed.
Lemma eq_F2 {A} (l : list A) : Forall2 eq l l.
Proof. induction l; constructor; auto. Qed.
Lemma elevation_points (K : list b64) pts pts' p t : len pts = len pts' ->
  match NurbsDegreeElevation K pts p t, NurbsDegreeElevation K pts' p t with
  | Ok (d, k, q), Ok (d', k', q') => d = d' /\ k = k' /\ len q = len q'
  | Ok _, _ | _, Ok _ => False
  | o, o' => o = o'
  end.
Proof.
  intros L. assert (@sim b64 b64 _ _ _ _ (eres eq) (NurbsDegreeElevation K pts p t) (NurbsDegreeElevation K pts' p t)) as S.
  { apply (sim_elevation b64_div b64_div eq); try exact L.
    - reflexivity.
    - intros l l' F. apply F2_eq in F. subst. reflexivity.
    - apply eq_F2.
    - intros i a b a' b' E1 E2 E3 E4. assert (a = a') as -> by congruence. assert (b = b') as -> by congruence. reflexivity. }
  destruct S as [[[d k] q] [[d' k'] q'] [E1 [E2 E3]]| | | | |m N|m N]; try reflexivity; try (exfalso; apply N; exact total_b64).
  split; [exact E1|]. split; [apply F2_eq; exact E2|]. apply (F2_len _ _ _ E3).
Qed.
Lemma C105_points_lemma (c c' : curve b64) t : Degree c = Degree c' -> Knots c = Knots c' -> len (ControlPoints c) = len (ControlPoints c') ->
  match Curve_ElevateDegree c t, Curve_ElevateDegree c' t with
  | Ok d, Ok d' => Degree d = Degree d' /\ Knots d = Knots d' /\ len (ControlPoints d) = len (ControlPoints d')
  | Ok _, _ | _, Ok _ => False
  | o, o' => o = o'
  end.
Proof.
  intros E1 E2 E3. unfold Curve_ElevateDegree. destruct (1 <=? t); cbn [assert_ bind]; [|reflexivity]. rewrite <- E1, <- E2.
  pose proof (elevation_points (Knots c) (ControlPoints c) (ControlPoints c') (Degree c) t E3) as H.
  destruct (NurbsDegreeElevation _ (ControlPoints c) _ _) as [[[d k] q]| | | | |], (NurbsDegreeElevation _ (ControlPoints c') _ _) as [[[d' k'] q']| | | | |]; cbn [bind]; try contradiction; try discriminate; try congruence; exact H.
Qed.

(** ** Clamped, well separated knots *)
Definition flat_curve (p : Z) (K : list R) : curve R := Curve p K (repeat (Vec4 0 0 0 1)%R (Z.to_nat (len K - p - 1))).
Lemma flat_wf p K : clamped p K -> wf_curve (flat_curve p K).
Proof.
  intros C. pose proof (cl_len _ _ C). pose proof (cl_degree _ _ C). split; cbn [flat_curve Degree Knots ControlPoints].
  - exact C.
  - rewrite len_repeat. lia.
  - apply Forall_forall. intros x Hx. apply repeat_spec in Hx. subst. cbn. lra.
Qed.
Lemma flat_hp p K i : hp (flat_curve p K) i = hp (flat_curve p K) 0.
Proof.
  assert (forall j, cp (flat_curve p K) j = (Vec4 0 0 0 1)%R) as H; [|unfold hp; rewrite !H; reflexivity].
  intros j. unfold cp, flat_curve. cbn [ControlPoints]. apply nth_repeat.
Qed.
Lemma flat_elevates p t K : clamped p K -> elevatable0 p t K ->
  exists q, NurbsDegreeElevation K (repeat (Vec4 0 0 0 1)%R (Z.to_nat (len K - p - 1))) p t = Ok (p + t, EV t K, q) /\ len q = len (EV t K) - (p + t) - 1.
Proof.
  intros C El. destruct (nurbs_elevation_gen (flat_curve p K) t (flat_wf p K C) El (or_introl (flat_hp p K))) as [d [E [Ed [Ek [Wd _]]]]].
  cbn [flat_curve Degree Knots ControlPoints] in *. exists (ControlPoints d). rewrite E, Ed, Ek. split; [reflexivity|]. rewrite (wf_count _ Wd), Ek, Ed. reflexivity.
Qed.
(** neighbours in a spread knot vector are equal or far apart *)
Lemma spread_next p K i : clamped p K -> spread K -> 0 <= i -> i + 1 < len K -> at_ K i = at_ K (i + 1) \/ ~ close (at_ K i) (at_ K (i + 1)).
Proof.
  intros C Sp H1 H2. destruct (Req_dec (at_ K i) (at_ K (i + 1))) as [E|N]; [left; exact E|right]. pose proof (clamped_mono _ _ C i (i + 1) ltac:(lia)) as M.
  rewrite !kf_at in M by lia. apply Sp. split; [rewrite <- kf_at by lia; apply kf_In; lia|]. split; [rewrite <- kf_at by lia; apply kf_In; lia|]. split; [lra|].
  intros z Iz [Z1 Z2]. apply In_kf in Iz. destruct Iz as [j [Hj <-]]. destruct (Z_le_gt_dec j i).
  - pose proof (clamped_mono _ _ C j i ltac:(lia)) as M1. rewrite (kf_at K i) in M1 by lia. lra.
  - pose proof (clamped_mono _ _ C (i + 1) j ltac:(lia)) as M1. rewrite (kf_at K (i + 1)) in M1 by lia. lra.
Qed.
Definition kr64 (r : R) (x : b64) : Prop := finite64 x /\ r = val x.
Lemma kr64_list l l' : Forall2 kr64 l l' <-> all_finite l' /\ l = vals l'.
Proof.
  split.
  - induction 1 as [|r x l l' [F ->] _ [IH1 IH2]]; [split; [constructor|reflexivity]|]. split; [constructor; assumption|]. rewrite IH2. reflexivity.
  - intros [F ->]. induction F; constructor; [split; [assumption|reflexivity]|assumption].
Qed.
Lemma vget_vals (l : list b64) i x : vget l i = Ok x -> 0 <= i < len l /\ vget (vals l) i = Ok (val x).
Proof.
  intros E. apply (vget_inv dz) in E. destruct E as [H E]. split; [exact H|]. subst x. destruct (vget_ex (vals l) i) as [y Ey]; [rewrite len_vals; exact H|].
  rewrite Ey. f_equal. apply (vget_inv (val dz)) in Ey. destruct Ey as [_ ->]. unfold znth, vals. apply map_nth.
Qed.
Lemma vget_at (l : list R) i x : vget l i = Ok x -> 0 <= i < len l /\ x = at_ l i.
Proof. intros E. apply (vget_inv 0%R) in E. destruct E as [H ->]. split; [exact H|]. reflexivity. Qed.
Lemma Approx_agree p (K : list b64) i a b a' b' : sound_knots p K -> spread (vals K) ->
  vget (vals K) i = Ok a -> vget (vals K) (i + 1) = Ok b -> vget K i = Ok a' -> vget K (i + 1) = Ok b' -> Approx a b lit_1e_6 = Approx a' b' lit_1e_6.
Proof.
  intros Sk Sp E1 E2 E3 E4. pose proof Sk as [Fl C]. destruct (vget_vals K i a' E3) as [H1 E1']. destruct (vget_vals K (i + 1) b' E4) as [H2 E2'].
  assert (a = val a') as -> by congruence. assert (b = val b') as -> by congruence.
  destruct (vget_at _ _ _ E1) as [_ Ea]. destruct (vget_at _ _ _ E2) as [_ Eb].
  assert (finite64 a') as Fa. { apply (vget_inv dz) in E3. destruct E3 as [_ E3]. apply (proj1 (Forall_forall _ _) Fl). rewrite E3. apply znth_In. exact H1. }
  assert (finite64 b') as Fb. { apply (vget_inv dz) in E4. destruct E4 as [_ E4]. apply (proj1 (Forall_forall _ _) Fl). rewrite E4. apply znth_In. exact H2. }
  pose proof (sound_unit p K Sk) as Un. rewrite Forall_forall in Un.
  assert (In a' K) as Ia. { apply (vget_inv dz) in E3. destruct E3 as [_ E3]. rewrite E3. apply znth_In. exact H1. }
  assert (In b' K) as Ib. { apply (vget_inv dz) in E4. destruct E4 as [_ E4]. rewrite E4. apply znth_In. exact H2. }
  pose proof (Un a' Ia). pose proof (Un b' Ib).
  destruct (spread_next p (vals K) i C Sp ltac:(lia) ltac:(rewrite len_vals; lia)) as [Q|Q]; rewrite <- Ea, <- Eb in Q.
  - rewrite (Approx_same a' b' Fa Fb Q). apply Approx_R. unfold close. rewrite Q, Rminus_eq_0, Rabs_R0. lra.
  - rewrite (Approx_far a' b' Fa Fb).
    + destruct (Approx (val a') (val b') lit_1e_6) eqn:A; [|reflexivity]. apply Approx_R in A. contradiction.
    + unfold close in Q. split; [lra|]. apply Rabs_le. lra.
Qed.
Lemma elevation64 p t (K : list b64) pts : sound_knots p K -> len pts = len K - p - 1 -> elevatable0 p t (vals K) ->
  exists k q, NurbsDegreeElevation K pts p t = Ok (p + t, k, q) /\ all_finite k /\ vals k = EV t (vals K) /\ len q = len k - (p + t) - 1.
Proof.
  intros Sk L El. pose proof Sk as [Fl C]. pose proof El as [_ [_ [_ [_ [Sp _]]]]]. destruct (flat_elevates p t (vals K) C El) as [q0 [E Lq]].
  pose proof (cl_len _ _ C) as CL. pose proof (cl_degree _ _ C) as CD.
  assert (@sim R b64 _ _ _ _ (eres kr64) (NurbsDegreeElevation (vals K) (repeat (Vec4 0 0 0 1)%R (Z.to_nat (len (vals K) - p - 1))) p t) (NurbsDegreeElevation K pts p t)) as S.
  { apply (sim_elevation R_div b64_div kr64).
    - split; [apply finite_0|]. symmetry. exact val_0.
    - intros l l' F. apply kr64_list in F. destruct F as [F ->]. symmetry. apply ValidateKnots_b64. exact F.
    - apply kr64_list. split; [exact Fl|reflexivity].
    - intros i a b a' b'. apply (Approx_agree p); assumption.
    - rewrite len_repeat, len_vals in *. lia. }
  rewrite E in S. apply sim_Ok in S. destruct S as [[[[d k] q] [-> [E1 [E2 E3]]]]|[_ N]]; [|exfalso; apply N; exact total_b64]. subst d.
  exists k, q. split; [reflexivity|]. apply kr64_list in E2. destruct E2 as [Fk Ek]. split; [exact Fk|]. split; [symmetry; exact Ek|].
  rewrite <- (F2_len _ _ _ E3), Lq, Ek, len_vals. reflexivity.
Qed.
Lemma elevatable0_of p t (K : list b64) n : 1 <= p -> 1 <= t -> p + t <= 29 -> n = len K - p - 1 ->
  interior_multiplicity_le p (vals K) -> spread (vals K) -> n + t * spans (vals K) <= 2 * (n - 1 + t) -> elevatable0 p t (vals K).
Proof. intros. unfold elevatable0. rewrite len_vals. repeat (split; try assumption). lia. Qed.
Lemma C105_elevate_lemma (c : curve b64) t : sound_curve c -> 1 <= Degree c -> 1 <= t -> Degree c + t <= 29 ->
  interior_multiplicity_le (Degree c) (vals (Knots c)) -> spread (vals (Knots c)) ->
  len (ControlPoints c) + t * spans (vals (Knots c)) <= 2 * (len (ControlPoints c) - 1 + t) ->
  exists d, Curve_ElevateDegree c t = Ok d /\ sound_curve d /\ Degree d = Degree c + t /\ gains t (vals (Knots c)) (vals (Knots d)) /\
    len (ControlPoints d) = len (ControlPoints c) + t * spans (vals (Knots c)).
Proof.
  intros [Sk Cn] P T B Im Sp Bf. pose proof Sk as [_ C].
  destruct (elevation64 (Degree c) t (Knots c) (ControlPoints c) Sk Cn) as [k [q [E [Fk [Ek Lq]]]]]; [eapply elevatable0_of; eassumption|].
  unfold Curve_ElevateDegree. destruct (Z.leb_spec 1 t); [|lia]. cbn [assert_ bind]. rewrite E. cbn [bind]. eexists. split; [reflexivity|]. unfold sound_curve, sound_knots. cbn [Degree Knots ControlPoints].
  pose proof (ev_length _ _ C t ltac:(lia)) as Le. rewrite <- Ek, !len_vals in Le.
  split; [split; [split; [exact Fk|rewrite Ek; apply (ev_clamped _ _ _ C); lia]|exact Lq]|]. split; [reflexivity|]. split; [rewrite Ek; apply (ev_gains _ _ C); lia|]. cbn [ControlPoints Knots] in *. lia.
Qed.

(** ** The reals, any control points *)
Lemma C41_any_lemma (c : curve R) t : clamped (Degree c) (Knots c) -> len (ControlPoints c) = len (Knots c) - Degree c - 1 ->
  1 <= Degree c -> 1 <= t -> Degree c + t <= 29 -> interior_multiplicity_le (Degree c) (Knots c) -> spread (Knots c) ->
  len (ControlPoints c) + t * spans (Knots c) <= 2 * (len (ControlPoints c) - 1 + t) ->
  (exists d, Curve_ElevateDegree c t = Ok d /\ Degree d = Degree c + t /\ gains t (Knots c) (Knots d) /\ len (ControlPoints d) = len (ControlPoints c) + t * spans (Knots c)) \/
  Curve_ElevateDegree c t = NotFinite.
Proof.
  intros C Cn P T B Im Sp Bf. destruct (flat_elevates (Degree c) t (Knots c) C) as [q0 [E Lq]]; [unfold elevatable0; repeat (split; try assumption); lia|].
  pose proof (cl_len _ _ C) as CL. pose proof (cl_degree _ _ C) as CD.
  assert (@sim R R _ _ _ _ (eres eq) (NurbsDegreeElevation (Knots c) (repeat (Vec4 0 0 0 1)%R (Z.to_nat (len (Knots c) - Degree c - 1))) (Degree c) t) (NurbsDegreeElevation (Knots c) (ControlPoints c) (Degree c) t)) as S.
  { apply (sim_elevation R_div R_div eq).
    - reflexivity.
    - intros l l' F. apply F2_eq in F. subst. reflexivity.
    - apply eq_F2.
    - intros i a b a' b' E1 E2 E3 E4. assert (a = a') as -> by congruence. assert (b = b') as -> by congruence. reflexivity.
    - rewrite len_repeat. lia. }
  unfold Curve_ElevateDegree. destruct (Z.leb_spec 1 t); [|lia]. cbn [assert_ bind]. pose proof (ev_length _ _ C t ltac:(lia)) as Le.
  rewrite E in S. apply sim_Ok in S. destruct S as [[[[d k] q] [-> [E1 [E2 E3]]]]|[-> _]]; [left|right; reflexivity]. subst d. cbn [bind]. eexists. split; [reflexivity|]. cbn [Degree Knots ControlPoints].
  apply F2_eq in E2. subst k. split; [reflexivity|]. split; [apply (ev_gains _ _ C); lia|]. rewrite <- (F2_len _ _ _ E3), Lq. lia.
Qed.

(** ** Surfaces *)
Section RowsU.
  Variables (s : surface b64) (t : Z).
  Hypothesis W : sound_surface s.
  Hypothesis El : elevatable0 (DegreeU s) t (vals (KnotsU s)).
  Hypothesis Fit : (UCount (Net s) + t) * VCount (Net s) <= INT_MAX.
  Lemma elevateU64_ok : spans (vals (KnotsU s)) = 1 ->
    exists d, Surface_ElevateDegreeU s t = Ok d /\ sound_surface d /\ DegreeU d = DegreeU s + t /\ DegreeV d = DegreeV s /\
      gains t (vals (KnotsU s)) (vals (KnotsU d)) /\ KnotsV d = KnotsV s /\ UCount (Net d) = UCount (Net s) + t /\ VCount (Net d) = VCount (Net s).
  Proof.
    intros Sp1. destruct W as [Sku [Skv [Cu [Cv Ln]]]]. pose proof Sku as [_ C]. pose proof Skv as [_ Cw]. pose proof El as [P1 [T _]].
    pose proof (cl_len _ _ C). pose proof (cl_degree _ _ C). pose proof (cl_len _ _ Cw). pose proof (cl_degree _ _ Cw). rewrite len_vals in *.
    destruct (full_grid_is (Net s)) as [f G]; [split; [lia|split; [lia|exact Ln]]|].
    set (nu := UCount (Net s)) in *. set (nv := VCount (Net s)) in *. set (p := DegreeU s) in *. set (K := KnotsU s) in *.
    pose proof (ev_length p (vals K) C t ltac:(lia)) as Lev. rewrite Sp1, len_vals in Lev.
    pose (row := fun j => map (fun i => f i j) (zrange 0 nu)).
    assert (forall j, exists k q, NurbsDegreeElevation K (row j) p t = Ok (p + t, k, q) /\ all_finite k /\ vals k = EV t (vals K) /\ len q = nu + t) as HR.
    { intros j. destruct (elevation64 p t K (row j) Sku) as [k [q [E [Fk [Ek Lq]]]]]; [unfold row; rewrite len_map, len_zrange; lia|exact El|].
      exists k, q. rewrite Ek in *. repeat (split; try assumption). rewrite <- Ek, len_vals in Lev. lia. }
    unfold Surface_ElevateDegreeU. fold nu nv p K. unfold grid_uninit.
    destruct (Grid_make_ok (nu + t) nv (@None (vec4 b64)) ltac:(lia) ltac:(lia) Fit) as [g0 [E0 G0]]. rewrite E0. cbn [bind].
    match goal with |- context [for_up 0 nv ?bo ?s0] =>
      destruct (for_up_inv (fun it '(dg, kn, net) => (it < nv -> dg = p /\ kn = K) /\ (it = nv -> dg = p + t /\ all_finite kn /\ vals kn = EV t (vals K)) /\
        exists h, grid_is net (nu + t) nv (fun i j => if j <? it then Some (h i j) else None)) 0 nv bo s0) as [[[dg kn] net] [E1 [_ [HH2 [h HH3]]]]] end.
    { lia. }
    { split; [auto|]. split; [lia|]. exists (fun _ _ => Vec4 n0 n0 n0 n0). apply (grid_is_eq _ _ _ _ _ G0). intros i j Hi Hj. destruct (Z.ltb_spec j 0); [lia|reflexivity]. }
    { intros it [[dg kn] net] Hi [H1' [_ [h Gn]]]. destruct (H1' ltac:(lia)) as [-> ->]. rewrite (Grid_GetV_ok _ _ _ _ it G) by lia. cbn [bind]. fold (row it).
      destruct (HR it) as [k [q [E [Fk [Ek Lq]]]]]. rewrite E. cbn [bind].
      destruct (Grid_SetV_ok net _ _ _ it (fun c => Some (znth (Vec4 n0 n0 n0 n0) q c)) Gn Hi) as [net1 [E' G1]].
      assert (map (fun c => Some (znth (Vec4 n0 n0 n0 n0) q c)) (zrange 0 (nu + t)) = map Some q) as Em.
      { rewrite <- map_map with (g := Some). rewrite <- Lq. rewrite <- list_tab. reflexivity. }
      rewrite Em in E'.
      assert (exists h', grid_is net1 (nu + t) nv (fun i j => if j <? it + 1 then Some (h' i j) else None)) as G2.
      { exists (fun i j => if j =? it then znth (Vec4 n0 n0 n0 n0) q i else h i j). apply (grid_is_eq _ _ _ _ _ G1). intros i j Hi' Hj. cbv beta.
        destruct (Z.eqb_spec j it), (Z.ltb_spec j it), (Z.ltb_spec j (it + 1)); subst; try reflexivity; lia. }
      destruct (Z.eqb_spec it (nv - 1)) as [La|La]; rewrite E'; cbn [bind]; (eexists; split; [reflexivity|]; cbv beta iota).
      - split; [lia|]. split; [auto|]. exact G2.
      - split; [auto|]. split; [lia|]. exact G2. }
    rewrite E1. cbn [bind]. destruct (HH2 eq_refl) as [-> [Fk Ek]].
    assert (grid_is net (nu + t) nv (fun i j => Some (h i j))) as G3.
    { apply (grid_is_eq _ _ _ _ _ HH3). intros i j Hi Hj. cbv beta. destruct (Z.ltb_spec j nv); [reflexivity|lia]. }
    destruct (grid_freeze_gen _ _ _ _ G3) as [g4 [E4 G4]]. rewrite E4. cbn [bind]. destruct G4 as [Gu [Gv [_ [_ [Gl _]]]]].
    eexists. split; [reflexivity|]. unfold sound_surface. cbn [DegreeU DegreeV KnotsU KnotsV Net]. rewrite Gu, Gv, Gl.
    split; [split; [split; [exact Fk|rewrite Ek; apply (ev_clamped _ _ _ C); lia]|]|]; [split; [exact Skv|]; split; [rewrite <- Ek, len_vals in Lev; lia|]; split; [exact Cv|reflexivity]|].
    split; [reflexivity|]. split; [reflexivity|]. split; [rewrite Ek; apply (ev_gains _ _ C); lia|]. auto.
  Qed.
  Lemma elevateU64_many : spans (vals (KnotsU s)) <> 1 -> Surface_ElevateDegreeU s t = AssertFail.
  Proof.
    intros Sp1. destruct W as [Sku [Skv [Cu [Cv Ln]]]]. pose proof Sku as [_ C]. pose proof Skv as [_ Cw]. pose proof El as [P1 [T _]].
    pose proof (cl_len _ _ C). pose proof (cl_degree _ _ C). pose proof (cl_len _ _ Cw). pose proof (cl_degree _ _ Cw). rewrite len_vals in *.
    destruct (full_grid_is (Net s)) as [f G]; [split; [lia|split; [lia|exact Ln]]|].
    pose proof (ev_length _ _ C t ltac:(lia)) as Lev.
    destruct (elevation64 (DegreeU s) t (KnotsU s) (map (fun i => f i 0) (zrange 0 (UCount (Net s)))) Sku) as [k [q [E [Fk [Ek Lq]]]]]; [rewrite len_map, len_zrange; lia|exact El|].
    rewrite <- Ek, !len_vals in Lev.
    unfold Surface_ElevateDegreeU, grid_uninit.
    destruct (Grid_make_ok (UCount (Net s) + t) (VCount (Net s)) (@None (vec4 b64)) ltac:(lia) ltac:(lia) Fit) as [g0 [E0 G0]]. rewrite E0. cbn [bind].
    rewrite for_up_first by lia. rewrite (Grid_GetV_ok _ _ _ _ 0 G) by lia. cbn [bind]. rewrite E. cbn [bind].
    destruct (0 =? VCount (Net s) - 1); (rewrite (Grid_SetV_assert _ _ _ _ _ _ G0) by (right; rewrite len_map; nia)); reflexivity.
  Qed.
End RowsU.

(** ** Surfaces *)
Section RowsV.
  Variables (s : surface b64) (t : Z).
  Hypothesis W : sound_surface s.
  Hypothesis El : elevatable0 (DegreeV s) t (vals (KnotsV s)).
  Hypothesis Fit : UCount (Net s) * (VCount (Net s) + t) <= INT_MAX.
  Lemma elevateV64_ok : spans (vals (KnotsV s)) = 1 ->
    exists d, Surface_ElevateDegreeV s t = Ok d /\ sound_surface d /\ DegreeV d = DegreeV s + t /\ DegreeU d = DegreeU s /\
      gains t (vals (KnotsV s)) (vals (KnotsV d)) /\ KnotsU d = KnotsU s /\ VCount (Net d) = VCount (Net s) + t /\ UCount (Net d) = UCount (Net s).
  Proof.
    intros Sp1. destruct W as [Skv [Sku [Cv [Cu Ln]]]]. pose proof Sku as [_ C]. pose proof Skv as [_ Cw]. pose proof El as [P1 [T _]].
    pose proof (cl_len _ _ C). pose proof (cl_degree _ _ C). pose proof (cl_len _ _ Cw). pose proof (cl_degree _ _ Cw). rewrite len_vals in *.
    destruct (full_grid_is (Net s)) as [f G]; [split; [lia|split; [lia|exact Ln]]|].
    set (nu := VCount (Net s)) in *. set (nv := UCount (Net s)) in *. set (p := DegreeV s) in *. set (K := KnotsV s) in *.
    pose proof (ev_length p (vals K) C t ltac:(lia)) as Lev. rewrite Sp1, len_vals in Lev.
    pose (row := fun j => map (f j) (zrange 0 nu)).
    assert (forall j, exists k q, NurbsDegreeElevation K (row j) p t = Ok (p + t, k, q) /\ all_finite k /\ vals k = EV t (vals K) /\ len q = nu + t) as HR.
    { intros j. destruct (elevation64 p t K (row j) Sku) as [k [q [E [Fk [Ek Lq]]]]]; [unfold row; rewrite len_map, len_zrange; lia|exact El|].
      exists k, q. rewrite Ek in *. repeat (split; try assumption). rewrite <- Ek, len_vals in Lev. lia. }
    unfold Surface_ElevateDegreeV. fold nu nv p K. unfold grid_uninit.
    destruct (Grid_make_ok nv (nu + t) (@None (vec4 b64)) ltac:(lia) ltac:(lia) Fit) as [g0 [E0 G0]]. rewrite E0. cbn [bind].
    match goal with |- context [for_up 0 nv ?bo ?s0] =>
      destruct (for_up_inv (fun it '(dg, kn, net) => (it < nv -> dg = p /\ kn = K) /\ (it = nv -> dg = p + t /\ all_finite kn /\ vals kn = EV t (vals K)) /\
        exists h, grid_is net nv (nu + t) (fun j i => if j <? it then Some (h j i) else None)) 0 nv bo s0) as [[[dg kn] net] [E1 [_ [HH2 [h HH3]]]]] end.
    { lia. }
    { split; [auto|]. split; [lia|]. exists (fun _ _ => Vec4 n0 n0 n0 n0). apply (grid_is_eq _ _ _ _ _ G0). intros j i Hj Hi. destruct (Z.ltb_spec j 0); [lia|reflexivity]. }
    { intros it [[dg kn] net] Hi [H1' [_ [h Gn]]]. destruct (H1' ltac:(lia)) as [-> ->]. rewrite (Grid_GetU_ok _ _ _ _ it G) by lia. cbn [bind]. fold (row it).
      destruct (HR it) as [k [q [E [Fk [Ek Lq]]]]]. rewrite E. cbn [bind].
      destruct (Grid_SetU_ok net _ _ _ it (fun c => Some (znth (Vec4 n0 n0 n0 n0) q c)) Gn Hi) as [net1 [E' G1]].
      assert (map (fun c => Some (znth (Vec4 n0 n0 n0 n0) q c)) (zrange 0 (nu + t)) = map Some q) as Em.
      { rewrite <- map_map with (g := Some). rewrite <- Lq. rewrite <- list_tab. reflexivity. }
      rewrite Em in E'.
      assert (exists h', grid_is net1 nv (nu + t) (fun j i => if j <? it + 1 then Some (h' j i) else None)) as G2.
      { exists (fun j i => if j =? it then znth (Vec4 n0 n0 n0 n0) q i else h j i). apply (grid_is_eq _ _ _ _ _ G1). intros j i Hj Hi'. cbv beta.
        destruct (Z.eqb_spec j it), (Z.ltb_spec j it), (Z.ltb_spec j (it + 1)); subst; try reflexivity; lia. }
      destruct (Z.eqb_spec it (nv - 1)) as [La|La]; rewrite E'; cbn [bind]; (eexists; split; [reflexivity|]; cbv beta iota).
      - split; [lia|]. split; [auto|]. exact G2.
      - split; [auto|]. split; [lia|]. exact G2. }
    rewrite E1. cbn [bind]. destruct (HH2 eq_refl) as [-> [Fk Ek]].
    assert (grid_is net nv (nu + t) (fun j i => Some (h j i))) as G3.
    { apply (grid_is_eq _ _ _ _ _ HH3). intros j i Hj Hi. cbv beta. destruct (Z.ltb_spec j nv); [reflexivity|lia]. }
    destruct (grid_freeze_gen _ _ _ _ G3) as [g4 [E4 G4]]. rewrite E4. cbn [bind]. destruct G4 as [Gu [Gv [_ [_ [Gl _]]]]].
    eexists. split; [reflexivity|]. unfold sound_surface. cbn [DegreeV DegreeU KnotsV KnotsU Net]. rewrite Gu, Gv, Gl.
    split; [split; [exact Skv|]; split; [split; [exact Fk|rewrite Ek; apply (ev_clamped _ _ _ C); lia]|]; split; [exact Cv|]; split; [rewrite <- Ek, len_vals in Lev; lia|reflexivity]|].
    split; [reflexivity|]. split; [reflexivity|]. split; [rewrite Ek; apply (ev_gains _ _ C); lia|]. auto.
  Qed.
  Lemma elevateV64_many : spans (vals (KnotsV s)) <> 1 -> Surface_ElevateDegreeV s t = AssertFail.
  Proof.
    intros Sp1. destruct W as [Skv [Sku [Cv [Cu Ln]]]]. pose proof Sku as [_ C]. pose proof Skv as [_ Cw]. pose proof El as [P1 [T _]].
    pose proof (cl_len _ _ C). pose proof (cl_degree _ _ C). pose proof (cl_len _ _ Cw). pose proof (cl_degree _ _ Cw). rewrite len_vals in *.
    destruct (full_grid_is (Net s)) as [f G]; [split; [lia|split; [lia|exact Ln]]|].
    pose proof (ev_length _ _ C t ltac:(lia)) as Lev.
    destruct (elevation64 (DegreeV s) t (KnotsV s) (map (f 0) (zrange 0 (VCount (Net s)))) Sku) as [k [q [E [Fk [Ek Lq]]]]]; [rewrite len_map, len_zrange; lia|exact El|].
    rewrite <- Ek, !len_vals in Lev.
    unfold Surface_ElevateDegreeV, grid_uninit.
    destruct (Grid_make_ok (UCount (Net s)) (VCount (Net s) + t) (@None (vec4 b64)) ltac:(lia) ltac:(lia) Fit) as [g0 [E0 G0]]. rewrite E0. cbn [bind].
    rewrite for_up_first by lia. rewrite (Grid_GetU_ok _ _ _ _ 0 G) by lia. cbn [bind]. rewrite E. cbn [bind].
    destruct (0 =? UCount (Net s) - 1); (rewrite (Grid_SetU_assert _ _ _ _ _ _ G0) by (right; rewrite len_map; nia)); reflexivity.
  Qed.
End RowsV.

Lemma bezier_elevatable0 p t K : clamped p K -> 1 <= p -> 1 <= t -> p + t <= 29 -> len K - p - 1 = p + 1 -> elevatable0 p t K /\ spans K = 1.
Proof.
  intros C P T B L. destruct (bezier_elevatable p t K C P T B L) as [[H1 [H2 [H3 [H4 [H5 [_ H6]]]]]] S]. split; [|exact S]. unfold elevatable0. auto 8.
Qed.
Lemma C105_U_lemma (s : surface b64) t : sound_surface s -> UCount (Net s) = DegreeU s + 1 -> 1 <= DegreeU s -> 1 <= t -> DegreeU s + t <= 29 ->
  (UCount (Net s) + t) * VCount (Net s) <= INT_MAX ->
  exists d, Surface_ElevateDegreeU s t = Ok d /\ sound_surface d /\ DegreeU d = DegreeU s + t /\ DegreeV d = DegreeV s /\
    gains t (vals (KnotsU s)) (vals (KnotsU d)) /\ KnotsV d = KnotsV s /\ UCount (Net d) = UCount (Net s) + t /\ VCount (Net d) = VCount (Net s).
Proof.
  intros W Bz P1 T B Fit. pose proof W as [[_ C] [_ [Cn _]]].
  destruct (bezier_elevatable0 (DegreeU s) t (vals (KnotsU s)) C P1 T B ltac:(rewrite len_vals; lia)) as [El Sp]. apply elevateU64_ok; assumption.
Qed.
Lemma C105_V_lemma (s : surface b64) t : sound_surface s -> VCount (Net s) = DegreeV s + 1 -> 1 <= DegreeV s -> 1 <= t -> DegreeV s + t <= 29 ->
  UCount (Net s) * (VCount (Net s) + t) <= INT_MAX ->
  exists d, Surface_ElevateDegreeV s t = Ok d /\ sound_surface d /\ DegreeV d = DegreeV s + t /\ DegreeU d = DegreeU s /\
    gains t (vals (KnotsV s)) (vals (KnotsV d)) /\ KnotsU d = KnotsU s /\ VCount (Net d) = VCount (Net s) + t /\ UCount (Net d) = UCount (Net s).
Proof.
  intros W Bz P1 T B Fit. pose proof W as [_ [[_ C] [_ [Cn _]]]].
  destruct (bezier_elevatable0 (DegreeV s) t (vals (KnotsV s)) C P1 T B ltac:(rewrite len_vals; lia)) as [El Sp]. apply elevateV64_ok; assumption.
Qed.
Lemma C105_manyU_lemma (s : surface b64) t : sound_surface s -> UCount (Net s) <> DegreeU s + 1 -> 1 <= DegreeU s -> 1 <= t -> DegreeU s + t <= 29 ->
  interior_multiplicity_le (DegreeU s) (vals (KnotsU s)) -> spread (vals (KnotsU s)) ->
  UCount (Net s) + t * spans (vals (KnotsU s)) <= 2 * (UCount (Net s) - 1 + t) ->
  (UCount (Net s) + t) * VCount (Net s) <= INT_MAX -> Surface_ElevateDegreeU s t = AssertFail.
Proof.
  intros W Bz P1 T B Im Sp Bf Fit. pose proof W as [[_ C] [_ [Cn _]]]. apply elevateU64_many; try assumption.
  - eapply elevatable0_of; eassumption.
  - apply (several_spans (DegreeU s)); [exact C|rewrite len_vals; lia].
Qed.
Lemma C105_manyV_lemma (s : surface b64) t : sound_surface s -> VCount (Net s) <> DegreeV s + 1 -> 1 <= DegreeV s -> 1 <= t -> DegreeV s + t <= 29 ->
  interior_multiplicity_le (DegreeV s) (vals (KnotsV s)) -> spread (vals (KnotsV s)) ->
  VCount (Net s) + t * spans (vals (KnotsV s)) <= 2 * (VCount (Net s) - 1 + t) ->
  UCount (Net s) * (VCount (Net s) + t) <= INT_MAX -> Surface_ElevateDegreeV s t = AssertFail.
Proof.
  intros W Bz P1 T B Im Sp Bf Fit. pose proof W as [_ [[_ C] [_ [Cn _]]]]. apply elevateV64_many; try assumption.
  - eapply elevatable0_of; eassumption.
  - apply (several_spans (DegreeV s)); [exact C|rewrite len_vals; lia].
Qed.
