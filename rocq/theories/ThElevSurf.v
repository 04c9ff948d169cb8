(** Degree elevation of curves and surfaces: C40, C41, C52. *)
From Coq Require Import Reals ZArith List Lra Lia Permutation.
From Verif Require Import Outcome Num ModelCore ModelAlgo ModelCurve ModelSurface SpecCore SpecBasis SpecCurve SpecSurface SpecBezier SpecElevate
  ThOutcome ThReal ThKnots ThMath ThSum ThVec ThGrid ThGeom ThSpline ThBasis ThCurve ThInsert ThCurveWit ThSurface ThSurface2 ThCoreWit ThSurfWit ThSurfRemove ThSurfRemove2
  ThRemove ThReverse ThPolar ThElevKnots ThElevPos ThElevForm ThElevCode ThElevRemove ThElevLoop ThElevate.
Import ListNotations.
Open Scope Z_scope.

(** ** Curves *)
Lemma C40_elevate_lemma c t : wf_curve c -> 1 <= Degree c -> 1 <= t -> Degree c + t <= 29 ->
  interior_multiplicity_le (Degree c) (Knots c) -> spread (Knots c) -> gentle (Degree c) t (Knots c) ->
  len (ControlPoints c) + t * spans (Knots c) <= 2 * (len (ControlPoints c) - 1 + t) ->
  exists d, Curve_ElevateDegree c t = Ok d /\ wf_curve d /\ Degree d = Degree c + t /\ gains t (Knots c) (Knots d) /\
    same_curve c d /\ forall x, Curve_Evaluate d x = Curve_Evaluate c x.
Proof.
  intros W P1 T B Im Sp Ge Bf. pose proof (wf_count c W) as Cn. pose proof (wf_knots c W) as C.
  destruct (nurbs_elevation c t W) as [d [E El]]; [unfold elevatable; repeat (split; try assumption); lia|].
  pose proof El as [Ed [Ek [Wd _]]]. pose proof (elevated_same c d t W ltac:(lia) El) as Sm.
  exists d. split.
  - unfold Curve_ElevateDegree. destruct (Z.leb_spec 1 t); [|lia]. cbn [assert_ bind]. rewrite E. cbn [bind]. destruct d; reflexivity.
  - split; [exact Wd|]. split; [exact Ed|]. split; [rewrite Ek; apply (ev_gains _ _ C); lia|]. split; [exact Sm|].
    apply same_curve_evaluate; assumption.
Qed.
Lemma count_pos x l : In x l -> 1 <= count x l.
Proof. intros I. unfold count. apply (count_occ_In Req_EM_T) in I. lia. Qed.
Lemma gentle_small p t l : p <= 9 -> 1 <= t -> gentle p t l.
Proof.
  intros P T x y [Ix [Iy _]] _ _. pose proof (count_pos x l Ix). destruct (Z_le_gt_dec (count y l) (count x l + 1)); [left; assumption|right; lia].
Qed.
Lemma C40_small_lemma c : wf_curve c -> 1 <= Degree c <= 9 -> interior_multiplicity_le (Degree c) (Knots c) -> spread (Knots c) ->
  exists d, Curve_ElevateDegree c 1 = Ok d /\ wf_curve d /\ Degree d = Degree c + 1 /\ gains 1 (Knots c) (Knots d) /\
    same_curve c d /\ forall x, Curve_Evaluate d x = Curve_Evaluate c x.
Proof.
  intros W P Im Sp. pose proof (wf_count c W). pose proof (wf_knots c W) as C. pose proof (nodup_bound _ _ C). pose proof (cl_len _ _ C). apply C40_elevate_lemma; try assumption; try lia.
  - apply gentle_small; lia.
  - unfold spans. lia.
Qed.

(** ** Surfaces *)
Section Rows.
  Variables (s : surface R) (t : Z).
  Hypothesis W : wf_surface s.
  Hypothesis Fit : (UCount (Net s) + t) * VCount (Net s) <= INT_MAX.
  Lemma elevateU_ok : elevatable (DegreeU s) t (KnotsU s) -> spans (KnotsU s) = 1 ->
    exists d, Surface_ElevateDegreeU s t = Ok d /\ wf_surface d /\ DegreeU d = DegreeU s + t /\ DegreeV d = DegreeV s /\
      gains t (KnotsU s) (KnotsU d) /\ KnotsV d = KnotsV s /\ forall u v, Surface_Evaluate d u v = Surface_Evaluate s u v.
  Proof.
    intros El Sp1. pose proof (wf_counts s W) as [U0 V0]. pose proof (wf_grid s W) as G. pose proof El as [P1 [T _]].
    pose proof (ws_knotsU s W) as C. pose proof (ws_countU s W) as CnU. pose proof (ws_countV s W) as CnV.
    set (nu := UCount (Net s)) in *. set (nv := VCount (Net s)) in *. set (p := DegreeU s) in *. set (K := KnotsU s) in *.
    pose proof (ev_length p K C t ltac:(lia)) as Lev. rewrite Sp1 in Lev.
    pose (q := fun j => match NurbsDegreeElevation K (rowU nu (gp s) j) p t with Ok (_, _, q) => q | _ => [] end).
    pose (D := fun j => Curve (p + t) (EV t K) (q j)).
    assert (forall j, NurbsDegreeElevation K (rowU nu (gp s) j) p t = Ok (p + t, EV t K, q j) /\ elevated (curveU s j) (D j) t) as HR.
    { intros j. destruct (nurbs_elevation (curveU s j) t (curveU_wf s j W) El) as [d [E Ee]].
      pose proof Ee as [Ed [Ek _]]. unfold curveU in E. cbn [Knots ControlPoints Degree] in E. fold nu p K in E. unfold curveU in Ed, Ek. cbn [Degree Knots] in Ed, Ek. fold p K in Ed, Ek.
      assert (q j = ControlPoints d) as Eq by (unfold q; rewrite E; reflexivity).
      rewrite E, Eq, Ed, Ek. split; [reflexivity|]. unfold D. rewrite Eq, <- Ed, <- Ek. destruct d; exact Ee. }
    assert (forall j, len (q j) = nu + t) as Lq.
    { intros j. destruct (HR j) as [_ [_ [_ [Wd _]]]]. pose proof (wf_count _ Wd) as L. unfold D in L. cbn [ControlPoints Knots Degree] in L. lia. }
    unfold Surface_ElevateDegreeU. fold nu nv p K. unfold grid_uninit.
    destruct (Grid_make_ok (nu + t) nv (@None (vec4 R)) ltac:(lia) ltac:(lia) Fit) as [g0 [E0 G0]]. rewrite E0. cbn [bind].
    match goal with |- context [for_up 0 nv ?bo ?s0] =>
      destruct (for_up_inv (fun it '(dg, kn, net) => (it < nv -> dg = p /\ kn = K) /\ (it = nv -> dg = p + t /\ kn = EV t K) /\
        grid_is net (nu + t) nv (fun i j => if j <? it then Some (nthp (q j) i) else None)) 0 nv bo s0) as [[[dg kn] net] [E1 [_ [H2 H3]]]] end.
    { lia. }
    { split; [auto|]. split; [lia|]. apply (grid_is_eq _ _ _ _ _ G0). intros i j Hi Hj. destruct (Z.ltb_spec j 0); [lia|reflexivity]. }
    { intros it [[dg kn] net] Hi [H1 [_ Gn]]. destruct (H1 ltac:(lia)) as [-> ->]. rewrite (getV_row s nu nv (gp s) G) by lia. cbn [bind].
      rewrite (proj1 (HR it)). cbn [bind].
      destruct (Grid_SetV_ok net _ _ _ it (fun c => Some (nthp (q it) c)) Gn Hi) as [net1 [E G1]].
      assert (map (fun c => Some (nthp (q it) c)) (zrange 0 (nu + t)) = map Some (q it)) as Em.
      { rewrite <- map_map with (g := Some). rewrite <- (Lq it). change (map (nthp (q it)) (zrange 0 (len (q it)))) with (map (fun i => znth (Vec4 0 0 0 1)%R (q it) i) (zrange 0 (len (q it)))).
        rewrite <- list_tab. reflexivity. }
      rewrite Em in E. destruct (Z.eqb_spec it (nv - 1)) as [La|La]; rewrite E; cbn [bind]; (eexists; split; [reflexivity|]; cbv beta iota).
      - split; [lia|]. split; [auto|]. apply (grid_is_eq _ _ _ _ _ G1). intros i j Hi' Hj. cbv beta. destruct (Z.eqb_spec j it), (Z.ltb_spec j it), (Z.ltb_spec j (it + 1)); subst; try reflexivity; lia.
      - split; [auto|]. split; [lia|]. apply (grid_is_eq _ _ _ _ _ G1). intros i j Hi' Hj. cbv beta. destruct (Z.eqb_spec j it), (Z.ltb_spec j it), (Z.ltb_spec j (it + 1)); subst; try reflexivity; lia. }
    rewrite E1. cbn [bind]. destruct (H2 eq_refl) as [-> ->].
    assert (grid_is net (nu + t) nv (fun i j => Some (nthp (q j) i))) as G3.
    { apply (grid_is_eq _ _ _ _ _ H3). intros i j Hi Hj. cbv beta. destruct (Z.ltb_spec j nv); [reflexivity|lia]. }
    destruct (grid_freeze_ok _ _ _ _ G3) as [g4 [E4 G4]]. rewrite E4. cbn [bind].
    eexists. split; [reflexivity|]. cbn [DegreeU DegreeV KnotsU KnotsV]. set (d := Surface _ _ _ _ _).
    assert (wf_surface d) as Wd.
    { eapply wf_of_grid; unfold d; cbn [DegreeU DegreeV KnotsU KnotsV Net].
      - apply (ev_clamped p t K C ltac:(lia)).
      - apply W.
      - replace (len (EV t K) - (p + t) - 1) with (nu + t) by lia. replace (len (KnotsV s) - DegreeV s - 1) with nv by lia. exact G4.
      - intros i j Hi Hj. destruct (HR j) as [_ [_ [_ [Wj _]]]]. apply (cp_weight (D j) i (wf_weights _ Wj)). }
    split; [exact Wd|]. split; [reflexivity|]. split; [reflexivity|]. split; [apply (ev_gains p K C); lia|]. split; [reflexivity|].
    apply hsurf_same; [exact W|exact Wd|]. intros f x y Lf Hx Hy. unfold hsurf. unfold d. cbn [DegreeU DegreeV KnotsU KnotsV Net]. fold d. fold p K.
    apply spl_ext. intros j Hj. destruct (HR j) as [_ Ej]. pose proof (elevated_hsum (curveU s j) (D j) t f x (curveU_wf s j W) ltac:(lia) Ej Lf Hx) as Hs.
    unfold hsum in Hs. unfold curveU in Hs. cbn [ControlPoints] in Hs. fold nu p K in Hs. unfold rowU in Hs at 1. rewrite len_map, len_zrange in Hs. unfold D in Hs at 1. cbn [ControlPoints] in Hs.
    rewrite Lq in Hs. unfold spl. replace (len (EV t K) - (p + t) - 1) with (nu + t) by lia. rewrite <- CnU. replace (Z.max 0 (nu - 0)) with nu in Hs by lia.
    transitivity (zsum 0 (nu + t) (fun i => (basis_fun (D j) i x * f (hp (D j) i))%R)).
    - apply zsum_ext. intros i Hi. unfold basis_fun, D. cbn [Knots Degree]. f_equal. f_equal. unfold ghp, hp. f_equal. rewrite (gp_grid d (nu + t) nv (fun i j => nthp (q j) i) i j G4) by lia. reflexivity.
    - rewrite Hs. apply zsum_ext. intros i Hi. unfold basis_fun. cbn [Knots Degree]. unfold ghp, hp, rowU. rewrite (cp_tab p K (fun i => gp s i j) nu i) by lia. reflexivity.
  Qed.
  (** with more than one span the rows never fit *)
  Lemma elevateU_many : elevatable (DegreeU s) t (KnotsU s) -> spans (KnotsU s) <> 1 -> Surface_ElevateDegreeU s t = AssertFail.
  Proof.
    intros El Sp1. pose proof (wf_counts s W) as [U0 V0]. pose proof (wf_grid s W) as G. pose proof El as [P1 [T _]].
    pose proof (ws_knotsU s W) as C. pose proof (ws_countU s W) as CnU.
    pose proof (ev_length _ _ C t ltac:(lia)) as Lev.
    destruct (nurbs_elevation (curveU s 0) t (curveU_wf s 0 W) El) as [d [E [Ed [Ek [Wd _]]]]]. pose proof (wf_count _ Wd) as Ld. rewrite Ed, Ek in Ld. unfold curveU in E, Ld. cbn [Knots ControlPoints Degree] in E, Ld.
    unfold Surface_ElevateDegreeU, grid_uninit.
    destruct (Grid_make_ok (UCount (Net s) + t) (VCount (Net s)) (@None (vec4 R)) ltac:(lia) ltac:(lia) Fit) as [g0 [E0 G0]]. rewrite E0. cbn [bind].
    rewrite for_up_first by lia. rewrite (getV_row s _ _ (gp s) G) by lia. cbn [bind]. rewrite E. cbn [bind].
    destruct (0 =? VCount (Net s) - 1); (rewrite (Grid_SetV_assert _ _ _ _ _ _ G0) by (right; rewrite len_map; nia)); reflexivity.
  Qed.
End Rows.

Section Columns.
  Variables (s : surface R) (t : Z).
  Hypothesis W : wf_surface s.
  Hypothesis Fit : UCount (Net s) * (VCount (Net s) + t) <= INT_MAX.
  Lemma elevateV_ok : elevatable (DegreeV s) t (KnotsV s) -> spans (KnotsV s) = 1 ->
    exists d, Surface_ElevateDegreeV s t = Ok d /\ wf_surface d /\ DegreeV d = DegreeV s + t /\ DegreeU d = DegreeU s /\
      gains t (KnotsV s) (KnotsV d) /\ KnotsU d = KnotsU s /\ forall u v, Surface_Evaluate d u v = Surface_Evaluate s u v.
  Proof.
    intros El Sp1. pose proof (wf_counts s W) as [V0 U0]. pose proof (wf_grid s W) as G. pose proof El as [P1 [T _]].
    pose proof (ws_knotsV s W) as C. pose proof (ws_countV s W) as CnV. pose proof (ws_countU s W) as CnU.
    set (nu := VCount (Net s)) in *. set (nv := UCount (Net s)) in *. set (p := DegreeV s) in *. set (K := KnotsV s) in *.
    pose proof (ev_length p K C t ltac:(lia)) as Lev. rewrite Sp1 in Lev.
    pose (q := fun j => match NurbsDegreeElevation K (rowV nu (gp s) j) p t with Ok (_, _, q) => q | _ => [] end).
    pose (D := fun j => Curve (p + t) (EV t K) (q j)).
    assert (forall j, NurbsDegreeElevation K (rowV nu (gp s) j) p t = Ok (p + t, EV t K, q j) /\ elevated (curveV s j) (D j) t) as HR.
    { intros j. destruct (nurbs_elevation (curveV s j) t (curveV_wf s j W) El) as [d [E Ee]].
      pose proof Ee as [Ed [Ek _]]. unfold curveV in E. cbn [Knots ControlPoints Degree] in E. fold nu p K in E. unfold curveV in Ed, Ek. cbn [Degree Knots] in Ed, Ek. fold p K in Ed, Ek.
      assert (q j = ControlPoints d) as Eq by (unfold q; rewrite E; reflexivity).
      rewrite E, Eq, Ed, Ek. split; [reflexivity|]. unfold D. rewrite Eq, <- Ed, <- Ek. destruct d; exact Ee. }
    assert (forall j, len (q j) = nu + t) as Lq.
    { intros j. destruct (HR j) as [_ [_ [_ [Wd _]]]]. pose proof (wf_count _ Wd) as L. unfold D in L. cbn [ControlPoints Knots Degree] in L. lia. }
    unfold Surface_ElevateDegreeV. fold nu nv p K. unfold grid_uninit.
    destruct (Grid_make_ok nv (nu + t) (@None (vec4 R)) ltac:(lia) ltac:(lia) Fit) as [g0 [E0 G0]]. rewrite E0. cbn [bind].
    match goal with |- context [for_up 0 nv ?bo ?s0] =>
      destruct (for_up_inv (fun it '(dg, kn, net) => (it < nv -> dg = p /\ kn = K) /\ (it = nv -> dg = p + t /\ kn = EV t K) /\
        grid_is net nv (nu + t) (fun j i => if j <? it then Some (nthp (q j) i) else None)) 0 nv bo s0) as [[[dg kn] net] [E1 [_ [H2 H3]]]] end.
    { lia. }
    { split; [auto|]. split; [lia|]. apply (grid_is_eq _ _ _ _ _ G0). intros j i Hj Hi. destruct (Z.ltb_spec j 0); [lia|reflexivity]. }
    { intros it [[dg kn] net] Hi [H1 [_ Gn]]. destruct (H1 ltac:(lia)) as [-> ->]. rewrite (getU_row s nv nu (gp s) G) by lia. cbn [bind].
      rewrite (proj1 (HR it)). cbn [bind].
      destruct (Grid_SetU_ok net _ _ _ it (fun c => Some (nthp (q it) c)) Gn Hi) as [net1 [E G1]].
      assert (map (fun c => Some (nthp (q it) c)) (zrange 0 (nu + t)) = map Some (q it)) as Em.
      { rewrite <- map_map with (g := Some). rewrite <- (Lq it). change (map (nthp (q it)) (zrange 0 (len (q it)))) with (map (fun i => znth (Vec4 0 0 0 1)%R (q it) i) (zrange 0 (len (q it)))).
        rewrite <- list_tab. reflexivity. }
      rewrite Em in E. destruct (Z.eqb_spec it (nv - 1)) as [La|La]; rewrite E; cbn [bind]; (eexists; split; [reflexivity|]; cbv beta iota).
      - split; [lia|]. split; [auto|]. apply (grid_is_eq _ _ _ _ _ G1). intros j i Hj Hi'. cbv beta. destruct (Z.eqb_spec j it), (Z.ltb_spec j it), (Z.ltb_spec j (it + 1)); subst; try reflexivity; lia.
      - split; [auto|]. split; [lia|]. apply (grid_is_eq _ _ _ _ _ G1). intros j i Hj Hi'. cbv beta. destruct (Z.eqb_spec j it), (Z.ltb_spec j it), (Z.ltb_spec j (it + 1)); subst; try reflexivity; lia. }
    rewrite E1. cbn [bind]. destruct (H2 eq_refl) as [-> ->].
    assert (grid_is net nv (nu + t) (fun j i => Some (nthp (q j) i))) as G3.
    { apply (grid_is_eq _ _ _ _ _ H3). intros j i Hj Hi. cbv beta. destruct (Z.ltb_spec j nv); [reflexivity|lia]. }
    destruct (grid_freeze_ok _ _ _ _ G3) as [g4 [E4 G4]]. rewrite E4. cbn [bind].
    eexists. split; [reflexivity|]. cbn [DegreeV DegreeU KnotsV KnotsU]. set (d := Surface _ _ _ _ _).
    assert (wf_surface d) as Wd.
    { eapply wf_of_grid; unfold d; cbn [DegreeV DegreeU KnotsV KnotsU Net].
      - apply W.
      - apply (ev_clamped p t K C ltac:(lia)).
      - replace (len (EV t K) - (p + t) - 1) with (nu + t) by lia. replace (len (KnotsU s) - DegreeU s - 1) with nv by lia. exact G4.
      - intros j i Hj Hi. destruct (HR j) as [_ [_ [_ [Wj _]]]]. apply (cp_weight (D j) i (wf_weights _ Wj)). }
    split; [exact Wd|]. split; [reflexivity|]. split; [reflexivity|]. split; [apply (ev_gains p K C); lia|]. split; [reflexivity|].
    apply hsurf_same; [exact W|exact Wd|]. intros f x y Lf Hx Hy. rewrite !hsurf_swap. unfold d. cbn [DegreeV DegreeU KnotsV KnotsU Net]. fold d. fold p K.
    apply spl_ext. intros j Hj. destruct (HR j) as [_ Ej]. pose proof (elevated_hsum (curveV s j) (D j) t f y (curveV_wf s j W) ltac:(lia) Ej Lf Hy) as Hs.
    unfold hsum in Hs. unfold curveV in Hs. cbn [ControlPoints] in Hs. fold nu p K in Hs. unfold rowV in Hs at 1. rewrite len_map, len_zrange in Hs. unfold D in Hs at 1. cbn [ControlPoints] in Hs.
    rewrite Lq in Hs. unfold spl. replace (len (EV t K) - (p + t) - 1) with (nu + t) by lia. rewrite <- CnV. replace (Z.max 0 (nu - 0)) with nu in Hs by lia.
    transitivity (zsum 0 (nu + t) (fun i => (basis_fun (D j) i y * f (hp (D j) i))%R)).
    - apply zsum_ext. intros i Hi. unfold basis_fun, D. cbn [Knots Degree]. f_equal. f_equal. unfold ghp, hp. f_equal. rewrite (gp_grid d nv (nu + t) (fun j i => nthp (q j) i) j i G4) by lia. reflexivity.
    - rewrite Hs. apply zsum_ext. intros i Hi. unfold basis_fun. cbn [Knots Degree]. unfold ghp, hp, rowV. rewrite (cp_tab p K (fun i => gp s j i) nu i) by lia. reflexivity.
  Qed.
  (** with more than one span the rows never fit *)
  Lemma elevateV_many : elevatable (DegreeV s) t (KnotsV s) -> spans (KnotsV s) <> 1 -> Surface_ElevateDegreeV s t = AssertFail.
  Proof.
    intros El Sp1. pose proof (wf_counts s W) as [V0 U0]. pose proof (wf_grid s W) as G. pose proof El as [P1 [T _]].
    pose proof (ws_knotsV s W) as C. pose proof (ws_countV s W) as CnV.
    pose proof (ev_length _ _ C t ltac:(lia)) as Lev.
    destruct (nurbs_elevation (curveV s 0) t (curveV_wf s 0 W) El) as [d [E [Ed [Ek [Wd _]]]]]. pose proof (wf_count _ Wd) as Ld. rewrite Ed, Ek in Ld. unfold curveV in E, Ld. cbn [Knots ControlPoints Degree] in E, Ld.
    unfold Surface_ElevateDegreeV, grid_uninit.
    destruct (Grid_make_ok (UCount (Net s)) (VCount (Net s) + t) (@None (vec4 R)) ltac:(lia) ltac:(lia) Fit) as [g0 [E0 G0]]. rewrite E0. cbn [bind].
    rewrite for_up_first by lia. rewrite (getU_row s _ _ (gp s) G) by lia. cbn [bind]. rewrite E. cbn [bind].
    destruct (0 =? UCount (Net s) - 1); (rewrite (Grid_SetU_assert _ _ _ _ _ _ G0) by (right; rewrite len_map; nia)); reflexivity.
  Qed.
End Columns.

(** One span: the net is p + 1 points wide. *)
Lemma bezier_elevatable p t K : clamped p K -> 1 <= p -> 1 <= t -> p + t <= 29 -> len K - p - 1 = p + 1 -> elevatable p t K /\ spans K = 1.
Proof.
  intros C P1 T B L. assert (forall x, In x K -> x = 0%R \/ x = 1%R) as H.
  { intros x I. apply In_kf in I. destruct I as [j [Hj <-]]. rewrite kf_at by exact Hj. destruct (Z_le_gt_dec j p); [left; apply (cl_zero _ _ C); lia|right; apply (cl_one _ _ C); lia]. }
  assert (spans K = 1) as S.
  { unfold spans. pose proof (nodup_bound _ _ C).
    assert (NoDup [0; 1]%R) as N2 by (constructor; [intros [E|[]]; lra|constructor; [intros []|constructor]]).
    assert (incl [0; 1]%R (nodup Req_EM_T K)) as I2.
    { intros x [<-|[<-|[]]]; apply nodup_In.
      - rewrite <- (cl_zero _ _ C 0) by lia. rewrite <- kf_at by lia. apply kf_In. lia.
      - rewrite <- (cl_one _ _ C (len K - 1)) by lia. rewrite <- kf_at by lia. apply kf_In. lia. }
    pose proof (NoDup_incl_length N2 I2). unfold len in *. cbn [length] in *. lia. }
  split; [|exact S]. unfold elevatable. split; [exact P1|]. split; [exact T|]. split; [exact B|]. split; [|split; [|split; [|lia]]].
  - intros x Hx. unfold count. assert (~ In x K) as N by (intros I; destruct (H x I); lra). apply (count_occ_not_In Req_EM_T) in N. rewrite N. lia.
  - intros x y [Ix [Iy [Lt _]]]. destruct (H x Ix), (H y Iy); subst; try lra. unfold close. intros A. apply Rabs_def2 in A. lra.
  - intros x y [Ix [_ [Lt _]]] X Y. exfalso. destruct (H x Ix); lra.
Qed.
Lemma several_spans p K : clamped p K -> len K - p - 1 <> p + 1 -> spans K <> 1.
Proof.
  intros C L S. pose proof (cl_len _ _ C). pose proof (cl_degree _ _ C). unfold spans in S. pose proof (cl_first _ _ C) as F. pose proof (cl_last _ _ C) as La.
  assert (at_ K (p + 1) <= at_ K (len K - p - 2))%R as Mo by (rewrite <- !kf_at by lia; apply (clamped_mono _ _ C); lia).
  assert (NoDup [0; at_ K (p + 1); 1]%R) as N3.
  { constructor; [intros [E|[E|[]]]; lra|]. constructor; [intros [E|[]]; lra|]. constructor; [intros []|constructor]. }
  assert (incl [0; at_ K (p + 1); 1]%R (nodup Req_EM_T K)) as I3.
  { intros x [<-|[<-|[<-|[]]]]; apply nodup_In.
    - rewrite <- (cl_zero _ _ C 0) by lia. rewrite <- kf_at by lia. apply kf_In. lia.
    - rewrite <- kf_at by lia. apply kf_In. lia.
    - rewrite <- (cl_one _ _ C (len K - 1)) by lia. rewrite <- kf_at by lia. apply kf_In. lia. }
  pose proof (NoDup_incl_length N3 I3). unfold len in *. cbn [length] in *. lia.
Qed.
Lemma C52_U_lemma s t : wf_surface s -> UCount (Net s) = DegreeU s + 1 -> 1 <= DegreeU s -> 1 <= t -> DegreeU s + t <= 29 ->
  (UCount (Net s) + t) * VCount (Net s) <= INT_MAX ->
  exists d, Surface_ElevateDegreeU s t = Ok d /\ wf_surface d /\ DegreeU d = DegreeU s + t /\ DegreeV d = DegreeV s /\
    gains t (KnotsU s) (KnotsU d) /\ KnotsV d = KnotsV s /\ forall u v, Surface_Evaluate d u v = Surface_Evaluate s u v.
Proof.
  intros W Bz P1 T B Fit. pose proof (ws_countU s W). destruct (bezier_elevatable (DegreeU s) t (KnotsU s) (ws_knotsU s W) P1 T B ltac:(lia)) as [El Sp].
  apply elevateU_ok; assumption.
Qed.
Lemma C52_V_lemma s t : wf_surface s -> VCount (Net s) = DegreeV s + 1 -> 1 <= DegreeV s -> 1 <= t -> DegreeV s + t <= 29 ->
  UCount (Net s) * (VCount (Net s) + t) <= INT_MAX ->
  exists d, Surface_ElevateDegreeV s t = Ok d /\ wf_surface d /\ DegreeV d = DegreeV s + t /\ DegreeU d = DegreeU s /\
    gains t (KnotsV s) (KnotsV d) /\ KnotsU d = KnotsU s /\ forall u v, Surface_Evaluate d u v = Surface_Evaluate s u v.
Proof.
  intros W Bz P1 T B Fit. pose proof (ws_countV s W). destruct (bezier_elevatable (DegreeV s) t (KnotsV s) (ws_knotsV s W) P1 T B ltac:(lia)) as [El Sp].
  apply elevateV_ok; assumption.
Qed.
Lemma C52_manyU_lemma s t : wf_surface s -> UCount (Net s) <> DegreeU s + 1 -> 1 <= DegreeU s -> 1 <= t -> DegreeU s + t <= 29 ->
  interior_multiplicity_le (DegreeU s) (KnotsU s) -> spread (KnotsU s) -> gentle (DegreeU s) t (KnotsU s) ->
  UCount (Net s) + t * spans (KnotsU s) <= 2 * (UCount (Net s) - 1 + t) ->
  (UCount (Net s) + t) * VCount (Net s) <= INT_MAX -> Surface_ElevateDegreeU s t = AssertFail.
Proof.
  intros W Bz P1 T B Im Sp Ge Bf Fit. pose proof (ws_countU s W). apply elevateU_many; try assumption.
  - unfold elevatable. repeat (split; try assumption). lia.
  - apply (several_spans (DegreeU s)); [apply W|lia].
Qed.
Lemma C52_manyV_lemma s t : wf_surface s -> VCount (Net s) <> DegreeV s + 1 -> 1 <= DegreeV s -> 1 <= t -> DegreeV s + t <= 29 ->
  interior_multiplicity_le (DegreeV s) (KnotsV s) -> spread (KnotsV s) -> gentle (DegreeV s) t (KnotsV s) ->
  VCount (Net s) + t * spans (KnotsV s) <= 2 * (VCount (Net s) - 1 + t) ->
  UCount (Net s) * (VCount (Net s) + t) <= INT_MAX -> Surface_ElevateDegreeV s t = AssertFail.
Proof.
  intros W Bz P1 T B Im Sp Ge Bf Fit. pose proof (ws_countV s W). apply elevateV_many; try assumption.
  - unfold elevatable. repeat (split; try assumption). lia.
  - apply (several_spans (DegreeV s)); [apply W|lia].
Qed.

(** ** Examples *)
Definition kex : list R := [0; 0; 0; 1/3; 1/2; 1/2; 1; 1; 1]%R.
Lemma kex_mult : interior_multiplicity_le 2 kex.
Proof. intros x Hx. unfold count, kex. cbn [count_occ]. repeat (destruct (Req_EM_T _ _); [try lra|]); lia. Qed.
Lemma kex_spread : spread kex.
Proof.
  intros x y [Ix [Iy [Lt _]]] A. unfold close in A. apply Rabs_def2 in A. cbn [kex In] in Ix, Iy.
  repeat (destruct Ix as [<-|Ix]; [repeat (destruct Iy as [<-|Iy]; [lra|]); contradiction|]). contradiction.
Qed.
Lemma kex_spans : spans kex = 3.
Proof.
  unfold spans, kex. cbn [nodup].
  repeat match goal with |- context [in_dec Req_EM_T ?a ?l] => destruct (in_dec Req_EM_T a l) as [I|I];
    [try (exfalso; cbn [In] in I; repeat (destruct I as [I|I]; [lra|]); contradiction); clear I|try (exfalso; apply I; cbn [In]; auto 6; fail); clear I] end.
  reflexivity.
Qed.
Lemma C41_elevate_lemma c t : wf_curve c -> 1 <= Degree c -> 1 <= t -> Degree c + t <= 29 ->
  interior_multiplicity_le (Degree c) (Knots c) -> spread (Knots c) -> gentle (Degree c) t (Knots c) ->
  len (ControlPoints c) + t * spans (Knots c) <= 2 * (len (ControlPoints c) - 1 + t) ->
  forall ub, Curve_ElevateDegree c t <> Undefined ub.
Proof. intros W P1 T B Im Sp Ge Bf ub. destruct (C40_elevate_lemma c t W P1 T B Im Sp Ge Bf) as [d [E _]]. rewrite E. discriminate. Qed.
Lemma C40_ex_lemma : wf_curve curve_ex /\ 1 <= Degree curve_ex /\ Degree curve_ex + 2 <= 29 /\
  interior_multiplicity_le (Degree curve_ex) (Knots curve_ex) /\ spread (Knots curve_ex) /\ gentle (Degree curve_ex) 2 (Knots curve_ex) /\
  len (ControlPoints curve_ex) + 2 * spans (Knots curve_ex) <= 2 * (len (ControlPoints curve_ex) - 1 + 2) /\ spans (Knots curve_ex) = 3.
Proof.
  split; [exact curve_ex_wf|]. split; [cbn; lia|]. split; [cbn; lia|]. split; [exact kex_mult|]. split; [exact kex_spread|].
  split; [apply gentle_small; cbn; lia|]. change (Knots curve_ex) with kex. rewrite kex_spans. split; [unfold len; cbn; lia|reflexivity].
Qed.
Definition bez_ex : surface R :=
  Surface 1 1 [0; 0; 1; 1]%R [0; 0; 1/2; 1; 1]%R
    (Grid 2 3 [Vec4 0 0 0 1; Vec4 1 0 0 2; Vec4 0 1 0 1; Vec4 1 1 0 3; Vec4 0 2 0 1; Vec4 1 2 0 2]%R).
Definition bez_exV : surface R :=
  Surface 1 1 [0; 0; 1/2; 1; 1]%R [0; 0; 1; 1]%R
    (Grid 3 2 [Vec4 0 0 0 1; Vec4 1 0 0 2; Vec4 0 1 0 1; Vec4 1 1 0 3; Vec4 0 2 0 1; Vec4 1 2 0 2]%R).
Lemma clamped_flat : clamped 1 [0; 0; 1; 1]%R.
Proof.
  constructor; try (unfold len; simpl; lia).
  - nondec.
  - intros i Hi. assert (i = 0 \/ i = 1) as [-> | ->] by lia; reflexivity.
  - unfold at_. simpl. lra.
  - unfold at_. simpl. lra.
  - change (len [0; 0; 1; 1]%R) with 4. intros i Hi. assert (i = 2 \/ i = 3) as [-> | ->] by lia; reflexivity.
Qed.
Lemma C52_ex_lemma : wf_surface bez_ex /\ UCount (Net bez_ex) = DegreeU bez_ex + 1 /\ 1 <= DegreeU bez_ex /\
  (UCount (Net bez_ex) + 28) * VCount (Net bez_ex) <= INT_MAX /\
  wf_surface bez_exV /\ VCount (Net bez_exV) = DegreeV bez_exV + 1 /\ 1 <= DegreeV bez_exV /\
  UCount (Net bez_exV) * (VCount (Net bez_exV) + 28) <= INT_MAX.
Proof.
  split; [constructor; try reflexivity; [exact clamped_flat|exact clamped_ex1|unfold positive_weights; cbn [bez_ex Net Values]; repeat (apply Forall_cons; [simpl; lra|]); apply Forall_nil]|].
  split; [reflexivity|]. split; [cbn; lia|]. split; [unfold INT_MAX; cbn; lia|].
  split; [constructor; try reflexivity; [exact clamped_ex1|exact clamped_flat|unfold positive_weights; cbn [bez_exV Net Values]; repeat (apply Forall_cons; [simpl; lra|]); apply Forall_nil]|].
  split; [reflexivity|]. split; [cbn; lia|unfold INT_MAX; cbn; lia].
Qed.
Lemma C52_many_ex_lemma : wf_surface surf_ex /\ UCount (Net surf_ex) <> DegreeU surf_ex + 1 /\ 1 <= DegreeU surf_ex /\
  interior_multiplicity_le (DegreeU surf_ex) (KnotsU surf_ex) /\ spread (KnotsU surf_ex) /\ gentle (DegreeU surf_ex) 1 (KnotsU surf_ex) /\
  UCount (Net surf_ex) + 1 * spans (KnotsU surf_ex) <= 2 * (UCount (Net surf_ex) - 1 + 1) /\ (UCount (Net surf_ex) + 1) * VCount (Net surf_ex) <= INT_MAX.
Proof.
  split; [exact surf_ex_wf|]. split; [cbn; lia|]. split; [cbn; lia|]. split; [exact kex_mult|]. split; [exact kex_spread|].
  split; [apply gentle_small; cbn; lia|]. change (KnotsU surf_ex) with kex. rewrite kex_spans. split; [cbn; lia|unfold INT_MAX; cbn; lia].
Qed.
