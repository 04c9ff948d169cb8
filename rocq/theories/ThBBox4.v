(** GetBoundingBox over the reals: the whole function (C43). *)
From Coq Require Import Reals QArith Qreals ZArith List Lra Lia Bool Permutation.
From Verif Require Import Outcome Num ModelCore ModelCurve SpecCore SpecBasis SpecCurve SpecSearch SpecBezier
  ThOutcome ThReal ThKnots ThVec ThBox ThSum ThSpline ThBasis ThCurve ThInsert ThCurveWit ThSearch ThBezier ThBezier2 ThBBox ThBBox2 ThBBox3.
Import ListNotations.
Open Scope Z_scope.

(** ** Extraction always ends for degrees of at least 1 *)
Lemma cut_total {T} `{Num T} p (ks : list T) (ctrl : list (vec4 T)) : 1 <= p -> KnotVector_Uniform p (2 * p + 2) = Ok ks -> forall fuel i,
  0 <= i -> len ctrl - i <= Z.of_nat fuel ->
  exists segs, extract_cut fuel p ctrl i = Ok segs /\ (forall s, In s segs -> len (ControlPoints s) = p + 1).
Proof.
  intros Hp Hk. induction fuel as [|fuel IH]; intros i Hi Hf; cbn [extract_cut];
    (destruct (Z.leb_spec 0 (i + p)); [|lia]); cbn [andb]; destruct (Z.ltb_spec (i + p) (len ctrl)).
  - lia.
  - exists []. split; [reflexivity|intros s []].
  - rewrite Hk. cbn [bind]. destruct (vget_ex ctrl i ltac:(lia)) as [q _].
    rewrite (tabulate_ok 0 (p + 1) _ (fun k => znth q ctrl (i + k))) by (intros k Hk'; apply vget_ok; lia). cbn [bind].
    destruct (IH (i + p) ltac:(lia) ltac:(lia)) as [segs [-> F]]. cbn [bind]. eexists. split; [reflexivity|].
    intros s [<-|Hs]; [|apply F; exact Hs]. cbn [ControlPoints]. rewrite len_map, len_zrange. lia.
  - exists []. split; [reflexivity|intros s []].
Qed.
Lemma cut_forall {T} `{Num T} (Q : vec4 T -> Prop) p ctrl : Forall Q ctrl -> forall fuel i segs,
  extract_cut fuel p ctrl i = Ok segs -> forall s, In s segs -> Forall Q (ControlPoints s).
Proof.
  intros F. induction fuel as [|fuel IH]; intros i segs E s Hs; cbn [extract_cut] in E.
  - destruct (_ && _); [discriminate|]. injection E as <-. destruct Hs.
  - destruct (_ && _); [|injection E as <-; destruct Hs].
    destruct (KnotVector_Uniform p (2 * p + 2)) as [ks| | | | |]; cbn [bind] in E; try discriminate.
    destruct (tabulate 0 (p + 1) (fun k => vget ctrl (i + k))) as [pts| | | | |] eqn:Et; cbn [bind] in E; try discriminate.
    destruct (extract_cut fuel p ctrl (i + p)) as [rest| | | | |] eqn:Er; cbn [bind] in E; try discriminate.
    injection E as <-. destruct Hs as [<-|Hs]; [|apply (IH _ _ Er s Hs)]. cbn [ControlPoints].
    apply Forall_forall. intros x Hx. rewrite Forall_forall in F. apply F.
    apply (tabulate_inv x) in Et. destruct Et as [L Hg]. apply (In_nth _ _ x) in Hx. destruct Hx as [k [Hk Ex]].
    assert (0 <= Z.of_nat k < p + 1) as Rk by (unfold len in L; lia). specialize (Hg (Z.of_nat k) Rk).
    unfold znth in Hg. rewrite Z.sub_0_r, Nat2Z.id, Ex in Hg. apply (vget_inv x) in Hg. destruct Hg as [Rx ->].
    apply nth_In. unfold len in Rx. lia.
Qed.
Lemma extract_total c : wf_curve c -> 1 <= Degree c ->
  exists segs, Curve_ExtractBezier c = Ok segs /\ forall s, In s segs -> len (ControlPoints s) = Degree c + 1.
Proof.
  intros W Hp. destruct (refine_ok (Degree c) (KnotVector_GetKnotPairs (Knots c)) c W eq_refl) as [d [E [Wd [Dd _]]]].
  unfold Curve_ExtractBezier. rewrite E. cbn [bind]. rewrite Dd.
  apply (cut_total (Degree c) (unit_knots (Degree c))); [exact Hp|apply uniform_unit; lia|lia|]. unfold len. lia.
Qed.

(** ** Polynomial curves stay polynomial *)
Lemma unit_cp c i : unit_weights c -> w4 (cp c i) = 1%R.
Proof.
  intros F. unfold cp. destruct (nth_in_or_default (Z.to_nat i) (ControlPoints c) (Vec4 0 0 0 1)%R) as [I|E].
  - unfold unit_weights in F. rewrite Forall_forall in F. apply F. exact I.
  - rewrite E. reflexivity.
Qed.
Lemma unit_of_cp c : (forall i, 0 <= i < len (ControlPoints c) -> w4 (cp c i) = 1%R) -> unit_weights c.
Proof.
  intros H. apply Forall_forall. intros q Hq. apply in_pt in Hq. destruct Hq as [i [Hi ->]]. apply (H i Hi).
Qed.
Lemma ins_pts_unit U p k u P : (forall i, w4 (P i) = 1%R) -> forall i, w4 (ins_pts U p k u P i) = 1%R.
Proof.
  intros H i. unfold ins_pts. destruct (i <=? k - p); [apply H|]. destruct (i <=? k); [|apply H].
  unfold blend, fromh. cbn [w4]. rewrite blend_h_lin by apply lin_w. cbn [ToHomo w4]. rewrite !H. lra.
Qed.
Lemma insert_list_unit us : forall c, wf_curve c -> Forall (fun u => 0 < u < 1)%R us -> unit_weights c ->
  forall ks pts, foldM (insert_one (Degree c)) us (Knots c, ControlPoints c) = Ok (ks, pts) -> Forall (fun q => w4 q = 1%R) pts.
Proof.
  induction us as [|u us IH]; intros c W F Uc ks pts E; cbn [foldM] in E.
  - injection E as _ <-. exact Uc.
  - inversion F as [|? ? Hu F']; subst. destruct (insert_one_ok c u W Hu) as [c1 [k [E1 [K I]]]].
    rewrite E1 in E. cbn [bind] in E. pose proof (inserted_wf c c1 k u W K Hu I) as W1. destruct I as [D1 [_ [_ Cp]]].
    rewrite <- D1 in E. apply (IH c1 W1 F') in E; [exact E|]. apply unit_of_cp. intros i Hi. rewrite Cp by exact Hi.
    apply ins_pts_unit. intros j. apply unit_cp. exact Uc.
Qed.
Lemma refine_unit p ks : forall c d, wf_curve c -> Degree c = p -> unit_weights c -> foldM (extract_refine p) ks c = Ok d -> unit_weights d.
Proof.
  induction ks as [|k ks IH]; intros c d W D Uc E; cbn [foldM] in E; [congruence|].
  destruct (extract_refine p c k) as [c1| | | | |] eqn:E1; cbn [bind] in E; try discriminate.
  assert (wf_curve c1 /\ Degree c1 = p /\ unit_weights c1) as [W1 [D1 U1]]; [|apply (IH c1 d W1 D1 U1 E)].
  unfold extract_refine in E1. revert E1. norm_R.
  destruct (Rleb_spec (kp_Value k) 0); cbn [orb]; [intros [= <-]; auto|].
  destruct (Rleb_spec 1 (kp_Value k)); [intros [= <-]; auto|].
  destruct (Z.leb_spec p (kp_Multiplicity k)); [intros [= <-]; auto|]. intros E1.
  destruct (C34_times_lemma c (kp_Value k) (p - kp_Multiplicity k) W ltac:(lra) ltac:(lia)) as [c2 [E2 [W2 [D2 _]]]].
  assert (c2 = c1) as -> by congruence. split; [exact W2|]. split; [congruence|].
  unfold Curve_InsertKnot_times in E1. rewrite vmake_ok in E1 by lia. cbn [bind] in E1.
  unfold Curve_InsertKnot_list in E1.
  destruct (foldM _ _ _) as [[ks' pts']| | | | |] eqn:Ef in E1; cbn [bind] in E1; try discriminate.
  assert (c1 = Curve (Degree c) ks' pts') as -> by congruence.
  apply (insert_list_unit _ c W) in Ef; [exact Ef| |exact Uc].
  apply Forall_forall. intros q Hq. apply repeat_spec in Hq. subst q. lra.
Qed.
Lemma extract_unit c segs : wf_curve c -> unit_weights c -> Curve_ExtractBezier c = Ok segs -> forall s, In s segs -> unit_weights s.
Proof.
  intros W Uc E. unfold Curve_ExtractBezier in E.
  destruct (foldM _ _ _) as [d| | | | |] eqn:Ef; cbn [bind] in E; try discriminate.
  apply (refine_unit _ _ c d W eq_refl Uc) in Ef. apply (cut_forall _ _ _ Ef _ _ _ E).
Qed.

(** ** The fold over the segments *)
Definition seg_step (fuel : nat) (p : Z) (eps : R) (global : option (bbox R)) (seg : curve R) :=
  bbox_loop fuel p eps [ControlPoints seg] global.
Lemma segments_ok p eps segs : 0 <= p -> (forall s, In s segs -> len (ControlPoints s) = p + 1) ->
  exists n lss, Forall2 (fun s ls => tree p eps (ControlPoints s) ls) segs lss /\
    forall fuel g, (n <= fuel)%nat -> foldM (seg_step fuel p eps) segs g = Ok (fold_left merge_box (map epbox (concat lss)) g).
Proof.
  intros Hp. induction segs as [|s segs IH]; intros L.
  - exists 0%nat, []. split; [constructor|]. reflexivity.
  - destruct IH as [n [lss [F H]]]; [intros s' Hs; apply L; right; exact Hs|].
    assert (Ls : len (ControlPoints s) = p + 1) by (apply L; left; reflexivity).
    destruct (tree_exists p eps (ControlPoints s) Hp Ls) as [ls T].
    destruct (loop_tree p eps _ ls Hp Ls T) as [m Hm]. exists (Nat.max m n), (ls :: lss). split; [constructor; assumption|].
    intros fuel g Hf. cbn [foldM concat]. unfold seg_step at 1.
    replace fuel with (m + (fuel - m))%nat at 1 by lia. rewrite Hm.
    assert (forall k g, bbox_loop k p eps [] g = Ok (g : option (bbox R))) as -> by (intros [|k] g'; reflexivity).
    cbn [bind]. rewrite H by lia. rewrite map_app, fold_left_app. reflexivity.
Qed.
Lemma fold_mono p eps segs : forall fuel g r k, foldM (seg_step fuel p eps) segs g = Ok r -> foldM (seg_step (fuel + k) p eps) segs g = Ok r.
Proof.
  induction segs as [|s segs IH]; intros fuel g r k E; cbn [foldM] in *; [exact E|].
  unfold seg_step at 1 in E. destruct (bbox_loop fuel p eps [ControlPoints s] g) as [g1| | | | |] eqn:E1; cbn [bind] in E; try discriminate.
  unfold seg_step at 1. rewrite (loop_mono _ _ _ _ _ _ k E1). cbn [bind]. apply IH. exact E.
Qed.
Definition box_of (g : option (bbox R)) : bbox R := match g with Some g => g | None => BoundingBox_default end.
Lemma bbox_main c eps : wf_curve c -> 1 <= Degree c -> exists segs n lss,
  Curve_ExtractBezier c = Ok segs /\ (forall s, In s segs -> len (ControlPoints s) = Degree c + 1) /\
  Forall2 (fun s ls => tree (Degree c) eps (ControlPoints s) ls) segs lss /\
  (forall fuel, (n <= fuel)%nat -> Curve_GetBoundingBox fuel c eps = Ok (box_of (fold_left merge_box (map epbox (concat lss)) None))) /\
  (forall fuel box, Curve_GetBoundingBox fuel c eps = Ok box -> box = box_of (fold_left merge_box (map epbox (concat lss)) None)).
Proof.
  intros W Hp. destruct (extract_total c W Hp) as [segs [E L]].
  destruct (segments_ok (Degree c) eps segs ltac:(lia) L) as [n [lss [F H]]]. exists segs, n, lss.
  split; [exact E|]. split; [exact L|]. split; [exact F|]. unfold Curve_GetBoundingBox. rewrite E. cbn [bind].
  assert (forall fuel, (n <= fuel)%nat -> foldM (fun global seg => bbox_loop fuel (Degree c) eps [ControlPoints seg] global) segs None
    = Ok (fold_left merge_box (map epbox (concat lss)) None)) as H' by (intros fuel Hf; apply (H fuel None Hf)).
  split; [intros fuel Hf; rewrite H' by exact Hf; reflexivity|]. intros fuel box Eb.
  destruct (foldM (fun global seg => bbox_loop fuel (Degree c) eps [ControlPoints seg] global) segs None) as [g| | | | |] eqn:Ef;
    cbn [bind] in Eb; try discriminate.
  apply (fold_mono (Degree c) eps segs fuel None g n) in Ef. change (seg_step (fuel + n) (Degree c) eps) with
    (fun global seg => bbox_loop (fuel + n) (Degree c) eps [ControlPoints seg] global) in Ef.
  rewrite H' in Ef by lia. injection Ef as <-. injection Eb as <-. reflexivity.
Qed.
Lemma C43_terminates_lemma c eps : wf_curve c -> 1 <= Degree c -> exists n box, forall fuel, (n <= fuel)%nat -> Curve_GetBoundingBox fuel c eps = Ok box.
Proof. intros W Hp. destruct (bbox_main c eps W Hp) as [segs [n [lss [_ [_ [_ [H _]]]]]]]. exists n. eexists. exact H. Qed.
