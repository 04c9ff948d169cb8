(** Knot insertion on doubles: surfaces line by line, lists knot by knot. *)
From Coq Require Import Reals ZArith List Lra Lia Bool Floats.SpecFloat Permutation.
From Verif Require Import Outcome Num ModelCore ModelBasis ModelCurve ModelSurface SpecCore SpecBasis SpecCurve SpecErr SpecRows ThOutcome ThReal ThB64 ThVec ThKnots ThSum ThSpline ThBasis ThCurve ThCurveWit ThInsert ThErr ThErrCurve ThSafe ThSafe2 ThErrInsert2 ThGrid ThSurface2 ThRows.
Import ListNotations.
Open Scope Z_scope.
Open Scope outcome_scope.

Lemma new_point64 p l k u (pts : list (vec4 b64)) : len pts = len l - p - 1 -> 0 <= p -> p <= k < len pts -> ins_all l p k u pts.
Proof.
  intros L P K i Hi. unfold new_point. destruct (vget_ex l i ltac:(lia)) as [a ->]. rewrite bind_ret. destruct (vget_ex l (i + p) ltac:(lia)) as [b ->]. rewrite bind_ret.
  cbn [ndiv Num_b64]. rewrite bind_ret. destruct (vget_ex pts i ltac:(lia)) as [c ->]. rewrite bind_ret. destruct (vget_ex pts (i - 1) ltac:(lia)) as [d ->]. rewrite bind_ret.
  eexists. reflexivity.
Qed.
Lemma sound_span p l u : sound_knots p l -> inner64 u ->
  exists l' k, KnotVector_InsertKnot l u 1 = Ok (l', k) /\ KnotVector_FindSpanIndex l p u = Ok k /\ vinsert l (k + 1) 1 u = Ok l' /\ p <= k < len l - p - 1 /\ sound_knots p l' /\ len l' = len l + 1.
Proof.
  intros S U. destruct (sound_kv p l u S U) as [l' [k [E [K [I S']]]]]. exists l', k. split; [exact E|].
  pose proof K as [Hk _]. rewrite len_vals in Hk. destruct S as [Fl Cl]. destruct U as [Fu Hu]. pose proof (cl_degree _ _ Cl).
  destruct (span_find p (vals l) (val u) Cl Hu) as [k2 [E2 K2]].
  assert (k2 = k) as ->.
  { pose proof (clamped_mono _ _ Cl) as M. destruct K as [H1 K1], K2 as [H2 K2']. destruct (Z.lt_trichotomy k k2) as [Q|[Q|Q]]; [|lia|].
    - pose proof (M (k + 1)%Z k2 ltac:(lia)). lra.
    - pose proof (M (k2 + 1)%Z k ltac:(lia)). lra. }
  rewrite <- FindSpanIndex_b64 in E2 by assumption. split; [exact E2|]. split.
  - unfold KnotVector_InsertKnot in E. do 3 bindinv E. injection E as <- Ek. replace (k + 1) with a0 by lia. exact E3.
  - split; [lia|]. split; [exact S'|]. destruct I as [Il _]. rewrite !len_vals in Il. exact Il.
Qed.

Lemma insert_once64 p l u pts : sound_knots p l -> len pts = len l - p - 1 -> 1 <= p -> inner64 u ->
  exists l' pts', Curve_InsertKnot (Curve p l pts) u = Ok (Curve p l' pts') /\ insert_one p (l, pts) u = Ok (l', pts') /\ sound_knots p l' /\ len pts' = len l' - p - 1.
Proof.
  intros S L P U. destruct (sound_span p l u S U) as [l' [k [E1 [E2 [E3 [K [S' L']]]]]]]. pose proof (new_point64 p l k u pts L ltac:(lia) ltac:(lia)) as A.
  eexists l', _. split; [apply (curve_insert_ok _ _ _ _ _ k); try assumption; lia|]. split; [apply (insert_one_ok_any _ _ _ _ _ k); try assumption; lia|]. split; [exact S'|].
  rewrite len_map, len_zrange. pose proof (len_nonneg pts). lia.
Qed.
Lemma fold_insert64 p us : forall l pts, sound_knots p l -> len pts = len l - p - 1 -> 1 <= p -> Forall inner64 us ->
  exists l' pts', foldM Curve_InsertKnot us (Curve p l pts) = Ok (Curve p l' pts') /\ foldM (insert_one p) us (l, pts) = Ok (l', pts') /\ sound_knots p l' /\ len pts' = len l' - p - 1.
Proof.
  induction us as [|u us IH]; intros l pts S L P F.
  - exists l, pts. cbn [foldM]. auto.
  - inversion F; subst. destruct (insert_once64 p l u pts S L P) as [l1 [p1 [E1 [E2 [S1 L1]]]]]; [assumption|]. destruct (IH l1 p1 S1 L1 P) as [l' [p' [E3 [E4 [S2 L2]]]]]; [assumption|].
    exists l', p'. cbn [foldM]. rewrite E1, bind_ret, E2, bind_ret. auto.
Qed.
Lemma insert_list64 (c : curve b64) us : sound_curve c -> 1 <= Degree c -> Forall inner64 us ->
  Curve_InsertKnot_list c us = foldM Curve_InsertKnot us c /\ exists c', Curve_InsertKnot_list c us = Ok c' /\ sound_curve c' /\ Degree c' = Degree c.
Proof.
  intros [S L] P F. destruct (fold_insert64 _ us _ _ S L P F) as [l' [pts' [E1 [E2 [S' L']]]]]. destruct c as [p l pts]. cbn [Degree Knots ControlPoints] in *.
  unfold Curve_InsertKnot_list. cbn [Degree Knots ControlPoints]. rewrite E2. cbn [bind]. split; [symmetry; exact E1|]. eexists. split; [reflexivity|]. split; [split; assumption|reflexivity].
Qed.

Definition rows_inserted (s s' : surface b64) (us : list b64) : Prop :=
  full_grid (Net s') /\ DegreeU s' = DegreeU s /\ DegreeV s' = DegreeV s /\ KnotsV s' = KnotsV s /\ UCount (Net s') = UCount (Net s) + len us /\ VCount (Net s') = VCount (Net s) /\
  forall j l, line_u (Net s) j l -> exists l', line_u (Net s') j l' /\ Curve_InsertKnot_list (Curve (DegreeU s) (KnotsU s) l) us = Ok (Curve (DegreeU s) (KnotsU s') l').
Definition columns_inserted (s s' : surface b64) (us : list b64) : Prop :=
  full_grid (Net s') /\ DegreeU s' = DegreeU s /\ DegreeV s' = DegreeV s /\ KnotsU s' = KnotsU s /\ VCount (Net s') = VCount (Net s) + len us /\ UCount (Net s') = UCount (Net s) /\
  forall j l, line_v (Net s) j l -> exists l', line_v (Net s') j l' /\ Curve_InsertKnot_list (Curve (DegreeV s) (KnotsV s) l) us = Ok (Curve (DegreeV s) (KnotsV s') l').
Lemma sound_full (s : surface b64) : sound_surface s -> full_grid (Net s) /\ 1 <= UCount (Net s) /\ 1 <= VCount (Net s).
Proof.
  intros [[_ C1] [[_ C2] [H1 [H2 L]]]]. pose proof (cl_len _ _ C1). pose proof (cl_len _ _ C2). rewrite len_vals in *. pose proof (cl_degree _ _ C1). pose proof (cl_degree _ _ C2).
  unfold full_grid. rewrite L. lia.
Qed.

Lemma insertU_fold64 jk us : forall s, sound_surface s -> 1 <= DegreeU s -> Forall inner64 us -> exists s', Surface_InsertKnotU_list jk s us = Ok s' /\ sound_surface s' /\ rows_inserted s s' us.
Proof.
  induction us as [|u us IH]; intros s S P F.
  - exists s. cbn. split; [reflexivity|]. split; [exact S|]. destruct (sound_full s S) as [G _]. unfold rows_inserted. rewrite len_nil. repeat (split; [first [exact G|lia|reflexivity]|]).
    intros j l H. exists l. split; [exact H|reflexivity].
  - inversion F as [|? ? Iu Fu]; subst. destruct (sound_full s S) as [G [Cu Cv]]. pose proof S as [S1 [S2 [S3 [S4 S5]]]].
    assert (forall j l, line_u (Net s) j l -> exists l' pts', Curve_InsertKnot (Curve (DegreeU s) (KnotsU s) l) u = Ok (Curve (DegreeU s) l' pts') /\
      insert_one (DegreeU s) (KnotsU s, l) u = Ok (l', pts') /\ sound_knots (DegreeU s) l' /\ len pts' = len l' - DegreeU s - 1) as Hr.
    { intros j l [_ [L _]]. apply insert_once64; try assumption. lia. }
    destruct (surface_insertU_ok jk s u G P Cv) as [s1 [E1 [G1 [D1 [D2 [K1 [N1 [N2 R1]]]]]]]].
    { intros j l H. destruct (Hr j l H) as [l' [pts' [E _]]]. eauto. }
    pose proof (line_u_ex _ _ _ _ 0 (full_is _ G) ltac:(lia)) as L0. set (l0 := map _ _) in L0. destruct (Hr 0 l0 L0) as [l1 [p1 [Ea [_ [Sa La]]]]]. destruct (R1 0 l0 L0) as [l2 [Lb Eb]].
    rewrite Ea in Eb. injection Eb as Hl Hp. subst l1 p1. destruct Lb as [_ [Lb _]].
    assert (sound_surface s1) as Ss1. { unfold sound_surface. rewrite D1, D2, K1. split; [exact Sa|]. split; [exact S2|]. split; [lia|]. split; [lia|]. apply G1. }
    destruct (IH s1 Ss1 ltac:(lia) Fu) as [s' [E' [Ss' [G' [D1' [D2' [K1' [N1' [N2' R']]]]]]]]].
    exists s'. unfold Surface_InsertKnotU_list in *. cbn [foldM]. rewrite E1, bind_ret. split; [exact E'|]. split; [exact Ss'|].
    split; [exact G'|]. split; [lia|]. split; [lia|]. split; [congruence|]. rewrite len_cons. split; [lia|]. split; [lia|].
    intros j l H. destruct (R1 j l H) as [lb [Hb Eb]]. destruct (R' j lb Hb) as [lc [Hc Ec]]. exists lc. split; [exact Hc|].
    destruct (Hr j l H) as [l3 [p3 [Ed [Ee _]]]]. rewrite Ed in Eb. injection Eb as -> ->.
    unfold Curve_InsertKnot_list in *. cbn [Degree Knots ControlPoints foldM] in *. rewrite Ee, bind_ret. rewrite D1 in Ec. exact Ec.
Qed.
Lemma insertV_fold64 us : forall s, sound_surface s -> 1 <= DegreeV s -> Forall inner64 us -> exists s', Surface_InsertKnotV_list s us = Ok s' /\ sound_surface s' /\ columns_inserted s s' us.
Proof.
  induction us as [|u us IH]; intros s S P F.
  - exists s. cbn. split; [reflexivity|]. split; [exact S|]. destruct (sound_full s S) as [G _]. unfold columns_inserted. rewrite len_nil. repeat (split; [first [exact G|lia|reflexivity]|]).
    intros j l H. exists l. split; [exact H|reflexivity].
  - inversion F as [|? ? Iu Fu]; subst. destruct (sound_full s S) as [G [Cu Cv]]. pose proof S as [S1 [S2 [S3 [S4 S5]]]].
    assert (forall j l, line_v (Net s) j l -> exists l' pts', Curve_InsertKnot (Curve (DegreeV s) (KnotsV s) l) u = Ok (Curve (DegreeV s) l' pts') /\
      insert_one (DegreeV s) (KnotsV s, l) u = Ok (l', pts') /\ sound_knots (DegreeV s) l' /\ len pts' = len l' - DegreeV s - 1) as Hr.
    { intros j l [_ [L _]]. apply insert_once64; try assumption. lia. }
    destruct (surface_insertV_ok s u G P Cu) as [s1 [E1 [G1 [D1 [D2 [K1 [N2 [N1 R1]]]]]]]].
    { intros j l H. destruct (Hr j l H) as [l' [pts' [E _]]]. eauto. }
    pose proof (line_v_ex _ _ _ _ 0 (full_is _ G) ltac:(lia)) as L0. set (l0 := map _ _) in L0. destruct (Hr 0 l0 L0) as [l1 [p1 [Ea [_ [Sa La]]]]]. destruct (R1 0 l0 L0) as [l2 [Lb Eb]].
    rewrite Ea in Eb. injection Eb as Hl Hp. subst l1 p1. destruct Lb as [_ [Lb _]].
    assert (sound_surface s1) as Ss1. { unfold sound_surface. rewrite D1, D2, K1. split; [exact S1|]. split; [exact Sa|]. split; [lia|]. split; [lia|]. apply G1. }
    destruct (IH s1 Ss1 ltac:(lia) Fu) as [s' [E' [Ss' [G' [D1' [D2' [K1' [N1' [N2' R']]]]]]]]].
    exists s'. unfold Surface_InsertKnotV_list in *. cbn [foldM]. rewrite E1, bind_ret. split; [exact E'|]. split; [exact Ss'|].
    split; [exact G'|]. split; [lia|]. split; [lia|]. split; [congruence|]. rewrite len_cons. split; [lia|]. split; [lia|].
    intros j l H. destruct (R1 j l H) as [lb [Hb Eb]]. destruct (R' j lb Hb) as [lc [Hc Ec]]. exists lc. split; [exact Hc|].
    destruct (Hr j l H) as [l3 [p3 [Ed [Ee _]]]]. rewrite Ed in Eb. injection Eb as -> ->.
    unfold Curve_InsertKnot_list in *. cbn [Degree Knots ControlPoints foldM] in *. rewrite Ee, bind_ret. rewrite D2 in Ec. exact Ec.
Qed.
