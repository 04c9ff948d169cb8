(** Bezier extraction: the segments (C42). *)
From Coq Require Import Reals ZArith List Lra Lia Permutation Bool.
From Verif Require Import Outcome Num ModelCore ModelCurve SpecCore SpecBasis SpecCurve SpecSearch SpecBezier
  ThOutcome ThReal ThKnots ThVec ThSum ThSpline ThBasis ThCurve ThInsert ThCoreWit ThCurveWit ThSearch ThBezier.
Import ListNotations.
Open Scope Z_scope.

Lemma increasing_at ps : increasing ps -> forall i j, 0 <= i < j -> j < len ps ->
  (at_ (map fst ps) i < at_ (map fst ps) j)%R.
Proof.
  induction ps as [|a ps IH]; intros I i j Hij Hj; [cbn in Hj; lia|]. rewrite len_cons in Hj. cbn [map].
  destruct (Z.eq_dec i 0) as [->|Ni].
  - rewrite at_cons0, at_cons by lia. assert (In (at_ (map fst ps) (j - 1)) (map fst ps)) as Hin.
    { apply nth_In. rewrite map_length. unfold len in Hj. lia. }
    apply in_map_iff in Hin. destruct Hin as [b [<- Hb]]. apply (increasing_lt a ps I b Hb).
  - rewrite !at_cons by lia. apply IH; [apply (increasing_tail a); exact I|lia|lia].
Qed.
Lemma breaks_facts p l : clamped p l ->
  distinct_knots l (breaks l) /\ 2 <= len (breaks l) /\ at_ (breaks l) 0 = 0%R /\ at_ (breaks l) (len (breaks l) - 1) = 1%R.
Proof.
  intros C. destruct (pairs_shape p l C) as [mid [E [I Hm]]].
  assert (Eb : breaks l = 0%R :: map fst mid ++ [1%R]) by (unfold breaks; rewrite E; cbn [map fst]; rewrite map_app; reflexivity).
  split; [split|].
  - intros i j Hij Hj. unfold breaks in *. rewrite len_map in Hj. apply increasing_at; assumption.
  - intros t. unfold breaks. rewrite in_map_iff. split.
    + intros [q [<- Hq]]. rewrite <- (pairs_expand l). unfold expand. apply in_flat_map. exists q. split; [exact Hq|].
      pose proof (pairs_mult l) as Pm. rewrite Forall_forall in Pm. specialize (Pm q Hq). cbv beta in Pm.
      replace (Z.to_nat (snd q)) with (S (Z.to_nat (snd q - 1))) by lia. left. reflexivity.
    + intros Ht. rewrite <- (pairs_expand l) in Ht. apply in_expand in Ht. destruct Ht as [q [Hq Ht]]. exists q. split; assumption.
  - rewrite Eb. rewrite len_cons, len_app. pose proof (len_nonneg (map fst mid)). change (len [1%R]) with 1.
    split; [lia|]. split; [reflexivity|]. rewrite at_cons by lia. rewrite at_znth, znth_app by lia.
    match goal with |- context [if ?a <? ?b then _ else _] => destruct (Z.ltb_spec a b); [lia|] end.
    match goal with |- znth _ _ ?z = _ => replace z with 0 by lia end. reflexivity.
Qed.

Definition unit_knots (p : Z) : list R := repeat 0%R (Z.to_nat (p + 1)) ++ repeat 1%R (Z.to_nat (p + 1)).
Lemma len_unit p : 0 <= p -> len (unit_knots p) = 2 * p + 2.
Proof. intros. unfold unit_knots. rewrite len_app, !len_repeat. lia. Qed.
Lemma at_unit p i : 0 <= p -> 0 <= i < 2 * p + 2 -> at_ (unit_knots p) i = if i <=? p then 0%R else 1%R.
Proof.
  intros Hp Hi. unfold unit_knots. rewrite at_znth, znth_app by lia. rewrite len_repeat, Z.max_l by lia.
  destruct (Z.ltb_spec i (p + 1)), (Z.leb_spec i p); try lia; apply znth_repeat; lia.
Qed.
Lemma uniform_unit p : 0 <= p -> KnotVector_Uniform p (2 * p + 2) = Ok (unit_knots p) /\ clamped p (unit_knots p).
Proof.
  intros Hp. destruct (C04_lemma p (2 * p + 2) Hp ltac:(lia)) as [l [E [L [A [C _]]]]].
  assert (l = unit_knots p) as ->; [|split; assumption].
  apply (znth_ext 0%R); [rewrite L, len_unit by lia; reflexivity|]. intros i Hi. rewrite L in Hi.
  change (at_ l i = at_ (unit_knots p) i). rewrite A, at_unit by lia. unfold uniform_knot.
  replace (2 * p + 2 - 2 * (p + 1)) with 0 by lia. destruct (Z.leb_spec i p); [reflexivity|].
  destruct (Z.leb_spec i (p + 0)); [lia|reflexivity].
Qed.

Definition segment (p : Z) (d : curve R) (j : Z) : curve R :=
  Curve p (unit_knots p) (map (fun k => cp d (j * p + k)) (zrange 0 (p + 1))).
Lemma segment_cp p d j i : 0 <= i <= p -> cp (segment p d j) i = cp d (j * p + i).
Proof.
  intros Hi. unfold cp at 1. cbn [segment ControlPoints].
  change (znth (Vec4 0 0 0 1)%R (map (fun k => cp d (j * p + k)) (zrange 0 (p + 1))) i = cp d (j * p + i)).
  pose proof (vget_zrange_map (fun k => cp d (j * p + k)) 0 (p + 1) i ltac:(lia)) as E.
  apply (vget_inv (Vec4 0 0 0 1)%R) in E. destruct E as [_ <-]. reflexivity.
Qed.
Lemma segment_wf p d j : 0 <= p -> positive_weights (ControlPoints d) -> wf_curve (segment p d j).
Proof.
  intros Hp W. constructor; cbn [segment Degree Knots ControlPoints].
  - apply uniform_unit. exact Hp.
  - rewrite len_map, len_zrange, len_unit by lia. lia.
  - apply Forall_forall. intros x Hx. apply in_map_iff in Hx. destruct Hx as [k [<- _]]. apply cp_weight. exact W.
Qed.

Lemma extract_cut_ok d p m : 1 <= p -> len (ControlPoints d) = m * p + 1 -> forall fuel j,
  0 <= j <= m -> m - j <= Z.of_nat fuel ->
  extract_cut fuel p (ControlPoints d) (j * p) = Ok (map (segment p d) (zrange j m)).
Proof.
  intros Hp L. induction fuel as [|fuel IH]; intros j Hj Hf; cbn [extract_cut].
  - assert (j = m) as -> by lia. rewrite zrange_empty by lia.
    destruct (Z.leb_spec 0 (m * p + p)); [|nia]. destruct (Z.ltb_spec (m * p + p) (len (ControlPoints d))); [lia|reflexivity].
  - destruct (Z.leb_spec 0 (j * p + p)); [|nia]. cbn [andb].
    destruct (Z.ltb_spec (j * p + p) (len (ControlPoints d))).
    + assert (j < m) by nia. destruct (uniform_unit p ltac:(lia)) as [-> _]. cbn [bind].
      rewrite (tabulate_ok 0 (p + 1) _ (fun k => cp d (j * p + k))).
      2:{ intros i Hi. apply vget_cp. nia. }
      cbn [bind]. replace (j * p + p) with ((j + 1) * p) by lia. rewrite IH by lia. cbn [bind].
      rewrite (zrange_first j) by lia. reflexivity.
    + assert (j = m) as -> by nia. rewrite zrange_empty by lia. reflexivity.
Qed.

Lemma map_repeat_R {A B} (f : A -> B) x n : map f (repeat x n) = repeat (f x) n.
Proof. induction n as [|n IH]; [reflexivity|]. cbn [repeat map]. rewrite IH. reflexivity. Qed.
Section Segment.
  Variables (d : curve R) (p : Z).
  Hypothesis Hp : 1 <= p.
  Hypothesis Wd : wf_curve d.
  Hypothesis Dd : Degree d = p.
  Variable ts : list R.
  Hypothesis Kd : Knots d = 0%R :: const_runs p ts ++ [1%R].
  Hypothesis Inc : forall i j, 0 <= i < j -> j < len ts -> (at_ ts i < at_ ts j)%R.
  Hypothesis First : at_ ts 0 = 0%R.
  Hypothesis Last : at_ ts (len ts - 1) = 1%R.

  Lemma len_full : len (Knots d) = p * len ts + 2.
  Proof. rewrite Kd, len_cons, len_app, len_const_runs by lia. change (len [1%R]) with 1. lia. Qed.
  Lemma kf_full j r : 0 <= j < len ts -> 1 <= r <= p -> kf (Knots d) (j * p + r) = at_ ts j.
  Proof.
    intros Hj Hr. rewrite kf_at by (rewrite len_full; nia). rewrite Kd, at_cons by nia.
    rewrite at_znth, znth_app by nia. rewrite len_const_runs by lia.
    destruct (Z.ltb_spec (j * p + r - 1) (p * len ts)); [|nia].
    rewrite <- at_znth, at_const_runs by nia. f_equal.
    symmetry. apply (Z.div_unique _ _ j (r - 1)); lia.
  Qed.
  Lemma kf_left j i : 0 <= j < len ts -> j * p < i <= j * p + p -> kf (Knots d) i = at_ ts j.
  Proof. intros Hj Hi. replace i with (j * p + (i - j * p)) by lia. apply kf_full; lia. Qed.

  Lemma segment_hsum f j s : 0 <= j -> j + 1 < len ts -> (0 <= s <= 1)%R ->
    hsum (segment p d j) f s = hsum d f (at_ ts j + (at_ ts (j + 1) - at_ ts j) * s)%R.
  Proof.
    intros Hj Hj1 Hs. set (a := at_ ts j). set (b := at_ ts (j + 1)%Z). set (x := (a + (b - a) * s)%R).
    assert (Hab : (a < b)%R) by (apply Inc; lia).
    set (U := kf (Knots d)). set (k := (j + 1) * p).
    assert (Ul : forall i, k - p < i <= k -> U i = a) by (intros i Hi; apply kf_left; unfold k in *; lia).
    assert (Ur : forall i, k < i <= k + p -> U i = b) by (intros i Hi; apply kf_left; unfold k in *; lia).
    assert (Vl : forall i, 0 <= i <= p -> kf (unit_knots p) i = 0%R).
    { intros i Hi. rewrite kf_at by (rewrite len_unit; lia). rewrite at_unit by lia. destruct (Z.leb_spec i p); [reflexivity|lia]. }
    assert (Vr : forall i, p < i < 2 * p + 2 -> kf (unit_knots p) i = 1%R).
    { intros i Hi. rewrite kf_at by (rewrite len_unit; lia). rewrite at_unit by lia. destruct (Z.leb_spec i p); [lia|reflexivity]. }
    assert (Np : nn (Z.to_nat p) = p) by (unfold nn; lia).
    assert (Sg : hsum (segment p d j) f s = bl U k (repeat x (Z.to_nat p)) (fun i => f (hp d i))).
    { rewrite (hsum_bl (segment p d j) f p s).
      - cbn [segment Degree Knots]. transitivity (bl U k (map (fun s => a + (b - a) * s)%R (repeat s (Z.to_nat p))) (fun i => f (hp d i))).
        + rewrite (bl_affine_map U (kf (unit_knots p)) k p a b).
          * apply bl_ext. intros i Hi. rewrite repeat_length, Np in Hi. f_equal. unfold hp. f_equal.
            replace (i - p + k) with (j * p + i) by (unfold k; lia). apply segment_cp. lia.
          * lra.
          * intros i Hi. rewrite repeat_length, Np in Hi. destruct (Z_le_gt_dec i k).
            -- rewrite Ul, Vl by lia. ring.
            -- rewrite Ur, Vr by lia. ring.
          * intros i i' H1 H2. rewrite repeat_length, Np in *. rewrite Ul, Ur by lia. lra.
        + rewrite map_repeat_R. reflexivity.
      - apply segment_wf; [lia|apply Wd].
      - cbn [segment Degree Knots]. rewrite len_unit by lia. lia.
      - cbn [segment Degree Knots]. unfold span_at. rewrite Vl, Vr by lia. lra. }
    rewrite Sg.
    assert (Hk : Degree d <= k <= len (Knots d) - Degree d - 2) by (rewrite Dd, len_full; unfold k; nia).
    destruct (Rlt_le_dec x b) as [Lt|Ge].
    - rewrite (hsum_bl d f k x Wd Hk), Dd; [reflexivity|]. left. fold U. rewrite Ul, Ur by lia. split; [unfold x; nra|exact Lt].
    - assert (s = 1%R) as Es by (unfold x in Ge; nra).
      assert (x = b) as -> by (unfold x; rewrite Es; ring).
      destruct (Z.eq_dec (j + 1) (len ts - 1)) as [El|Nl].
      + assert (b = 1%R) as B1 by (unfold b; rewrite El; exact Last).
        rewrite (hsum_bl d f k b Wd Hk), Dd; [reflexivity|]. right. fold U. rewrite Ul, Ur by lia. lra.
      + rewrite (hsum_bl d f (k + p) b Wd), Dd.
        * fold U. rewrite <- (run_const U k (Z.to_nat p) b) by (intros i Hi; rewrite Np in Hi; apply Ur; lia).
          pose proof (clamped_mono (Degree d) (Knots d) (wf_knots d Wd)) as M.
          rewrite (bl_dual U k M), (bl_dual U (k + p) M); [reflexivity|..].
          -- replace (k + p + 1) with ((j + 1 + 1) * p + 1) by (unfold k; lia).
             unfold U at 2. rewrite kf_full by lia. rewrite Ur by lia. apply Inc; lia.
          -- lia.
          -- rewrite Ul, Ur by lia. exact Hab.
          -- lia.
        * rewrite Dd, len_full. unfold k. nia.
        * left. fold U. rewrite Ur by lia. replace (k + p + 1) with ((j + 1 + 1) * p + 1) by (unfold k; lia).
          unfold U. rewrite kf_full by lia. split; [lra|]. apply Inc; lia.
  Qed.
End Segment.

Lemma C42_breaks c : wf_curve c -> 1 <= Degree c -> interior_multiplicity_le (Degree c) (Knots c) ->
  exists segs, Curve_ExtractBezier c = Ok segs /\ len segs = len (breaks (Knots c)) - 1 /\
    forall j seg, vget segs j = Ok seg -> is_bezier (Degree c) seg /\
      forall s, (0 <= s <= 1)%R ->
        Curve_Evaluate seg s = Curve_Evaluate c (at_ (breaks (Knots c)) j + (at_ (breaks (Knots c)) (j + 1) - at_ (breaks (Knots c)) j) * s)%R.
Proof.
  intros W Hp Im. set (p := Degree c) in *.
  destruct (refine_ok p (KnotVector_GetKnotPairs (Knots c)) c W eq_refl) as [d [E Rf]].
  fold (pairs_of (Knots c)) in Rf.
  pose proof (refined_knots c d W Hp Im Rf) as Kd. fold p in Kd.
  destruct Rf as [Wd [Dd [_ [_ Ev]]]]. fold p in Dd.
  destruct (breaks_facts p (Knots c) (wf_knots c W)) as [Dk [L2 [F0 F1]]]. set (ts := breaks (Knots c)) in *.
  pose proof (len_full d p Hp ts Kd) as Lk.
  pose proof (wf_count d Wd) as Lc. rewrite Dd, Lk in Lc.
  exists (map (segment p d) (zrange 0 (len ts - 1))). split; [|split].
  - unfold Curve_ExtractBezier. fold p. rewrite E. cbn [bind]. rewrite Dd.
    change 0 with (0 * p) at 1. apply extract_cut_ok; [exact Hp|nia|lia|]. unfold len in Lc, L2 |- *. nia.
  - rewrite len_map, len_zrange. lia.
  - intros j seg Hj. pose proof (vget_range _ _ _ Hj) as Rj. rewrite len_map, len_zrange in Rj.
    rewrite vget_zrange_map in Hj by lia. injection Hj as Hj. cbn [Z.add] in Hj. subst seg.
    assert (Wg : wf_curve (segment p d j)) by (apply segment_wf; [lia|apply Wd]).
    split; [split; [exact Wg|split; reflexivity]|]. intros s Hs.
    destruct Dk as [Inc _].
    assert (Hab : (at_ ts j < at_ ts (j + 1)%Z)%R) by (apply Inc; lia).
    assert (H0 : (0 <= at_ ts j)%R) by (rewrite <- F0; destruct (Z.eq_dec j 0) as [->|]; [lra|left; apply Inc; lia]).
    assert (H1 : (at_ ts (j + 1)%Z <= 1)%R).
    { rewrite <- F1. destruct (Z.eq_dec (j + 1) (len ts - 1)) as [->|]; [lra|left; apply Inc; lia]. }
    rewrite <- Ev, !eval_ok; [|exact Wd|unfold unit_interval; nra|exact Wg|exact Hs].
    rewrite !curve_point_hsum. rewrite !(segment_hsum d p Hp Wd Dd ts Kd Inc F1) by (try lia; exact Hs). reflexivity.
Qed.

Lemma C42_lemma c : wf_curve c -> 1 <= Degree c -> interior_multiplicity_le (Degree c) (Knots c) ->
  exists segs ts, Curve_ExtractBezier c = Ok segs /\ distinct_knots (Knots c) ts /\ len segs = len ts - 1 /\
    forall j seg, vget segs j = Ok seg -> is_bezier (Degree c) seg /\
      forall s, (0 <= s <= 1)%R ->
        Curve_Evaluate seg s = Curve_Evaluate c (at_ ts j + (at_ ts (j + 1) - at_ ts j) * s)%R.
Proof.
  intros W Hp Im. destruct (C42_breaks c W Hp Im) as [segs [E [L H]]]. exists segs, (breaks (Knots c)).
  split; [exact E|]. split; [apply (breaks_facts (Degree c)); apply W|]. split; [exact L|exact H].
Qed.

(** degree 0: the cutting loop advances by 0 *)
Lemma cut_degree_zero {T} `{Num T} (ks : list T) (ctrl : list (vec4 T)) : KnotVector_Uniform 0 (2 * 0 + 2) = Ok ks -> ctrl <> [] ->
  forall fuel, extract_cut fuel 0 ctrl 0 = OutOfFuel.
Proof.
  intros Hk Hc. assert (0 < len ctrl) as L by (destruct ctrl; [congruence|rewrite len_cons; pose proof (len_nonneg ctrl); lia]).
  destruct (vget_ex ctrl 0 ltac:(lia)) as [q Hq].
  induction fuel as [|fuel IH]; cbn [extract_cut].
  - destruct (Z.ltb_spec (0 + 0) (len ctrl)); [reflexivity|lia].
  - destruct (Z.ltb_spec (0 + 0) (len ctrl)); [|lia]. change (0 <=? 0 + 0) with true. cbn [andb].
    rewrite Hk. cbn [bind]. rewrite (tabulate_ok 0 (0 + 1) _ (fun _ => q)).
    + cbn [bind]. change (0 + 0) with 0. rewrite IH. reflexivity.
    + intros i Hi. assert (i = 0) as -> by lia. exact Hq.
Qed.
