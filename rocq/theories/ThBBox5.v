(** GetBoundingBox over the reals: containment (C43). *)
From Coq Require Import Reals QArith Qreals ZArith List Lra Lia Bool Permutation.
From Verif Require Import Outcome Num ModelCore ModelCurve SpecCore SpecBasis SpecCurve SpecSearch SpecBezier
  ThOutcome ThReal ThKnots ThVec ThBox ThSum ThSpline ThBasis ThCurve ThInsert ThCurveWit ThSearch ThBezier ThBezier2 ThBBox ThBBox2 ThBBox3 ThBBox4.
Import ListNotations.
Open Scope Z_scope.

Lemma find_span ts x : 2 <= len ts -> (at_ ts 0 <= x)%R -> (x <= at_ ts (len ts - 1))%R ->
  exists j, 0 <= j < len ts - 1 /\ (at_ ts j <= x <= at_ ts (j + 1)%Z)%R.
Proof.
  intros L H0. assert (forall n : nat, Z.of_nat n < len ts - 1 -> (x <= at_ ts (Z.of_nat n + 1))%R ->
    exists j, 0 <= j < len ts - 1 /\ (at_ ts j <= x <= at_ ts (j + 1)%Z)%R) as A.
  { induction n as [|n IH]; intros Hn Hx.
    - exists 0. split; [lia|]. split; [exact H0|exact Hx].
    - destruct (Rle_dec (at_ ts (Z.of_nat (S n))) x) as [Le|Gt].
      + exists (Z.of_nat (S n)). split; [lia|]. split; [exact Le|exact Hx].
      + apply IH; [lia|]. replace (Z.of_nat n + 1) with (Z.of_nat (S n)) by lia. lra. }
  intros H1. apply (A (Z.to_nat (len ts - 2))); [lia|]. rewrite Z2Nat.id by lia. replace (len ts - 2 + 1) with (len ts - 1) by lia. exact H1.
Qed.
Lemma in_breaks l t : clamped 0 l \/ (exists p, clamped p l) -> In t l -> exists j, 0 <= j < len (breaks l) /\ at_ (breaks l) j = t.
Proof.
  intros C Ht. assert (exists p, clamped p l) as [p Cp] by (destruct C as [C|C]; [exists 0; exact C|exact C]).
  destruct (breaks_facts p l Cp) as [[_ I] _]. apply I in Ht. apply (In_nth _ _ 0%R) in Ht. destruct Ht as [n [Ln En]].
  exists (Z.of_nat n). unfold len, at_. rewrite Nat2Z.id. split; [lia|exact En].
Qed.

Lemma Ok_inj {A} (a b : A) : Ok a = Ok b -> a = b.
Proof. intros [= ->]. reflexivity. Qed.
Lemma axis_point g (q : vec4 R) : axis g -> g (head3 q) = g (point3 q).
Proof. intros [->|[->| ->]]; reflexivity. Qed.
Lemma bezier_hsum p seg f s : is_bezier p seg -> (0 <= s <= 1)%R -> hsum seg f s = bl (kf (unit_knots p)) p (repeat s (Z.to_nat p)) (fun i => f (hp seg i)).
Proof.
  intros [W [D K]] Hs. fold (unit_knots p) in K. pose proof (cl_degree _ _ (wf_knots seg W)) as P0. rewrite D in P0.
  rewrite (hsum_bl seg f p s W); rewrite ?D, ?K; [reflexivity|rewrite len_unit by lia; lia|].
  unfold span_at. rewrite V_low, V_high by lia. lra.
Qed.
Lemma bezier_point p seg s : is_bezier p seg -> unit_weights seg -> (0 <= s <= 1)%R -> forall g, axis g ->
  g (curve_point seg s) = bez p (pt g (ControlPoints seg)) s.
Proof.
  intros B Us Hs. pose proof B as [W [D K]]. pose proof (cl_degree _ _ (wf_knots seg W)) as P0. rewrite D in P0.
  assert (hsum seg w4 s = 1%R) as Hw.
  { rewrite (bezier_hsum p) by assumption. rewrite <- (bl_const (kf (unit_knots p)) p (V_mono p P0) (V_span p P0) (repeat s (Z.to_nat p)) 1%R).
    apply bl_ext. intros i _. apply unit_cp. exact Us. }
  rewrite curve_point_hsum, Hw. intros g Hg.
  destruct Hg as [->|[->| ->]]; cbn [x3 y3 z3]; unfold Rdiv; rewrite Rinv_1, Rmult_1_r, (bezier_hsum p) by assumption; unfold bez; apply bl_ext; intros i _;
    unfold hp, ToHomo, pt; cbn [x4 y4 z4]; pose proof (unit_cp seg i Us) as E; unfold cp in *; unfold znth, v0; norm_R; rewrite E; cbn [head3 x3 y3 z3]; lra.
Qed.

Lemma Forall2_vget {A B} (Q : A -> B -> Prop) l l' : Forall2 Q l l' -> forall i a, vget l i = Ok a -> exists b, vget l' i = Ok b /\ Q a b.
Proof.
  induction 1 as [|a b l l' Hab F IH]; intros i x E.
  - apply vget_range in E. cbn in E. lia.
  - pose proof (vget_range _ _ _ E) as Ri. destruct (Z.eq_dec i 0) as [->|Ni].
    + cbn in E. injection E as <-. exists b. split; [reflexivity|exact Hab].
    + rewrite vget_cons_pos in E by lia. rewrite vget_cons_pos by lia. apply IH. exact E.
Qed.
Lemma vget_In {A} (l : list A) i a : vget l i = Ok a -> In a l.
Proof. intros E. apply (vget_inv a) in E. destruct E as [R ->]. apply nth_In. unfold len in R. lia. Qed.

Section Main.
  Variables (c : curve R) (eps : R) (fuel : nat) (box : bbox R).
  Hypothesis W : wf_curve c.
  Hypothesis Hp : 1 <= Degree c.
  Hypothesis Im : interior_multiplicity_le (Degree c) (Knots c).
  Hypothesis E : Curve_GetBoundingBox fuel c eps = Ok box.
  Local Notation p := (Degree c).
  Local Notation ts := (breaks (Knots c)).
  (** every leaf of every segment is in the box *)
  Lemma leaves : exists segs lss, Curve_ExtractBezier c = Ok segs /\ ordered box /\
    Forall2 (fun s ls => tree p eps (ControlPoints s) ls) segs lss /\
    (forall l, In l (concat lss) -> box_incl (epbox l) box) /\
    (forall D, (forall l, In l (concat lss) -> box_incl (epbox l) D) -> box_incl box D).
  Proof.
    destruct (bbox_main c eps W Hp) as [segs [n [lss [Es [L [F [_ H]]]]]]]. specialize (H fuel box E).
    destruct (C42_breaks c W Hp Im) as [segs' [Es' [Ls _]]]. assert (segs' = segs) as -> by congruence.
    destruct (breaks_facts p (Knots c) (wf_knots c W)) as [_ [L2 _]].
    exists segs, lss. split; [exact Es|].
    assert (map epbox (concat lss) <> []) as Hne.
    { destruct F as [|s ls segs0 lss0 T F0]; [cbn in Ls; lia|]. cbn [concat]. rewrite map_app.
      destruct (tree_ends p eps _ _ ltac:(lia) (L s ltac:(left; reflexivity)) T) as [[l [Hl _]] _].
      destruct ls as [|l0 ls]; [destruct Hl|]. cbn. discriminate. }
    destruct (merge_fold (map epbox (concat lss)) ltac:(apply Forall_map, Forall_forall; intros; apply ordered_epbox) None I ltac:(left; exact Hne))
      as [G [EG [OG [_ [Ib Hl]]]]]. rewrite EG in H. cbn [box_of] in H. subst G.
    split; [exact OG|]. split; [exact F|]. split.
    - intros l Hl'. apply Ib. apply in_map. exact Hl'.
    - intros D HD. apply Hl; [exact I|]. intros b Hb. apply in_map_iff in Hb. destruct Hb as [l [<- Hl']]. apply HD. exact Hl'.
  Qed.
  Lemma in_concat_at {A} (lss : list (list A)) j ls l : vget lss j = Ok ls -> In l ls -> In l (concat lss).
  Proof using. intros Ej Hl. apply in_concat. exists ls. split; [apply (vget_In _ _ _ Ej)|exact Hl]. Qed.

  Lemma knots_in : forall t, In t (Knots c) -> in_box (curve_point c t) box.
  Proof.
    intros t Ht. destruct leaves as [segs [lss [Es [OB [F [Inc _]]]]]].
    destruct (C42_breaks c W Hp Im) as [segs' [Es' [Ls H]]]. assert (segs' = segs) as -> by congruence.
    destruct (breaks_facts p (Knots c) (wf_knots c W)) as [[Inct Iff] [L2 [F0 F1]]].
    destruct (in_breaks (Knots c) t (or_intror (ex_intro _ p (wf_knots c W))) Ht) as [j [Hj Ej]].
    assert (U : forall i, 0 <= i < len ts -> (0 <= at_ ts i <= 1)%R).
    { intros i Hi. rewrite <- F0, <- F1. split.
      - destruct (Z.eq_dec i 0) as [->|]; [lra|left; apply Inct; lia].
      - destruct (Z.eq_dec i (len ts - 1)) as [->|]; [lra|left; apply Inct; lia]. }
    assert (Sg : exists k s seg, vget segs k = Ok seg /\ (s = 0 \/ s = 1)%R /\ curve_point seg s = curve_point c t /\ is_bezier p seg).
    { destruct (Z.eq_dec j (len ts - 1)) as [Ejl|Njl].
      - destruct (vget_ex segs (j - 1) ltac:(lia)) as [seg Hs]. destruct (H (j - 1) seg Hs) as [B Ev].
        exists (j - 1), 1%R, seg. split; [exact Hs|]. split; [auto|]. split; [|exact B]. specialize (Ev 1%R ltac:(lra)).
        replace (j - 1 + 1) with j in Ev by lia. rewrite !eval_ok in Ev; [|exact W|unfold unit_interval; rewrite Rmult_1_r; pose proof (U j Hj); lra|apply B|unfold unit_interval; lra].
        apply Ok_inj in Ev. rewrite Ev, <- Ej. f_equal. lra.
      - destruct (vget_ex segs j ltac:(lia)) as [seg Hs]. destruct (H j seg Hs) as [B Ev].
        exists j, 0%R, seg. split; [exact Hs|]. split; [auto|]. split; [|exact B]. specialize (Ev 0%R ltac:(lra)).
        rewrite !eval_ok in Ev; [|exact W|unfold unit_interval; rewrite Rmult_0_r; pose proof (U j Hj); lra|apply B|unfold unit_interval; lra].
        apply Ok_inj in Ev. rewrite Ev, <- Ej. f_equal. lra. }
    destruct Sg as [k [s [seg [Hs [Hv [Ep B]]]]]]. rewrite <- Ep.
    destruct (Forall2_vget _ _ _ F k seg Hs) as [ls [Hls T]]. pose proof B as [Wg [Dg Kg]].
    pose proof (wf_count seg Wg) as Lc. rewrite Dg, Kg in Lc. fold (unit_knots p) in Lc. rewrite len_unit in Lc by lia.
    destruct (tree_ends p eps (ControlPoints seg) ls ltac:(lia) ltac:(lia) T) as [[l [Hl [Ll Gl]]] [r [Hr [Lr Gr]]]].
    destruct Hv as [-> | ->].
    - rewrite curve_point_start by exact Wg. apply (Inc l (in_concat_at lss k ls l Hls Hl)).
      assert (point3 (cp seg 0) = head3 (znth v0 l 0)) as ->; [|apply box_make_left].
      pose proof (Gl x3 (or_introl eq_refl)). pose proof (Gl y3 (or_intror (or_introl eq_refl))). pose proof (Gl z3 (or_intror (or_intror eq_refl))).
      unfold pt in *. change (cp seg 0) with (znth v0 (ControlPoints seg) 0). cbn [head3 x3 y3 z3 point3] in *. unfold head3, point3. congruence.
    - rewrite curve_point_end by exact Wg. apply (Inc r (in_concat_at lss k ls r Hls Hr)).
      assert (point3 (cp seg (len (ControlPoints seg) - 1)) = head3 (last r v0)) as ->; [|apply box_make_right].
      rewrite last_znth by (intros ->; cbn in Lr; lia). replace (len r - 1) with p by lia. replace (len (ControlPoints seg) - 1) with p by lia.
      pose proof (Gr x3 (or_introl eq_refl)). pose proof (Gr y3 (or_intror (or_introl eq_refl))). pose proof (Gr z3 (or_intror (or_intror eq_refl))).
      unfold pt in *. change (cp seg p) with (znth v0 (ControlPoints seg) p). cbn [head3 x3 y3 z3 point3] in *. unfold head3, point3. congruence.
  Qed.

  Hypothesis Uc : unit_weights c.
  Lemma lower : forall x g, (0 <= x <= 1)%R -> axis g -> (g (Min box) - Rmax eps micro <= g (curve_point c x))%R.
  Proof.
    intros x g Hx Hg. destruct leaves as [segs [lss [Es [OB [F [Inc _]]]]]].
    destruct (C42_breaks c W Hp Im) as [segs' [Es' [Ls H]]]. assert (segs' = segs) as -> by congruence.
    destruct (breaks_facts p (Knots c) (wf_knots c W)) as [[Inct Iff] [L2 [F0 F1]]].
    destruct (find_span ts x L2 ltac:(lra) ltac:(lra)) as [j [Hj Hb]].
    assert (Hab : (at_ ts j < at_ ts (j + 1)%Z)%R) by (apply Inct; lia).
    set (a := at_ ts j) in *. set (b := at_ ts (j + 1)%Z) in *. set (s := ((x - a) / (b - a))%R).
    assert (Ex : (a + (b - a) * s = x)%R) by (unfold s; field; lra).
    assert (Hs : (0 <= s <= 1)%R).
    { split; [apply Rmult_le_pos; [lra|left; apply Rinv_0_lt_compat; lra]|].
      apply Rmult_le_reg_r with (b - a)%R; [lra|]. unfold s. unfold Rdiv. rewrite Rmult_assoc, Rinv_l by lra. lra. }
    destruct (vget_ex segs j ltac:(lia)) as [seg Hseg]. destruct (H j seg Hseg) as [B Ev]. specialize (Ev s Hs).
    fold a b in Ev. rewrite Ex, !eval_ok in Ev; [|exact W|exact Hx|apply B|exact Hs]. apply Ok_inj in Ev. rewrite <- Ev.
    rewrite (bezier_point p seg s B) by (try exact Hg; try exact Hs; apply (extract_unit c segs W Uc Es seg (vget_In _ _ _ Hseg))).
    destruct (Forall2_vget _ _ _ F j seg Hseg) as [ls [Hls T]]. pose proof B as [Wg [Dg Kg]].
    pose proof (wf_count seg Wg) as Lc. rewrite Dg, Kg in Lc. fold (unit_knots p) in Lc. rewrite len_unit in Lc by lia.
    destruct (tree_lower p ltac:(lia) eps (ControlPoints seg) ls ltac:(lia) T g s Hg Hs) as [l [Hl Hb']].
    assert (g (Min box) <= g (Min (epbox l)))%R; [|lra].
    apply (proj1 (axis_le _ _)); [|exact Hg]. apply (Inc l (in_concat_at lss j ls l Hls Hl)). split; [unfold le3; lra|apply ordered_epbox].
  Qed.
  Lemma tight : forall D, (forall x, (0 <= x <= 1)%R -> in_box (curve_point c x) D) -> box_incl box D.
  Proof.
    intros D HD. destruct leaves as [segs [lss [Es [OB [F [_ Hl]]]]]]. apply Hl. intros l Hin.
    apply in_concat in Hin. destruct Hin as [ls [Hls Hin]].
    destruct (C42_breaks c W Hp Im) as [segs' [Es' [Ls H]]]. assert (segs' = segs) as -> by congruence.
    assert (exists j seg, vget segs j = Ok seg /\ tree p eps (ControlPoints seg) ls) as [j [seg [Hseg T]]].
    { clear - F Hls. induction F as [|s ls0 segs lss T F IH]; [destruct Hls|]. destruct Hls as [->|Hls].
      - exists 0, s. split; [reflexivity|exact T].
      - destruct (IH Hls) as [j [seg [Ej Tj]]]. exists (j + 1), seg. split; [|exact Tj].
        pose proof (vget_range _ _ _ Ej). rewrite vget_cons_pos by lia. replace (j + 1 - 1) with j by lia. exact Ej. }
    destruct (H j seg Hseg) as [B Ev]. pose proof B as [Wg [Dg Kg]].
    pose proof (wf_count seg Wg) as Lc. rewrite Dg, Kg in Lc. fold (unit_knots p) in Lc. rewrite len_unit in Lc by lia.
    pose proof (extract_unit c segs W Uc Es seg (vget_In _ _ _ Hseg)) as Us.
    destruct (tree_points p ltac:(lia) eps (ControlPoints seg) ls ltac:(lia) T l Hin) as [a [b [Ha [Hb G]]]].
    pose proof (tree_len p eps (ControlPoints seg) ls ltac:(lia) ltac:(lia) T l Hin) as Ll.
    assert (Cin : forall s, (0 <= s <= 1)%R -> in_box (curve_point seg s) D).
    { intros s Hs. specialize (Ev s Hs). rewrite (eval_ok seg s Wg Hs) in Ev.
      match type of Ev with _ = Curve_Evaluate c ?y => destruct (Rle_dec 0 y) as [Y0|Y0]; [destruct (Rle_dec y 1) as [Y1|Y1]|] end.
      - rewrite eval_ok in Ev; [|exact W|split; assumption]. apply Ok_inj in Ev. rewrite Ev. apply HD. split; assumption.
      - rewrite Curve_Evaluate_outside in Ev by lra. discriminate.
      - rewrite Curve_Evaluate_outside in Ev by lra. discriminate. }
    assert (Eq : forall s q, (0 <= s <= 1)%R -> (forall g, axis g -> g q = bez p (pt g (ControlPoints seg)) s) -> in_box q D).
    { intros s q Hs Hq. assert (q = curve_point seg s) as ->; [|apply Cin; exact Hs].
      assert (forall g, axis g -> g q = g (curve_point seg s)) as A by (intros g Hg; rewrite (bezier_point p seg s B Us Hs g Hg); apply Hq, Hg).
      pose proof (A x3 (or_introl eq_refl)). pose proof (A y3 (or_intror (or_introl eq_refl))). pose proof (A z3 (or_intror (or_intror eq_refl))).
      destruct q as [q1 q2 q3], (curve_point seg s) as [r1 r2 r3]. cbn [x3 y3 z3] in *. congruence. }
    unfold epbox. apply box_make_least.
    - apply (Eq a _ Ha). intros g Hg. apply (proj1 (G g Hg)).
    - rewrite last_znth by (intros ->; cbn in Ll; lia). replace (len l - 1) with p by lia. apply (Eq b _ Hb). intros g Hg. apply (proj2 (G g Hg)).
  Qed.
End Main.
