(** Variation diminishing.  Used by C88 and C89. *)
From Coq Require Import Reals ZArith List Lra Lia Bool Permutation Sorted.
From Verif Require Import Outcome Num ModelCore ModelBasis ModelCurve SpecCore SpecBasis SpecCurve SpecVar
  ThOutcome ThReal ThKnots ThVec ThSum ThSpline ThBasis ThCurve ThInsert ThSurface ThCurveWit ThRemove2 ThRemoveWit ThMeta ThMeta2.
Import ListNotations.
Open Scope Z_scope.

(** ** Lists *)
Lemma choose_near {A} (P' P : A -> Z -> Prop) : (forall v i', P' v i' -> exists i, i' - 1 <= i <= i' /\ P v i) ->
  forall vs is', Forall2 P' vs is' -> exists is, Forall2 P vs is /\ Forall2 (fun i' i => i' - 1 <= i <= i') is' is.
Proof.
  intros H vs is' F. induction F as [|v i' vs is' p F IH].
  - exists []. split; constructor.
  - destruct IH as [is [F1 F2]]. destruct (H v i' p) as [i [Ni Pi]]. exists (i :: is). split; constructor; assumption.
Qed.
Lemma near_sorted is' : forall is, Sorted Z.lt is' -> Forall2 (fun i' i => i' - 1 <= i <= i') is' is -> Sorted Z.le is.
Proof.
  induction is' as [|i' is' IH]; intros is S F; inversion F as [|? i ? js Hi F']; subst; [constructor|]. inversion S as [|? ? S' Hd]; subst.
  constructor; [apply IH; assumption|]. destruct js as [|j js]; [constructor|]. inversion F' as [|j' ? js' ? Hj]; subst. inversion Hd; subst. constructor. lia.
Qed.
Lemma alternate_strict (h : Z -> R) vs : forall is, alternating vs -> Forall2 (fun v i => same_sign v (h i)) vs is -> Sorted Z.le is -> Sorted Z.lt is.
Proof.
  unfold same_sign. induction vs as [|v vs IH]; intros is A F S; [inversion A|]. inversion F as [|? i ? js Hi F']; subst. inversion S as [|? ? S' Hd]; subst.
  inversion A as [|? y l Hy A']; subst.
  - inversion F'; subst. repeat constructor.
  - constructor; [apply IH; assumption|]. inversion F' as [|? j ? ks Hj]; subst. inversion Hd; subst. constructor.
    assert (i <> j); [|lia]. intros ->. assert (0 < (v * y) * (h j * h j))%R by (replace (v * y * (h j * h j))%R with (v * h j * (y * h j))%R by ring; apply Rmult_lt_0_compat; assumption).
    assert (0 <= h j * h j)%R by nra. nra.
Qed.

(** ** Insertion *)
Section Side.
  Variables A B D e : R.
  Definition sd (q : vec4 R) : R := side A B D e (head3 q).
  Lemma sd_blend v a p q : (0 <= a <= 1)%R -> (0 < w4 p)%R -> (0 < w4 q)%R -> same_sign v (sd (blend a p q)) -> same_sign v (sd p) \/ same_sign v (sd q).
  Proof.
    intros Ha Hp Hq H. unfold same_sign in *. destruct (Rlt_dec 0 (v * sd p)); [left; assumption|]. destruct (Rlt_dec 0 (v * sd q)); [right; assumption|]. exfalso.
    pose proof (blend_half a p q (v * A) (v * B) (v * D) (v * e) Ha Hp Hq) as L. unfold sd, side in *. cbn [head3 x3 y3 z3] in *. nra.
  Qed.
  Definition matched (c : curve R) (vs : list R) (is : list Z) : Prop :=
    Sorted Z.lt is /\ Forall2 (fun v i => 0 <= i < len (ControlPoints c) /\ same_sign v (sd (cp c i))) vs is.
  Lemma matched_inserted c c' n u vs is' : wf_curve c -> knot_span (Degree c) (Knots c) n u -> inserted c c' n u -> alternating vs ->
    matched c' vs is' -> exists is, matched c vs is.
  Proof.
    intros W K [Dg [I [L G]]] Al [S F]. pose proof (wf_count c W) as Nc. pose proof (cl_degree _ _ (wf_knots c W)) as P0. destruct K as [K1 K2].
    assert (forall v i', 0 <= i' < len (ControlPoints c') /\ same_sign v (sd (cp c' i')) ->
      exists i, i' - 1 <= i <= i' /\ (0 <= i < len (ControlPoints c) /\ same_sign v (sd (cp c i)))) as Step.
    { intros v i [Hi Hs]. rewrite G in Hs by exact Hi. unfold ins_pts in Hs.
      destruct (Z.leb_spec i (n - Degree c)); [exists i; repeat split; try lia; exact Hs|].
      destruct (Z.leb_spec i n); [|exists (i - 1); repeat split; try lia; exact Hs].
      apply sd_blend in Hs; [|apply (ins_den (kf (Knots c)) (Degree c) n u i (clamped_mono _ _ (wf_knots c W)) K2); lia|apply cp_weight, (wf_weights c W)..].
      destruct Hs as [Hs|Hs]; [exists i|exists (i - 1)]; repeat split; try lia; exact Hs. }
    destruct (choose_near _ _ Step _ _ F) as [is [F1 F2]]. exists is. split; [|exact F1].
    apply (alternate_strict (fun i => sd (cp c i)) vs is Al); [|exact (near_sorted _ _ S F2)].
    clear - F1. induction F1 as [|? ? ? ? [_ H]]; constructor; assumption.
  Qed.
  Lemma matched_list c us c' vs is' : wf_curve c -> List.Forall (fun u => 0 < u < 1)%R us -> Curve_InsertKnot_list c us = Ok c' -> alternating vs ->
    matched c' vs is' -> exists is, matched c vs is.
  Proof.
    intros W F E Al M. revert is' M. apply (insert_invariant (fun d => forall is', matched d vs is' -> exists is, matched c vs is)) with (us := us) (c := c); try assumption.
    - intros d d' n u Wd K Hu I Q is' M. destruct (matched_inserted d d' n u vs is' Wd K I Al M) as [is Ms]. exact (Q is Ms).
    - intros is M. exists is. exact M.
  Qed.
End Side.

(** ** The point at a knot of high multiplicity is a control point *)
Lemma N_late U r x p : mono U -> (U r <= x < U (r + 1)%Z)%R -> forall m, r < m + Z.of_nat p -> (forall k, m <= k <= r -> U k = x) -> N U p m x = 0%R.
Proof.
  intros M K. induction p as [|p IH]; intros m Hm E.
  - cbn [N]. unfold N0. destruct (Rle_dec (U m) x) as [L|]; [|reflexivity]. pose proof (M (r + 1) m ltac:(lia)). lra.
  - cbn [N]. rewrite (IH (m + 1)) by (try lia; intros k Hk; apply E; lia).
    destruct (Z_le_gt_dec m r) as [L|G].
    + rewrite (E m) by lia. unfold ratio. destruct (Req_EM_T _ 0); [ring|]. replace (x - x)%R with 0%R by ring. unfold Rdiv. ring.
    + rewrite (IH m) by (try lia; intros k Hk; lia). ring.
Qed.
Lemma N_early U r x p : mono U -> (U r <= x < U (r + 1)%Z)%R -> forall m, m + Z.of_nat p < r -> (x < 1)%R -> N U p m x = 0%R.
Proof.
  intros M K. induction p as [|p IH]; intros m Hm X1.
  - cbn [N]. unfold N0. destruct (Rle_dec (U m) x) as [L|]; [|reflexivity]. pose proof (M (m + 1) r ltac:(lia)). destruct (Rlt_dec _ _); [lra|]. destruct (Req_EM_T x 1); [lra|reflexivity].
  - cbn [N]. rewrite (IH m), (IH (m + 1)) by (try lia; assumption). ring.
Qed.
Lemma point_is_cp c x r : wf_curve c -> (x < 1)%R -> (0 <= x)%R -> knot_span (Degree c) (Knots c) r x -> (forall k, r - Degree c < k <= r -> kf (Knots c) k = x) ->
  Curve_Evaluate c x = Ok (head3 (cp c (r - Degree c))).
Proof.
  intros W X1 X0 [K1 K2] E. pose proof (wf_knots c W) as C. pose proof (clamped_mono _ _ C) as M. pose proof (cl_degree _ _ C) as P0. pose proof (wf_count c W) as Cn.
  assert (forall m, m <> r - Degree c -> basis_fun c m x = 0%R) as Z0.
  { intros m Hm. unfold basis_fun. destruct (Z_lt_ge_dec m (r - Degree c)).
    - apply (N_early _ r); try assumption. lia.
    - apply (N_late _ r); try assumption; [lia|]. intros k Hk. apply E. lia. }
  assert (0 <= r - Degree c < len (ControlPoints c)) as Hr by lia.
  assert (basis_fun c (r - Degree c) x = 1%R) as B1.
  { pose proof (basis_sum _ _ x C ltac:(lra)) as S. rewrite <- Cn in S. fold (basis_fun c) in S. rewrite <- S. symmetry. apply (zsum_delta 0 (len (ControlPoints c)) (r - Degree c) (fun i => N (kf (Knots c)) (Z.to_nat (Degree c)) i x) Hr).
    intros m _ Hm. exact (Z0 m Hm). }
  assert (forall f, hsum c f x = f (hp c (r - Degree c))) as Hs.
  { intros f. unfold hsum. rewrite (zsum_delta 0 _ (r - Degree c) _ Hr); [rewrite B1; ring|]. intros m _ Hm. rewrite (Z0 m Hm). ring. }
  rewrite Curve_Evaluate_ok by (try assumption; lra). f_equal. rewrite curve_point_hsum, !Hs. unfold hp, ToHomo, head3. cbn [x4 y4 z4 w4]. norm_R.
  pose proof (cp_weight c (r - Degree c) (wf_weights c W)). f_equal; field; lra.
Qed.

Definition at_index (c : curve R) (x : R) (j : Z) : Prop :=
  Curve_Evaluate c x = Ok (head3 (cp c j)) /\ 0 <= j < len (ControlPoints c) /\ ((x < 1)%R -> knot_span (Degree c) (Knots c) (j + Degree c) x) /\ (x = 1%R -> j = len (ControlPoints c) - 1).
Lemma at_index_mono c x y i j : wf_curve c -> (x < y <= 1)%R -> at_index c x i -> at_index c y j -> i <= j.
Proof.
  intros W H [_ [Ri [Si _]]] [_ [Rj [Sj Ej]]]. destruct (Req_EM_T y 1) as [E|Ne]; [rewrite (Ej E); lia|].
  destruct Si as [_ Si]; [lra|]. destruct Sj as [_ Sj]; [lra|]. destruct (Z_le_gt_dec i j); [assumption|].
  pose proof (clamped_mono _ _ (wf_knots c W) (j + Degree c + 1) (i + Degree c) ltac:(lia)). lra.
Qed.
Lemma at_index_find c x : wf_curve c -> (0 <= x <= 1)%R -> ((0 < x < 1)%R -> Degree c <= count x (Knots c)) -> exists j, at_index c x j.
Proof.
  intros W Hx Hc. pose proof (wf_knots c W) as C. pose proof (clamped_mono _ _ C) as M. pose proof (cl_degree _ _ C) as P0. pose proof (wf_count c W) as Cn. pose proof (cl_len _ _ C) as CL.
  destruct (Req_EM_T x 1) as [->|Ne].
  - exists (len (ControlPoints c) - 1). split; [|split; [lia|split; [lra|reflexivity]]].
    destruct (end_points c W) as [p [q [_ [Hq [_ E]]]]]. rewrite E. unfold cp. rewrite (nth_error_nth _ _ _ Hq). reflexivity.
  - destruct (clamped_span _ _ x C Hx) as [r [_ [Hr S]]]. assert (knot_span (Degree c) (Knots c) r x) as K by (split; [exact Hr|destruct S as [S|S]; [exact S|lra]]).
    exists (r - Degree c). split; [|split; [lia|split; [intros _; replace (r - Degree c + Degree c) with r by lia; exact K|lra]]].
    apply point_is_cp; try assumption; try lra. intros k Hk. destruct (Req_EM_T x 0) as [->|N0x].
    + destruct K as [_ K]. pose proof (M k r ltac:(lia)). pose proof (M 0 k ltac:(lia)). assert (kf (Knots c) 0 = 0%R) by (rewrite kf_at by lia; apply (cl_zero _ _ C); lia). lra.
    + destruct (count_span _ _ r x C K ltac:(lra)) as [_ [_ [E _]]]. apply E. specialize (Hc ltac:(lra)). lia.
Qed.

(** ** The claim *)
Definition inner (x : R) : bool := if Rlt_dec 0 x then if Rlt_dec x 1 then true else false else false.
Lemma inner_spec x : inner x = true <-> (0 < x < 1)%R.
Proof. unfold inner. destruct (Rlt_dec 0 x); [destruct (Rlt_dec x 1)|]; split; intros; try discriminate; try lra; reflexivity. Qed.
Definition fill (p : Z) (xs : list R) : list R := flat_map (fun x => if inner x then repeat x (Z.to_nat p) else []) xs.
Lemma fill_inner p xs : List.Forall (fun u => 0 < u < 1)%R (fill p xs).
Proof.
  apply Forall_forall. intros u Hu. unfold fill in Hu. apply in_flat_map in Hu. destruct Hu as [x [_ Hx]]. destruct (inner x) eqn:E; [|destruct Hx].
  apply repeat_spec in Hx. subst u. apply inner_spec. exact E.
Qed.
Lemma fill_count p xs x : In x xs -> (0 < x < 1)%R -> 0 <= p -> p <= count x (fill p xs).
Proof.
  intros Hin Hx P0. induction xs as [|y xs IH]; [destruct Hin|]. unfold fill. cbn [flat_map]. fold (fill p xs). rewrite count_app.
  assert (0 <= count x (fill p xs)) by (unfold count; lia). assert (0 <= count x (if inner y then repeat y (Z.to_nat p) else [])) by (unfold count; lia).
  destruct Hin as [->|Hin]; [|specialize (IH Hin); lia].
  rewrite (proj2 (inner_spec x) Hx), count_repeat. destruct (Req_EM_T x x); [lia|tauto].
Qed.
Lemma C88_lemma c A B D e xs ys : wf_curve c -> Sorted Rlt xs -> Forall2 (fun x y => Curve_Evaluate c x = Ok y) xs ys -> alternating (map (side A B D e) ys) ->
  exists is, Sorted Z.lt is /\ Forall2 (fun y i => 0 <= i < len (ControlPoints c) /\ same_sign (side A B D e y) (side A B D e (head3 (cp c i)))) ys is.
Proof.
  intros W S F Al. pose proof (cl_degree _ _ (wf_knots c W)) as P0.
  destruct (C34_lemma c (fill (Degree c) xs) W (fill_inner _ _)) as [c' [E [[W' [Dg [Pm [_ Ev]]]] _]]].
  assert (List.Forall (fun x => (0 <= x <= 1)%R) xs) as Dom.
  { clear - F W. induction F as [|x y xs ys H F IH]; constructor; [|exact IH].
    destruct (Rle_dec 0 x) as [a|a]; [destruct (Rle_dec x 1) as [b|b]; [lra|]|]; rewrite Curve_Evaluate_outside in H by lra; discriminate. }
  assert (forall x, In x xs -> exists j, at_index c' x j) as Idx.
  { intros x Hin. rewrite Forall_forall in Dom. apply at_index_find; [exact W'|apply Dom; exact Hin|]. intros Hx. rewrite Dg, (count_perm _ _ _ Pm), count_app.
    pose proof (fill_count (Degree c) xs x Hin Hx P0). assert (0 <= count x (Knots c)) by (unfold count; lia). lia. }
  assert (exists js, Forall2 (at_index c') xs js) as [js J].
  { clear - Idx. induction xs as [|x xs IH]; [exists []; constructor|]. destruct IH as [js J]; [intros; apply Idx; right; assumption|].
    destruct (Idx x (or_introl eq_refl)) as [j Hj]. exists (j :: js). constructor; assumption. }
  assert (Sorted Z.le js) as Sj.
  { clear - S J Dom W'. revert js J. induction xs as [|x xs IH]; intros js J; inversion J as [|? j ? ks Hj J']; subst; [constructor|].
    inversion S as [|? ? S' Hd]; subst. inversion Dom as [|? ? Dx Dom']; subst. constructor; [apply IH; assumption|].
    inversion J' as [|y j2 ys2 ks2 Hj2 J2]; subst; constructor. inversion Hd; subst. inversion Dom'; subst. apply (at_index_mono c' x y); try assumption. lra. }
  assert (Forall2 (fun v i => 0 <= i < len (ControlPoints c') /\ same_sign v (sd A B D e (cp c' i))) (map (side A B D e) ys) js) as G.
  { assert (List.Forall (fun v => v <> 0%R) (map (side A B D e) ys)) as Nz.
    { clear - Al. remember (map (side A B D e) ys) as vs. clear Heqvs. induction Al as [x Hx|x y l H Al IH]; [constructor; [exact Hx|constructor]|constructor; [intros ->; lra|exact IH]]. }
    clear - F J Ev Nz. revert ys F Nz. induction J as [|x j xs js Hj J IH]; intros ys F Nz; inversion F as [|? y ? ys' Hy F']; subst; [constructor|].
    cbn [map] in *. inversion Nz; subst. constructor; [|apply IH; assumption]. destruct Hj as [Ej [Rj _]]. split; [exact Rj|].
    rewrite Ev, Hy in Ej. assert (y = head3 (cp c' j)) as -> by congruence. unfold same_sign, sd. 
    match goal with H : side _ _ _ _ _ <> 0%R |- _ => set (t := side A B D e (head3 (cp c' j))) in *; nra end. }
  assert (matched A B D e c' (map (side A B D e) ys) js) as M.
  { split; [|exact G]. apply (alternate_strict (fun i => sd A B D e (cp c' i)) (map (side A B D e) ys)); [exact Al| |exact Sj].
    clear - G. induction G as [|? ? ? ? [_ H]]; constructor; assumption. }
  destruct (matched_list A B D e c _ c' _ js W (fill_inner _ _) E Al M) as [is [Si Fi]]. exists is. split; [exact Si|].
  clear - Fi. revert is Fi. induction ys as [|y ys IH]; intros is Fi; inversion Fi; subst; constructor; [assumption|apply IH; assumption].
Qed.
Lemma C88_insertion_lemma c us c' A B D e is' : wf_curve c -> List.Forall (fun u => 0 < u < 1)%R us -> Curve_InsertKnot_list c us = Ok c' ->
  Sorted Z.lt is' -> List.Forall (fun i => 0 <= i < len (ControlPoints c')) is' -> alternating (map (fun i => side A B D e (head3 (cp c' i))) is') ->
  exists is, Sorted Z.lt is /\ Forall2 (fun i' i => 0 <= i < len (ControlPoints c) /\ same_sign (side A B D e (head3 (cp c' i'))) (side A B D e (head3 (cp c i)))) is' is.
Proof.
  intros W F E S R Al. set (g := fun i => side A B D e (head3 (cp c' i))) in *.
  assert (matched A B D e c' (map g is') is') as M.
  { split; [exact S|]. assert (List.Forall (fun v => v <> 0%R) (map g is')) as Nz.
    { clear - Al. remember (map g is') as vs. clear Heqvs. induction Al as [x Hx|x y l H Al IH]; [constructor; [exact Hx|constructor]|constructor; [intros ->; lra|exact IH]]. }
    clear - R Nz. induction is' as [|i is' IH]; [constructor|]. inversion R; subst. cbn [map] in *. inversion Nz as [|? ? Hn Nz']; subst. constructor; [|apply IH; assumption].
    split; [assumption|]. unfold same_sign. change (sd A B D e (cp c' i)) with (g i). set (t := g i) in *. nra. }
  destruct (matched_list A B D e c us c' _ is' W F E Al M) as [is [Si Fi]]. exists is. split; [exact Si|].
  clear - Fi. revert is Fi. induction is' as [|i is' IH]; intros is Fi; inversion Fi; subst; constructor; [assumption|apply IH; assumption].
Qed.
Lemma C89_lemma c a b d x y p q : wf_curve c ->
  (forall i j, 0 <= i <= j -> j < len (ControlPoints c) -> (a * x4 (cp c i) + b * y4 (cp c i) + d * z4 (cp c i) <= a * x4 (cp c j) + b * y4 (cp c j) + d * z4 (cp c j))%R) ->
  (x <= y)%R -> Curve_Evaluate c x = Ok p -> Curve_Evaluate c y = Ok q -> (a * x3 p + b * y3 p + d * z3 p <= a * x3 q + b * y3 q + d * z3 q)%R.
Proof.
  intros W M [L|<-] Ep Eq; [|replace q with p by congruence; lra].
  apply Rnot_lt_le. intros G. set (vp := (a * x3 p + b * y3 p + d * z3 p)%R) in *. set (vq := (a * x3 q + b * y3 q + d * z3 q)%R) in *.
  set (e := ((vp + vq) / 2)%R).
  assert (side a b d e p = vp - e)%R as Sp by reflexivity. assert (side a b d e q = vq - e)%R as Sq by reflexivity.
  assert (0 < vp - e)%R by (unfold e; lra). assert (vq - e < 0)%R by (unfold e; lra).
  destruct (C88_lemma c a b d e [x; y] [p; q] W) as [is [S F]].
  - repeat constructor. exact L.
  - repeat constructor; assumption.
  - cbn [map]. rewrite Sp, Sq. constructor; [nra|]. constructor. lra.
  - inversion F as [|? i ? js [Ri Hi] F']; subst. inversion F' as [|? j ? ks [Rj Hj] F'']; subst. inversion S as [|? ? _ Hd]; subst. inversion Hd; subst.
    rewrite Sp in Hi. rewrite Sq in Hj. unfold same_sign, side in Hi, Hj. cbn [head3 x3 y3 z3] in Hi, Hj.
    specialize (M i j ltac:(lia) ltac:(lia)).
    set (mi := (a * x4 (cp c i) + b * y4 (cp c i) + d * z4 (cp c i))%R) in *. set (mj := (a * x4 (cp c j) + b * y4 (cp c j) + d * z4 (cp c j))%R) in *.
    assert (0 < mi - e)%R by nra. assert (mj - e < 0)%R by nra. lra.
Qed.

(** ** Examples *)
Lemma C88_ex_lemma : wf_curve curve_ex /\ Sorted Rlt [0; 1/2; 1]%R /\
  Forall2 (fun x y => Curve_Evaluate curve_ex x = Ok y) [0; 1/2; 1]%R [Vec3 0 0 0; Vec3 2 1 0; Vec3 3 0 1]%R /\
  alternating (map (side 0 1 0 (1/2)) [Vec3 0 0 0; Vec3 2 1 0; Vec3 3 0 1]%R).
Proof.
  split; [exact curve_ex_wf|]. split; [repeat constructor; lra|]. split.
  - destruct (end_points curve_ex curve_ex_wf) as [p [q [Hp [Hq [E0 E1]]]]]. cbn in Hp, Hq. injection Hp as <-. injection Hq as <-.
    constructor; [exact E0|]. constructor; [|constructor; [exact E1|constructor]].
    rewrite (point_is_cp curve_ex (1/2)%R 5 curve_ex_wf); [reflexivity|lra|lra| |].
    + split; [unfold len, curve_ex; simpl; lia|unfold kf, curve_ex; simpl; lra].
    + intros k Hk. unfold curve_ex in *. cbn [Degree Knots] in *. assert (k = 4 \/ k = 5) as [-> | ->] by lia; reflexivity.
  - cbn [map]. unfold side. cbn [x3 y3 z3]. repeat constructor; lra.
Qed.
Lemma C89_ex_lemma : wf_curve curve_ex /\
  (forall i j, 0 <= i <= j -> j < len (ControlPoints curve_ex) -> (1 * x4 (cp curve_ex i) + 0 * y4 (cp curve_ex i) + 0 * z4 (cp curve_ex i) <= 1 * x4 (cp curve_ex j) + 0 * y4 (cp curve_ex j) + 0 * z4 (cp curve_ex j))%R) /\
  (0 <= 1/2)%R /\ Curve_Evaluate curve_ex 0%R = Ok (Vec3 0 0 0)%R /\ Curve_Evaluate curve_ex (1/2)%R = Ok (Vec3 2 1 0)%R.
Proof.
  destruct C88_ex_lemma as [W [_ [F _]]]. inversion F as [|? ? ? ? E0 F']; subst. inversion F' as [|? ? ? ? E1 _]; subst. split; [exact W|]. split; [|split; [lra|split; assumption]].
  intros i j Hij Hj. change (len (ControlPoints curve_ex)) with 6 in Hj.
  assert (i = 0 \/ i = 1 \/ i = 2 \/ i = 3 \/ i = 4 \/ i = 5) as Ci by lia. assert (j = 0 \/ j = 1 \/ j = 2 \/ j = 3 \/ j = 4 \/ j = 5) as Cj by lia.
  destruct Ci as [->|[->|[->|[->|[->| ->]]]]]; destruct Cj as [->|[->|[->|[->|[->| ->]]]]]; try lia; unfold cp, curve_ex; simpl; lra.
Qed.
Lemma C88_insertion_ex_lemma : exists c', wf_curve curve_ex /\ Forall (fun u => 0 < u < 1)%R [1/4; 3/4]%R /\ Curve_InsertKnot_list curve_ex [1/4; 3/4]%R = Ok c' /\
  Sorted Z.lt [0; 7] /\ Forall (fun i => 0 <= i < len (ControlPoints c')) [0; 7] /\ alternating (map (fun i => side 1 0 0 1 (head3 (cp c' i))) [0; 7]).
Proof.
  assert (List.Forall (fun u => 0 < u < 1)%R [1/4; 3/4]%R) as F by (repeat constructor; lra).
  destruct (C34_lemma curve_ex _ curve_ex_wf F) as [c' [E [[W' [Dg [_ [L Ev]]]] _]]]. exists c'. split; [exact curve_ex_wf|]. split; [exact F|]. split; [exact E|].
  change (len (ControlPoints curve_ex)) with 6 in L. change (len [1/4; 3/4]%R) with 2 in L. rewrite L. split; [repeat constructor; lia|]. split; [repeat constructor; lia|].
  destruct (end_points curve_ex curve_ex_wf) as [p [q [Hp [Hq [E0 E1]]]]]. cbn in Hp, Hq. injection Hp as <-. injection Hq as <-.
  destruct (end_points c' W') as [p' [q' [Hp [Hq [E0' E1']]]]]. rewrite Ev, E0 in E0'. rewrite Ev, E1 in E1'. rewrite L in Hq.
  cbn [map]. unfold cp, head3, side. rewrite (nth_error_nth _ _ _ Hp). change (6 + 2 - 1) with 7 in Hq. rewrite (nth_error_nth _ _ _ Hq).
  injection E0' as X0 _ _. injection E1' as X1 _ _. cbn [x3 y3 z3 x4 y4 z4] in *. rewrite <- X0, <- X1. repeat constructor; lra.
Qed.
