(** GetBoundingBox over the reals: termination and what the box contains (C43). *)
From Coq Require Import Reals QArith Qreals ZArith List Lra Lia Bool Permutation.
From Verif Require Import Outcome Num ModelCore ModelCurve SpecCore SpecBasis SpecCurve
  ThOutcome ThReal ThKnots ThVec ThBox ThSum ThSpline ThBasis ThCurve ThBezier ThBezier2 ThBBox.
Import ListNotations.
Open Scope Z_scope.

Definition micro : R := lit_1e_6.
Lemma micro_pos : (0 < micro)%R.
Proof. unfold micro, lit_1e_6. norm_R. unfold Q2R. simpl. lra. Qed.
Lemma approx3_true (a b : vec3 R) e : Approx3 a b e = true <-> forall g, axis g -> (Rabs (g a - g b) < e)%R.
Proof.
  unfold Approx3, v3sub, nmax. cbn [x3 y3 z3]. norm_R. rewrite !Rabs_if, !Rmax_if, Rltb_true. unfold axis. split.
  - intros H. pose proof (Rmax_l (Rmax (Rabs (x3 a - x3 b)) (Rabs (y3 a - y3 b))) (Rabs (z3 a - z3 b))).
    pose proof (Rmax_r (Rmax (Rabs (x3 a - x3 b)) (Rabs (y3 a - y3 b))) (Rabs (z3 a - z3 b))).
    pose proof (Rmax_l (Rabs (x3 a - x3 b)) (Rabs (y3 a - y3 b))). pose proof (Rmax_r (Rabs (x3 a - x3 b)) (Rabs (y3 a - y3 b))).
    intros g [->|[->| ->]]; lra.
  - intros H. apply Rmax_lub_lt; [apply Rmax_lub_lt|]; apply H; auto.
Qed.

Definition epbox (P : list (vec4 R)) : bbox R := BoundingBox_make (head3 (znth v0 P 0)) (head3 (last P v0)).
Lemma accept_close eps d p P cp ep : 0 <= p -> (0 <= d)%R -> len P = p + 1 -> close d P -> (IZR p * d < micro)%R ->
  polygon_boxes P = Ok (cp, ep) -> polygon_accept eps cp ep = true.
Proof.
  intros Hp D0 L H Hd E. assert (P <> []) as Hne by (intros ->; cbn in L; lia).
  destruct (polygon_boxes_ok P Hne) as [cp' [ep' [E' [M [-> [Lq G]]]]]]. rewrite E' in E. injection E as -> <-.
  unfold polygon_accept. apply orb_true_iff. right. apply andb_true_iff. fold micro. rewrite last_znth in * by exact Hne.
  assert (forall g i, axis g -> 0 <= i < len P -> (pt g P i - IZR p * d <= g (Min cp) <= pt g P i)%R) as B.
  { intros g i Hg Hi. split.
    - apply G; [exact Hg|]. intros q Hq. apply in_pt in Hq. destruct Hq as [j [Hj ->]].
      pose proof (close_all d P p D0 H L g i j Hg Hi Hj) as A. apply Rabs_le_inv in A. unfold pt in *. lra.
    - apply (proj1 (axis_le _ _) (Lq _ (pt_in P i Hi)) g Hg). }
  split; apply approx3_true; intros g Hg; apply Rabs_def1; unfold BoundingBox_make; cbn [Min Max]; rewrite ?M;
    rewrite ?(axis_min g) by exact Hg; rewrite ?(axis_max g) by exact Hg;
    fold (pt g P 0); fold (pt g P (len P - 1));
    pose proof (B g 0 Hg ltac:(lia)); pose proof (B g (len P - 1) Hg ltac:(lia));
    pose proof (close_all d P p D0 H L g 0 (len P - 1) Hg ltac:(lia) ltac:(lia)) as A; apply Rabs_le_inv in A;
    unfold Rmin, Rmax; destruct (Rle_dec (pt g P 0) (pt g P (len P - 1))); lra.
Qed.

(** ** The tree of subdivisions, with its leaves *)
Inductive tree (p : Z) (eps : R) : list (vec4 R) -> list (list (vec4 R)) -> Prop :=
| tree_leaf P cp ep : polygon_boxes P = Ok (cp, ep) -> polygon_accept eps cp ep = true -> tree p eps P [P]
| tree_node P cp ep ls rs : polygon_boxes P = Ok (cp, ep) -> polygon_accept eps cp ep = false ->
    tree p eps (left_half p P) ls -> tree p eps (right_half p P) rs -> tree p eps P (ls ++ rs).
Lemma tree_exists_n p eps : 0 <= p -> forall n d P, (0 <= d)%R -> len P = p + 1 -> close d P -> (IZR p * d < micro * 2 ^ n)%R ->
  exists ls, tree p eps P ls.
Proof.
  intros Hp. induction n as [|n IH]; intros d P D0 L H Hd; assert (P <> []) as Hne by (intros ->; cbn in L; lia);
    destruct (polygon_boxes_ok P Hne) as [cp [ep [E _]]].
  - exists [P]. apply (tree_leaf p eps P cp ep E). apply (accept_close eps d p P cp ep); auto. rewrite pow_O, Rmult_1_r in Hd. exact Hd.
  - destruct (polygon_accept eps cp ep) eqn:A; [exists [P]; apply (tree_leaf p eps P cp ep E A)|].
    assert (IZR p * (d / 2) < micro * 2 ^ n)%R as Hd2 by (rewrite <- tech_pow_Rmult in Hd; lra).
    destruct (IH (d / 2)%R (left_half p P)) as [ls Hl]; [lra|apply len_left; exact Hp|apply close_left; assumption|exact Hd2|].
    destruct (IH (d / 2)%R (right_half p P)) as [rs Hr]; [lra|apply len_right; exact Hp|apply close_right; assumption|exact Hd2|].
    exists (ls ++ rs). apply (tree_node p eps P cp ep); assumption.
Qed.
Lemma tree_exists p eps P : 0 <= p -> len P = p + 1 -> exists ls, tree p eps P ls.
Proof.
  intros Hp L. destruct (close_exists P) as [d [D0 H]].
  destruct (Pow_x_infinity 2 ltac:(rewrite Rabs_right; lra) ((IZR p * d) / micro + 1)%R) as [n Hn].
  specialize (Hn n (le_n n)). rewrite Rabs_right in Hn by (left; apply Rlt_gt, pow_lt; lra).
  apply (tree_exists_n p eps Hp n d P D0 L H). pose proof micro_pos as Mp.
  apply Rmult_lt_reg_r with (/ micro)%R; [apply Rinv_0_lt_compat; exact Mp|].
  replace (micro * 2 ^ n * / micro)%R with (2 ^ n)%R by (field; lra). unfold Rdiv in Hn. lra.
Qed.
Lemma loop_tree p eps P ls : 0 <= p -> len P = p + 1 -> tree p eps P ls -> exists m, forall fuel stack g,
  bbox_loop (m + fuel) p eps (P :: stack) g = bbox_loop fuel p eps stack (fold_left merge_box (map epbox ls) g).
Proof.
  intros Hp L T. revert L. induction T as [P cp ep E A|P cp ep ls rs E A Tl IHl Tr IHr]; intros L.
  - exists 1%nat. intros fuel stack g. cbn [Nat.add bbox_loop]. rewrite E. cbn [bind]. rewrite A.
    cbn [map fold_left]. assert (P <> []) as Hne by (intros ->; cbn in L; lia).
    destruct (polygon_boxes_ok P Hne) as [cp' [ep' [E' [_ [Ee _]]]]]. rewrite E' in E. injection E as _ <-. rewrite Ee. reflexivity.
  - destruct (IHl (len_left p P Hp)) as [ml Hl]. destruct (IHr (len_right p P Hp)) as [mr Hr].
    exists (S (ml + mr)). intros fuel stack g. cbn [Nat.add bbox_loop]. rewrite E. cbn [bind]. rewrite A.
    rewrite subdivide_ok by assumption. cbn [bind]. rewrite <- Nat.add_assoc, Hl, Hr, map_app, fold_left_app. reflexivity.
Qed.
Lemma loop_mono p eps : forall fuel stack g r k, bbox_loop fuel p eps stack g = Ok r -> bbox_loop (fuel + k) p eps stack g = Ok (r : option (bbox R)).
Proof.
  induction fuel as [|fuel IH]; intros [|P stack] g r k E; cbn [bbox_loop Nat.add] in *; try discriminate.
  - destruct k; exact E.
  - exact E.
  - destruct (polygon_boxes P) as [[cp ep]| | | | |]; cbn [bind] in *; try discriminate.
    destruct (polygon_accept eps cp ep); [apply IH; exact E|].
    destruct (subdivide p P) as [[l r']| | | | |]; cbn [bind] in *; try discriminate. apply IH. exact E.
Qed.

(** ** Merging *)
Lemma ordered_epbox P : ordered (epbox P).
Proof. apply box_make_ordered. Qed.
Lemma merge_fold bs : Forall ordered bs -> forall g, (match g with Some g0 => ordered g0 | None => True end) ->
  (bs <> [] \/ g <> None) -> exists G, fold_left merge_box bs g = Some G /\ ordered G /\
    (match g with Some g0 => box_incl g0 G | None => True end) /\ (forall b, In b bs -> box_incl b G) /\
    (forall D, (match g with Some g0 => box_incl g0 D | None => True end) -> (forall b, In b bs -> box_incl b D) -> box_incl G D).
Proof.
  induction 1 as [|b bs Ob Fb IH]; intros g Og Hne.
  - destruct g as [g0|]; [|destruct Hne; congruence]. exists g0. cbn [fold_left]. split; [reflexivity|]. split; [exact Og|].
    split; [intros q Hq; exact Hq|]. split; [intros b []|]. intros D HD _. exact HD.
  - cbn [fold_left]. destruct g as [g0|]; cbn [merge_box].
    + destruct (IH (Some (BoundingBox_ExpandToInclude_box g0 b))) as [G [E [OG [I0 [Ib Hl]]]]].
      { unfold ordered in *. clear - Og Ob. box_solve. }
      { right. discriminate. }
      exists G. split; [exact E|]. split; [exact OG|].
      split; [intros q Hq; apply I0, box_join_left, Hq|]. split.
      * intros b' [<-|Hb]; [intros q Hq; apply I0, box_join_right, Hq|apply Ib; exact Hb].
      * intros D H0 Hb. apply Hl; [|intros b' Hb'; apply Hb; right; exact Hb'].
        apply box_join_least; [exact Og|exact Ob|exact H0|apply Hb; left; reflexivity].
    + destruct (IH (Some b)) as [G [E [OG [I0 [Ib Hl]]]]]; [exact Ob|right; discriminate|].
      exists G. split; [exact E|]. split; [exact OG|]. split; [exact I|]. split.
      * intros b' [<-|Hb]; [exact I0|apply Ib; exact Hb].
      * intros D _ Hb. apply Hl; [apply Hb; left; reflexivity|intros b' Hb'; apply Hb; right; exact Hb'].
Qed.

(** ** Ends *)
Lemma tree_ends p eps P ls : 0 <= p -> len P = p + 1 -> tree p eps P ls ->
  (exists l, In l ls /\ len l = p + 1 /\ forall g, axis g -> pt g l 0 = pt g P 0) /\
  (exists l, In l ls /\ len l = p + 1 /\ forall g, axis g -> pt g l p = pt g P p).
Proof.
  intros Hp L T. revert L. induction T as [P cp ep E A|P cp ep ls rs E A Tl IHl Tr IHr]; intros L.
  - split; exists P; (split; [left; reflexivity|split; [exact L|reflexivity]]).
  - destruct (IHl (len_left p P Hp)) as [[l [Hl [Ll Gl]]] _]. destruct (IHr (len_right p P Hp)) as [_ [r [Hr [Lr Gr]]]].
    split.
    + exists l. split; [apply in_or_app; left; exact Hl|]. split; [exact Ll|]. intros g Hg. rewrite Gl by exact Hg. rewrite pt_left by lia. reflexivity.
    + exists r. split; [apply in_or_app; right; exact Hr|]. split; [exact Lr|]. intros g Hg. rewrite Gr by exact Hg. rewrite pt_right by lia.
      rewrite Z.sub_diag. reflexivity.
Qed.
Lemma tree_len p eps P ls : 0 <= p -> len P = p + 1 -> tree p eps P ls -> forall l, In l ls -> len l = p + 1.
Proof.
  intros Hp L T. revert L. induction T as [P cp ep E A|P cp ep ls rs E A Tl IHl Tr IHr]; intros L l Hl.
  - destruct Hl as [<-|[]]. exact L.
  - apply in_app_or in Hl. destruct Hl; [apply IHl|apply IHr]; auto using len_left, len_right.
Qed.
