(** The subdivision loop of GetBoundingBox over the reals (C43). *)
From Coq Require Import Reals QArith Qreals ZArith List Lra Lia Bool Permutation.
From Verif Require Import Outcome Num ModelCore ModelCurve SpecCore SpecBasis SpecCurve
  ThOutcome ThReal ThKnots ThVec ThBox ThSpline ThBasis ThCurve ThBezier ThBezier2.
Import ListNotations.
Open Scope Z_scope.

(** ** Coordinates *)
Definition axis (g : vec3 R -> R) : Prop := g = x3 \/ g = y3 \/ g = z3.
Lemma axis_le a b : le3 a b <-> forall g, axis g -> (g a <= g b)%R.
Proof.
  unfold le3, axis. split.
  - intros [A [B C]] g [->|[->| ->]]; assumption.
  - intros H. split; [|split]; apply H; auto.
Qed.
Lemma axis_min g a b : axis g -> g (v3min a b) = Rmin (g a) (g b).
Proof. intros [->|[->| ->]]; unfold v3min, nmin; cbn; norm_R; apply Rmin_if. Qed.
Lemma axis_max g a b : axis g -> g (v3max a b) = Rmax (g a) (g b).
Proof. intros [->|[->| ->]]; unfold v3max, nmax; cbn; norm_R; apply Rmax_if. Qed.
Lemma axis_mid g a b : axis g -> g (head3 (v4add (v4scale (nlit (1 # 2)) a) (v4scale (nlit (1 # 2)) b))) = ((g (head3 a) + g (head3 b)) / 2)%R.
Proof. intros [->|[->| ->]]; cbn; norm_R; replace (Q2R (1 # 2)) with (/2)%R by (unfold Q2R; simpl; lra); lra. Qed.

Definition v0 : vec4 R := (Vec4 0 0 0 1)%R.
(** coordinate of control point [i] *)
Definition pt (g : vec3 R -> R) (P : list (vec4 R)) (i : Z) : R := g (head3 (znth v0 P i)).

(** ** The boxes of a polygon *)
Lemma expand_fold rest : forall b, ordered b ->
  let b' := fold_left (fun b q => BoundingBox_ExpandToInclude b (head3 q)) rest b in
  ordered b' /\ (rest = [] \/ Max b' = head3 (last rest v0)) /\ le3 (Min b') (Min b) /\
  (forall q, In q rest -> le3 (Min b') (head3 q)) /\
  (forall g m, axis g -> (m <= g (Min b))%R -> (forall q, In q rest -> (m <= g (head3 q))%R) -> (m <= g (Min b'))%R).
Proof.
  induction rest as [|q rest IH]; intros b Ob; cbn [fold_left].
  - split; [exact Ob|]. split; [left; reflexivity|]. split; [unfold le3; lra|]. split; [intros q []|]. intros g m _ H _. exact H.
  - rewrite (box_expand_point b (head3 q)).
    assert (O1 : ordered (BBox (v3min (Min b) (head3 q)) (head3 q))).
    { unfold ordered. apply axis_le. intros g Hg. cbn [Min Max]. rewrite axis_min by exact Hg. apply Rmin_r. }
    destruct (IH _ O1) as [O2 [M [Lm [Lq G]]]]. cbn [Min Max] in *.
    set (b' := fold_left _ rest _) in *. split; [exact O2|]. split.
    { right. destruct rest as [|r rest']; [reflexivity|]. destruct M as [M|M]; [discriminate|]. exact M. }
    assert (L1 : le3 (Min b') (Min b) /\ le3 (Min b') (head3 q)).
    { rewrite !axis_le in *. split; intros g Hg; specialize (Lm g Hg); rewrite axis_min in Lm by exact Hg;
        pose proof (Rmin_l (g (Min b)) (g (head3 q))); pose proof (Rmin_r (g (Min b)) (g (head3 q))); lra. }
    split; [apply L1|]. split; [intros r [<-|Hr]; [apply L1|apply Lq; exact Hr]|].
    intros g m Hg Hm Hall. apply G; [exact Hg| |intros r Hr; apply Hall; right; exact Hr].
    rewrite axis_min by exact Hg. apply Rmin_glb; [exact Hm|]. apply Hall. left. reflexivity.
Qed.
(** [cpBox] spans from the least coordinates to the {e last} point. *)
Lemma polygon_boxes_ok P : P <> [] -> exists cp ep, polygon_boxes P = Ok (cp, ep) /\
  Max cp = head3 (last P v0) /\ ep = BoundingBox_make (head3 (znth v0 P 0)) (head3 (last P v0)) /\
  (forall q, In q P -> le3 (Min cp) (head3 q)) /\
  (forall g m, axis g -> (forall q, In q P -> (m <= g (head3 q))%R) -> (m <= g (Min cp))%R).
Proof.
  intros Hne. destruct P as [|c0 rest]; [congruence|]. unfold polygon_boxes.
  assert (Ob : ordered (BoundingBox_make (head3 c0) (head3 c0))) by apply box_make_ordered.
  destruct (expand_fold rest _ Ob) as [O [M [Lm [Lq G]]]]. set (b' := fold_left _ rest _) in *.
  assert (Em : forall g, axis g -> g (Min (BoundingBox_make (head3 c0) (head3 c0))) = g (head3 c0)).
  { intros g Hg. cbn [BoundingBox_make Min]. rewrite axis_min by exact Hg. apply Rmin_left. lra. }
  exists b', (BoundingBox_make (head3 c0) (head3 (last (c0 :: rest) c0))). split; [reflexivity|].
  assert (El : last (c0 :: rest) c0 = last (c0 :: rest) v0).
  { clear. revert c0. induction rest as [|r rest IH]; intros c0; [reflexivity|]. change (last (r :: rest) c0 = last (r :: rest) v0).
    clear IH. revert r. induction rest as [|s rest IH]; intros r; [reflexivity|]. apply IH. }
  split.
  { destruct rest as [|r rest']; [|destruct M as [M|M]; [discriminate|exact M]].
    cbn [fold_left] in b'. subst b'. cbn [BoundingBox_make Max last]. clear. destruct c0 as [a b c w]. unfold v3max, nmax. cbn. norm_R.
    destruct (Rltb a a), (Rltb b b), (Rltb c c); reflexivity. }
  split; [rewrite El; reflexivity|]. split.
  - intros q [<-|Hq]; [|apply Lq; exact Hq]. rewrite axis_le in *. intros g Hg. rewrite <- (Em g Hg). apply Lm. exact Hg.
  - intros g m Hg Hall. apply G; [exact Hg| |intros q Hq; apply Hall; right; exact Hq]. rewrite (Em g Hg). apply Hall. left. reflexivity.
Qed.
Lemma last_znth P : P <> [] -> last P v0 = znth v0 P (len P - 1).
Proof.
  induction P as [|a P IH]; [congruence|]. intros _. destruct P as [|b P]; [reflexivity|].
  change (last (b :: P) v0 = znth v0 (a :: b :: P) (len (a :: b :: P) - 1)). rewrite IH by discriminate.
  rewrite !len_cons. pose proof (len_nonneg P). rewrite (znth_cons v0 a) by lia. f_equal. lia.
Qed.
Lemma in_pt P q : In q P -> exists i, 0 <= i < len P /\ q = znth v0 P i.
Proof.
  intros H. apply (In_nth _ _ v0) in H. destruct H as [n [L E]]. exists (Z.of_nat n). unfold len, znth. rewrite Nat2Z.id. split; [lia|congruence].
Qed.
Lemma pt_in P i : 0 <= i < len P -> In (znth v0 P i) P.
Proof. intros H. apply nth_In. unfold len in H. lia. Qed.

(** ** De Casteljau rows *)
Fixpoint rown (r : nat) (P : list (vec4 R)) : list (vec4 R) :=
  match r with O => P | S r' => rown r' (midpoints P) end.
Lemma len_midpoints P : P <> [] -> len (midpoints P) = len P - 1.
Proof.
  induction P as [|a P IH]; [congruence|]. intros _. destruct P as [|b P]; [reflexivity|].
  change (midpoints (a :: b :: P)) with (v4add (v4scale (nlit (1 # 2)) a) (v4scale (nlit (1 # 2)) b) :: midpoints (b :: P)).
  rewrite len_cons, IH, !len_cons by discriminate. lia.
Qed.
Lemma pt_midpoints g P : axis g -> forall i, 0 <= i < len P - 1 -> pt g (midpoints P) i = ((pt g P i + pt g P (i + 1)) / 2)%R.
Proof.
  intros Hg. induction P as [|a P IH]; intros i Hi; [cbn in Hi; lia|]. destruct P as [|b P]; [cbn in Hi; lia|].
  change (midpoints (a :: b :: P)) with (v4add (v4scale (nlit (1 # 2)) a) (v4scale (nlit (1 # 2)) b) :: midpoints (b :: P)).
  unfold pt in *. destruct (Z.eq_dec i 0) as [->|Ni].
  - rewrite znth_0. rewrite axis_mid by exact Hg. reflexivity.
  - rewrite (znth_cons v0 _ (midpoints (b :: P))), !(znth_cons v0 a) by lia. rewrite len_cons in Hi. rewrite IH by lia. replace (i + 1 - 1) with (i - 1 + 1) by lia. reflexivity.
Qed.
Lemma rown_S r : forall P, rown (S r) P = midpoints (rown r P).
Proof. induction r as [|r IH]; intros P; [reflexivity|]. change (rown (S r) (midpoints P) = midpoints (rown r (midpoints P))). apply IH. Qed.
Lemma len_rown r : forall P, Z.of_nat r < len P -> len (rown r P) = len P - Z.of_nat r.
Proof.
  induction r as [|r IH]; intros P H; [cbn [rown]; lia|]. cbn [rown].
  assert (P <> []) by (intros ->; cbn in H; lia). rewrite IH; rewrite len_midpoints by assumption; lia.
Qed.
Lemma vget_cons_pos {A} (a : A) l i : 0 < i -> vget (a :: l) i = vget l (i - 1).
Proof.
  intros H. unfold vget. destruct (Z.ltb_spec i 0); [lia|]. destruct (Z.ltb_spec (i - 1) 0); [lia|].
  replace (Z.to_nat i) with (S (Z.to_nat (i - 1))) by lia. reflexivity.
Qed.
Lemma rows_at n : forall P r, 0 <= r <= Z.of_nat n -> vget (casteljau_rows n P) r = Ok (rown (Z.to_nat r) P).
Proof.
  induction n as [|n IH]; intros P r Hr.
  - assert (r = 0) as -> by lia. reflexivity.
  - cbn [casteljau_rows]. destruct (Z.eq_dec r 0) as [->|Nr]; [reflexivity|].
    rewrite vget_cons_pos by lia. rewrite IH by lia. f_equal. replace (Z.to_nat r) with (S (Z.to_nat (r - 1))) by lia. reflexivity.
Qed.
Definition left_half (p : Z) (P : list (vec4 R)) : list (vec4 R) :=
  map (fun r => znth v0 (rown (Z.to_nat r) P) 0) (zrange 0 (p + 1)).
Definition right_half (p : Z) (P : list (vec4 R)) : list (vec4 R) :=
  map (fun r => znth v0 (rown (Z.to_nat (p - r)) P) r) (zrange 0 (p + 1)).
Lemma subdivide_ok p P : 0 <= p -> len P = p + 1 -> subdivide p P = Ok (left_half p P, right_half p P).
Proof.
  intros Hp L. unfold subdivide.
  rewrite (tabulate_ok 0 (p + 1) _ (fun r => znth v0 (rown (Z.to_nat r) P) 0)).
  2:{ intros i Hi. rewrite rows_at by lia. cbn [bind]. apply vget_ok. rewrite len_rown; lia. }
  cbn [bind]. rewrite (tabulate_ok 0 (p + 1) _ (fun r => znth v0 (rown (Z.to_nat (p - r)) P) r)).
  2:{ intros i Hi. rewrite rows_at by lia. cbn [bind]. apply vget_ok. rewrite len_rown; lia. }
  reflexivity.
Qed.
Lemma znth_tab (f : Z -> vec4 R) n i : 0 <= i < n -> znth v0 (map f (zrange 0 n)) i = f i.
Proof. intros H. pose proof (vget_zrange_map f 0 n i ltac:(lia)) as E. apply (vget_inv v0) in E. destruct E as [_ <-]. f_equal. Qed.
Lemma pt_left g p P i : 0 <= i <= p -> pt g (left_half p P) i = pt g (rown (Z.to_nat i) P) 0.
Proof. intros. unfold pt, left_half. rewrite znth_tab by lia. reflexivity. Qed.
Lemma pt_right g p P i : 0 <= i <= p -> pt g (right_half p P) i = pt g (rown (Z.to_nat (p - i)) P) i.
Proof. intros. unfold pt, right_half. rewrite znth_tab by lia. reflexivity. Qed.
Lemma len_left p P : 0 <= p -> len (left_half p P) = p + 1.
Proof. intros. unfold left_half. rewrite len_map, len_zrange. lia. Qed.
Lemma len_right p P : 0 <= p -> len (right_half p P) = p + 1.
Proof. intros. unfold right_half. rewrite len_map, len_zrange. lia. Qed.

Lemma Rabs_le_inv a b : (Rabs a <= b -> - b <= a <= b)%R.
Proof. unfold Rabs. destruct (Rcase_abs a); lra. Qed.
(** ** Consecutive differences halve *)
Definition close (d : R) (P : list (vec4 R)) : Prop :=
  forall g i, axis g -> 0 <= i < len P - 1 -> (Rabs (pt g P (i + 1) - pt g P i) <= d)%R.
Lemma close_mid d P : close d P -> close d (midpoints P).
Proof.
  intros H g i Hg Hi. assert (P <> []) as Hne by (intros ->; cbn in Hi; lia). rewrite len_midpoints in Hi by exact Hne.
  rewrite !pt_midpoints by (try exact Hg; lia). pose proof (H g i Hg ltac:(lia)) as A. pose proof (H g (i + 1) Hg ltac:(lia)) as B.
  apply Rabs_le_inv in A. apply Rabs_le_inv in B. apply Rabs_le. lra.
Qed.
Lemma close_rown d r : forall P, close d P -> close d (rown r P).
Proof. induction r as [|r IH]; intros P H; [exact H|]. cbn [rown]. apply IH, close_mid, H. Qed.
Lemma close_left d p P : 0 <= p -> len P = p + 1 -> close d P -> close (d / 2) (left_half p P).
Proof.
  intros Hp L H g i Hg Hi. rewrite len_left in Hi by exact Hp. rewrite !pt_left by lia.
  replace (Z.to_nat (i + 1)) with (S (Z.to_nat i)) by lia. rewrite rown_S, pt_midpoints; [|exact Hg|rewrite len_rown by lia; lia].
  pose proof (close_rown d (Z.to_nat i) P H g 0 Hg ltac:(rewrite len_rown by lia; lia)) as A.
  apply Rabs_le_inv in A. apply Rabs_le. lra.
Qed.
Lemma close_right d p P : 0 <= p -> len P = p + 1 -> close d P -> close (d / 2) (right_half p P).
Proof.
  intros Hp L H g i Hg Hi. rewrite len_right in Hi by exact Hp. rewrite !pt_right by lia.
  replace (Z.to_nat (p - i)) with (S (Z.to_nat (p - (i + 1)))) by lia. rewrite rown_S, pt_midpoints; [|exact Hg|rewrite len_rown by lia; lia].
  pose proof (close_rown d (Z.to_nat (p - (i + 1))) P H g i Hg ltac:(rewrite len_rown by lia; lia)) as A.
  apply Rabs_le_inv in A. apply Rabs_le. lra.
Qed.
Lemma close_exists P : exists d, (0 <= d)%R /\ close d P.
Proof.
  induction P as [|a P [d [D0 H]]].
  - exists 0%R. split; [lra|]. intros g i _ Hi. cbn in Hi. lia.
  - destruct P as [|b P].
    + exists 0%R. split; [lra|]. intros g i _ Hi. cbn in Hi. lia.
    + set (e := (Rabs (x4 b - x4 a) + Rabs (y4 b - y4 a) + Rabs (z4 b - z4 a))%R).
      pose proof (Rabs_pos (x4 b - x4 a)). pose proof (Rabs_pos (y4 b - y4 a)). pose proof (Rabs_pos (z4 b - z4 a)).
      exists (d + e)%R. split; [unfold e; lra|]. intros g i Hg Hi. destruct (Z.eq_dec i 0) as [->|Ni].
      * unfold pt. cbn [Z.add]. rewrite znth_0, (znth_cons v0 a), znth_0 by lia. unfold e.
        destruct Hg as [->|[->| ->]]; cbn [x3 y3 z3 head3]; lra.
      * unfold pt. rewrite !(znth_cons v0 a) by lia. rewrite len_cons in Hi.
        specialize (H g (i - 1) Hg ltac:(lia)). unfold pt in H. replace (i - 1 + 1) with (i + 1 - 1) in H by lia. unfold e. lra.
Qed.
Lemma close_far d P : close d P -> forall g i n, axis g -> 0 <= i -> i + Z.of_nat n < len P ->
  (Rabs (pt g P (i + Z.of_nat n) - pt g P i) <= INR n * d)%R.
Proof.
  intros H g i n Hg Hi. induction n as [|n IH]; intros Hn.
  - rewrite Z.add_0_r. cbn [INR]. replace (pt g P i - pt g P i)%R with 0%R by lra. rewrite Rabs_R0. lra.
  - specialize (IH ltac:(lia)). pose proof (H g (i + Z.of_nat n) Hg ltac:(lia)) as A.
    replace (i + Z.of_nat (S n)) with (i + Z.of_nat n + 1) by lia. rewrite S_INR.
    apply Rabs_le_inv in IH. apply Rabs_le_inv in A. apply Rabs_le. lra.
Qed.
Lemma close_all d P p : (0 <= d)%R -> close d P -> len P = p + 1 -> forall g i j, axis g -> 0 <= i < len P -> 0 <= j < len P ->
  (Rabs (pt g P i - pt g P j) <= IZR p * d)%R.
Proof.
  intros D0 H L. assert (forall g i j, axis g -> 0 <= i <= j -> j < len P -> (Rabs (pt g P j - pt g P i) <= IZR p * d)%R) as A.
  { intros g i j Hg Hi Hj. pose proof (close_far d P H g i (Z.to_nat (j - i)) Hg ltac:(lia) ltac:(lia)) as A.
    rewrite Z2Nat.id in A by lia. replace (i + (j - i)) with j in A by lia.
    rewrite INR_IZR_INZ, Z2Nat.id in A by lia. assert (IZR (j - i) <= IZR p)%R by (apply IZR_le; lia).
    assert (IZR (j - i) * d <= IZR p * d)%R by (apply Rmult_le_compat_r; assumption). lra. }
  intros g i j Hg Hi Hj. destruct (Z_le_gt_dec i j).
  - rewrite Rabs_minus_sym. apply A; [exact Hg|lia|lia].
  - apply A; [exact Hg|lia|lia].
Qed.
