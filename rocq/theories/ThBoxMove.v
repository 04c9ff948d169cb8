(** GetBoundingBox commutes with translations and renamings of the axes (C110). *)
From Coq Require Import Reals ZArith QArith List Lia Lra Bool.
From Verif Require Import Outcome Num ModelCore ModelBasis ModelAlgo ModelCurve SpecCore SpecCurve SpecMeta SpecMove ThOutcome ThVec ThSo ThSoGen ThBBox ThBBox2.
Import ListNotations.
Open Scope Z_scope.

Section Box.
  Variables (s : axis3 -> axis3) (b : vec3 R) (k : R).
  Hypothesis K : (k <> 0)%R.
  Hypothesis S1 : forall a a', s a = s a' -> a = a'.
  Let cp := axes_point s b k.
  Let av := axes_vec s b.
  Definition ahom (h h' : vec4 R) : Prop := (w4 h' = k * w4 h)%R /\ forall a, (coord4 a h' = k * (coord4 (s a) h + w4 h * coord a b))%R.

  Lemma ahom_zero : ahom v4zero v4zero.
  Proof. split; [cbn; ring|]. intros a. destruct a, (s _); cbn; ring. Qed.
  Lemma c4add a (p q : vec4 R) : (coord4 a (v4add p q) = coord4 a p + coord4 a q)%R.
  Proof. destruct a; reflexivity. Qed.
  Lemma c4scale a r (p : vec4 R) : (coord4 a (v4scale r p) = r * coord4 a p)%R.
  Proof. destruct a; reflexivity. Qed.
  Lemma c4homo a (p : vec4 R) : (coord4 a (ToHomo p) = coord4 a p * w4 p)%R.
  Proof. destruct a; cbn; ring. Qed.
  Lemma ahom_add p q p' q' : ahom p p' -> ahom q q' -> ahom (v4add p q) (v4add p' q').
  Proof.
    intros [E1 E2] [F1 F2]. split; [change (w4 p' + w4 q' = k * (w4 p + w4 q))%R; rewrite E1, F1; ring|].
    intros a. rewrite !c4add, E2, F2. change (w4 (v4add p q)) with (w4 p + w4 q)%R. ring.
  Qed.
  Lemma ahom_scale r p p' : ahom p p' -> ahom (v4scale r p) (v4scale r p').
  Proof.
    intros [E1 E2]. split; [change (r * w4 p' = k * (r * w4 p))%R; rewrite E1; ring|].
    intros a. rewrite !c4scale, E2. change (w4 (v4scale r p)) with (r * w4 p)%R. ring.
  Qed.
  Lemma ahom_homo p p' : cp p p' -> ahom (ToHomo p) (ToHomo p').
  Proof. intros [E1 E2]. split; [exact E1|]. intros a. rewrite !c4homo, E2, E1. change (w4 (ToHomo p)) with (w4 p). ring. Qed.
  Lemma ahom_from p p' : ahom p p' -> so cp (FromHomo p) (FromHomo p').
  Proof.
    intros [E1 E2]. unfold FromHomo, v3div. cbn [head3 x3 y3 z3 ndiv Num_R]. destruct (Req_EM_T (w4 p) 0) as [Zw|N].
    - assert (w4 p' = 0)%R as Z' by (rewrite E1, Zw; ring). destruct (Req_EM_T (w4 p') 0); [exact I|contradiction].
    - assert (w4 p' <> 0)%R as N' by (rewrite E1; apply Rmult_integral_contrapositive_currified; assumption). destruct (Req_EM_T (w4 p') 0); [contradiction|].
      cbn [bind]. unfold set_head3. cbn [x3 y3 z3]. split; [exact E1|]. intros a.
      assert (forall a (v : vec4 R) w, coord4 a (Vec4 (x4 v / w) (y4 v / w) (z4 v / w) (w4 v)) = coord4 a v / w)%R as C by (intros [] ? ?; reflexivity).
      rewrite !C, E2, E1. field. auto.
  Qed.

  (** ** Boxes *)
  Lemma av_head p p' : cp p p' -> av (head3 p) (head3 p').
  Proof. intros [_ E] a. specialize (E a). destruct a; cbn in *; rewrite E; destruct (s _); reflexivity. Qed.
  Lemma coord_min a (p q : vec3 R) : coord a (v3min p q) = nmin (coord a p) (coord a q).
  Proof. destruct a; reflexivity. Qed.
  Lemma coord_max a (p q : vec3 R) : coord a (v3max p q) = nmax (coord a p) (coord a q).
  Proof. destruct a; reflexivity. Qed.
  Lemma ltb_shift x y c : Rltb (x + c) (y + c) = Rltb x y.
  Proof. unfold Rltb. destruct (Rlt_dec (x + c) (y + c)), (Rlt_dec x y); try reflexivity; lra. Qed.
  Lemma av_min p q p' q' : av p p' -> av q q' -> av (v3min p q) (v3min p' q').
  Proof. intros E F a. rewrite !coord_min, E, F. unfold nmin. cbn [nltb Num_R]. rewrite ltb_shift. destruct (Rltb _ _); reflexivity. Qed.
  Lemma av_max p q p' q' : av p p' -> av q q' -> av (v3max p q) (v3max p' q').
  Proof. intros E F a. rewrite !coord_max, E, F. unfold nmax. cbn [nltb Num_R]. rewrite ltb_shift. destruct (Rltb _ _); reflexivity. Qed.
  Let ab := axes_box s b.
  Lemma ab_make p q p' q' : av p p' -> av q q' -> ab (BoundingBox_make p q) (BoundingBox_make p' q').
  Proof. intros. split; [apply av_min|apply av_max]; assumption. Qed.
  Lemma ab_expand B B' p p' : ab B B' -> av p p' -> ab (BoundingBox_ExpandToInclude B p) (BoundingBox_ExpandToInclude B' p').
  Proof. intros [E1 E2] F. split; [apply av_min; assumption|]. apply av_max; [apply av_min|]; assumption. Qed.
  Lemma ab_join B B' C C' : ab B B' -> ab C C' -> ab (BoundingBox_ExpandToInclude_box B C) (BoundingBox_ExpandToInclude_box B' C').
  Proof. intros [E1 E2] [F1 F2]. split; [apply av_min|apply av_max]; assumption. Qed.
  Lemma F2_last {A B} (Q : A -> B -> Prop) l l' : Forall2 Q l l' -> forall x y, Q x y -> Q (last l x) (last l' y).
  Proof. induction 1 as [|u v l l' H F IH]; intros x y E; [exact E|]. inversion F; subst; [exact H|]. exact (IH x y E). Qed.
  Lemma boxes_so l l' : Forall2 cp l l' -> so (fun X Y => ab (fst X) (fst Y) /\ ab (snd X) (snd Y)) (polygon_boxes l) (polygon_boxes l').
  Proof.
    intros F. destruct F as [|p q l l' E F]; [reflexivity|]. cbn [polygon_boxes same_outcome fst snd]. split.
    - assert (forall B B', ab B B' -> ab (fold_left (fun b q => BoundingBox_ExpandToInclude b (head3 q)) l B) (fold_left (fun b q => BoundingBox_ExpandToInclude b (head3 q)) l' B')) as L.
      { clear E. induction F as [|u v l l' E F IH]; intros B B' HB; [exact HB|]. cbn [fold_left]. apply IH. apply ab_expand; [exact HB|]. apply av_head. exact E. }
      apply L. apply ab_make; apply av_head; exact E.
    - apply ab_make; apply av_head; [exact E|]. apply F2_last; [constructor; assumption|exact E].
  Qed.
  (** a renaming of the three axes only reorders them *)
  Lemma perm_dot (p q : vec3 R) : (forall a, coord a q = coord (s a) p) -> v3dot q q = v3dot p p.
  Proof.
    intros E. pose proof (E AX) as X. pose proof (E AY) as Y. pose proof (E AZ) as Z'. pose proof (S1 AX AY) as N1. pose proof (S1 AX AZ) as N2. pose proof (S1 AY AZ) as N3.
    destruct (s AX), (s AY), (s AZ); try (discriminate (N1 eq_refl)); try (discriminate (N2 eq_refl)); try (discriminate (N3 eq_refl));
    cbn in X, Y, Z'; unfold v3dot; cbn [nadd nmul Num_R]; rewrite X, Y, Z'; ring.
  Qed.
  Lemma s_onto a : exists a', s a' = a.
  Proof.
    pose proof (S1 AX AY) as N1. pose proof (S1 AX AZ) as N2. pose proof (S1 AY AZ) as N3. destruct (s AX) eqn:X, (s AY) eqn:Y, (s AZ) eqn:Z';
    try (discriminate (N1 eq_refl)); try (discriminate (N2 eq_refl)); try (discriminate (N3 eq_refl)); destruct a; eauto.
  Qed.
  Lemma approx_coord p q e : Approx3 p q e = true <-> forall a, (Rabs (coord a p - coord a q) < e)%R.
  Proof.
    rewrite approx3_true. split.
    - intros E a. destruct a; apply (E (fun v => _ v)); unfold axis; auto.
    - intros E g [->|[->| ->]]; [apply (E AX)|apply (E AY)|apply (E AZ)].
  Qed.
  Lemma perm_approx p q p' q' e : av p p' -> av q q' -> Approx3 p' q' e = Approx3 p q e.
  Proof.
    intros E F. apply eq_true_iff_eq. rewrite !approx_coord. split; intros A a.
    - destruct (s_onto a) as [a' <-]. specialize (A a'). rewrite E, F in A. replace (coord (s a') p - coord (s a') q)%R with (coord (s a') p + coord a' b - (coord (s a') q + coord a' b))%R by ring. exact A.
    - rewrite E, F. replace (coord (s a) p + coord a b - (coord (s a) q + coord a b))%R with (coord (s a) p - coord (s a) q)%R by ring. apply A.
  Qed.
  Lemma accept_same e B B' C C' : ab B B' -> ab C C' -> polygon_accept e B' C' = polygon_accept e B C.
  Proof.
    intros [E1 E2] [F1 F2]. unfold polygon_accept. rewrite (perm_approx _ _ _ _ _ E1 F1), (perm_approx _ _ _ _ _ E2 F2). f_equal. f_equal. unfold v3norm. f_equal. apply perm_dot.
    intros a. unfold BoundingBox_Length. assert (forall a (p q : vec3 R), coord a (v3sub p q) = coord a p - coord a q)%R as D by (intros [] ? ?; reflexivity).
    rewrite !D, E1, E2. ring.
  Qed.
  Lemma mid_same p q p' q' : cp p p' -> cp q q' -> cp (v4add (v4scale (nlit (1 # 2)%Q) p) (v4scale (nlit (1 # 2)%Q) q)) (v4add (v4scale (nlit (1 # 2)%Q) p') (v4scale (nlit (1 # 2)%Q) q')).
  Proof.
    assert (nlit (1 # 2)%Q = / 2)%R as H2 by (cbn [nlit Num_R]; unfold Q2R; cbn; lra). rewrite H2.
    intros [E1 E2] [F1 F2]. split; [change (/ 2 * w4 p' + / 2 * w4 q' = k * (/ 2 * w4 p + / 2 * w4 q))%R; rewrite E1, F1; ring|].
    intros a. rewrite !c4add, !c4scale, E2, F2. field.
  Qed.
  Lemma mids_same l l' : Forall2 cp l l' -> Forall2 cp (midpoints l) (midpoints l').
  Proof. induction 1 as [|p q l l' E F IH]; [constructor|]. destruct F as [|u v l l' E' F]; [constructor|]. constructor; [|exact IH]. apply mid_same; assumption. Qed.
  Lemma rows_same n : forall l l', Forall2 cp l l' -> Forall2 (Forall2 cp) (casteljau_rows n l) (casteljau_rows n l').
  Proof. induction n as [|n IH]; intros l l' F; cbn [casteljau_rows]; constructor; auto. apply IH. apply mids_same. exact F. Qed.
  Lemma subdivide_so p l l' : Forall2 cp l l' -> so (fun X Y => Forall2 cp (fst X) (fst Y) /\ Forall2 cp (snd X) (snd Y)) (subdivide p l) (subdivide p l').
  Proof.
    intros F. pose proof (rows_same (Z.to_nat p) _ _ F) as R'. unfold subdivide. eapply so_bind; [apply (so_tabulate cp)|].
    - intros i. eapply so_bind; [apply so_vget; exact R'|]. intros r r' Hr. apply so_vget. exact Hr.
    - intros L L' HL. eapply so_bind; [apply (so_tabulate cp)|].
      + intros i. eapply so_bind; [apply so_vget; exact R'|]. intros r r' Hr. apply so_vget. exact Hr.
      + intros M M' HM. split; assumption.
  Qed.
  Definition og (X Y : option (bbox R)) : Prop := match X, Y with Some B, Some C => ab B C | None, None => True | _, _ => False end.
  Lemma merge_same X Y B C : og X Y -> ab B C -> og (merge_box X B) (merge_box Y C).
  Proof. destruct X, Y; cbn; intros E F; try contradiction; [apply ab_join; assumption|exact F]. Qed.
  Lemma loop_so fuel p e : forall st st' X Y, Forall2 (Forall2 cp) st st' -> og X Y -> so og (bbox_loop fuel p e st X) (bbox_loop fuel p e st' Y).
  Proof.
    induction fuel as [|fuel IH]; intros st st' X Y F E; destruct F as [|l l' st st' El F]; cbn [bbox_loop]; try exact E; [exact I|].
    eapply so_bind; [apply boxes_so; exact El|]. intros [B C] [B' C'] [HB HC]. cbn [fst snd] in HB, HC. rewrite (accept_same _ _ _ _ _ HB HC). destruct (polygon_accept e B C).
    - apply IH; [exact F|]. apply merge_same; assumption.
    - eapply so_bind; [apply subdivide_so; exact El|]. intros [L M] [L' M'] [HL HM]. apply IH; [|exact E]. constructor; [exact HL|]. constructor; [exact HM|exact F].
  Qed.
  (** once there is a box it is kept *)
  Lemma loop_some fuel p e : forall st X Y, X <> None -> bbox_loop fuel p e st X = Ok Y -> Y <> None.
  Proof.
    induction fuel as [|fuel IH]; intros st X Y N E; destruct st as [|l st]; cbn [bbox_loop] in E; try (injection E as <-; exact N); [discriminate|].
    destruct (polygon_boxes l) as [[B C]| | | | |]; try discriminate. cbn [bind] in E. destruct (polygon_accept e B C).
    - eapply IH; [|exact E]. destruct X; discriminate.
    - destruct (subdivide p l) as [[L M]| | | | |]; try discriminate. cbn [bind] in E. eapply IH; eassumption.
  Qed.
  Lemma loop_box fuel p e : forall st X Y, st <> [] -> bbox_loop fuel p e st X = Ok Y -> Y <> None.
  Proof.
    induction fuel as [|fuel IH]; intros st X Y N E; destruct st as [|l st]; cbn [bbox_loop] in E; try contradiction; [discriminate|].
    destruct (polygon_boxes l) as [[B C]| | | | |]; try discriminate. cbn [bind] in E. destruct (polygon_accept e B C).
    - eapply loop_some; [|exact E]. destruct X; discriminate.
    - destruct (subdivide p l) as [[L M]| | | | |]; try discriminate. cbn [bind] in E. eapply IH; [|exact E]. discriminate.
  Qed.
  Lemma fold_box fuel p e : forall segs X Y, foldM (fun g seg => bbox_loop fuel p e [ControlPoints seg] g) segs X = Ok Y -> Y = None -> segs = [].
  Proof.
    induction segs as [|seg segs IH]; intros X Y E N; [reflexivity|]. cbn [foldM] in E. destruct (bbox_loop fuel p e [ControlPoints seg] X) as [g| | | | |] eqn:G; try discriminate. cbn [bind] in E.
    apply loop_box in G; [|discriminate]. pose proof (IH _ _ E N) as ->. cbn in E. congruence.
  Qed.
  Lemma box_so fuel c d e : curve_by cp c d ->
    so (fun B C => ab B C \/ (B = BoundingBox_default /\ C = BoundingBox_default /\ Curve_ExtractBezier c = Ok [])) (Curve_GetBoundingBox fuel c e) (Curve_GetBoundingBox fuel d e).
  Proof.
    intros H. pose proof H as [E1 _]. pose proof (so_ExtractBezier ahom cp ahom_add ahom_scale ahom_homo ahom_from c d H) as X.
    unfold Curve_GetBoundingBox. rewrite <- E1. destruct (Curve_ExtractBezier c) as [l| | | | |] eqn:Ec, (Curve_ExtractBezier d) as [l'| | | | |]; try exact X; try contradiction. cbn [bind]. cbn in X.
    assert (so og (foldM (fun g seg => bbox_loop fuel (Degree c) e [ControlPoints seg] g) l None) (foldM (fun g seg => bbox_loop fuel (Degree c) e [ControlPoints seg] g) l' None)) as G.
    { apply (so_foldM2 (curve_by cp) og); [|exact X|exact I]. intros x y g g' [_ [_ F]] Eg. apply loop_so; [|exact Eg]. constructor; [exact F|constructor]. }
    destruct (foldM _ l None) as [g| | | | |] eqn:Eg, (foldM _ l' None) as [g'| | | | |]; try exact G; try contradiction. cbn [bind same_outcome]. cbn in G.
    destruct g as [B|], g' as [C|]; try contradiction; [left; exact G|]. right. split; [reflexivity|]. split; [reflexivity|]. rewrite (fold_box _ _ _ _ _ _ Eg eq_refl). reflexivity.
  Qed.
End Box.
