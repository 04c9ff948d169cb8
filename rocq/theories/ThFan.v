(** AlignParameterDomain on patches with collapsed edges (C99). *)
From Coq Require Import Reals ZArith List Lra Lia Bool Permutation.
From Verif Require Import Outcome Num ModelCore ModelBasis ModelCurve ModelSurface SpecCore SpecBasis SpecCurve SpecSurface SpecAlign SpecFan
  ThOutcome ThReal ThKnots ThGrid ThVec ThSum ThSpline ThBasis ThCurve ThInsert ThSurface ThSurface2 ThGeom ThKnots2 ThReverse ThAlign ThAlign2.
Import ListNotations.
Open Scope Z_scope.

Lemma length3_pos (v : vec3 R) : (0 <= length3 v)%R.
Proof. apply sqrt_pos. Qed.
Lemma coord_le_length a (v : vec3 R) : (Rabs (coord a v) <= length3 v)%R.
Proof.
  unfold length3. rewrite <- (sqrt_Rsqr_abs (coord a v)). apply sqrt_le_1_alt. unfold Rsqr. destruct a; cbn; nra.
Qed.
Lemma normalized_coord (v : vec3 R) : (0 < length3 v)%R ->
  v3normalized v = Ok (Vec3 (x3 v / length3 v) (y3 v / length3 v) (z3 v / length3 v))%R.
Proof.
  intros L. unfold v3normalized. cbv zeta. norm_R.
  change (sqrt (v3dot v v)) with (length3 v) in *.
  destruct (Rltb_spec 0 (v3dot v v)) as [H|H].
  - rewrite v3div_ok by lra. reflexivity.
  - exfalso. unfold length3 in L. change (x3 v * x3 v + y3 v * y3 v + z3 v * z3 v)%R with (v3dot v v) in L.
    rewrite sqrt_neg_0 in L by lra. lra.
Qed.
Definition cosine (a : AlignAxis) (v : vec3 R) : R := (Rabs (coord a v) / length3 v)%R.
Lemma cosine_ok (v : vec3 R) a : (0 < length3 v)%R ->
  nabs (v3dot (Vec3 (x3 v / length3 v) (y3 v / length3 v) (z3 v / length3 v))%R (axis_unit a)) = cosine a v.
Proof.
  intros L. unfold cosine. norm_R.
  assert (v3dot (Vec3 (x3 v / length3 v) (y3 v / length3 v) (z3 v / length3 v))%R (axis_unit a) = coord a v / length3 v)%R as ->.
  { destruct a; unfold v3dot; cbn; norm_R; lra. }
  rewrite ?Rabs_if. unfold Rdiv. rewrite Rabs_mult, (Rabs_pos_eq (/ length3 v)); [reflexivity|]. left. apply Rinv_0_lt_compat. exact L.
Qed.
Lemma cosine_range (v : vec3 R) a : (0 < length3 v)%R -> (0 <= cosine a v <= 1)%R.
Proof.
  intros L. unfold cosine. pose proof (coord_le_length a v). pose proof (Rabs_pos (coord a v)). split.
  - apply Rmult_le_pos; [lra|]. left. apply Rinv_0_lt_compat. exact L.
  - apply Rmult_le_reg_r with (length3 v); [exact L|]. unfold Rdiv. rewrite Rmult_assoc, Rinv_l by lra. lra.
Qed.
Definition leansb (a b : AlignAxis) (v : vec3 R) : bool := Rltb (Rabs (coord b v)) (Rabs (coord a v)).
Lemma angle_leans acos_ a b (v : vec3 R) : decreasing01 acos_ -> (0 < length3 v)%R ->
  Rltb (acos_ (cosine a v)) (acos_ (cosine b v)) = leansb a b v.
Proof.
  intros D L. pose proof (cosine_range v a L) as Ra. pose proof (cosine_range v b L) as Rb. unfold leansb.
  assert (forall x y, (Rabs (coord x v) < Rabs (coord y v))%R <-> (cosine x v < cosine y v)%R) as I.
  { intros x y. unfold cosine. assert (0 < / length3 v)%R by (apply Rinv_0_lt_compat; exact L). split; intros H1.
    - apply Rmult_lt_compat_r; assumption.
    - apply Rmult_lt_reg_r with (/ length3 v)%R; assumption. }
  destruct (Rltb_spec (Rabs (coord b v)) (Rabs (coord a v))) as [H|H].
  - apply I in H. pose proof (D _ _ (proj1 Rb) H (proj2 Ra)). destruct (Rltb_spec (acos_ (cosine a v)) (acos_ (cosine b v))); [reflexivity|lra].
  - rewrite I in H. destruct (Rltb_spec (acos_ (cosine a v)) (acos_ (cosine b v))) as [C|]; [|reflexivity]. exfalso.
    destruct (Req_dec (cosine a v) (cosine b v)) as [E|N]; [rewrite E in C; lra|].
    assert (cosine a v < cosine b v)%R as Lt by lra. pose proof (D _ _ (proj1 Ra) Lt (proj2 Rb)). lra.
Qed.

(** the extents *)
Lemma min4_le (a b c d : R) : (min4 a b c d <= a /\ min4 a b c d <= b /\ min4 a b c d <= c /\ min4 a b c d <= d)%R /\
  (min4 a b c d = a \/ min4 a b c d = b \/ min4 a b c d = c \/ min4 a b c d = d).
Proof. unfold min4, nmin. norm_R. rewrite !Rmin_if. unfold Rmin. repeat destruct (Rle_dec _ _); (split; [repeat split; lra|auto]). Qed.
Lemma max4_le (a b c d : R) : (a <= max4 a b c d /\ b <= max4 a b c d /\ c <= max4 a b c d /\ d <= max4 a b c d)%R /\
  (max4 a b c d = a \/ max4 a b c d = b \/ max4 a b c d = c \/ max4 a b c d = d).
Proof. unfold max4, nmax. norm_R. rewrite !Rmax_if. unfold Rmax. repeat destruct (Rle_dec _ _); (split; [repeat split; lra|auto]). Qed.
Definition corner3 (s : surface R) (bu bv : bool) : vec3 R := head3 (net_corner s bu bv).
Definition extent (s : surface R) (a : AlignAxis) : R :=
  axis_extent (corner3 s false false) (corner3 s true false) (corner3 s false true) (corner3 s true true) a.
Lemma corner_coord_3 s a bu bv : corner_coord s a (bu, bv) = axis_value (corner3 s bu bv) a.
Proof. unfold corner_coord. destruct a; cbn; lra. Qed.
Lemma extent_spec s a : (forall k l, corner_coord s a l - corner_coord s a k <= extent s a)%R /\
  exists k l, (corner_coord s a l - corner_coord s a k = extent s a)%R.
Proof.
  unfold extent, axis_extent. norm_R.
  set (x00 := axis_value (corner3 s false false) a). set (x10 := axis_value (corner3 s true false) a).
  set (x01 := axis_value (corner3 s false true) a). set (x11 := axis_value (corner3 s true true) a).
  pose proof (min4_le x00 x10 x01 x11) as [Mn Em]. pose proof (max4_le x00 x10 x01 x11) as [Mx Ex].
  assert (forall c, corner_coord s a c = x00 \/ corner_coord s a c = x10 \/ corner_coord s a c = x01 \/ corner_coord s a c = x11) as C.
  { intros [[] []]; rewrite corner_coord_3; auto. }
  split.
  - intros k l. destruct (C k) as [->|[->|[->| ->]]], (C l) as [->|[->|[->| ->]]]; lra.
  - assert (forall m, m = x00 \/ m = x10 \/ m = x01 \/ m = x11 -> exists c, corner_coord s a c = m) as Fd.
    { intros m [->|[->|[->| ->]]]; [exists (false, false)|exists (true, false)|exists (false, true)|exists (true, true)]; apply corner_coord_3. }
    destruct (Fd _ Em) as [k Ek]. destruct (Fd _ Ex) as [l El]. exists k, l. rewrite Ek, El. reflexivity.
Qed.
Lemma wider_extent s a b : wider s a b -> (extent s b < extent s a)%R.
Proof.
  intros [i [j H]]. destruct (extent_spec s b) as [_ [k [l E]]]. destruct (extent_spec s a) as [U _].
  specialize (H k l). specialize (U i j). lra.
Qed.
Lemma sorted_axes sort_ s m1 m2 m3 : sorts_down sort_ -> wider s m1 m2 -> wider s m2 m3 ->
  exists e1 e2 e3, sort_ [(extent s XAxis, XAxis); (extent s YAxis, YAxis); (extent s ZAxis, ZAxis)] = [(e1, m1); (e2, m2); (e3, m3)].
Proof.
  intros Hs W12 W23. apply wider_extent in W12. apply wider_extent in W23.
  destruct (Hs [(extent s XAxis, XAxis); (extent s YAxis, YAxis); (extent s ZAxis, ZAxis)]) as [P Le].
  remember (sort_ [(extent s XAxis, XAxis); (extent s YAxis, YAxis); (extent s ZAxis, ZAxis)]) as l.
  pose proof (Permutation_length P) as Len. destruct l as [|[e1 a1] [|[e2 a2] [|[e3 a3] [|? ?]]]]; try discriminate Len.
  assert (forall e a, In (e, a) [(e1, a1); (e2, a2); (e3, a3)] -> e = extent s a) as Es.
  { intros e a I. apply (Permutation_in _ P) in I. destruct I as [I|[I|[I|[]]]]; injection I as <- <-; reflexivity. }
  assert (NoDup [a1; a2; a3]) as ND.
  { apply (Permutation_NoDup (l := [XAxis; YAxis; ZAxis])).
    - apply Permutation_sym. exact (Permutation_map snd P).
    - repeat constructor; cbn; intuition discriminate. }
  pose proof (Le 0%nat 1%nat ltac:(cbn; lia)) as L1. pose proof (Le 1%nat 2%nat ltac:(cbn; lia)) as L2. cbn in L1, L2.
  rewrite (Es e1 a1) in * by (cbn; auto). rewrite (Es e2 a2) in * by (cbn; auto). rewrite (Es e3 a3) in * by (cbn; auto).
  assert (a1 <> a2 /\ a1 <> a3 /\ a2 <> a3) as [N12 [N13 N23]].
  { inversion_clear ND as [|? ? I1 ND']. inversion_clear ND' as [|? ? I2 _]. cbn in I1, I2. repeat split; intros <-; tauto. }
  exists (extent s a1), (extent s a2), (extent s a3). clear Es ND P Heql Len Le Hs.
  destruct a1, a2, a3; try congruence; destruct m1, m2, m3; try lra; reflexivity.
Qed.

(** counting and summing *)
Definition sumc (a : AlignAxis) (l : list (vec3 R)) : R := fold_right (fun v t => coord a v + t)%R 0%R l.
Definition seen (s : surface R) : list (vec3 R) := filter longb (corner_edges s).
Definition side1 (m1 m2 : AlignAxis) (l : list (vec3 R)) := filter (leansb m1 m2) l.
Definition side2 (m1 m2 : AlignAxis) (l : list (vec3 R)) := filter (fun v => negb (leansb m1 m2 v)) l.
Lemma few_axes acos_ m1 m2 l : decreasing01 acos_ -> (forall v, In v l -> (0 < length3 v)%R) -> len l < 4 ->
  align_axes m1 m2 (map (fun v => (v, acos_ (cosine m1 v), acos_ (cosine m2 v))) l) =
  let sg x := if Rltb x 0 then -1 else 1 in
  let d1 := sg (sumc m1 (side1 m1 m2 l)) in let d2 := sg (sumc m2 (side2 m1 m2 l)) in
  if len (side2 m1 m2 l) <=? len (side1 m1 m2 l) then Ok (m1, m2, d1, d2) else Ok (m2, m1, d2, d1).
Proof.
  intros D Pos L4. unfold align_axes. rewrite len_map. destruct (Z.ltb_spec (len l) 4); [|lia].
  match goal with |- context [fold_left ?f _ _] => set (F := f) end.
  assert (forall l c1 c2 du dv, (forall v, In v l -> (0 < length3 v)%R) ->
    fold_left F (map (fun v => (v, acos_ (cosine m1 v), acos_ (cosine m2 v))) l) (c1, c2, du, dv) =
    (c1 + len (side1 m1 m2 l), c2 + len (side2 m1 m2 l), (du + sumc m1 (side1 m1 m2 l))%R, (dv + sumc m2 (side2 m1 m2 l))%R)) as Hf.
  { induction l0 as [|v l0 IH]; intros c1 c2 du dv P0.
    - cbn. unfold side1, side2. cbn. rewrite !Z.add_0_r, !Rplus_0_r. reflexivity.
    - cbn [map fold_left]. unfold F at 2. norm_R. rewrite (angle_leans acos_ m1 m2 v D) by (apply P0; left; reflexivity).
      unfold side1, side2. cbn [filter]. destruct (leansb m1 m2 v) eqn:E; cbn [negb].
      + rewrite IH by (intros; apply P0; right; assumption). unfold side1, side2. rewrite len_cons. cbn [sumc fold_right].
        replace (axis_value v m1) with (coord m1 v) by (destruct m1; reflexivity). unfold sumc.
        apply f_equal2; [apply f_equal2; [apply f_equal2|]|]; try reflexivity; [lia|ring].
      + rewrite IH by (intros; apply P0; right; assumption). unfold side1, side2. rewrite len_cons. cbn [sumc fold_right].
        replace (axis_value v m2) with (coord m2 v) by (destruct m2; reflexivity). unfold sumc.
        apply f_equal2; [apply f_equal2; [apply f_equal2|]|]; try reflexivity; [lia|ring]. }
  rewrite (Hf l 0 0 n0 n0 Pos). cbv zeta. norm_R. rewrite !Z.add_0_l, !Rplus_0_l.
  assert (forall x, (if Rleb 0 x then 1 else -1) = (if Rltb x 0 then -1 else 1)) as Sg by (intros x; bool_R; lra || reflexivity).
  rewrite !Sg. reflexivity.
Qed.

Lemma longb_pos v : longb v = true -> (0 < length3 v)%R.
Proof. unfold longb. destruct (Rltb_spec (1 / 1000000) (length3 v)); [lra|discriminate]. Qed.
Lemma align_few acos_ sort_ s ua va m1 m2 m3 : decreasing01 acos_ -> sorts_down sort_ -> wf_surface s ->
  2 <= UCount (Net s) -> 2 <= VCount (Net s) -> wider s m1 m2 -> wider s m2 m3 -> seen s <> [] -> len (seen s) < 4 ->
  Surface_AlignParameterDomain acos_ sort_ s ua va =
    (let n1 := side1 m1 m2 (seen s) in let n2 := side2 m1 m2 (seen s) in
     let d1 := Rltb (sumc m1 n1) 0 in let d2 := Rltb (sumc m2 n2) 0 in
     let '(cu, cv, us, vs) := if len n2 <=? len n1 then (m1, m2, d1, d2) else (m2, m1, d2, d1) in
     if negb (axis_eqb cu ua) then
       if axis_eqb cv ua && axis_eqb cu va then align_apply s true vs us else Ok s
     else align_apply s false us (axis_eqb cv va && vs)).
Proof.
  intros D Hs W HU HV W12 W23 Ne L4. pose proof (wf_grid s W) as G. unfold Surface_AlignParameterDomain.
  destruct (Z.ltb_spec (UCount (Net s)) 2) as [|_]; [lia|]. destruct (Z.ltb_spec (VCount (Net s)) 2) as [|_]; [lia|].
  cbn [orb]. cbv zeta. rewrite !(Grid_Get_ok _ _ _ _ _ _ G) by lia. cbn [bind].
  match goal with |- context [sort_ ?l] =>
    change l with [(extent s XAxis, XAxis); (extent s YAxis, YAxis); (extent s ZAxis, ZAxis)] end.
  destruct (sorted_axes sort_ s m1 m2 m3 Hs W12 W23) as [e1 [e2 [e3 Es]]]. rewrite Es.
  change (vget [(e1, m1); (e2, m2); (e3, m3)] 0) with (Ok (e1, m1)). change (vget [(e1, m1); (e2, m2); (e3, m3)] 1) with (Ok (e2, m2)).
  cbn [bind].
  match goal with |- context [foldM ?f ?l []] => set (F := f); change l with (corner_edges s) end.
  set (mk := fun v => (v, acos_ (cosine m1 v), acos_ (cosine m2 v))).
  assert (forall vs v, F vs v = Ok (vs ++ map mk (if longb v then [v] else []))) as HF.
  { intros vs v. unfold F. rewrite long_lit. change (ngtb (v3norm v) (1 / 1000000)%R) with (Rltb (1 / 1000000) (length3 v)). unfold longb.
    destruct (Rltb_spec (1 / 1000000) (length3 v)) as [H|H].
    - rewrite normalized_coord by lra. cbn [bind]. rewrite !cosine_ok by lra. reflexivity.
    - rewrite app_nil_r. reflexivity. }
  assert (forall l vs, foldM F l vs = Ok (vs ++ map mk (filter longb l))) as HL.
  { induction l as [|v l IH]; intros vs; [cbn; rewrite app_nil_r; reflexivity|].
    cbn [foldM]. rewrite HF. cbn [bind]. rewrite IH, <- app_assoc, <- map_app. cbn [filter]. destruct (longb v); reflexivity. }
  rewrite HL. cbn [bind app]. change (filter longb (corner_edges s)) with (seen s).
  destruct (map mk (seen s)) as [|w ws] eqn:Em; [destruct (seen s); [contradiction|discriminate]|]. rewrite <- Em.
  unfold mk. rewrite few_axes; [|exact D| |exact L4].
  2:{ intros v I. apply filter_In in I. apply longb_pos. apply I. }
  cbv zeta. assert (forall x, ((if Rltb x 0 then -1 else 1) <? 0) = Rltb x 0) as Sg by (intros x; destruct (Rltb x 0); reflexivity).
  destruct (len (side2 m1 m2 (seen s)) <=? len (side1 m1 m2 (seen s))); cbn [bind]; rewrite !Sg.
  - destruct (axis_eqb m1 ua) eqn:E1; cbn [negb andb]; [reflexivity|]. destruct (axis_eqb m2 ua && axis_eqb m1 va) eqn:E2; [|reflexivity].
    apply andb_true_iff in E2. destruct E2 as [-> ->]. reflexivity.
  - destruct (axis_eqb m2 ua) eqn:E1; cbn [negb andb]; [reflexivity|]. destruct (axis_eqb m1 ua && axis_eqb m2 va) eqn:E2; [|reflexivity].
    apply andb_true_iff in E2. destruct E2 as [-> ->]. reflexivity.
Qed.

(** ** The statements *)
Lemma seen_visible s : visible s = seen s.
Proof.
  unfold visible, seen, border. fold (corner_edges s). apply filter_ext. intros e. unfold longb, yes.
  destruct (Rle_dec (length3 e) (1 / 1000000)), (Rltb_spec (1 / 1000000) (length3 e)); cbn; reflexivity || lra.
Qed.
Lemma leaning_side1 a b l : leaning a b l = side1 a b l.
Proof. apply filter_ext. intros e. unfold leansb, yes. destruct (Rlt_dec _ _), (Rltb_spec (Rabs (coord b e)) (Rabs (coord a e))); reflexivity || lra. Qed.
Lemma leaning_side2 a b l : not_leaning a b l = side2 a b l.
Proof. apply filter_ext. intros e. unfold leansb, yes. destruct (Rlt_dec _ _), (Rltb_spec (Rabs (coord b e)) (Rabs (coord a e))); reflexivity || lra. Qed.
Lemma backwards_sum a l : backwards a l = Rltb (sumc a l) 0.
Proof.
  unfold backwards, yes. assert (fold_right Rplus 0%R (map (coord a) l) = sumc a l) as -> by (induction l as [|v l IH]; [reflexivity|]; cbn; rewrite IH; reflexivity).
  destruct (Rlt_dec _ _), (Rltb_spec (sumc a l) 0); reflexivity || lra.
Qed.
Lemma wider_neq s a b : wider s a b -> a <> b.
Proof. intros H <-. apply wider_extent in H. lra. Qed.

Lemma C99_decision_lemma acos_ sort_ s ua va m1 m2 m3 : decreasing01 acos_ -> sorts_down sort_ -> wf_surface s ->
  UCount (Net s) * VCount (Net s) <= INT_MAX -> 2 <= UCount (Net s) -> 2 <= VCount (Net s) ->
  wider s m1 m2 -> wider s m2 m3 -> (0 < length (visible s) < 4)%nat ->
  let l1 := leaning m1 m2 (visible s) in let l2 := not_leaning m1 m2 (visible s) in
  exists d, Surface_AlignParameterDomain acos_ sort_ s ua va = Ok d /\ wf_surface d /\
    forall cu cv lu lv, ((length l2 <= length l1)%nat /\ cu = m1 /\ cv = m2 /\ lu = l1 /\ lv = l2) \/
                        ((length l1 < length l2)%nat /\ cu = m2 /\ cv = m1 /\ lu = l2 /\ lv = l1) ->
      (cu = ua -> cv = va -> reparameterised s d false (backwards cu lu) (backwards cv lv)) /\
      (cu = ua -> cv <> va -> reparameterised s d false (backwards cu lu) false) /\
      (cu = va -> cv = ua -> reparameterised s d true (backwards cv lv) (backwards cu lu)) /\
      (cu <> ua -> cu <> va \/ cv <> ua -> d = s).
Proof.
  intros D Hs W Fit HU HV W12 W23 N4. cbv zeta. pose proof (wider_neq _ _ _ W12) as N12.
  rewrite seen_visible in *. rewrite leaning_side1, leaning_side2.
  assert (seen s <> []) as Ne by (intros E; rewrite E in N4; cbn in N4; lia).
  rewrite (align_few acos_ sort_ s ua va m1 m2 m3 D Hs W HU HV W12 W23 Ne) by (unfold len; lia). cbv zeta.
  rewrite <- !backwards_sum. set (l1 := side1 m1 m2 (seen s)). set (l2 := side2 m1 m2 (seen s)).
  assert (forall cu cv lu lv, cu <> cv -> let o := (if negb (axis_eqb cu ua) then
       if axis_eqb cv ua && axis_eqb cu va then align_apply s true (backwards cv lv) (backwards cu lu) else Ok s
     else align_apply s false (backwards cu lu) (axis_eqb cv va && (backwards cv lv))) in
     exists d, o = Ok d /\ wf_surface d /\
      (cu = ua -> cv = va -> reparameterised s d false (backwards cu lu) (backwards cv lv)) /\
      (cu = ua -> cv <> va -> reparameterised s d false (backwards cu lu) false) /\
      (cu = va -> cv = ua -> reparameterised s d true (backwards cv lv) (backwards cu lu)) /\
      (cu <> ua -> cu <> va \/ cv <> ua -> d = s)) as Go.
  { intros cu cv lu lv Nc. cbv zeta. destruct (axis_eqb_spec cu ua) as [Eu|Nu]; cbn [negb].
    - destruct (align_apply_ok s false (backwards cu lu) (axis_eqb cv va && backwards cv lv) W Fit) as [d [Ed [Wd [Rd _]]]].
      exists d. split; [exact Ed|]. split; [exact Wd|]. destruct (axis_eqb_spec cv va) as [Ev|Nv]; cbn [andb] in Rd.
      + repeat split; intros; congruence || exact Rd.
      + repeat split; intros; congruence || exact Rd.
    - destruct (axis_eqb_spec cv ua) as [Ev|Nv]; cbn [andb].
      + destruct (axis_eqb_spec cu va) as [Eu|Nu'].
        * destruct (align_apply_ok s true (backwards cv lv) (backwards cu lu) W Fit) as [d [Ed [Wd [Rd _]]]].
          exists d. split; [exact Ed|]. split; [exact Wd|]. split; [congruence|]. split; [congruence|]. split; [intros; exact Rd|].
          intros _ [?|?]; contradiction.
        * exists s. split; [reflexivity|]. split; [exact W|]. repeat split; intros; congruence.
      + exists s. split; [reflexivity|]. split; [exact W|]. repeat split; intros; congruence. }
  destruct (Z.leb_spec (len l2) (len l1)) as [Le|Gt]; unfold len in *.
  - destruct (Go m1 m2 l1 l2 N12) as [d [Ed [Wd C]]]. exists d. split; [exact Ed|]. split; [exact Wd|].
    intros cu cv lu lv [[_ [-> [-> [-> ->]]]]|[Lt _]]; [exact C|]. lia.
  - destruct (Go m2 m1 l2 l1 (not_eq_sym N12)) as [d [Ed [Wd C]]]. exists d. split; [exact Ed|]. split; [exact Wd|].
    intros cu cv lu lv [[Lt _]|[_ [-> [-> [-> ->]]]]]; [lia|]. exact C.
Qed.

Lemma longb_collapsed e : longb e = true <-> ~ collapsed e.
Proof. unfold longb, collapsed. destruct (Rltb_spec (1 / 1000000) (length3 e)); split; intros; try lra; try reflexivity; discriminate. Qed.
Lemma longb_collapsed' e : longb e = false <-> collapsed e.
Proof. unfold longb, collapsed. destruct (Rltb_spec (1 / 1000000) (length3 e)); split; intros; try lra; try reflexivity; discriminate. Qed.
Lemma leansb_true a b e : leansb a b e = true <-> leans a b e.
Proof. unfold leansb, leans. destruct (Rltb_spec (Rabs (coord b e)) (Rabs (coord a e))); split; intros; try lra; try reflexivity; discriminate. Qed.
Lemma leansb_false a b e : leans b a e -> leansb a b e = false.
Proof. unfold leansb, leans. destruct (Rltb_spec (Rabs (coord b e)) (Rabs (coord a e))); intros; try lra; reflexivity. Qed.

(** All four collapsed: nothing happens. *)
Lemma C99_all_lemma acos_ sort_ s ua va : sorts_down sort_ -> wf_surface s -> UCount (Net s) * VCount (Net s) <= INT_MAX ->
  (forall side, collapsed (edgeU s side) /\ collapsed (edgeV s side)) -> Surface_AlignParameterDomain acos_ sort_ s ua va = Ok s.
Proof.
  intros Hs W Fit C.
  destruct (align_shape acos_ sort_ s ua va (fun l => proj1 (Hs l)) W Fit) as [[E _]|[m1 [m2 [vecs [cu [cv [us [vs [Mv [Nv _]]]]]]]]]]; [exact E|].
  exfalso. assert (filter longb (corner_edges s) = []) as Fl.
  { unfold corner_edges. cbn [filter]. destruct (C false) as [C1 C2], (C true) as [C3 C4].
    rewrite (proj2 (longb_collapsed' _) C1), (proj2 (longb_collapsed' _) C2), (proj2 (longb_collapsed' _) C3), (proj2 (longb_collapsed' _) C4). reflexivity. }
  rewrite Fl in Mv. destruct vecs; [contradiction|discriminate].
Qed.

Lemma align_major acos_ sort_ s ua va x y c e1 e2 e3 lx ly : decreasing01 acos_ -> sorts_down sort_ -> wf_surface s ->
  2 <= UCount (Net s) -> 2 <= VCount (Net s) -> wider s x y \/ wider s y x -> wider s x c -> wider s y c ->
  seen s = [e1; e2; e3] ->
  (forall e, In e [e1; e2; e3] -> leans x y e \/ leans y x e) ->
  filter (leansb x y) [e1; e2; e3] = lx -> filter (leansb y x) [e1; e2; e3] = ly -> len lx = 2 -> len ly = 1 ->
  Surface_AlignParameterDomain acos_ sort_ s ua va =
    (if negb (axis_eqb x ua) then
       if axis_eqb y ua && axis_eqb x va then align_apply s true (Rltb (sumc y ly) 0) (Rltb (sumc x lx) 0) else Ok s
     else align_apply s false (Rltb (sumc x lx) 0) (axis_eqb y va && Rltb (sumc y ly) 0)).
Proof.
  intros D Hs W HU HV Wxy Wxc Wyc Es Lean Ex Ey Nx Ny.
  assert (forall a b, (a = x /\ b = y) \/ (a = y /\ b = x) -> side2 a b [e1; e2; e3] = filter (leansb b a) [e1; e2; e3]) as S2.
  { intros a b Hab. unfold side2. apply filter_ext_in. intros e I.
    assert (leans a b e \/ leans b a e) as [L|L] by (destruct Hab as [[-> ->]|[-> ->]]; specialize (Lean e I); tauto).
    - rewrite (proj2 (leansb_true a b e) L), (leansb_false b a e L). reflexivity.
    - rewrite (proj2 (leansb_true b a e) L), (leansb_false a b e L). reflexivity. }
  destruct Wxy as [Wxy|Wyx].
  - rewrite (align_few acos_ sort_ s ua va x y c D Hs W HU HV Wxy Wyc) by (rewrite Es; discriminate || reflexivity).
    rewrite Es. cbv zeta. rewrite (S2 x y) by auto. unfold side1. rewrite Ex, Ey, Nx, Ny. reflexivity.
  - rewrite (align_few acos_ sort_ s ua va y x c D Hs W HU HV Wyx Wxc) by (rewrite Es; discriminate || reflexivity).
    rewrite Es. cbv zeta. rewrite (S2 y x) by auto. unfold side1. rewrite Ex, Ey, Nx, Ny. reflexivity.
Qed.

Definition neg3 (b : bool) (e : vec3 R) : vec3 R := if b then (Vec3 (- x3 e) (- y3 e) (- z3 e))%R else e.
Lemma neg3_edge p q : edge q p = neg3 true (edge p q).
Proof. unfold edge, neg3. cbn. f_equal; ring. Qed.
Lemma coord_neg3 a b e : coord a (neg3 b e) = (if b then - coord a e else coord a e)%R.
Proof. destruct b, a; reflexivity. Qed.
Lemma collapsed_neg3 b e : collapsed (neg3 b e) <-> collapsed e.
Proof. unfold collapsed, length3. destruct b; cbn; [|tauto]. rewrite !Rmult_opp_opp. tauto. Qed.
Lemma leans_neg3 a b n e : leans a b (neg3 n e) <-> leans a b e.
Proof. unfold leans. rewrite !coord_neg3. destruct n; [rewrite !Rabs_Ropp|]; tauto. Qed.
Lemma sym_edges s d sw ru rv : sym_of s d sw ru rv ->
  (forall side, edgeU d side = neg3 ru (if sw then edgeV s (xorb rv side) else edgeU s (xorb rv side))) /\
  (forall side, edgeV d side = neg3 rv (if sw then edgeU s (xorb ru side) else edgeV s (xorb ru side))).
Proof.
  intros [_ [_ [_ Nd]]]. split; intros side; unfold edgeU, edgeV; rewrite !Nd; destruct sw, ru, rv, side; cbn; try reflexivity; apply neg3_edge.
Qed.
Lemma sum_sign (a : AlignAxis) e f : (0 < coord a e * coord a f)%R ->
  (0 < coord a (neg3 (Rltb (sumc a [e; f]) 0) e))%R /\ (0 < coord a (neg3 (Rltb (sumc a [e; f]) 0) f))%R.
Proof.
  intros P. rewrite !coord_neg3. cbn. rewrite Rplus_0_r.
  destruct (Rltb_spec (coord a e + coord a f) 0) as [H|H]; split; nra.
Qed.
Lemma one_sign (a : AlignAxis) e : coord a e <> 0%R -> (0 < coord a (neg3 (Rltb (sumc a [e]) 0) e))%R.
Proof.
  intros P. rewrite !coord_neg3. cbn. rewrite Rplus_0_r. destruct (Rltb_spec (coord a e) 0) as [H|H]; lra.
Qed.
Lemma leans_nz a b e : leans a b e -> coord a e <> 0%R.
Proof. unfold leans. intros H E. rewrite E, Rabs_R0 in H. pose proof (Rabs_pos (coord b e)). lra. Qed.

Section Collapsed.
  Variables (acos_ : R -> R) (sort_ : list (R * AlignAxis) -> list (R * AlignAxis)).
  Variables (s : surface R) (ua va a b c : AlignAxis) (t : bool).
  Hypothesis D : decreasing01 acos_.
  Hypothesis Hs : sorts_down sort_.
  Hypothesis W : wf_surface s.
  Hypothesis Fit : UCount (Net s) * VCount (Net s) <= INT_MAX.
  Hypothesis HU : 2 <= UCount (Net s).
  Hypothesis HV : 2 <= VCount (Net s).
  Hypothesis Wab : wider s a b \/ wider s b a.
  Hypothesis Wac : wider s a c.
  Hypothesis Wbc : wider s b c.
  Hypothesis Match : (a = ua /\ b = va) \/ (a = va /\ b = ua).

  Lemma ab_neq : a <> b.
  Proof. destruct Wab as [H|H]; [exact (wider_neq _ _ _ H)|exact (not_eq_sym (wider_neq _ _ _ H))]. Qed.

  Lemma C99_v_lemma : (forall side, ~ collapsed (edgeU s side) /\ leans a b (edgeU s side)) ->
    ~ collapsed (edgeV s t) -> leans b a (edgeV s t) -> collapsed (edgeV s (negb t)) ->
    (0 < coord a (edgeU s false) * coord a (edgeU s true))%R ->
    exists d sw ru rv, Surface_AlignParameterDomain acos_ sort_ s ua va = Ok d /\ wf_surface d /\ reparameterised s d sw ru rv /\
      forall side, (~ collapsed (edgeU d side) -> leans ua va (edgeU d side) /\ (0 < coord ua (edgeU d side))%R) /\
                   (~ collapsed (edgeV d side) -> leans va ua (edgeV d side) /\ (0 < coord va (edgeV d side))%R).
  Proof.
    intros HUs NV LV CV Same. pose proof ab_neq as Nab. destruct (HUs false) as [N0 L0], (HUs true) as [N1 L1].
    assert (seen s = [edgeU s false; edgeV s t; edgeU s true]) as Es.
    { unfold seen, corner_edges. cbn [filter]. rewrite (proj2 (longb_collapsed _) N0), (proj2 (longb_collapsed _) N1).
      apply longb_collapsed in NV. apply longb_collapsed' in CV. destruct t; cbn [negb] in CV; rewrite NV, CV; reflexivity. }
    pose proof (align_major acos_ sort_ s ua va a b c _ _ _ [edgeU s false; edgeU s true] [edgeV s t] D Hs W HU HV Wab Wac Wbc Es) as E.
    assert (forall e, In e [edgeU s false; edgeV s t; edgeU s true] -> leans a b e \/ leans b a e) as Lean.
    { intros e [<-|[<-|[<-|[]]]]; auto. }
    specialize (E Lean). cbn [filter] in E.
    rewrite (proj2 (leansb_true a b _) L0), (proj2 (leansb_true a b _) L1), (proj2 (leansb_true b a _) LV), (leansb_false b a _ L0), (leansb_false b a _ L1), (leansb_false a b _ LV) in E.
    specialize (E eq_refl eq_refl eq_refl eq_refl).
    set (us := Rltb (sumc a [edgeU s false; edgeU s true]) 0) in *. set (vs := Rltb (sumc b [edgeV s t]) 0) in *.
    destruct (sum_sign a _ _ Same) as [P0 P1]. fold us in P0, P1. pose proof (one_sign b _ (leans_nz _ _ _ LV)) as PV. fold vs in PV.
    assert (forall side, leans a b (edgeU s side) /\ (0 < coord a (neg3 us (edgeU s side)))%R) as QU by (intros []; auto).
    assert (forall side, ~ collapsed (edgeV s side) -> leans b a (edgeV s side) /\ (0 < coord b (neg3 vs (edgeV s side)))%R) as QV.
    { intros side Nc. destruct t, side; cbn [negb] in CV; try contradiction; auto. }
    destruct Match as [[<- <-]|[<- <-]].
    - destruct (axis_eqb_spec a a) as [_|]; [|contradiction]. destruct (axis_eqb_spec b b) as [_|]; [|contradiction]. cbn [negb andb] in E.
      destruct (align_apply_ok s false us vs W Fit) as [d [Ed Sd]]. exists d, false, us, vs. rewrite E. split; [exact Ed|].
      split; [apply Sd|]. split; [apply Sd|]. destruct (sym_edges _ _ _ _ _ Sd) as [SU SV]. intros side. rewrite SU, SV.
      rewrite !leans_neg3, !collapsed_neg3. split; [intros _; apply QU|apply QV].
    - destruct (axis_eqb_spec a b) as [|_]; [contradiction|]. destruct (axis_eqb_spec b b) as [_|]; [|contradiction].
      destruct (axis_eqb_spec a a) as [_|]; [|contradiction]. cbn [negb andb] in E.
      destruct (align_apply_ok s true vs us W Fit) as [d [Ed Sd]]. exists d, true, vs, us. rewrite E. split; [exact Ed|].
      split; [apply Sd|]. split; [apply Sd|]. destruct (sym_edges _ _ _ _ _ Sd) as [SU SV]. intros side. rewrite SU, SV.
      rewrite !leans_neg3, !collapsed_neg3. split; [apply QV|intros _; apply QU].
  Qed.

  Lemma C99_u_lemma : (forall side, ~ collapsed (edgeV s side) /\ leans b a (edgeV s side)) ->
    ~ collapsed (edgeU s t) -> leans a b (edgeU s t) -> collapsed (edgeU s (negb t)) ->
    exists d sw ru rv, Surface_AlignParameterDomain acos_ sort_ s ua va = Ok d /\ wf_surface d /\ reparameterised s d sw ru rv /\
      forall side, (~ collapsed (edgeU d side) -> leans va ua (edgeU d side)) /\ (~ collapsed (edgeV d side) -> leans ua va (edgeV d side)).
  Proof.
    intros HVs NU LU CU. pose proof ab_neq as Nab. destruct (HVs false) as [N0 L0], (HVs true) as [N1 L1].
    assert (exists e1 e2 e3, seen s = [e1; e2; e3] /\ (forall e, In e [e1; e2; e3] -> leans b a e \/ leans a b e) /\
      exists lx ly, filter (leansb b a) [e1; e2; e3] = lx /\ filter (leansb a b) [e1; e2; e3] = ly /\ len lx = 2 /\ len ly = 1) as [e1 [e2 [e3 [Es [Lean [lx [ly [Ex [Ey [Nx Ny]]]]]]]]]].
    { unfold seen, corner_edges. cbn [filter]. rewrite (proj2 (longb_collapsed _) N0), (proj2 (longb_collapsed _) N1).
      apply longb_collapsed in NU. apply longb_collapsed' in CU. destruct t; cbn [negb] in CU; rewrite NU, CU.
      - exists (edgeV s false), (edgeV s true), (edgeU s true). split; [reflexivity|]. split; [intros e [<-|[<-|[<-|[]]]]; auto|].
        cbn [filter]. rewrite (proj2 (leansb_true b a _) L0), (proj2 (leansb_true b a _) L1), (proj2 (leansb_true a b _) LU), (leansb_false a b _ L0), (leansb_false a b _ L1), (leansb_false b a _ LU).
        do 2 eexists. repeat split; reflexivity.
      - exists (edgeU s false), (edgeV s false), (edgeV s true). split; [reflexivity|]. split; [intros e [<-|[<-|[<-|[]]]]; auto|].
        cbn [filter]. rewrite (proj2 (leansb_true b a _) L0), (proj2 (leansb_true b a _) L1), (proj2 (leansb_true a b _) LU), (leansb_false a b _ L0), (leansb_false a b _ L1), (leansb_false b a _ LU).
        do 2 eexists. repeat split; reflexivity. }
    assert (wider s b a \/ wider s a b) as Wba by tauto.
    pose proof (align_major acos_ sort_ s ua va b a c _ _ _ lx ly D Hs W HU HV Wba Wbc Wac Es Lean Ex Ey Nx Ny) as E.
    set (us := Rltb (sumc b lx) 0) in *. set (vs := Rltb (sumc a ly) 0) in *.
    assert (forall side, ~ collapsed (edgeU s side) -> leans a b (edgeU s side)) as QU.
    { intros side Nc. destruct t, side; cbn [negb] in CU; try contradiction; auto. }
    assert (forall side, leans b a (edgeV s side)) as QV by (intros []; auto).
    destruct Match as [[<- <-]|[<- <-]].
    - destruct (axis_eqb_spec b a) as [Eba|_]; [symmetry in Eba; contradiction|]. destruct (axis_eqb_spec b b) as [_|]; [|contradiction].
      destruct (axis_eqb_spec a a) as [_|]; [|contradiction]. cbn [negb andb] in E.
      destruct (align_apply_ok s true vs us W Fit) as [d [Ed Sd]]. exists d, true, vs, us. rewrite E. split; [exact Ed|].
      split; [apply Sd|]. split; [apply Sd|]. destruct (sym_edges _ _ _ _ _ Sd) as [SU SV]. intros side. rewrite SU, SV.
      rewrite !leans_neg3, !collapsed_neg3. split; [intros _; apply QV|apply QU].
    - destruct (axis_eqb_spec b b) as [_|]; [|contradiction]. destruct (axis_eqb_spec a a) as [_|]; [|contradiction]. cbn [negb andb] in E.
      destruct (align_apply_ok s false us vs W Fit) as [d [Ed Sd]]. exists d, false, us, vs. rewrite E. split; [exact Ed|].
      split; [apply Sd|]. split; [apply Sd|]. destruct (sym_edges _ _ _ _ _ Sd) as [SU SV]. intros side. rewrite SU, SV.
      rewrite !leans_neg3, !collapsed_neg3. split; [apply QU|intros _; apply QV].
  Qed.
End Collapsed.
