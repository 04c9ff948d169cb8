(** AlignParameterDomain: the choice of the symmetry. *)
From Coq Require Import Reals ZArith List Lra Lia Bool Permutation.
From Verif Require Import Outcome Num ModelCore ModelBasis ModelCurve ModelSurface SpecCore SpecBasis SpecCurve SpecSurface SpecAlign
  ThOutcome ThReal ThKnots ThGrid ThVec ThSum ThSpline ThBasis ThCurve ThInsert ThSurface ThSurface2 ThGeom ThKnots2 ThReverse ThAlign.
Import ListNotations.
Open Scope Z_scope.

Lemma v3normalized_ok (v : vec3 R) : exists n, v3normalized v = Ok n.
Proof.
  unfold v3normalized. cbv zeta. norm_R. destruct (Rltb_spec 0 (v3dot v v)); [|eauto].
  rewrite v3div_ok; [eauto|]. apply Rgt_not_eq. apply sqrt_lt_R0. assumption.
Qed.
Lemma rearranged_three sort_ a b c : rearranges sort_ -> exists x y z, sort_ [a; b; c] = [x; y; z].
Proof.
  intros P. specialize (P [a; b; c]). apply Permutation_length in P.
  destruct (sort_ [a; b; c]) as [|x [|y [|z [|w t]]]]; try discriminate. eauto.
Qed.
(** the corner vectors *)
Definition corner_edges (s : surface R) : list (vec3 R) := [edgeU s false; edgeV s false; edgeV s true; edgeU s true].
Definition longb (v : vec3 R) : bool := Rltb (1 / 1000000) (length3 v).
Lemma long_lit : (@lit_1e_6 R Num_R = 1 / 1000000)%R.
Proof. unfold lit_1e_6. norm_R. unfold Q2R. cbn. lra. Qed.

Lemma align_shape acos_ sort_ s ua va : rearranges sort_ -> wf_surface s -> UCount (Net s) * VCount (Net s) <= INT_MAX ->
  (Surface_AlignParameterDomain acos_ sort_ s ua va = Ok s /\
    (UCount (Net s) < 2 \/ VCount (Net s) < 2 \/ filter longb (corner_edges s) = [])) \/
  exists m1 m2 vectors cu cv us vs,
    map (fun t => fst (fst t)) vectors = filter longb (corner_edges s) /\ vectors <> [] /\
    align_axes m1 m2 vectors = Ok (cu, cv, us, vs) /\
    Surface_AlignParameterDomain acos_ sort_ s ua va =
      (if negb (axis_eqb cu ua) then
          if axis_eqb cv ua && axis_eqb cu va then
            align_apply s true (axis_eqb cv ua && (vs <? 0)) (axis_eqb cu va && (us <? 0))
          else Ok s
        else align_apply s false (axis_eqb cu ua && (us <? 0)) (axis_eqb cv va && (vs <? 0))).
Proof.
  intros Rs W Fit. pose proof (wf_grid s W) as G. unfold Surface_AlignParameterDomain.
  destruct (Z.ltb_spec (UCount (Net s)) 2) as [|HU]; [left; split; [reflexivity|lia]|]. destruct (Z.ltb_spec (VCount (Net s)) 2) as [|HV]; [left; split; [reflexivity|lia]|].
  cbn [orb]. cbv zeta. rewrite !(Grid_Get_ok _ _ _ _ _ _ G) by lia. cbn [bind].
  match goal with |- context [sort_ [?a; ?b; ?c]] => destruct (rearranged_three sort_ a b c Rs) as [[e1 m1] [[e2 m2] [[e3 m3] Es]]] end.
  rewrite Es. clear Es.
  change (vget [(e1, m1); (e2, m2); (e3, m3)] 0) with (Ok (e1, m1)). change (vget [(e1, m1); (e2, m2); (e3, m3)] 1) with (Ok (e2, m2)).
  cbn [bind].
  match goal with |- context [foldM ?f ?l []] => set (F := f); set (L := l) end.
  assert (L = corner_edges s) as EL by reflexivity.
  assert (forall vs v, exists vs', F vs v = Ok vs' /\ map (fun t => fst (fst t)) vs' = map (fun t => fst (fst t)) vs ++ (if longb v then [v] else [])) as HF.
  { intros vs v. unfold F, longb. unfold v3norm. rewrite long_lit. norm_R. change (sqrt (v3dot v v)) with (length3 v).
    destruct (Rltb_spec (1 / 1000000) (length3 v)) as [H|H].
    - destruct (v3normalized_ok v) as [n En]. rewrite En. cbn [bind]. eexists. split; [reflexivity|]. rewrite map_app. reflexivity.
    - eexists. split; [reflexivity|]. rewrite app_nil_r. reflexivity. }
  assert (forall l vs, exists vs', foldM F l vs = Ok vs' /\ map (fun t => fst (fst t)) vs' = map (fun t => fst (fst t)) vs ++ filter longb l) as HL.
  { induction l as [|v l IH]; intros vs.
    - exists vs. split; [reflexivity|]. cbn. rewrite app_nil_r. reflexivity.
    - cbn [foldM]. destruct (HF vs v) as [v1 [E1 M1]]. rewrite E1. cbn [bind]. destruct (IH v1) as [v2 [E2 M2]].
      exists v2. split; [exact E2|]. rewrite M2, M1, <- app_assoc. cbn [filter]. destruct (longb v); reflexivity. }
  destruct (HL L []) as [vs [Ev Mv]]. rewrite Ev. cbn [bind]. rewrite EL in Mv. cbn [map app] in Mv.
  destruct vs as [|w vs]; [left; split; [reflexivity|]; right; right; symmetry; exact Mv|]. right.
  assert (exists cu cv us vss, align_axes m1 m2 (w :: vs) = Ok (cu, cv, us, vss)) as [cu [cv [us [vss Ea]]]].
  { unfold align_axes. destruct (len (w :: vs) <? 4) eqn:E4.
    - match goal with |- context [fold_left ?f ?l ?a] => destruct (fold_left f l a) as [[[c1 c2] du] dv] end.
      cbv zeta. destruct (c2 <=? c1); do 4 eexists; reflexivity.
    - apply Z.ltb_ge in E4. destruct w as [[w0 w1] w2]. destruct vs as [|[[u0 u1] u2] vs]; [cbn in E4; lia|].
      change (vget ((w0, w1, w2) :: (u0, u1, u2) :: vs) 0) with (Ok (w0, w1, w2)).
      change (vget ((w0, w1, w2) :: (u0, u1, u2) :: vs) 1) with (Ok (u0, u1, u2)). cbn [bind].
      destruct (GetDominantAxis w0), (GetDominantAxis u0). do 4 eexists; reflexivity. }
  exists m1, m2, (w :: vs), cu, cv, us, vss. split; [exact Mv|]. split; [discriminate|]. split; [exact Ea|].
  rewrite Ea. cbn [bind]. reflexivity.
Qed.

Lemma C53_shape_lemma acos_ sort_ s ua va : rearranges sort_ -> wf_surface s -> UCount (Net s) * VCount (Net s) <= INT_MAX ->
  exists d sw ru rv, Surface_AlignParameterDomain acos_ sort_ s ua va = Ok d /\ sym_of s d sw ru rv.
Proof.
  intros Rs W Fit. destruct (align_shape acos_ sort_ s ua va Rs W Fit) as [[E Why]|[m1 [m2 [vecs [cu [cv [us [vs [_ [_ [_ E]]]]]]]]]]].
  - exists s, false, false, false. split; [exact E|]. apply sym_refl; exact W.
  - rewrite E. destruct (negb (axis_eqb cu ua)).
    + destruct (axis_eqb cv ua && axis_eqb cu va).
      * match goal with |- context [align_apply s true ?a ?b] => destruct (align_apply_ok s true a b W Fit) as [d [Ed Sd]] end. eauto 7.
      * exists s, false, false, false. split; [reflexivity|]. apply sym_refl; exact W.
    + match goal with |- context [align_apply s false ?a ?b] => destruct (align_apply_ok s false a b W Fit) as [d [Ed Sd]] end. eauto 7.
Qed.

Lemma axis_eqb_spec a b : reflect (a = b) (axis_eqb a b).
Proof. destruct a, b; cbn; constructor; congruence. Qed.
Lemma dominant_ok (v : vec3 R) a : dominated_by v a ->
  GetDominantAxis v = (a, if Rltb (coord a v) 0 then -1 else 1) /\ coord a v <> 0%R.
Proof.
  intros D. assert (coord a v <> 0)%R as Nz.
  { intros E. destruct a; [pose proof (D YAxis ltac:(discriminate)) as H|pose proof (D XAxis ltac:(discriminate)) as H|pose proof (D XAxis ltac:(discriminate)) as H];
      rewrite E, Rabs_R0 in H; match type of H with (Rabs ?x < 0)%R => pose proof (Rabs_pos x) end; lra. }
  split; [|exact Nz]. unfold GetDominantAxis. norm_R. rewrite !Rabs_if. rewrite !Rmax_if.
  assert (forall x, (if Rleb 0 x then 1 else -1) = (if Rltb x 0 then -1 else 1)) as Sg by (intros x; bool_R; lra || reflexivity).
  destruct v as [x y z]. cbn [x3 y3 z3].
  destruct a; [pose proof (D YAxis ltac:(discriminate)) as H1; pose proof (D ZAxis ltac:(discriminate)) as H2
              |pose proof (D XAxis ltac:(discriminate)) as H1; pose proof (D ZAxis ltac:(discriminate)) as H2
              |pose proof (D XAxis ltac:(discriminate)) as H1; pose proof (D YAxis ltac:(discriminate)) as H2]; cbn [coord x3 y3 z3] in *.
  - rewrite (Rmax_left (Rabs x) (Rabs y)), Rmax_left by lra. destruct (Reqb_spec (Rabs x) (Rabs x)); [|congruence]. cbn. rewrite Sg. reflexivity.
  - rewrite (Rmax_right (Rabs x) (Rabs y)), Rmax_left by lra. destruct (Reqb_spec (Rabs y) (Rabs x)); [lra|].
    destruct (Reqb_spec (Rabs y) (Rabs y)); [|congruence]. cbn. rewrite Sg. reflexivity.
  - rewrite (Rmax_right _ (Rabs z)) by (apply Rmax_lub; lra). destruct (Reqb_spec (Rabs z) (Rabs x)); [lra|].
    destruct (Reqb_spec (Rabs z) (Rabs y)); [lra|]. cbn. rewrite Sg. reflexivity.
Qed.

Lemma coord_edge a p q : coord a (edge p q) = (- coord a (edge q p))%R.
Proof. destruct a; cbn; ring. Qed.
Lemma flipped b x c : x <> 0%R -> b = Rltb x 0 -> c = (if b then - x else x)%R -> (0 < c)%R.
Proof. intros N -> ->. destruct (Rltb_spec x 0); lra. Qed.
Lemma same_sign b x y z : (0 < x * y)%R -> b = Rltb x 0 -> z = x \/ z = y -> (0 < (if b then - z else z))%R.
Proof.
  intros P -> Z1. destruct (Rltb_spec x 0) as [H|H].
  - assert (y < 0)%R by (destruct (Rlt_dec y 0); [assumption|]; assert (x * y <= 0)%R by nra; lra). destruct Z1; subst; lra.
  - assert (0 < x)%R by (destruct (Req_dec x 0) as [->|]; lra). assert (0 < y)%R by nra. destruct Z1; subst; lra.
Qed.

Section Aligned.
  Variables (acos_ : R -> R) (sort_ : list (R * AlignAxis) -> list (R * AlignAxis)).
  Variables (s : surface R) (ua va a b : AlignAxis).
  Hypothesis Rs : rearranges sort_.
  Hypothesis W : wf_surface s.
  Hypothesis Fit : UCount (Net s) * VCount (Net s) <= INT_MAX.
  Hypothesis HU : 2 <= UCount (Net s).
  Hypothesis HV : 2 <= VCount (Net s).
  Hypothesis Long : forall side, (1 / 1000000 < length3 (edgeU s side) /\ 1 / 1000000 < length3 (edgeV s side))%R.
  Hypothesis Da : dominated_by (edgeU s false) a.
  Hypothesis Db : dominated_by (edgeV s false) b.
  Hypothesis Match : (a = ua /\ b = va) \/ (a = va /\ b = ua).

  Lemma C53_axes_lemma : exists d sw ru rv,
    Surface_AlignParameterDomain acos_ sort_ s ua va = Ok d /\ sym_of s d sw ru rv /\
    (0 < coord ua (edgeU d rv))%R /\ (0 < coord va (edgeV d ru))%R /\
    ((0 < coord a (edgeU s false) * coord a (edgeU s true))%R -> (0 < coord b (edgeV s false) * coord b (edgeV s true))%R ->
     forall side, (0 < coord ua (edgeU d side))%R /\ (0 < coord va (edgeV d side))%R).
  Proof.
    destruct (dominant_ok _ _ Da) as [Ea Na]. destruct (dominant_ok _ _ Db) as [Eb Nb].
    assert (filter longb (corner_edges s) = corner_edges s) as FL.
    { unfold corner_edges, longb. cbn [filter]. pose proof (Long false). pose proof (Long true).
      repeat match goal with |- context [Rltb ?x ?y] => destruct (Rltb_spec x y); [|lra] end. reflexivity. }
    destruct (align_shape acos_ sort_ s ua va Rs W Fit) as [[E Why]|[m1 [m2 [vecs [cu [cv [us [vs [Mv [Nv [Ex E]]]]]]]]]]].
    { exfalso. rewrite FL in Why. unfold corner_edges in Why. destruct Why as [?|[?|?]]; [lia|lia|discriminate]. }
    rewrite FL in Mv. unfold corner_edges in Mv.
    destruct vecs as [|[[v0 ?] ?] [|[[v1 ?] ?] [|[[v2 ?] ?] [|[[v3 ?] ?] [|? ?]]]]]; try discriminate Mv. cbn in Mv.
    injection Mv as -> -> -> ->. unfold align_axes in Ex.
    match type of Ex with (if ?c then _ else _) = _ => change c with false in Ex end. cbv iota in Ex.
    match type of Ex with context [vget (?x :: ?y :: ?l) 0] => change (vget (x :: y :: l) 0) with (Ok x) in Ex; change (vget (x :: y :: l) 1) with (Ok y) in Ex end.
    cbn [bind] in Ex. rewrite Ea, Eb in Ex. injection Ex as <- <- <- <-.
    assert (forall x, ((if Rltb x 0 then -1 else 1) <? 0) = Rltb x 0) as Sg by (intros x; destruct (Rltb x 0); reflexivity).
    rewrite !Sg in E.
    destruct (axis_eqb_spec a ua) as [Eu|Nu]; cbn [negb] in E.
    - (* no exchange *)
      assert (b = va) as Ev by (destruct Match as [[? ?]|[? ?]]; congruence).
      destruct (axis_eqb_spec b va) as [_|]; [|contradiction]. cbn [andb] in E.
      set (ru := Rltb (coord a (edgeU s false)) 0) in *. set (rv := Rltb (coord b (edgeV s false)) 0) in *.
      destruct (align_apply_ok s false ru rv W Fit) as [d [Ed Sd]]. exists d, false, ru, rv. rewrite E. split; [exact Ed|]. split; [exact Sd|].
      destruct Sd as [_ [_ [_ Nd]]]. rewrite <- Eu, <- Ev.
      assert (forall side, coord a (edgeU d side) = (if ru then - coord a (edgeU s (xorb rv side)) else coord a (edgeU s (xorb rv side)))%R) as CU.
      { intros side. unfold edgeU. rewrite !Nd. cbn. destruct ru; cbn; [apply coord_edge|reflexivity]. }
      assert (forall side, coord b (edgeV d side) = (if rv then - coord b (edgeV s (xorb ru side)) else coord b (edgeV s (xorb ru side)))%R) as CV.
      { intros side. unfold edgeV. rewrite !Nd. cbn. destruct rv; cbn; [apply coord_edge|reflexivity]. }
      split; [rewrite CU, xorb_nilpotent; apply (flipped ru _ _ Na eq_refl eq_refl)|].
      split; [rewrite CV, xorb_nilpotent; apply (flipped rv _ _ Nb eq_refl eq_refl)|].
      intros SU SV side. rewrite CU, CV. split; [apply (same_sign ru _ _ _ SU eq_refl)|apply (same_sign rv _ _ _ SV eq_refl)].
      + destruct rv, side; auto.
      + destruct ru, side; auto.
    - destruct Match as [[? ?]|[Ev Eu]]; [contradiction|].
      destruct (axis_eqb_spec b ua) as [_|]; [|contradiction]. destruct (axis_eqb_spec a va) as [_|]; [|contradiction]. cbn [andb] in E.
      set (ru := Rltb (coord b (edgeV s false)) 0) in *. set (rv := Rltb (coord a (edgeU s false)) 0) in *.
      destruct (align_apply_ok s true ru rv W Fit) as [d [Ed Sd]]. exists d, true, ru, rv. rewrite E. split; [exact Ed|]. split; [exact Sd|].
      destruct Sd as [_ [_ [_ Nd]]]. rewrite <- Eu, <- Ev.
      assert (forall side, coord b (edgeU d side) = (if ru then - coord b (edgeV s (xorb rv side)) else coord b (edgeV s (xorb rv side)))%R) as CU.
      { intros side. unfold edgeU, edgeV. rewrite !Nd. cbn. destruct ru; cbn; [apply coord_edge|reflexivity]. }
      assert (forall side, coord a (edgeV d side) = (if rv then - coord a (edgeU s (xorb ru side)) else coord a (edgeU s (xorb ru side)))%R) as CV.
      { intros side. unfold edgeU, edgeV. rewrite !Nd. cbn. destruct rv; cbn; [apply coord_edge|reflexivity]. }
      split; [rewrite CU, xorb_nilpotent; apply (flipped ru _ _ Nb eq_refl eq_refl)|].
      split; [rewrite CV, xorb_nilpotent; apply (flipped rv _ _ Na eq_refl eq_refl)|].
      intros SU SV side. rewrite CU, CV. split; [apply (same_sign ru _ _ _ SV eq_refl)|apply (same_sign rv _ _ _ SU eq_refl)].
      + destruct rv, side; auto.
      + destruct ru, side; auto.
  Qed.
End Aligned.
