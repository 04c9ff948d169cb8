(** AlignParameterDomain: statements and witnesses (C53). *)
From Coq Require Import Reals ZArith QArith List Lra Lia Bool SpecFloat Permutation.
From Flocq Require Import Core IEEE754.BinarySingleNaN.
From Verif Require Import Outcome Num ModelCore ModelCurve ModelSurface SpecCore SpecBasis SpecCurve SpecSurface SpecAlign
  ThOutcome ThReal ThB64 ThKnots ThDecide ThCoreWit ThCurve ThCurveWit ThSurfWit ThSurfRemove2 ThBBoxWit ThAlign ThAlign2.
Import ListNotations.
Open Scope Z_scope.

Lemma C53_lemma acos_ sort_ s ua va : rearranges sort_ -> wf_surface s -> UCount (Net s) * VCount (Net s) <= INT_MAX ->
  exists d swap ru rv, Surface_AlignParameterDomain acos_ sort_ s ua va = Ok d /\ wf_surface d /\ reparameterised s d swap ru rv.
Proof.
  intros Rs W Fit. destruct (C53_shape_lemma acos_ sort_ s ua va Rs W Fit) as [d [sw [ru [rv [E [Wd [Rd _]]]]]]].
  exists d, sw, ru, rv. auto.
Qed.
Lemma C53_direction_lemma acos_ sort_ s ua va a b : rearranges sort_ -> wf_surface s -> UCount (Net s) * VCount (Net s) <= INT_MAX ->
  2 <= UCount (Net s) -> 2 <= VCount (Net s) ->
  (forall side, (1 / 1000000 < length3 (edgeU s side) /\ 1 / 1000000 < length3 (edgeV s side))%R) ->
  dominated_by (edgeU s false) a -> dominated_by (edgeV s false) b ->
  (a = ua /\ b = va) \/ (a = va /\ b = ua) ->
  (0 < coord a (edgeU s false) * coord a (edgeU s true))%R -> (0 < coord b (edgeV s false) * coord b (edgeV s true))%R ->
  exists d swap ru rv, Surface_AlignParameterDomain acos_ sort_ s ua va = Ok d /\ wf_surface d /\ reparameterised s d swap ru rv /\
    forall side, (0 < coord ua (edgeU d side) /\ 0 < coord va (edgeV d side))%R.
Proof.
  intros Rs W Fit HU HV Lg Da Db Mt SU SV.
  destruct (C53_axes_lemma acos_ sort_ s ua va a b Rs W Fit HU HV Lg Da Db Mt) as [d [sw [ru [rv [E [[Wd [Rd _]] [_ [_ All]]]]]]]].
  exists d, sw, ru, rv. split; [exact E|]. split; [exact Wd|]. split; [exact Rd|]. apply All; assumption.
Qed.
Lemma C53_corner_lemma acos_ sort_ s ua va a b : rearranges sort_ -> wf_surface s -> UCount (Net s) * VCount (Net s) <= INT_MAX ->
  2 <= UCount (Net s) -> 2 <= VCount (Net s) ->
  (forall side, (1 / 1000000 < length3 (edgeU s side) /\ 1 / 1000000 < length3 (edgeV s side))%R) ->
  dominated_by (edgeU s false) a -> dominated_by (edgeV s false) b ->
  (a = ua /\ b = va) \/ (a = va /\ b = ua) ->
  exists d swap ru rv, Surface_AlignParameterDomain acos_ sort_ s ua va = Ok d /\ wf_surface d /\ reparameterised s d swap ru rv /\
    (0 < coord ua (edgeU d rv))%R /\ (0 < coord va (edgeV d ru))%R.
Proof.
  intros Rs W Fit HU HV Lg Da Db Mt.
  destruct (C53_axes_lemma acos_ sort_ s ua va a b Rs W Fit HU HV Lg Da Db Mt) as [d [sw [ru [rv [E [[Wd [Rd _]] [A [B _]]]]]]]].
  exists d, sw, ru, rv. auto 6.
Qed.

(** a bilinear patch with the given corners *)
Definition patch64 (a b c d : Q * Q) : surface b64 :=
  let q p := pt (fst p) (snd p) 0 1 in Surface 1 1 flat64 flat64 (Grid 2 2 [q a; q b; q c; q d]).
Lemma patch64_wf a b c d : wf64s (patch64 a b c d) = true -> wf_surface (surface_val (patch64 a b c d)).
Proof. apply wf64s_ok. Qed.
Definition turned64 : surface b64 := patch64 (1, 2)%Q (1, 0)%Q (-2, 2)%Q (-2, 0)%Q.
Definition bow64 : surface b64 := patch64 (0, 1)%Q (1, 1)%Q (0, 0)%Q (-1, 0)%Q.
Definition fan64 : surface b64 := patch64 (0, 0)%Q (0, 5)%Q (12, 0)%Q (12, 0)%Q.

Definition patchR (a b c d : R * R) : surface R :=
  let q p := Vec4 (fst p) (snd p) 0%R 1%R in let k := [0; 0; 1; 1]%R in Surface 1 1 k k (Grid 2 2 [q a; q b; q c; q d]).
Ltac val_one := match goal with |- val ?x = _ => let y := eval vm_compute in x in change (val y = _ :> R) || (replace x with y by (vm_compute; reflexivity)) end;
  unfold val, SF2R, Defs.F2R; cbn [Defs.Fnum Defs.Fexp cond_Zopp]; unfold Raux.bpow; simpl Zaux.radix_val;
  repeat match goal with |- context [Z.pow_pos ?a ?b] => let r := eval vm_compute in (Z.pow_pos a b) in change (Z.pow_pos a b) with r end;
  rewrite ?opp_IZR; try lra.
Lemma v_0 : val (dq 0) = 0%R. Proof. val_one. Qed.
Lemma v_1 : val (dq 1) = 1%R. Proof. val_one. Qed.
Lemma v_2 : val (dq 2) = 2%R. Proof. val_one. Qed.
Lemma v_5 : val (dq 5) = 5%R. Proof. val_one. Qed.
Lemma v_12 : val (dq 12) = 12%R. Proof. val_one. Qed.
Lemma v_m1 : val (dq (-1)) = (-1)%R. Proof. val_one. Qed.
Lemma v_m2 : val (dq (-2)) = (-2)%R. Proof. val_one. Qed.
Ltac patch_val := unfold surface_val, patch64, pt; cbn [fst snd Net UCount VCount Values map val4 x4 y4 z4 w4 DegreeU DegreeV KnotsU KnotsV];
  unfold flat64, vals; cbn [map]; unfold val4; cbn [x4 y4 z4 w4]; rewrite ?val_dz, ?val_done, ?v_0, ?v_1, ?v_2, ?v_5, ?v_12, ?v_m1, ?v_m2; reflexivity.
Lemma turned_val : surface_val turned64 = patchR (1, 2)%R (1, 0)%R (-2, 2)%R (-2, 0)%R.
Proof. unfold turned64. patch_val. Qed.
Lemma bow_val : surface_val bow64 = patchR (0, 1)%R (1, 1)%R (0, 0)%R (-1, 0)%R.
Proof. unfold bow64. patch_val. Qed.
Lemma fan_val : surface_val fan64 = patchR (0, 0)%R (0, 5)%R (12, 0)%R (12, 0)%R.
Proof. unfold fan64. patch_val. Qed.
Lemma patch_edges a b c d : let s := patchR a b c d in
  edgeU s false = (Vec3 (fst b - fst a) (snd b - snd a) (0 - 0))%R /\ edgeU s true = (Vec3 (fst d - fst c) (snd d - snd c) (0 - 0))%R /\
  edgeV s false = (Vec3 (fst c - fst a) (snd c - snd a) (0 - 0))%R /\ edgeV s true = (Vec3 (fst d - fst b) (snd d - snd b) (0 - 0))%R.
Proof. repeat split; reflexivity. Qed.
Lemma long_of (v : vec3 R) a : (1 <= Rabs (coord a v))%R -> (1 / 1000000 < length3 v)%R.
Proof.
  intros H. unfold length3. apply Rlt_le_trans with (sqrt 1); [rewrite sqrt_1; lra|]. apply sqrt_le_1_alt.
  assert (1 <= coord a v * coord a v)%R.
  { rewrite <- (Rabs_pos_eq (coord a v * coord a v)) by nra. rewrite Rabs_mult. nra. }
  destruct a; cbn in *; nra.
Qed.
Ltac rabs := repeat match goal with |- context [Rabs ?x] => first [rewrite (Rabs_pos_eq x) by lra|rewrite (Rabs_left1 x) by lra] end.

Lemma C53_ex_lemma : exists s, wf_surface s /\ UCount (Net s) * VCount (Net s) <= INT_MAX /\ 2 <= UCount (Net s) /\ 2 <= VCount (Net s) /\
  (forall side, (1 / 1000000 < length3 (edgeU s side) /\ 1 / 1000000 < length3 (edgeV s side))%R) /\
  dominated_by (edgeU s false) YAxis /\ dominated_by (edgeV s false) XAxis /\
  (0 < coord YAxis (edgeU s false) * coord YAxis (edgeU s true))%R /\ (0 < coord XAxis (edgeV s false) * coord XAxis (edgeV s true))%R /\
  (coord YAxis (edgeU s false) < 0)%R.
Proof.
  exists (surface_val turned64). split; [apply wf64s_ok; vm_compute; reflexivity|]. rewrite turned_val.
  destruct (patch_edges (1, 2)%R (1, 0)%R (-2, 2)%R (-2, 0)%R) as [E1 [E2 [E3 E4]]]. rewrite E1, E2, E3, E4. cbn [fst snd] in *.
  split; [cbn; unfold INT_MAX; lia|]. split; [cbn; lia|]. split; [cbn; lia|].
  split; [intros []; split; rewrite ?E1, ?E2, ?E3, ?E4; [apply (long_of _ YAxis)|apply (long_of _ XAxis)|apply (long_of _ YAxis)|apply (long_of _ XAxis)]; cbn; rabs; lra|].
  split; [intros []; [| congruence |]; intros _; cbn; rabs; lra|].
  split; [intros []; [congruence| |]; intros _; cbn; rabs; lra|]. cbn. lra.
Qed.

Definition any_axes (l : list (b64 * AlignAxis)) : Prop := exists e1 m1 e2 m2 e3 m3, l = [(e1, m1); (e2, m2); (e3, m3)].
Lemma rearranged64 sort_ a b c : (forall l : list (b64 * AlignAxis), Permutation (sort_ l) l) -> any_axes (sort_ [a; b; c]).
Proof.
  intros P. specialize (P [a; b; c]). apply Permutation_length in P.
  destruct (sort_ [a; b; c]) as [|[e1 m1] [|[e2 m2] [|[e3 m3] [|w t]]]]; try discriminate. repeat eexists.
Qed.

(** opposite edges running against each other *)
Lemma C53_bow_lemma : exists s : surface b64, wf_surface (surface_val s) /\
  (forall side, (1 / 1000000 < length3 (edgeU (surface_val s) side) /\ 1 / 1000000 < length3 (edgeV (surface_val s) side))%R) /\
  dominated_by (edgeU (surface_val s) false) XAxis /\ dominated_by (edgeV (surface_val s) false) YAxis /\
  forall acos_ sort_, (forall l, Permutation (sort_ l) l) ->
  exists d, Surface_AlignParameterDomain acos_ sort_ s XAxis YAxis = Ok d /\ (coord XAxis (edgeU (surface_val d) false) < 0)%R.
Proof.
  exists bow64. split; [apply wf64s_ok; vm_compute; reflexivity|]. rewrite bow_val.
  destruct (patch_edges (0, 1)%R (1, 1)%R (0, 0)%R (-1, 0)%R) as [E1 [E2 [E3 E4]]]. rewrite E1, E3. cbn [fst snd] in *.
  split; [intros []; split; rewrite ?E1, ?E2, ?E3, ?E4; [apply (long_of _ XAxis)|apply (long_of _ XAxis)|apply (long_of _ XAxis)|apply (long_of _ YAxis)]; cbn; rabs; lra|].
  split; [intros []; [congruence| |]; intros _; cbn; rabs; lra|].
  split; [intros []; [| congruence |]; intros _; cbn; rabs; lra|].
  intros acos_ sort_ P. exists (patch64 (0, 0)%Q (-1, 0)%Q (0, 1)%Q (1, 1)%Q). split.
  - unfold Surface_AlignParameterDomain.
    match goal with |- (if ?c then _ else _) = _ => change c with false end. cbv iota zeta.
    repeat match goal with |- context [Grid_Get ?g ?i ?j] => let r := eval vm_compute in (Grid_Get g i j) in change (Grid_Get g i j) with r; cbn [bind] end.
    match goal with |- context [sort_ [?a; ?b; ?c]] => destruct (rearranged64 sort_ a b c P) as [e1 [m1 [e2 [m2 [e3 [m3 Es]]]]]] end.
    rewrite Es. destruct m1, m2; vm_compute; reflexivity.
  - replace (surface_val (patch64 (0, 0)%Q (-1, 0)%Q (0, 1)%Q (1, 1)%Q)) with (patchR (0, 0)%R (-1, 0)%R (0, 1)%R (1, 1)%R) by (symmetry; patch_val).
    destruct (patch_edges (0, 0)%R (-1, 0)%R (0, 1)%R (1, 1)%R) as [F1 _]. rewrite F1. cbn. lra.
Qed.

(** an interior knot of multiplicity above the degree *)
Definition jump64 : surface b64 :=
  let p x y := pt x y 0 1 in
  Surface 1 1 [dz; dz; dhalf; dhalf; done_; done_] flat64
    (Grid 4 2 [p 3 0; p 2 0; p 1 0; p 0 0; p 3 1; p 2 1; p 1 1; p 0 1]%Q).
Definition jump64_aligned : surface b64 :=
  let p x y := pt x y 0 1 in
  Surface 1 1 [dz; dz; dhalf; dhalf; done_; done_] flat64
    (Grid 4 2 [p 0 0; p 1 0; p 2 0; p 3 0; p 0 1; p 1 1; p 2 1; p 3 1]%Q).
Lemma C53_jump_lemma : exists s : surface b64, wf_surface (surface_val s) /\
  forall acos_ sort_, (forall l, Permutation (sort_ l) l) ->
  exists d, Surface_AlignParameterDomain acos_ sort_ s XAxis YAxis = Ok d /\
  forall swap ru rv, exists u v u' v' p q, square_sym swap ru rv (val u, val v) = (val u', val v') /\
    Surface_Evaluate d u v = Ok p /\ Surface_Evaluate s u' v' = Ok q /\ p <> q.
Proof.
  exists jump64. split; [apply wf64s_ok; vm_compute; reflexivity|]. intros acos_ sort_ P. exists jump64_aligned. split.
  - unfold Surface_AlignParameterDomain.
    match goal with |- (if ?c then _ else _) = _ => change c with false end. cbv iota zeta.
    repeat match goal with |- context [Grid_Get ?g ?i ?j] => let r := eval vm_compute in (Grid_Get g i j) in change (Grid_Get g i j) with r; cbn [bind] end.
    match goal with |- context [sort_ [?a; ?b; ?c]] => destruct (rearranged64 sort_ a b c P) as [e1 [m1 [e2 [m2 [e3 [m3 Es]]]]]] end.
    rewrite Es. destruct m1, m2; vm_compute; reflexivity.
  - assert (forall b, flip b 0 = val (if b then done_ else dz)) as F0 by (intros []; cbn [flip]; rewrite ?val_done, ?val_dz; lra).
    assert (forall b, flip b 1 = val (if b then dz else done_)) as F1 by (intros []; cbn [flip]; rewrite ?val_done, ?val_dz; lra).
    assert (forall b, flip b (1 / 2) = val dhalf) as F2 by (intros []; cbn [flip]; rewrite val_dhalf; lra).
    intros swap ru rv.
    destruct swap.
    + destruct ru; [|destruct rv].
      * exists dz, dz, (if rv then done_ else dz), done_. destruct rv; (do 2 eexists; split; [cbn [square_sym fst snd]; rewrite val_dz, !F0, ?val_dz; reflexivity|];
        split; [vm_compute; reflexivity|]; split; [vm_compute; reflexivity|]; discriminate).
      * exists done_, dz, done_, done_. do 2 eexists. split; [cbn [square_sym fst snd]; rewrite val_dz, val_done, F0, F1, val_done; reflexivity|].
        split; [vm_compute; reflexivity|]; split; [vm_compute; reflexivity|]; discriminate.
      * exists dz, dz, dz, dz. do 2 eexists. split; [cbn [square_sym fst snd]; rewrite val_dz, !F0, val_dz; reflexivity|].
        split; [vm_compute; reflexivity|]; split; [vm_compute; reflexivity|]; discriminate.
    + destruct ru; [destruct rv|].
      * exists dz, dz, done_, done_. do 2 eexists. split; [cbn [square_sym fst snd]; rewrite val_dz, !F0; reflexivity|].
        split; [vm_compute; reflexivity|]; split; [vm_compute; reflexivity|]; discriminate.
      * exists dhalf, dz, dhalf, dz. do 2 eexists. split; [cbn [square_sym fst snd]; rewrite val_dhalf, F2, val_dz, F0, val_dhalf, val_dz; reflexivity|].
        split; [vm_compute; reflexivity|]; split; [vm_compute; reflexivity|]; discriminate.
      * exists dz, dz, dz, (if rv then done_ else dz). destruct rv; (do 2 eexists; split; [cbn [square_sym fst snd]; rewrite val_dz, !F0, ?val_dz; reflexivity|];
        split; [vm_compute; reflexivity|]; split; [vm_compute; reflexivity|]; discriminate).
Qed.

(** a collapsed edge: which direction is u and which is v is not looked at *)
Lemma sorted_three sort_ (a b c : b64 * AlignAxis) : sorts_extents sort_ ->
  nltb (fst b) (fst a) = true -> nltb (fst c) (fst b) = true -> nltb (fst c) (fst a) = true -> NoDup [a; b; c] ->
  sort_ [a; b; c] = [a; b; c].
Proof.
  intros Ss L1 L2 L3 Nd. destruct (Ss [a; b; c]) as [P O]. pose proof (Permutation_length P) as Lp.
  destruct (sort_ [a; b; c]) as [|x [|y [|z [|w t]]]]; try discriminate. clear Lp.
  pose proof (Permutation_NoDup (Permutation_sym P) Nd) as Nd'.
  assert (In x [a; b; c]) as Ix by (apply (Permutation_in _ P); cbn; auto).
  assert (In y [a; b; c]) as Iy by (apply (Permutation_in _ P); cbn; auto).
  assert (In z [a; b; c]) as Iz by (apply (Permutation_in _ P); cbn; auto).
  pose proof (O 0%nat 1%nat ltac:(cbn; lia)) as O1. pose proof (O 1%nat 2%nat ltac:(cbn; lia)) as O2. pose proof (O 0%nat 2%nat ltac:(cbn; lia)) as O3.
  cbn [map nth] in O1, O2, O3. inversion Nd' as [|? ? X1 Nd2]; subst. inversion Nd2 as [|? ? X2 Nd3]; subst. cbn in X1, X2.
  cbn in Ix, Iy, Iz. destruct Ix as [<-|[<-|[<-|[]]]], Iy as [<-|[<-|[<-|[]]]], Iz as [<-|[<-|[<-|[]]]];
    try reflexivity; exfalso; (congruence || tauto).
Qed.
Lemma val_zero b : val (S754_zero b) = 0%R.
Proof. destruct b; reflexivity. Qed.
Ltac val_bound := repeat match goal with
  | |- context [val (S754_zero ?b)] => rewrite (val_zero b)
  | |- context [val (S754_finite ?sg ?m ?e)] =>
      let v := fresh "v" in let Ev := fresh "Ev" in remember (val (S754_finite sg m e)) as v eqn:Ev; unfold val, SF2R, Defs.F2R in Ev; cbn [Defs.Fnum Defs.Fexp cond_Zopp] in Ev;
      unfold Raux.bpow in Ev; simpl Zaux.radix_val in Ev;
      repeat match type of Ev with context [Z.pow_pos ?a ?b] => let r := eval vm_compute in (Z.pow_pos a b) in change (Z.pow_pos a b) with r in Ev end end; lra.
Ltac fan_side := match goal with |- finite64 _ => apply finb_spec; vm_compute; reflexivity | |- _ => val_bound end.
Lemma C53_fan_lemma : exists s : surface b64, wf_surface (surface_val s) /\
  dominated_by (edgeU (surface_val s) false) YAxis /\ dominated_by (edgeV (surface_val s) false) XAxis /\
  dominated_by (edgeV (surface_val s) true) XAxis /\
  forall acos_ sort_, acos_like acos_ -> sorts_extents sort_ ->
  exists d, Surface_AlignParameterDomain acos_ sort_ s XAxis YAxis = Ok d /\
    forall side, coord XAxis (edgeU (surface_val d) side) = 0%R.
Proof.
  exists fan64. split; [apply wf64s_ok; vm_compute; reflexivity|]. rewrite fan_val.
  destruct (patch_edges (0, 0)%R (0, 5)%R (12, 0)%R (12, 0)%R) as [E1 [E2 [E3 E4]]]. rewrite E1, E3, E4. cbn [fst snd] in *.
  split; [intros []; [| congruence |]; intros _; cbn; rabs; lra|].
  split; [intros []; [congruence| |]; intros _; cbn; rabs; lra|].
  split; [intros []; [congruence| |]; intros _; cbn; rabs; lra|].
  intros acos_ sort_ A Ss. exists fan64. split.
  2:{ rewrite fan_val. intros []; rewrite ?E1, ?E2; cbn; lra. }
  unfold Surface_AlignParameterDomain.
  match goal with |- (if ?c then _ else _) = _ => change c with false end. cbv iota zeta.
  repeat match goal with |- context [Grid_Get ?g ?i ?j] => let r := eval vm_compute in (Grid_Get g i j) in change (Grid_Get g i j) with r; cbn [bind] end.
  match goal with |- context [sort_ [?a; ?b; ?c]] => rewrite (sorted_three sort_ a b c Ss) end;
    [|vm_compute; reflexivity|vm_compute; reflexivity|vm_compute; reflexivity|repeat constructor; cbn; intuition discriminate].
  match goal with |- context [vget (?x :: ?y :: ?l) 0] => change (vget (x :: y :: l) 0) with (Ok x); change (vget (x :: y :: l) 1) with (Ok y) end. cbn [bind].
  match goal with |- context [foldM ?F ?L []] => let r := eval vm_compute in (foldM F L []) in replace (foldM F L []) with r by (vm_compute; reflexivity) end.
  cbn [bind]. unfold align_axes. match goal with |- context [?x <? 4] => change (x <? 4) with true end. cbv iota. cbn [fold_left].
  assert (forall x y : b64, nltb x y = true -> nltb y x = false) as As.
  { intros x y. change (@nltb b64 Num_b64) with SFltb. unfold SFltb, SFcompare.
    destruct x as [s1|s1| |s1 m1 e1], y as [s2|s2| |s2 m2 e2]; try destruct s1; try destruct s2; try discriminate; try reflexivity;
      rewrite (Z.compare_antisym e1 e2); destruct (e1 ?= e2); cbn; try discriminate; try reflexivity;
      change (Pos.compare_cont Eq) with Pos.compare; rewrite (Pos.compare_antisym m1 m2); destruct (Pos.compare m1 m2); cbn; discriminate || reflexivity. }
  repeat match goal with |- context [nltb (acos_ ?x) (acos_ ?y)] =>
    first [rewrite (A x y) by fan_side
          |rewrite (As (acos_ y) (acos_ x)) by (apply A; fan_side)]
    end.
  vm_compute. reflexivity.
Qed.
