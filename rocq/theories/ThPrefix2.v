(** Surfaces: the cells of a table of partial derivatives do not depend on the orders
    requested.  Any arithmetic; used by C86. *)
From Coq Require Import ZArith List Lia Bool.
From Verif Require Import Outcome Num ModelCore ModelBasis ModelAlgo ModelCurve ModelSurface SpecCore SpecSurface ThOutcome ThVec ThGrid ThSurfRemove ThSame ThPrefix.
Import ListNotations.
Local Open Scope Z_scope.
Local Open Scope outcome_scope.

Definition gagree {A} (u v a b : Z) (g g' : grid A) : Prop :=
  exists f f', grid_is g u v f /\ grid_is g' a b f' /\ forall i j, 0 <= i < a -> 0 <= j < b -> f i j = f' i j.
Section G.
  Context {A : Type} (u v a b : Z) (Ha : 0 <= a <= u) (Hb : 0 <= b <= v).

  Lemma gagree_get (g g' : grid A) i j : gagree u v a b g g' -> 0 <= i < a -> 0 <= j < b -> Grid_Get g i j = Grid_Get g' i j.
  Proof.
    intros [f [f' [G [G' E]]]] Hi Hj. rewrite (Grid_Get_ok _ _ _ _ i j G) by lia. rewrite (Grid_Get_ok _ _ _ _ i j G') by lia. f_equal. auto.
  Qed.
  Lemma gagree_set (g g' : grid A) i j x : gagree u v a b g g' -> 0 <= i < a -> 0 <= j < b ->
    oimp (gagree u v a b) (Grid_Set g i j x) (Grid_Set g' i j x).
  Proof.
    intros [f [f' [G [G' E]]]] Hi Hj. destruct (Grid_Set_ok _ _ _ _ i j x G ltac:(lia) ltac:(lia)) as [h [-> K]].
    destruct (Grid_Set_ok _ _ _ _ i j x G' ltac:(lia) ltac:(lia)) as [h' [-> K']]. apply oimp_ok.
    eexists _, _. split; [exact K|]. split; [exact K'|]. intros i' j' Hi' Hj'. cbv beta. destruct (_ && _); auto.
  Qed.
  Lemma gagree_frame (g g' : grid A) i j x g1 : gagree u v a b g g' -> 0 <= i < u -> 0 <= j < v -> a <= i \/ b <= j -> Grid_Set g i j x = Ok g1 -> gagree u v a b g1 g'.
  Proof.
    intros [f [f' [G [G' E]]]] Hi Hj O Es. destruct (Grid_Set_ok _ _ _ _ i j x G ltac:(lia) ltac:(lia)) as [h [E1 K]].
    assert (h = g1) by congruence. subst h. eexists _, _. split; [exact K|]. split; [exact G'|]. intros i' j' Hi' Hj'. cbv beta.
    destruct (Z.eqb_spec i' i), (Z.eqb_spec j' j); cbn [andb]; auto. lia.
  Qed.
  Lemma gagree_make (x : A) : oimp (gagree u v a b) (Grid_make u v x) (Grid_make a b x).
  Proof.
    intros g E. pose proof E as E0. apply Grid_make_is in E; [|lia|lia]. destruct E as [_ G].
    assert (u * v <= INT_MAX) as F.
    { unfold Grid_make, int_, fits_int in E0. destruct (Z.leb_spec (u * v) INT_MAX); [assumption|]. rewrite andb_false_r in E0. discriminate. }
    destruct (Grid_make_ok a b x) as [g' [E' G']]; [lia|lia|nia|]. exists g'. split; [exact E'|]. eexists _, _. split; [exact G|]. split; [exact G'|]. reflexivity.
  Qed.
  (** a double loop over the cells: the common cells do the same, the others leave the common ones alone *)
  Lemma gagree_loop_vu (F F' : Z -> Z -> grid A -> outcome (grid A)) g g' :
    (forall l k r r', 0 <= l < b -> 0 <= k < a -> gagree u v a b r r' -> oimp (gagree u v a b) (F l k r) (F' l k r')) ->
    (forall l k r r' r1, 0 <= l < v -> 0 <= k < u -> b <= l \/ a <= k -> gagree u v a b r r' -> F l k r = Ok r1 -> gagree u v a b r1 r') ->
    gagree u v a b g g' ->
    oimp (gagree u v a b) (for_up 0 v (fun l r => for_up 0 u (F l) r) g) (for_up 0 b (fun l r => for_up 0 a (F' l) r) g').
  Proof.
    intros H1 H2 Hg. rewrite (for_up_split 0 b v) by lia. apply (oimp_then (gagree u v a b)).
    - apply (oimp_for (fun _ => gagree u v a b)); [lia|exact Hg|]. intros l r r' Hl Ag.
      rewrite (for_up_split 0 a u) by lia. apply (oimp_then (gagree u v a b)).
      + apply (oimp_for (fun _ => gagree u v a b)); [lia|exact Ag|]. intros k q q' Hk Aq. apply H1; assumption.
      + intros q q' q1 Aq E. apply (for_up_inv_partial (fun _ t => gagree u v a b t q') a u) in E; [exact E|lia|exact Aq|].
        intros k t t1 Hk At Et. apply (H2 l k t q' t1); try assumption; lia.
    - intros q q' q1 Aq E. apply (for_up_inv_partial (fun _ t => gagree u v a b t q') b v) in E; [exact E|lia|exact Aq|].
      intros l t t1 Hl At Et. apply (for_up_inv_partial (fun _ t => gagree u v a b t q') 0 u) in Et; [exact Et|lia|exact At|].
      intros k w w1 Hk Aw Ew. apply (H2 l k w q' w1); try assumption; lia.
  Qed.
End G.
(** the other nesting *)
Lemma gagree_loop_uv {A} u v a b (Ha : 0 <= a <= u) (Hb : 0 <= b <= v) (F F' : Z -> Z -> grid A -> outcome (grid A)) g g' :
  (forall k l r r', 0 <= k < a -> 0 <= l < b -> gagree u v a b r r' -> oimp (gagree u v a b) (F k l r) (F' k l r')) ->
  (forall k l r r' r1, 0 <= k < u -> 0 <= l < v -> a <= k \/ b <= l -> gagree u v a b r r' -> F k l r = Ok r1 -> gagree u v a b r1 r') ->
  gagree u v a b g g' ->
  oimp (gagree u v a b) (for_up 0 u (fun k r => for_up 0 v (F k) r) g) (for_up 0 a (fun k r => for_up 0 b (F' k) r) g').
Proof.
  intros H1 H2 Hg. rewrite (for_up_split 0 a u) by lia. apply (oimp_then (gagree u v a b)).
  - apply (oimp_for (fun _ => gagree u v a b)); [lia|exact Hg|]. intros l r r' Hl Ag.
    rewrite (for_up_split 0 b v) by lia. apply (oimp_then (gagree u v a b)).
    + apply (oimp_for (fun _ => gagree u v a b)); [lia|exact Ag|]. intros k q q' Hk Aq. apply H1; assumption.
    + intros q q' q1 Aq E. apply (for_up_inv_partial (fun _ t => gagree u v a b t q') b v) in E; [exact E|lia|exact Aq|].
      intros k t t1 Hk At Et. apply (H2 l k t q' t1); try assumption; lia.
  - intros q q' q1 Aq E. apply (for_up_inv_partial (fun _ t => gagree u v a b t q') a u) in E; [exact E|lia|exact Aq|].
    intros l t t1 Hl At Et. apply (for_up_inv_partial (fun _ t => gagree u v a b t q') 0 v) in Et; [exact Et|lia|exact At|].
    intros k w w1 Hk Aw Ew. apply (H2 l k w q' w1); try assumption; lia.
Qed.

Lemma surface_homo_prefix {T} `{Num T} (s : surface T) u v m n a b : 0 <= a <= m -> 0 <= b <= n ->
  oimp (gagree (m + 1) (n + 1) (a + 1) (b + 1)) (Surface_HomogeneousDerivative s u v m n) (Surface_HomogeneousDerivative s u v a b).
Proof.
  intros Ha Hb. unfold Surface_HomogeneousDerivative. apply oimp_same. intros _ _. apply oimp_same. intros _ _.
  apply oimp_same. intros su _. apply oimp_same. intros sv _.
  eapply oimp_bind; [apply (basis_prefix _ _ _ _ m a Ha)|]. intros U U' [Hp [[R1 [C1 _]] [[R2 [C2 _]] Au]]].
  eapply oimp_bind; [apply (basis_prefix _ _ _ _ n b Hb)|]. intros V V' [Hq [[R3 [C3 _]] [[R4 [C4 _]] Av]]].
  rewrite C1, C2, C3, C4, !Z.eqb_refl. cbn [assert_ bind].
  eapply oimp_bind; [apply gagree_make; lia|]. intros g g' Ag.
  apply gagree_loop_vu; [lia|lia| | |exact Ag].
  - intros l k r r' Hl Hk Ar. apply (oimp_for (fun _ => gagree (m + 1) (n + 1) (a + 1) (b + 1))); [lia|exact Ar|]. intros j q q' Hj Aq. cbv beta zeta.
    rewrite (for_up_ext 0 (DegreeU s + 1) (fun i tmp => p <- Grid_Get (Net s) (su - DegreeU s + i) (sv - DegreeV s + j) ;; b0 <- mget U k i ;; Ok (v4add tmp (v4scale b0 (ToHomo p))))
      (fun i tmp => p <- Grid_Get (Net s) (su - DegreeU s + i) (sv - DegreeV s + j) ;; b0 <- mget U' k i ;; Ok (v4add tmp (v4scale b0 (ToHomo p))))).
    2: { intros i t Hi. rewrite Au by lia. reflexivity. }
    apply oimp_same. intros tmp _. rewrite (gagree_get (m + 1) (n + 1) (a + 1) (b + 1) ltac:(lia) ltac:(lia) q q' k l Aq) by lia. apply oimp_same. intros old _.
    rewrite Av by lia. apply oimp_same. intros bb _. apply gagree_set; try lia. exact Aq.
  - intros l k r r' r1 Hl Hk O Ar E. apply (for_up_inv_partial (fun _ t => gagree (m + 1) (n + 1) (a + 1) (b + 1) t r') 0 (DegreeV s + 1)) in E; [exact E|lia|exact Ar|].
    intros j t t1 Hj At Et. cbv beta zeta in Et. do 3 bindinv Et. apply (gagree_frame _ _ _ _ _ _ _ _ _ _ At) in Et; try lia. exact Et.
Qed.
Lemma surface_prefix {T} `{Num T} (s : surface T) u v m n a b : 0 <= a <= m -> 0 <= b <= n ->
  oimp (gagree (m + 1) (n + 1) (a + 1) (b + 1)) (Surface_EvaluateAll s u v m n) (Surface_EvaluateAll s u v a b).
Proof.
  intros Ha Hb. unfold Surface_EvaluateAll. eapply oimp_bind; [apply (surface_homo_prefix s u v m n a b Ha Hb)|]. intros h h' Ah.
  eapply oimp_bind; [apply gagree_make; lia|]. intros g g' Ag.
  assert (forall i j, 0 <= i < a + 1 -> 0 <= j < b + 1 -> Grid_Get h i j = Grid_Get h' i j) as Gh.
  { intros i j Hi Hj. apply (gagree_get (m + 1) (n + 1) (a + 1) (b + 1)); try lia. exact Ah. }
  rewrite Gh by lia. apply oimp_same. intros h00 _. cbv zeta.
  apply gagree_loop_uv; [lia|lia| | |exact Ag].
  - intros k l r r' Hk Hl Ar.
    assert (forall i j, 0 <= i < a + 1 -> 0 <= j < b + 1 -> Grid_Get r i j = Grid_Get r' i j) as Gr.
    { intros i j Hi Hj. apply (gagree_get (m + 1) (n + 1) (a + 1) (b + 1)); try lia. exact Ar. }
    rewrite Gh by lia. apply oimp_same. intros hh _.
    match goal with |- oimp _ (bind ?p _) (bind ?q _) => replace p with q end.
    2: { apply for_up_ext. intros i t Hi. rewrite Gh, Gr by lia. reflexivity. }
    apply oimp_same. intros A1 _.
    match goal with |- oimp _ (bind ?p _) (bind ?q _) => replace p with q end.
    2: { apply for_up_ext. intros i t Hi. rewrite Gh, Gr by lia. reflexivity. }
    apply oimp_same. intros A2 _.
    match goal with |- oimp _ (bind ?p _) (bind ?q _) => replace p with q end.
    2: { apply for_up_ext. intros i t Hi. destruct (Binomial k i); cbn [bind]; try reflexivity.
         apply for_up_ext. intros j t' Hj. rewrite Gh, Gr by lia. reflexivity. }
    apply oimp_same. intros A3 _. apply oimp_same. intros q _. apply gagree_set; try lia. exact Ar.
  - intros k l r r' r1 Hk Hl O Ar E. do 5 bindinv E. apply (gagree_frame _ _ _ _ _ _ _ _ _ _ Ar) in E; try lia. exact E.
Qed.

(** ** The property *)
Lemma C86_curve_lemma {T} `{Num T} (c : curve T) x n k l : 0 <= k <= n -> Curve_EvaluateAll c x n = Ok l ->
  len l = n + 1 /\ Curve_EvaluateAll c x k = Ok (firstn (Z.to_nat (k + 1)) l) /\ Curve_EvaluateDerivative c x k = vget l k /\ Curve_Evaluate c x = vget l 0.
Proof.
  intros Hk E. destruct (curve_prefix c x n k Hk l E) as [l' [E' A]]. pose proof (lagree_firstn n k l l' Hk A) as El.
  destruct A as [L [L' G]]. split; [exact L|]. split; [now rewrite E', El|]. split.
  - unfold Curve_EvaluateDerivative. rewrite E'. cbn [bind]. symmetry. apply G. lia.
  - destruct (curve_prefix c x n 0 ltac:(lia) l E) as [l0 [E0 [_ [_ G0]]]]. rewrite curve_zero in E0. rewrite G0 by lia.
    destruct (Curve_Evaluate c x) as [q| | | | |]; cbn [bind] in E0; try discriminate. assert (l0 = [q]) by congruence. now subst l0.
Qed.
Lemma C86_curve_point_lemma {T} `{Num T} (c : curve T) x : Curve_EvaluateDerivative c x 0 = Curve_Evaluate c x.
Proof. unfold Curve_EvaluateDerivative. rewrite curve_zero. destruct (Curve_Evaluate c x); reflexivity. Qed.
Lemma C86_surface_lemma {T} `{Num T} (s : surface T) u v m n a b g : 0 <= a <= m -> 0 <= b <= n -> Surface_EvaluateAll s u v m n = Ok g ->
  UCount g = m + 1 /\ VCount g = n + 1 /\
  (exists g', Surface_EvaluateAll s u v a b = Ok g' /\ UCount g' = a + 1 /\ VCount g' = b + 1 /\
    forall i j, 0 <= i <= a -> 0 <= j <= b -> Grid_Get g' i j = Grid_Get g i j) /\
  Surface_EvaluateDerivative s u v a b = Grid_Get g a b /\ Surface_Evaluate s u v = Grid_Get g 0 0.
Proof.
  intros Ha Hb E. destruct (surface_prefix s u v m n a b Ha Hb g E) as [g' [E' A]].
  assert (forall i j, 0 <= i <= a -> 0 <= j <= b -> Grid_Get g' i j = Grid_Get g i j) as G.
  { intros i j Hi Hj. symmetry. apply (gagree_get (m + 1) (n + 1) (a + 1) (b + 1)); try lia. exact A. }
  destruct A as [f [f' [F [F' _]]]].
  split; [apply F|]. split; [apply F|]. split; [|split].
  - exists g'. split; [exact E'|]. split; [apply F'|]. split; [apply F'|exact G].
  - unfold Surface_EvaluateDerivative. rewrite E'. cbn [bind]. apply G; lia.
  - destruct (surface_prefix s u v m n 0 0 ltac:(lia) ltac:(lia) g E) as [g0 [E0 A0]]. rewrite surface_zero in E0.
    rewrite (gagree_get (m + 1) (n + 1) (0 + 1) (0 + 1) ltac:(lia) ltac:(lia) g g0 0 0 A0) by lia.
    destruct (Surface_Evaluate s u v) as [q| | | | |]; cbn [bind] in E0; try discriminate. assert (g0 = Grid 1 1 [q]) by congruence. now subst g0.
Qed.
Lemma C86_surface_point_lemma {T} `{Num T} (s : surface T) u v : Surface_EvaluateDerivative s u v 0 0 = Surface_Evaluate s u v.
Proof. unfold Surface_EvaluateDerivative. rewrite surface_zero. destruct (Surface_Evaluate s u v); reflexivity. Qed.
Lemma C86_basis_lemma {T} `{Num T} p (kn : list T) sp x n k M : 0 <= k <= n -> Basis_EvaluateAll p kn sp x n = Ok M ->
  exists M', Basis_EvaluateAll p kn sp x k = Ok M' /\ mrows M' = k + 1 /\ mcols M' = p + 1 /\ mrows M = n + 1 /\ mcols M = p + 1 /\
    forall i j, 0 <= i <= k -> 0 <= j <= p -> mget M' i j = mget M i j.
Proof.
  intros Hk E. destruct (basis_prefix p kn sp x n k Hk M E) as [M' [E' [Hp [W [W' A]]]]]. exists M'. split; [exact E'|].
  destruct W as [R [C _]], W' as [R' [C' _]]. repeat (split; [assumption|]). intros i j Hi Hj. symmetry. apply A; lia.
Qed.
