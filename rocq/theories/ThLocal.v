(** Evaluation depends only on the control points of the active span. *)
From Coq Require Import ZArith List Lia Bool.
From Verif Require Import Outcome Num ModelCore ModelBasis ModelAlgo ModelCurve ModelSurface ThOutcome.
Import ListNotations.
Open Scope Z_scope.

(** ** locality, for any arithmetic *)
Lemma tabulate_ext {A} lo hi (f g : Z -> outcome A) : (forall i, lo <= i < hi -> f i = g i) -> tabulate lo hi f = tabulate lo hi g.
Proof.
  intros E. unfold tabulate. assert (forall n i, lo <= i -> i + Z.of_nat n <= Z.max lo hi -> tabulate_nat n i f = tabulate_nat n i g) as G.
  { induction n as [|n IH]; intros i Hi Hn; [reflexivity|]. cbn [tabulate_nat]. rewrite E by lia. rewrite IH by lia. reflexivity. }
  apply G; lia.
Qed.
Section Local.
  Context {T : Type} `{Num T}.
  Implicit Types (c d : curve T).
  Lemma local_sum_loop c d (body : vec4 T -> Z -> vec4 T -> outcome (vec4 T)) lo n z : (forall i, 0 <= i < n -> vget (ControlPoints d) (lo + i) = vget (ControlPoints c) (lo + i)) ->
    for_up 0 n (fun i acc => p <- vget (ControlPoints d) (lo + i) ;; body p i acc)%outcome z = for_up 0 n (fun i acc => p <- vget (ControlPoints c) (lo + i) ;; body p i acc)%outcome z.
  Proof. intros E. apply for_up_ext. intros i acc Hi. rewrite E by lia. reflexivity. Qed.
  Lemma Evaluate_local c d x j : Degree d = Degree c -> Knots d = Knots c -> KnotVector_FindSpanIndex (Knots c) (Degree c) x = Ok j ->
    (forall i, j - Degree c <= i <= j -> vget (ControlPoints d) i = vget (ControlPoints c) i) -> Curve_Evaluate d x = Curve_Evaluate c x.
  Proof.
    intros Ed Ek Ef E. unfold Curve_Evaluate. rewrite Ed, Ek, Ef. cbn [bind].
    destruct (assert_ (ngeb x n0 && nleb x n1)); try reflexivity. cbn [bind]. destruct (Basis_Evaluate (Degree c) (Knots c) j x) as [b| | | | |]; try reflexivity. cbn [bind].
    destruct (assert_ (len b =? Degree c + 1)); try reflexivity. cbn [bind].
    rewrite (local_sum_loop c d (fun p i result => b <- vget b i ;; Ok (v4add result (v4scale b (ToHomo p))))%outcome (j - Degree c) (Degree c + 1)); [reflexivity|]. intros i Hi. apply E. lia.
  Qed.
  Lemma HomogeneousDerivative_local c d x j order : Degree d = Degree c -> Knots d = Knots c -> KnotVector_FindSpanIndex (Knots c) (Degree c) x = Ok j ->
    (forall i, j - Degree c <= i <= j -> vget (ControlPoints d) i = vget (ControlPoints c) i) -> Curve_HomogeneousDerivative d x order = Curve_HomogeneousDerivative c x order.
  Proof.
    intros Ed Ek Ef E. unfold Curve_HomogeneousDerivative. rewrite Ed, Ek, Ef. cbn [bind].
    destruct (assert_ (ngeb x n0 && nleb x n1)); try reflexivity. cbn [bind]. destruct (Basis_EvaluateAll (Degree c) (Knots c) j x order) as [b| | | | |]; try reflexivity. cbn [bind].
    destruct (assert_ (mrows b =? order + 1)); try reflexivity. cbn [bind]. destruct (assert_ (mcols b =? Degree c + 1)); try reflexivity. cbn [bind].
    apply tabulate_ext. intros k Hk.
    apply (local_sum_loop c d (fun p i tmp => b <- mget b k i ;; Ok (v4add tmp (v4scale b (ToHomo p))))%outcome (j - Degree c) (Degree c + 1)). intros i Hi. apply E. lia.
  Qed.
  Lemma EvaluateAll_local c d x j order : Degree d = Degree c -> Knots d = Knots c -> KnotVector_FindSpanIndex (Knots c) (Degree c) x = Ok j ->
    (forall i, j - Degree c <= i <= j -> vget (ControlPoints d) i = vget (ControlPoints c) i) -> Curve_EvaluateAll d x order = Curve_EvaluateAll c x order.
  Proof. intros Ed Ek Ef E. unfold Curve_EvaluateAll. rewrite (HomogeneousDerivative_local c d x j order Ed Ek Ef E). reflexivity. Qed.
  Implicit Types s t : surface T.
  Lemma Surface_Evaluate_local s t u v ju jv : DegreeU t = DegreeU s -> DegreeV t = DegreeV s -> KnotsU t = KnotsU s -> KnotsV t = KnotsV s ->
    KnotVector_FindSpanIndex (KnotsU s) (DegreeU s) u = Ok ju -> KnotVector_FindSpanIndex (KnotsV s) (DegreeV s) v = Ok jv ->
    (forall i j, ju - DegreeU s <= i <= ju -> jv - DegreeV s <= j <= jv -> Grid_Get (Net t) i j = Grid_Get (Net s) i j) -> Surface_Evaluate t u v = Surface_Evaluate s u v.
  Proof.
    intros E1 E2 E3 E4 Fu Fv E. unfold Surface_Evaluate. rewrite E1, E2, E3, E4, Fu, Fv. cbn [bind].
    destruct (assert_ (ngeb u n0 && nleb u n1)); try reflexivity. cbn [bind]. destruct (assert_ (ngeb v n0 && nleb v n1)); try reflexivity. cbn [bind].
    destruct (Basis_Evaluate (DegreeU s) (KnotsU s) ju u) as [bu| | | | |]; try reflexivity. cbn [bind]. destruct (Basis_Evaluate (DegreeV s) (KnotsV s) jv v) as [bv| | | | |]; try reflexivity. cbn [bind].
    destruct (assert_ (len bu =? DegreeU s + 1)); try reflexivity. cbn [bind]. destruct (assert_ (len bv =? DegreeV s + 1)); try reflexivity. cbn [bind]. cbv zeta.
    match goal with |- bind ?a _ = bind ?b _ => enough (a = b) as -> by reflexivity end.
    apply for_up_ext. intros j acc Hj. match goal with |- bind ?a _ = bind ?b _ => enough (a = b) as -> by reflexivity end.
    apply for_up_ext. intros i acc' Hi. rewrite E by lia. reflexivity.
  Qed.
  Lemma Surface_HomogeneousDerivative_local s t u v ju jv ou ov : DegreeU t = DegreeU s -> DegreeV t = DegreeV s -> KnotsU t = KnotsU s -> KnotsV t = KnotsV s ->
    KnotVector_FindSpanIndex (KnotsU s) (DegreeU s) u = Ok ju -> KnotVector_FindSpanIndex (KnotsV s) (DegreeV s) v = Ok jv ->
    (forall i j, ju - DegreeU s <= i <= ju -> jv - DegreeV s <= j <= jv -> Grid_Get (Net t) i j = Grid_Get (Net s) i j) ->
    Surface_HomogeneousDerivative t u v ou ov = Surface_HomogeneousDerivative s u v ou ov.
  Proof.
    intros E1 E2 E3 E4 Fu Fv E. unfold Surface_HomogeneousDerivative. rewrite E1, E2, E3, E4, Fu, Fv. cbn [bind].
    destruct (assert_ (ngeb u n0 && nleb u n1)); try reflexivity. cbn [bind]. destruct (assert_ (ngeb v n0 && nleb v n1)); try reflexivity. cbn [bind].
    destruct (Basis_EvaluateAll (DegreeU s) (KnotsU s) ju u ou) as [bu| | | | |]; try reflexivity. cbn [bind]. destruct (Basis_EvaluateAll (DegreeV s) (KnotsV s) jv v ov) as [bv| | | | |]; try reflexivity. cbn [bind].
    destruct (assert_ (mcols bu =? DegreeU s + 1)); try reflexivity. cbn [bind]. destruct (assert_ (mcols bv =? DegreeV s + 1)); try reflexivity. cbn [bind]. cbv zeta.
    destruct (Grid_make (ou + 1) (ov + 1) v4zero) as [g| | | | |]; try reflexivity. cbn [bind].
    apply for_up_ext. intros l g1 Hl. apply for_up_ext. intros k g2 Hk. apply for_up_ext. intros j g3 Hj.
    match goal with |- bind ?a _ = bind ?b _ => enough (a = b) as -> by reflexivity end.
    apply for_up_ext. intros i acc' Hi. rewrite E by lia. reflexivity.
  Qed.
  Lemma Surface_EvaluateAll_local s t u v ju jv ou ov : DegreeU t = DegreeU s -> DegreeV t = DegreeV s -> KnotsU t = KnotsU s -> KnotsV t = KnotsV s ->
    KnotVector_FindSpanIndex (KnotsU s) (DegreeU s) u = Ok ju -> KnotVector_FindSpanIndex (KnotsV s) (DegreeV s) v = Ok jv ->
    (forall i j, ju - DegreeU s <= i <= ju -> jv - DegreeV s <= j <= jv -> Grid_Get (Net t) i j = Grid_Get (Net s) i j) ->
    Surface_EvaluateAll t u v ou ov = Surface_EvaluateAll s u v ou ov.
  Proof. intros. unfold Surface_EvaluateAll. rewrite (Surface_HomogeneousDerivative_local s t u v ju jv ou ov) by assumption. reflexivity. Qed.
End Local.
