(** Memory safety in binary64: the public functions on sound curves and surfaces. *)
From Coq Require Import Reals ZArith List Lia Lra Bool Permutation SpecFloat.
From Verif Require Import Outcome Num ModelCore ModelBasis ModelCurve ModelSurface SpecCore SpecCurve SpecDeriv SpecErr SpecSearch
  ThOutcome ThReal ThVec ThKnots ThGrid ThMath ThB64 ThCoreWit ThBasis ThInsert ThSearch64 ThErrCurve ThSafe ThSafe2.
Import ListNotations.
Open Scope Z_scope.

Lemma unit_test (x : b64) : in_unit x -> ngeb x n0 && nleb x n1 = true.
Proof. intros [A B]. unfold ngeb. rewrite A, B. reflexivity. Qed.
Lemma unit_test_false (x : b64) : ~ in_unit x -> ngeb x n0 && nleb x n1 = false.
Proof. intros N. unfold ngeb. destruct (nleb n0 x) eqn:A; [|reflexivity]. destruct (nleb x n1) eqn:B; [|reflexivity]. exfalso. apply N. split; assumption. Qed.

(** ** Curves *)
Section C.
  Variables (c : curve b64) (x : b64).
  Hypothesis Sc : sound_curve c.
  Lemma Curve_Evaluate_any : in_unit x -> runs (Curve_Evaluate c x) (fun _ => True).
  Proof.
    intros Hx. destruct Sc as [Sk Sn]. destruct (sound_span _ _ _ Sk Hx) as [i [E [Hp Hi]]]. apply (runs_Curve_Evaluate total_b64 c x i); [apply unit_test, Hx|exact E| |]; lia.
  Qed.
  Lemma Curve_All_any order : 0 <= order <= 29 -> in_unit x -> runs (Curve_EvaluateAll c x order) (fun l => len l = order + 1).
  Proof.
    intros Ho Hx. destruct Sc as [Sk Sn]. destruct (sound_span _ _ _ Sk Hx) as [i [E [Hp Hi]]]. apply (runs_Curve_All total_b64 c x i); [apply unit_test, Hx|exact E| | |]; lia.
  Qed.
  Lemma Curve_Derivative_any order : 0 <= order <= 29 -> in_unit x -> runs (Curve_EvaluateDerivative c x order) (fun _ => True).
  Proof.
    intros Ho Hx. destruct Sc as [Sk Sn]. destruct (sound_span _ _ _ Sk Hx) as [i [E [Hp Hi]]]. apply (runs_Curve_Derivative total_b64 c x i); [apply unit_test, Hx|exact E| | |]; lia.
  Qed.
  Lemma Curve_Evaluate_out : ~ in_unit x -> Curve_Evaluate c x = AssertFail.
  Proof. intros N. unfold Curve_Evaluate. rewrite unit_test_false by exact N. reflexivity. Qed.
  Lemma Curve_All_out order : ~ in_unit x -> Curve_EvaluateAll c x order = AssertFail.
  Proof. intros N. unfold Curve_EvaluateAll, Curve_HomogeneousDerivative. rewrite unit_test_false by exact N. reflexivity. Qed.
  Lemma Curve_Derivative_out order : ~ in_unit x -> Curve_EvaluateDerivative c x order = AssertFail.
  Proof. intros N. unfold Curve_EvaluateDerivative. rewrite Curve_All_out by exact N. reflexivity. Qed.
End C.

(** ** Searches: an outcome that is an answer or a failed assertion *)
Definition safe {A} (m : outcome A) : Prop := (exists a, m = Ok a) \/ m = AssertFail.
Lemma safe_ok {A} (a : A) : safe (Ok a).
Proof. left. eauto. Qed.
Lemma runs_safe {A} (m : outcome A) Q : runs m Q -> safe m.
Proof. intros [a [E _]]. left. eauto. Qed.
Lemma safe_bind {A B} (m : outcome A) (f : A -> outcome B) : safe m -> (forall a, m = Ok a -> safe (f a)) -> safe (bind m f).
Proof. intros [[a E]| E] Hf; rewrite E; cbn [bind]; [apply Hf, E|right; reflexivity]. Qed.
Lemma safe_assert b : safe (assert_ b).
Proof. destruct b; [left; exists tt; reflexivity|right; reflexivity]. Qed.
Lemma in_unit_dec (x : b64) : in_unit x \/ ~ in_unit x.
Proof. unfold in_unit. destruct (nleb n0 x), (nleb x n1); auto; right; intros [? ?]; discriminate. Qed.

Lemma line_search_safe (Rn : b64 -> outcome b64) : (forall u, safe (Rn u)) -> forall n u r H g a, safe (line_search Rn u r H g n a).
Proof.
  intros S. induction n as [|n IH]; intros; cbn [line_search]; [apply safe_ok|]. apply safe_bind; [apply S|]. intros rn _. destruct (nleb _ _); [apply safe_ok|apply IH].
Qed.
Lemma search_loop_safe (Rn fi : b64 -> outcome b64) ls eps mx : (forall u, safe (Rn u)) -> (forall u, safe (fi u)) ->
  forall fuel count u r H, nleb mx (nofZ (count + Z.of_nat fuel)) = true -> safe (search_loop Rn fi ls eps mx fuel count u r H).
Proof.
  intros S1 S2. induction fuel as [|fuel IH]; intros count u r Hk Hm; cbn [search_loop]; (destruct (nltb r eps); [apply safe_ok|]).
  - rewrite Z.add_0_r in Hm. rewrite Hm. apply safe_ok.
  - destruct (nleb mx (nofZ count)); [apply safe_ok|]. apply safe_bind; [apply S2|]. intros gk _. apply safe_bind; [apply line_search_safe, S1|]. intros un _. cbv zeta. apply safe_bind; [apply S2|]. intros gn _.
    match goal with |- safe (let '(_, _) := ?X in _) => destruct X as [H' y'] end. apply safe_bind; [eapply runs_safe, runs_ndiv64|]. intros rho _. apply safe_bind; [apply S1|]. intros res _.
    apply IH. rewrite <- Hm. do 2 f_equal. lia.
Qed.
Lemma Curve_Evaluate_safe c x : sound_curve c -> safe (Curve_Evaluate c x).
Proof. intros S. destruct (in_unit_dec x); [eapply runs_safe, Curve_Evaluate_any; assumption|right; apply Curve_Evaluate_out; assumption]. Qed.
Lemma Curve_Derivative_safe c x o : sound_curve c -> 0 <= o <= 29 -> safe (Curve_EvaluateDerivative c x o).
Proof. intros S Ho. destruct (in_unit_dec x); [eapply runs_safe, Curve_Derivative_any; assumption|right; apply Curve_Derivative_out; assumption]. Qed.
Lemma Curve_Search_safe n c P init eps mx : sound_curve c -> nleb mx (nofZ (Z.of_nat n)) = true -> safe (Curve_SearchParameter n c P init eps mx).
Proof.
  intros S Hm. unfold Curve_SearchParameter. cbv zeta. apply search_loop_safe; [| |exact Hm]; intros u.
  - apply safe_bind; [apply safe_bind; [apply Curve_Evaluate_safe, S|intros; apply safe_ok]|intros; apply safe_ok].
  - apply safe_bind; [apply safe_bind; [apply Curve_Evaluate_safe, S|intros; apply safe_ok]|]. intros ri _. apply safe_bind; [apply Curve_Derivative_safe; [exact S|lia]|intros; apply safe_ok].
Qed.

(** the bisection stays inside, so no assertion fails *)
Lemma val_in_unit x : finite64 x -> (0 <= val x <= 1)%R -> in_unit x.
Proof. intros F Hx. pose proof (unit_assert64 x F Hx) as E. apply andb_prop in E. destruct E. split; assumption. Qed.
Lemma bisect_runs (Rn : b64 -> outcome b64) eps go : finite64 eps -> (0 <= val eps)%R -> (forall u, finite64 u -> (0 <= val u <= 1)%R -> runs (Rn u) (fun _ => True)) ->
  forall fuel count low high, finite64 low -> finite64 high -> (0 <= val low <= val high)%R -> (val high <= 1)%R -> go (count + Z.of_nat fuel) = false ->
  runs (bisect_loop Rn eps go fuel count low high) (fun u => finite64 u /\ (0 <= val u <= 1)%R).
Proof.
  intros Fe He HR. induction fuel as [|fuel IH]; intros count low high Fl Fh Hl Hh Hg; cbn [bisect_loop];
    destruct (midpoint_b64 low high Fl Fh Hl Hh) as [m [Em [Fm Hm]]]; rewrite Em.
  - rewrite Z.add_0_r in Hg. rewrite Hg. cbn [negb]. apply runs_ok. split; [exact Fm|lra].
  - destruct (go count); cbn [negb]; [|apply runs_ok; split; [exact Fm|lra]]. cbn [bind]. assert (go (count + 1 + Z.of_nat fuel) = false) as Hg' by (rewrite <- Hg; f_equal; lia).
    destruct (left_b64 low m eps Fl Fm Fe ltac:(lra) He) as [Fa Ha]. destruct (right_b64 high m eps Fh Fm Fe ltac:(lra) He) as [Fb Hb]. cbv zeta.
    rb ltac:(apply HR; [exact Fm|lra]). intros rm _. rb ltac:(apply HR; [exact Fa|lra]). intros ra _. rb ltac:(apply HR; [exact Fb|lra]). intros rr _.
    destruct (nltb ra rm); [apply IH; try assumption; lra|]. destruct (nltb rr rm); [apply IH; try assumption; lra|]. destruct (_ || _); [apply runs_ok; split; [exact Fm|lra]|]. apply IH; try assumption; lra.
Qed.
Lemma Curve_Binary_any c P eps mx : sound_curve c -> finite64 eps -> (0 <= val eps)%R ->
  runs (Curve_BinarySearchParameter c P eps mx) (fun u => finite64 u /\ (0 <= val u <= 1)%R).
Proof.
  intros S Fe He. unfold Curve_BinarySearchParameter. cbv zeta. apply bisect_runs; auto using finite_0, finite_1.
  - intros u Fu Hu. rb ltac:(apply Curve_Evaluate_any; [exact S|apply val_in_unit; assumption]). intros q _. apply runs_ok. exact I.
  - rewrite val_0, val_1. lra.
  - rewrite val_1. lra.
  - apply Z.ltb_ge. lia.
Qed.

(** ** Surfaces *)
Section S.
  Variables (s : surface b64) (u v : b64).
  Hypothesis Ss : sound_surface s.
  Lemma sound_spans : in_unit u -> in_unit v -> exists iu iv,
    KnotVector_FindSpanIndex (KnotsU s) (DegreeU s) u = Ok iu /\ KnotVector_FindSpanIndex (KnotsV s) (DegreeV s) v = Ok iv /\
    (0 <= DegreeU s /\ DegreeU s <= iu <= len (KnotsU s) - DegreeU s - 2) /\ (0 <= DegreeV s /\ DegreeV s <= iv <= len (KnotsV s) - DegreeV s - 2) /\
    gshaped (len (KnotsU s) - DegreeU s - 1) (len (KnotsV s) - DegreeV s - 1) (Net s).
  Proof.
    intros Hu Hv. destruct Ss as [Su [Sv [Nu [Nv L]]]]. destruct (sound_span _ _ _ Su Hu) as [iu [Eu [Pu Iu]]]. destruct (sound_span _ _ _ Sv Hv) as [iv [Ev [Pv Iv]]].
    exists iu, iv. split; [exact Eu|]. split; [exact Ev|]. split; [lia|]. split; [lia|]. split; [exact Nu|]. split; [exact Nv|]. rewrite L, Nu, Nv. reflexivity.
  Qed.
  Lemma Surface_Evaluate_any : in_unit u -> in_unit v -> runs (Surface_Evaluate s u v) (fun _ => True).
  Proof. intros Hu Hv. destruct (sound_spans Hu Hv) as [iu [iv [Eu [Ev [Iu [Iv G]]]]]]. apply (runs_Surface_Evaluate total_b64 s u v iu iv); auto using unit_test. Qed.
  Lemma Surface_All_any ou ov : 0 <= ou <= 29 -> 0 <= ov <= 29 -> binomials_fit ou ov -> in_unit u -> in_unit v -> runs (Surface_EvaluateAll s u v ou ov) (gshaped (ou + 1) (ov + 1)).
  Proof. intros Ho Ho' Fit Hu Hv. destruct (sound_spans Hu Hv) as [iu [iv [Eu [Ev [Iu [Iv G]]]]]]. apply (runs_Surface_All total_b64 s u v iu iv); auto using unit_test. Qed.
  Lemma Surface_Derivative_any ou ov : 0 <= ou <= 29 -> 0 <= ov <= 29 -> binomials_fit ou ov -> in_unit u -> in_unit v -> runs (Surface_EvaluateDerivative s u v ou ov) (fun _ => True).
  Proof. intros Ho Ho' Fit Hu Hv. destruct (sound_spans Hu Hv) as [iu [iv [Eu [Ev [Iu [Iv G]]]]]]. apply (runs_Surface_Derivative total_b64 s u v iu iv); auto using unit_test. Qed.
  Lemma Surface_Evaluate_out : ~ (in_unit u /\ in_unit v) -> Surface_Evaluate s u v = AssertFail.
  Proof.
    intros N. unfold Surface_Evaluate. destruct (in_unit_dec u) as [Hu|Hu]; [|rewrite unit_test_false by exact Hu; reflexivity]. rewrite unit_test by exact Hu. cbn [assert_ bind].
    rewrite unit_test_false; [reflexivity|]. intros Hv. apply N. split; assumption.
  Qed.
  Lemma Surface_All_out ou ov : ~ (in_unit u /\ in_unit v) -> Surface_EvaluateAll s u v ou ov = AssertFail.
  Proof.
    intros N. unfold Surface_EvaluateAll, Surface_HomogeneousDerivative. destruct (in_unit_dec u) as [Hu|Hu]; [|rewrite unit_test_false by exact Hu; reflexivity]. rewrite unit_test by exact Hu. cbn [assert_ bind].
    rewrite unit_test_false; [reflexivity|]. intros Hv. apply N. split; assumption.
  Qed.
  Lemma Surface_Derivative_out ou ov : ~ (in_unit u /\ in_unit v) -> Surface_EvaluateDerivative s u v ou ov = AssertFail.
  Proof. intros N. unfold Surface_EvaluateDerivative. rewrite Surface_All_out by exact N. reflexivity. Qed.
End S.
