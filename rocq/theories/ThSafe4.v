(** Memory safety in binary64: surface searches and knot insertion on surfaces. *)
From Coq Require Import Reals ZArith List Lia Lra Bool Permutation SpecFloat.
From Verif Require Import Outcome Num ModelCore ModelBasis ModelCurve ModelSurface SpecCore SpecCurve SpecDeriv SpecErr SpecSearch
  ThOutcome ThReal ThVec ThKnots ThGrid ThMath ThB64 ThCoreWit ThBasis ThInsert ThSearch64 ThDerivs2 ThErrCurve ThSafe ThSafe2 ThSafe3.
Import ListNotations.
Open Scope Z_scope.

Lemma fit_10 : binomials_fit 1 0 /\ binomials_fit 0 1.
Proof. split; apply binomials_fit_29; lia. Qed.

(** ** Searches *)
Section Searches.
  Variable s : surface b64.
  Hypothesis Ss : sound_surface s.
  Lemma square_dec (u v : b64) : (in_unit u /\ in_unit v) \/ ~ (in_unit u /\ in_unit v).
  Proof. destruct (in_unit_dec u), (in_unit_dec v); tauto. Qed.
  Lemma Surface_Evaluate_safe u v : safe (Surface_Evaluate s u v).
  Proof. destruct (square_dec u v) as [[Hu Hv]|N]; [eapply runs_safe, Surface_Evaluate_any; assumption|right; apply Surface_Evaluate_out; assumption]. Qed.
  Lemma Surface_Derivative_safe u v ou ov : 0 <= ou <= 29 -> 0 <= ov <= 29 -> binomials_fit ou ov -> safe (Surface_EvaluateDerivative s u v ou ov).
  Proof. intros Ho Ho' Fit. destruct (square_dec u v) as [[Hu Hv]|N]; [eapply runs_safe, Surface_Derivative_any; assumption|right; apply Surface_Derivative_out; assumption]. Qed.

  Lemma line_search2_safe (Rn : b64 * b64 -> outcome b64) : (forall u, safe (Rn u)) -> forall n u r H g a, safe (line_search2 Rn u r H g n a).
  Proof.
    intros S. induction n as [|n IH]; intros; cbn [line_search2]; [apply safe_ok|]. cbv zeta. apply safe_bind; [apply S|]. intros rn _. destruct (nleb _ _); [apply safe_ok|apply IH].
  Qed.
  Lemma search_loop2_safe (Rn : b64 * b64 -> outcome b64) Ki eps mx : (forall u, safe (Rn u)) -> (forall u, safe (Ki u)) ->
    forall fuel count u r H, nleb mx (nofZ (count + Z.of_nat fuel)) = true -> safe (search_loop2 Rn Ki eps mx fuel count u r H).
  Proof.
    intros S1 S2. induction fuel as [|fuel IH]; intros count u r Hk Hm; cbn [search_loop2]; (destruct (nltb r eps); [apply safe_ok|]).
    - rewrite Z.add_0_r in Hm. rewrite Hm. apply safe_ok.
    - destruct (nleb mx (nofZ count)); [apply safe_ok|]. apply safe_bind; [apply S2|]. intros gk _. apply safe_bind; [apply line_search2_safe, S1|]. intros un _. cbv zeta. apply safe_bind; [apply S2|]. intros gn _.
      match goal with |- safe (let '(_, _) := ?X in _) => destruct X as [H' y'] end. apply safe_bind; [eapply runs_safe, runs_ndiv64|]. intros rho _. apply safe_bind; [apply S1|]. intros res _.
      apply IH. rewrite <- Hm. do 2 f_equal. lia.
  Qed.
  Lemma Surface_Search_safe n P a b eps mx : nleb mx (nofZ (Z.of_nat n)) = true -> safe (Surface_SearchParameter n s P a b eps mx).
  Proof.
    intros Hm. unfold Surface_SearchParameter. apply safe_bind; [apply safe_assert|]. intros _ _. apply safe_bind; [apply safe_assert|]. intros _ _. cbv zeta. apply search_loop2_safe; [| |exact Hm]; intros u.
    - apply safe_bind; [apply safe_bind; [apply Surface_Evaluate_safe|intros; apply safe_ok]|intros; apply safe_ok].
    - apply safe_bind; [apply safe_bind; [apply Surface_Evaluate_safe|intros; apply safe_ok]|]. intros ri _. apply safe_bind; [apply Surface_Derivative_safe; [lia|lia|apply fit_10]|]. intros su _.
      apply safe_bind; [apply Surface_Derivative_safe; [lia|lia|apply fit_10]|]. intros sv _. apply safe_ok.
  Qed.
  Lemma Surface_SearchOn_safe n P d k i eps mx : nleb mx (nofZ (Z.of_nat n)) = true -> safe (Surface_SearchParameterOn n s P d k i eps mx).
  Proof.
    intros Hm. unfold Surface_SearchParameterOn. cbv zeta. unfold on_uv. apply safe_bind; [|intros; apply safe_ok]. apply search_loop_safe; [| |exact Hm]; intros u.
    - apply safe_bind; [apply safe_bind; [apply Surface_Evaluate_safe|intros; apply safe_ok]|intros; apply safe_ok].
    - apply safe_bind; [apply safe_bind; [apply Surface_Evaluate_safe|intros; apply safe_ok]|]. intros ri _. apply safe_bind; [|intros; apply safe_ok].
      destruct (d =? 1); (apply Surface_Derivative_safe; [lia|lia|apply fit_10]).
  Qed.
  Lemma Surface_BinaryOn_any n P d k eps mx : 0 <= d <= 1 -> in_unit k -> finite64 eps -> (0 <= val eps)%R -> nltb (nofZ (Z.of_nat n)) mx = false ->
    runs (Surface_BinarySearchParameterOn n s P d k eps mx)
      (fun uv => (d = 0 -> fst uv = k /\ finite64 (snd uv) /\ (0 <= val (snd uv) <= 1)%R) /\ (d = 1 -> snd uv = k /\ finite64 (fst uv) /\ (0 <= val (fst uv) <= 1)%R)).
  Proof.
    intros Hd Hk Fe He Hm. unfold Surface_BinarySearchParameterOn. cbv zeta. unfold on_uv.
    rb ltac:(apply bisect_runs); auto using finite_0, finite_1.
    - intros u Fu Hu. pose proof (val_in_unit u Fu Hu) as Iu. rb ltac:(apply Surface_Evaluate_any; [exact Ss| |]).
      + destruct (d =? 0); assumption.
      + destruct (d =? 1); assumption.
      + intros q _. apply runs_ok. exact I.
    - rewrite val_0, val_1. lra.
    - rewrite val_1. lra.
    - intros u Hu. apply runs_ok. unfold on_result. destruct (Z.eqb_spec d 0) as [->|N]; cbn [fst snd]; (split; intros Hd'; [|]); try lia; auto.
  Qed.
End Searches.

(** ** Insertion *)
Definition sshape_of (s s' : surface b64) (us vs : list b64) : Prop :=
  sound_surface s' /\ DegreeU s' = DegreeU s /\ DegreeV s' = DegreeV s /\ Permutation (KnotsU s') (us ++ KnotsU s) /\ Permutation (KnotsV s') (vs ++ KnotsV s) /\
  (us = [] -> KnotsU s' = KnotsU s) /\ (vs = [] -> KnotsV s' = KnotsV s).
Lemma gshaped_InsertU {A} (d0 jk : A) (g : grid A) u v k d : 0 <= u -> 0 <= v -> gshaped u v g -> 0 <= k < u -> runs (Grid_InsertU jk g k d) (gshaped (u + 1) v).
Proof.
  intros Hu Hv [Eu [Ev L]] Hk. destruct g as [gu gv l]. cbn in Eu, Ev, L. subst gu gv. pose proof (grid_is_ex d0 u v l Hu Hv L) as G.
  destruct (Grid_InsertU_ok jk _ _ _ _ k d G Hk) as [g' [E G']]. exists g'. split; [exact E|]. destruct G' as [A1 [A2 [_ [_ [A3 _]]]]]. split; [exact A1|]. split; [exact A2|]. exact A3.
Qed.
Lemma gshaped_InsertV {A} (d0 : A) (g : grid A) u v k d : 0 <= u -> 0 <= v -> gshaped u v g -> 0 <= k < v -> runs (Grid_InsertV g k d) (gshaped u (v + 1)).
Proof.
  intros Hu Hv [Eu [Ev L]] Hk. destruct g as [gu gv l]. cbn in Eu, Ev, L. subst gu gv. pose proof (grid_is_ex d0 u v l Hu Hv L) as G.
  destruct (Grid_InsertV_ok _ _ _ _ k d G Hk) as [g' [E G']]. exists g'. split; [exact E|]. destruct G' as [A1 [A2 [_ [_ [A3 _]]]]]. split; [exact A1|]. split; [exact A2|]. exact A3.
Qed.
Lemma runs_alphas (l : list b64) p k x : 0 <= p -> p <= k -> k + p < len l -> runs (insert_alphas l p k x) (fun al => len al = p).
Proof.
  intros Hp Hk Hl. unfold insert_alphas. rb ltac:(apply runs_vmake; lia). intros al La. apply runs_for; [zl|]. intros i al' Hi La'. cbv zeta. rget. rget. rb ltac:(apply runs_ndiv64). intros q _.
  apply (runs_weak _ (fun m => len m = len al')); [intros; zl|]. apply runs_vset. lia.
Qed.
Ltac rgget g u v := rb ltac:(apply (runs_gget g u v); [assumption|zl|zl]); intros ? _.

Lemma Surface_InsertU64 jk s x : sound_surface s -> inner64 x -> runs (Surface_InsertKnotU jk s x) (fun s' => sshape_of s s' [x] []).
Proof.
  intros Ss Hx. pose proof Ss as [Su [Sv [Nu [Nv L]]]]. destruct (sound_insert _ _ _ Su Hx) as [l' [k [E [Hp [Hk [Ll [Sk' P]]]]]]]. unfold Surface_InsertKnotU. rewrite E. cbn [bind].
  pose proof (cl_degree _ _ (proj2 Sv)) as Pv. pose proof (cl_len _ _ (proj2 Sv)) as Lv. rewrite len_vals in Lv.
  assert (gshaped (len (KnotsU s) - DegreeU s - 1) (len (KnotsV s) - DegreeV s - 1) (Net s)) as G by (split; [exact Nu|split; [exact Nv|rewrite L, Nu, Nv; reflexivity]]).
  set (nu := len (KnotsU s) - DegreeU s - 1) in *. set (nv := len (KnotsV s) - DegreeV s - 1) in *.
  rb ltac:(apply (gshaped_InsertU v4zero jk (Net s) nu nv); [unfold nu; lia|unfold nv; lia|exact G|unfold nu; lia]). intros net Gn. cbv zeta.
  rb ltac:(apply runs_alphas; lia). intros al La. cbv beta in *. pose proof Gn as [Gu [Gv _]]. rewrite Gv.
  rb ltac:(apply (runs_for (gshaped (nu + 1) nv))); [exact Gn| |].
  { intros j net' Hj Gn'. apply runs_for; [exact Gn'|]. intros i net2 Hi Gn2. unfold nu in *. rgget (Net s) (len (KnotsU s) - DegreeU s - 1) nv. rgget (Net s) (len (KnotsU s) - DegreeU s - 1) nv.
    rget. rb ltac:(apply (runs_FromHomo total_b64)). intros q _. apply runs_gset; [exact Gn2|lia|lia]. }
  intros net' [A1 [A2 A3]]. apply runs_ok. split; [|split; [reflexivity|split; [reflexivity|split; [exact P|split; [reflexivity|split; [discriminate|reflexivity]]]]]].
  split; [exact Sk'|]. split; [exact Sv|]. cbn [UCount VCount Net KnotsU KnotsV DegreeU DegreeV Values]. rewrite A1, A2, A3. split; [unfold nu; lia|]. split; reflexivity.
Qed.
Lemma Surface_InsertV64 s x : sound_surface s -> inner64 x -> runs (Surface_InsertKnotV s x) (fun s' => sshape_of s s' [] [x]).
Proof.
  intros Ss Hx. pose proof Ss as [Su [Sv [Nu [Nv L]]]]. destruct (sound_insert _ _ _ Sv Hx) as [l' [k [E [Hp [Hk [Ll [Sk' P]]]]]]]. unfold Surface_InsertKnotV. rewrite E. cbn [bind].
  pose proof (cl_degree _ _ (proj2 Su)) as Pu. pose proof (cl_len _ _ (proj2 Su)) as Lu. rewrite len_vals in Lu.
  assert (gshaped (len (KnotsU s) - DegreeU s - 1) (len (KnotsV s) - DegreeV s - 1) (Net s)) as G by (split; [exact Nu|split; [exact Nv|rewrite L, Nu, Nv; reflexivity]]).
  set (nu := len (KnotsU s) - DegreeU s - 1) in *. set (nv := len (KnotsV s) - DegreeV s - 1) in *.
  rb ltac:(apply (gshaped_InsertV v4zero (Net s) nu nv); [unfold nu; lia|unfold nv; lia|exact G|unfold nv; lia]). intros net Gn. cbv zeta.
  rb ltac:(apply runs_alphas; lia). intros al La. cbv beta in *. pose proof Gn as [Gu [Gv _]]. rewrite Gu.
  rb ltac:(apply (runs_for (gshaped nu (nv + 1)))); [exact Gn| |].
  { intros j net' Hj Gn'. apply runs_for; [exact Gn'|]. intros i net2 Hi Gn2. unfold nv in *. rgget (Net s) nu (len (KnotsV s) - DegreeV s - 1). rgget (Net s) nu (len (KnotsV s) - DegreeV s - 1).
    rget. rb ltac:(apply (runs_FromHomo total_b64)). intros q _. apply runs_gset; [exact Gn2|lia|lia]. }
  intros net' [A1 [A2 A3]]. apply runs_ok. split; [|split; [reflexivity|split; [reflexivity|split; [reflexivity|split; [exact P|split; [reflexivity|discriminate]]]]]].
  split; [exact Su|]. split; [exact Sk'|]. cbn [UCount VCount Net KnotsU KnotsV DegreeU DegreeV Values]. rewrite A1, A2, A3. split; [reflexivity|]. split; [unfold nv; lia|reflexivity].
Qed.
Lemma sshape_nil s : sound_surface s -> sshape_of s s [] [].
Proof. intros S. split; [exact S|]. repeat (split; [reflexivity|]). split; reflexivity. Qed.
Lemma Surface_InsertU_list64 jk us : Forall inner64 us -> forall s, sound_surface s -> runs (Surface_InsertKnotU_list jk s us) (fun s' => sshape_of s s' us []).
Proof.
  unfold Surface_InsertKnotU_list. induction us as [|x us IH]; intros Hu s Ss; cbn [foldM]; [apply runs_ok, sshape_nil, Ss|]. inversion Hu as [|? ? Hx Hus]; subst.
  rb ltac:(apply Surface_InsertU64; [exact Ss|exact Hx]). intros s1 [S1 [D1 [D1' [P1 [P1' [K1 K1']]]]]]. eapply runs_weak; [|apply (IH Hus s1 S1)]. intros s2 [S2 [D2 [D2' [P2 [P2' [K2 K2']]]]]].
  split; [exact S2|]. split; [congruence|]. split; [congruence|]. split; [rewrite P2, P1; cbn [app]; symmetry; apply Permutation_middle|]. split; [cbn [app] in *; rewrite P2', P1'; reflexivity|]. split; [discriminate|]. intros _. rewrite K2', K1' by reflexivity. reflexivity.
Qed.
Lemma Surface_InsertV_list64 us : Forall inner64 us -> forall s, sound_surface s -> runs (Surface_InsertKnotV_list s us) (fun s' => sshape_of s s' [] us).
Proof.
  unfold Surface_InsertKnotV_list. induction us as [|x us IH]; intros Hu s Ss; cbn [foldM]; [apply runs_ok, sshape_nil, Ss|]. inversion Hu as [|? ? Hx Hus]; subst.
  rb ltac:(apply Surface_InsertV64; [exact Ss|exact Hx]). intros s1 [S1 [D1 [D1' [P1 [P1' [K1 K1']]]]]]. eapply runs_weak; [|apply (IH Hus s1 S1)]. intros s2 [S2 [D2 [D2' [P2 [P2' [K2 K2']]]]]].
  split; [exact S2|]. split; [congruence|]. split; [congruence|]. split; [cbn [app] in *; rewrite P2, P1; reflexivity|]. split; [rewrite P2', P1'; cbn [app]; symmetry; apply Permutation_middle|]. split; [|discriminate]. intros _. rewrite K2, K1 by reflexivity. reflexivity.
Qed.
