(** Memory safety in binary64 of evaluation and knot insertion on curves and surfaces. *)
From Coq Require Import Reals ZArith List Lia Lra Bool Permutation SpecFloat.
From Flocq Require Import Core.Raux IEEE754.BinarySingleNaN.
From Verif Require Import Outcome Num ModelCore ModelBasis ModelCurve ModelSurface SpecCore SpecCurve SpecDeriv SpecErr SpecSearch
  ThOutcome ThReal ThVec ThKnots ThGrid ThMath ThB64 ThCoreWit ThBasis ThInsert ThElevCode ThErrCurve ThSafe ThDecide.
Import ListNotations.
Open Scope Z_scope.

Section SafeSurf.
  Context {T : Type} `{Num T}.
  Hypothesis total : total_division T.
  Variables (s : surface T) (u v : T) (iu iv : Z).
  Hypothesis Unit_u : ngeb u n0 && nleb u n1 = true.
  Hypothesis Unit_v : ngeb v n0 && nleb v n1 = true.
  Hypothesis Span_u : KnotVector_FindSpanIndex (KnotsU s) (DegreeU s) u = Ok iu.
  Hypothesis Span_v : KnotVector_FindSpanIndex (KnotsV s) (DegreeV s) v = Ok iv.
  Hypothesis Hu : 0 <= DegreeU s /\ DegreeU s <= iu <= len (KnotsU s) - DegreeU s - 2.
  Hypothesis Hv : 0 <= DegreeV s /\ DegreeV s <= iv <= len (KnotsV s) - DegreeV s - 2.
  Hypothesis Sh : gshaped (len (KnotsU s) - DegreeU s - 1) (len (KnotsV s) - DegreeV s - 1) (Net s).

  Ltac rgget g u v := rb ltac:(apply (runs_gget g u v); [assumption|zl|zl]); intros ? _.
  Lemma runs_Surface_Evaluate : runs (Surface_Evaluate s u v) (fun _ => True).
  Proof.
    unfold Surface_Evaluate. rewrite Unit_u, Unit_v. cbn [assert_ bind]. rewrite Span_u, Span_v. cbn [bind].
    rb ltac:(apply (runs_Basis total); zl). intros b Lb. rb ltac:(apply (runs_Basis total); zl). intros b' Lb'. cbv beta in *. rewrite Lb, Lb', !Z.eqb_refl. cbn [assert_ bind]. cbv zeta.
    rb ltac:(apply (runs_for (fun _ => True))); [exact I| |].
    { intros j r Hj _. rb ltac:(apply (runs_for (fun _ => True))); [exact I| |].
      { intros i t Hi _. rgget (Net s) (len (KnotsU s) - DegreeU s - 1) (len (KnotsV s) - DegreeV s - 1). rget. apply runs_ok. exact I. }
      intros t _. rget. apply runs_ok. exact I. }
    intros r _. apply runs_v3div. exact total.
  Qed.
  Lemma runs_Surface_Homo ou ov : 0 <= ou <= 29 -> 0 <= ov <= 29 -> runs (Surface_HomogeneousDerivative s u v ou ov) (gshaped (ou + 1) (ov + 1)).
  Proof.
    intros Ho Ho'. unfold Surface_HomogeneousDerivative. rewrite Unit_u, Unit_v. cbn [assert_ bind]. rewrite Span_u, Span_v. cbn [bind].
    rb ltac:(apply (runs_BasisAll total _ _ _ _ ou); zl). intros b Sb. rb ltac:(apply (runs_BasisAll total _ _ _ _ ov); zl). intros b' Sb'.
    pose proof Sb as [_ [Cb _]]. pose proof Sb' as [_ [Cb' _]]. rewrite Cb, Cb', !Z.eqb_refl. cbn [assert_ bind]. cbv zeta.
    rb ltac:(apply runs_gmake; [lia|lia|unfold INT_MAX; nia]). intros r0 S0.
    apply runs_for; [exact S0|]. intros l r Hl S1. apply runs_for; [exact S1|]. intros k r' Hk S2. apply runs_for; [exact S2|]. intros j r'' Hj S3.
    rb ltac:(apply (runs_for (fun _ => True))); [exact I| |].
    { intros i t Hi _. rgget (Net s) (len (KnotsU s) - DegreeU s - 1) (len (KnotsV s) - DegreeV s - 1). rmget (ou + 1) (DegreeU s + 1). apply runs_ok. exact I. }
    intros t _. rgget r'' (ou + 1) (ov + 1). rmget (ov + 1) (DegreeV s + 1). apply runs_gset; [assumption|lia|lia].
  Qed.
  Lemma runs_Surface_All ou ov : 0 <= ou <= 29 -> 0 <= ov <= 29 -> binomials_fit ou ov -> runs (Surface_EvaluateAll s u v ou ov) (gshaped (ou + 1) (ov + 1)).
  Proof.
    intros Ho Ho' Fit. unfold Surface_EvaluateAll. rb ltac:(apply runs_Surface_Homo; assumption). intros hd Sd. rb ltac:(apply runs_gmake; [lia|lia|unfold INT_MAX; nia]). intros r0 S0.
    rgget hd (ou + 1) (ov + 1). cbv zeta. apply runs_for; [exact S0|]. intros k r Hk S1. apply runs_for; [exact S1|]. intros l r' Hl S2.
    rgget hd (ou + 1) (ov + 1).
    rb ltac:(apply (runs_for (fun _ => True))); [exact I| |].
    { intros i t Hi _. rgget hd (ou + 1) (ov + 1). rb ltac:(apply runs_binomial; zl). intros bn _. rgget r' (ou + 1) (ov + 1). apply runs_ok. exact I. }
    intros t1 _. rb ltac:(apply (runs_for (fun _ => True))); [exact I| |].
    { intros i t Hi _. rgget hd (ou + 1) (ov + 1). rb ltac:(apply runs_binomial; zl). intros bn _. rgget r' (ou + 1) (ov + 1). apply runs_ok. exact I. }
    intros t2 _. rb ltac:(apply (runs_for (fun _ => True))); [exact I| |].
    { intros i t Hi _. rb ltac:(apply (runs_binomial k i); zl). intros bn Eb. apply runs_for; [exact I|]. intros j t' Hj _. rgget hd (ou + 1) (ov + 1).
      rb ltac:(apply (runs_binomial l j); zl). intros bn' Eb'. cbv beta in *.
      rb ltac:(apply runs_int).
      { rewrite Eb, Eb'. pose proof (choose_nonneg (Z.to_nat k) (Z.to_nat i)). pose proof (choose_nonneg (Z.to_nat l) (Z.to_nat j)). split; [unfold INT_MIN; nia|]. apply Fit; lia. }
      intros pr _. rgget r' (ou + 1) (ov + 1). apply runs_ok. exact I. }
    intros t3 _. rb ltac:(apply runs_v3div; exact total). intros q _. apply runs_gset; [assumption|lia|lia].
  Qed.
  Lemma runs_Surface_Derivative ou ov : 0 <= ou <= 29 -> 0 <= ov <= 29 -> binomials_fit ou ov -> runs (Surface_EvaluateDerivative s u v ou ov) (fun _ => True).
  Proof.
    intros Ho Ho' Fit. unfold Surface_EvaluateDerivative. rb ltac:(apply runs_Surface_All; assumption). intros g Sg. apply (runs_gget _ (ou + 1) (ov + 1)); [assumption|lia|lia].
  Qed.
End SafeSurf.

(** ** Knots *)
Lemma SFlt_le_trans x a b : SFltb x a = true -> SFleb a b = true -> SFltb x b = true.
Proof.
  unfold SFltb, SFleb.
  destruct x as [sx|sx| |sx mx ex], a as [sa|sa| |sa ma ea], b as [sb|sb| |sb mb eb]; cbn; try discriminate;
    destruct sx; cbn; try discriminate; destruct sa; cbn; try discriminate; destruct sb; cbn; try discriminate; auto.
  all: repeat match goal with |- context [Z.compare ?p ?q] => destruct (Z.compare_spec p q); try discriminate; try lia end; cbn; auto.
  all: rewrite ?Pos.compare_cont_spec; cbn; repeat match goal with |- context [Pos.compare ?p ?q] => destruct (Pos.compare_spec p q); cbn; try discriminate; try lia end; auto.
Qed.
Lemma upper_bound_any (dd : b64) (l : list b64) (x : b64) : (forall i j, 0 <= i <= j -> j < len l -> SFleb (znth dd l i) (znth dd l j) = true) ->
  exists k, upper_bound l x = Ok k /\ 0 <= k <= len l /\ (forall j, 0 <= j < k -> SFltb x (znth dd l j) = false) /\ (k < len l -> SFltb x (znth dd l k) = true).
Proof.
  induction l as [|e l IH]; intros So.
  - exists 0. unfold len. cbn. split; [reflexivity|]. split; [lia|]. split; intros; lia.
  - cbn [upper_bound]. change (nltb x e) with (SFltb x e).
    assert (len (e :: l) = len l + 1) as Le by (unfold len; cbn [length]; lia).
    assert (forall i, 0 <= i -> znth dd (e :: l) (i + 1) = znth dd l i) as Zs.
    { intros i Hi. unfold znth. replace (Z.to_nat (i + 1)) with (S (Z.to_nat i)) by lia. reflexivity. }
    destruct (SFltb x e) eqn:Ex.
    + match goal with |- context [forallb ?f l] => assert (forallb f l = true) as -> end.
      { apply forallb_forall. intros y Hy. apply (In_nth _ _ dd) in Hy. destruct Hy as [n [Hn En]]. change (SFltb x y = true). apply (SFlt_le_trans x e y Ex).
        assert (0 <= 0 <= Z.of_nat n + 1) as H0 by lia. assert (Z.of_nat n + 1 < len (e :: l)) as H1 by (rewrite Le; unfold len; lia). pose proof (So 0 (Z.of_nat n + 1) H0 H1) as S1. rewrite Zs in S1 by lia. unfold znth in S1. rewrite Nat2Z.id in S1. cbn [Z.to_nat nth] in S1. rewrite En in S1. exact S1. }
      exists 0. split; [reflexivity|]. split; [unfold len; lia|]. split; [intros; lia|]. intros _. exact Ex.
    + destruct IH as [k [E [Hk [A B]]]].
      { intros i j Hi Hj. rewrite <- !Zs by lia. apply So; lia. }
      rewrite E. cbn [bind]. exists (k + 1). split; [reflexivity|]. split; [lia|]. split.
      * intros j Hj. destruct (Z.eq_dec j 0) as [->|Nj]; [exact Ex|]. replace j with (j - 1 + 1) by lia. rewrite Zs by lia. apply A. lia.
      * intros Hl. rewrite Zs by lia. apply B. lia.
Qed.
Lemma eq_one64 y m e : SFleb y (S754_finite false m e) = true -> SFleb (S754_finite false m e) y = true -> y = S754_finite false m e.
Proof.
  unfold SFleb. destruct y as [s|s| |s my ey]; cbn; try destruct s; cbn; try discriminate.
  destruct (Z.compare_spec ey e); try discriminate; subst; [|destruct (Z.compare_spec e ey); try discriminate; lia].
  rewrite Z.compare_refl. rewrite !Pos.compare_cont_spec. cbn. destruct (Pos.compare_spec my m); cbn; try discriminate; [subst; reflexivity|]. destruct (Pos.compare_spec m my); cbn; try discriminate; subst; try reflexivity; lia.
Qed.
Lemma le_lt_eq64 x m e : SFleb x (S754_finite false m e) = true -> SFltb x (S754_finite false m e) = false -> SFeqb x (S754_finite false m e) = true.
Proof. unfold SFleb, SFltb, SFeqb. destruct (SFcompare x _) as [[| |]|]; congruence. Qed.
(** The span search for any bit pattern: [x] that passes the assertion lands in a span. *)
Lemma sound_span p l x : sound_knots p l -> in_unit x ->
  exists i, KnotVector_FindSpanIndex l p x = Ok i /\ 0 <= p /\ p <= i <= len l - p - 2.
Proof.
  intros [Fl Cl] [Hx0 Hx1]. pose proof (cl_degree _ _ Cl) as Hp. pose proof (cl_len _ _ Cl) as Hl. rewrite len_vals in Hl.
  assert (forall i, 0 <= i < len l -> finite64 (zn l i)) as Fz.
  { intros i Hi. eapply Forall_forall in Fl; [exact Fl|]. apply (znth_In dz). exact Hi. }
  unfold KnotVector_FindSpanIndex. unfold ngeb. rewrite Hx0, Hx1. cbn [andb assert_ bind]. cbv zeta.
  destruct (Z.leb_spec 0 (len l - p - 2)); [|lia]. destruct (Z.leb_spec p (len l - p - 2)); [|lia]. cbn [assert_ bind].
  rewrite (vget_ok dz) by lia. cbn [bind]. destruct (neqb x (znth dz l (len l - 1))) eqn:E1; [exists (len l - p - 2); split; [reflexivity|lia]|].
  rewrite (vget_ok dz) by lia. cbn [bind]. destruct (neqb x (znth dz l 0)) eqn:E2; [exists p; split; [reflexivity|lia]|].
  destruct (upper_bound_any dz l x) as [k [E [Hk [A B]]]].
  { intros i j Hi Hj. change (SFleb (zn l i) (zn l j) = true). rewrite SFleb_val by (apply Fz; lia). apply Rleb_true. rewrite <- !at_vals. apply (cl_sorted _ _ Cl); [lia|rewrite len_vals; lia]. }
  rewrite E. cbn [bind]. exists (k - 1). split; [reflexivity|]. split; [exact Hp|].
  assert (p < k) as K1.
  { destruct (Z_le_gt_dec k p) as [Hkp|]; [exfalso|lia]. specialize (B ltac:(lia)). change (znth dz l k) with (zn l k) in B.
    pose proof (cl_zero _ _ Cl k ltac:(lia)) as Z0. rewrite at_vals in Z0. assert (SFltb x (@n0 b64 _) = true) as C.
    { apply (SFlt_le_trans _ _ _ B). rewrite SFleb_val; [|apply Fz; lia|exact finite_0]. apply Rleb_true. rewrite Z0. apply Req_le. symmetry. exact val_0. }
    revert Hx0 C. change (nleb n0 x) with (SFleb n0 x). destruct x as [s|[|]| |[|] m e]; cbn; discriminate. }
  assert (k <= len l - p - 1) as K2; [|lia].
  destruct (Z_le_gt_dec k (len l - p - 1)) as [Hkp|Hkp]; [exact Hkp|exfalso].
  assert (forall i, len l - p - 1 <= i < len l -> zn l i = S754_finite false 4503599627370496 (-52)) as One.
  { intros i Hi. pose proof (cl_one _ _ Cl i) as O1. rewrite len_vals in O1. specialize (O1 Hi). rewrite at_vals in O1.
    apply eq_one64; change (S754_finite false 4503599627370496 (-52)) with (@n1 b64 _).
    - rewrite SFleb_val; [|apply Fz; lia|exact finite_1]; apply Rleb_true; rewrite O1; apply Req_le; symmetry; exact val_1.
    - rewrite SFleb_val; [|exact finite_1|apply Fz; lia]; apply Rleb_true; rewrite O1; apply Req_le; exact val_1. }
  specialize (A (len l - p - 1) ltac:(lia)). change (znth dz l (len l - p - 1)) with (zn l (len l - p - 1)) in A. change (znth dz l (len l - 1)) with (zn l (len l - 1)) in E1.
  rewrite One in A, E1 by lia. pose proof (le_lt_eq64 _ _ _ Hx1 A) as C3. change (SFeqb x (S754_finite false 4503599627370496 (-52)) = false) in E1. change (SFeqb x (S754_finite false 4503599627370496 (-52)) = true) in C3. rewrite E1 in C3. discriminate C3.
Qed.
Lemma perm_finite l l' x : all_finite l -> finite64 x -> Permutation l' (x :: l) -> all_finite l'.
Proof.
  intros Fl Fx P. unfold all_finite in *. rewrite Forall_forall in *. intros y Hy. destruct (Permutation_in _ P Hy) as [<-|Hy']; auto.
Qed.
Lemma vinsert_perm {A} (l l' : list A) k x : vinsert l k 1 x = Ok l' -> Permutation l' (x :: l).
Proof.
  unfold vinsert. destruct (_ && _); [|discriminate]. cbn. intros [= <-]. rewrite <- (firstn_skipn (Z.to_nat k) l) at 3. symmetry. apply Permutation_cons_app. reflexivity.
Qed.
Lemma vinsert_vals l k x : vinsert (vals l) k 1 (val x) = bind (vinsert l k 1 x) (fun l' => Ok (vals l')).
Proof.
  unfold vinsert. rewrite len_vals. destruct (_ && _); [|reflexivity]. cbn [bind]. change (1 <? 0) with false. cbn [bind]. rewrite vals_inserted. reflexivity.
Qed.
Lemma perm_len {A} (l l' : list A) x : Permutation l' (x :: l) -> len l' = len l + 1.
Proof. intros P. apply Permutation_length in P. unfold len. rewrite P. cbn [length]. lia. Qed.

Lemma sound_insert p l x : sound_knots p l -> inner64 x ->
  exists l' k, KnotVector_InsertKnot l x 1 = Ok (l', k) /\ 0 <= p /\ p <= k <= len l - p - 2 /\ len l' = len l + 1 /\ sound_knots p l' /\ Permutation l' (x :: l).
Proof.
  intros [Fl Cl] [Fx Hx]. destruct (kv_insert p (vals l) (val x) Cl Hx) as [vl [k [E [Ei [K I]]]]]. rewrite kv_InsertKnot_b64 in E by assumption.
  destruct (KnotVector_InsertKnot l x 1) as [[l' k']| | | | |] eqn:El; cbn [bind] in E; try discriminate. injection E as Ev ->.
  exists l', k. split; [reflexivity|]. split; [exact (cl_degree _ _ Cl)|]. pose proof K as [Hk _]. rewrite len_vals in Hk. split; [exact Hk|].
  assert (Permutation l' (x :: l)) as P.
  { unfold KnotVector_InsertKnot in El. destruct (_ && _); [|discriminate]. cbn [assert_ bind] in El. destruct (upper_bound l x) as [j| | | | |]; try discriminate. cbn [bind] in El.
    destruct (vinsert l j 1 x) as [l''| | | | |] eqn:V; try discriminate. cbn [bind] in El. injection El as <- _. exact (vinsert_perm _ _ _ _ V). }
  split; [exact (perm_len _ _ _ P)|]. split; [|exact P]. split; [exact (perm_finite _ _ _ Fl Fx P)|]. rewrite Ev. exact (ins_clamped _ _ _ _ _ Cl K Hx I).
Qed.
Lemma sound_insert_one p l x : sound_knots p l -> inner64 x ->
  exists k l', KnotVector_FindSpanIndex l p x = Ok k /\ vinsert l (k + 1) 1 x = Ok l' /\ 0 <= p /\ p <= k <= len l - p - 2 /\ len l' = len l + 1 /\ sound_knots p l' /\ Permutation l' (x :: l).
Proof.
  intros [Fl Cl] [Fx Hx]. destruct (span_find p (vals l) (val x) Cl Hx) as [k [E K]]. destruct (insert_knots p (vals l) k (val x) Cl K) as [vl [Ei I]].
  rewrite vinsert_vals in Ei. destruct (vinsert l (k + 1) 1 x) as [l'| | | | |] eqn:V; try discriminate. cbn [bind] in Ei. injection Ei as Ev.
  exists k, l'. rewrite FindSpanIndex_b64 by assumption. pose proof (vinsert_perm _ _ _ _ V) as P. pose proof K as [Hk _]. rewrite len_vals in Hk.
  split; [exact E|]. split; [exact V|]. split; [exact (cl_degree _ _ Cl)|]. split; [exact Hk|]. split; [exact (perm_len _ _ _ P)|]. split; [|exact P].
  split; [exact (perm_finite _ _ _ Fl Fx P)|]. rewrite Ev. exact (ins_clamped _ _ _ _ _ Cl K Hx I).
Qed.

(** ** Curves *)
Definition shape_of (c c' : curve b64) (us : list b64) : Prop :=
  sound_curve c' /\ Degree c' = Degree c /\ Permutation (Knots c') (us ++ Knots c) /\ len (ControlPoints c') = len (ControlPoints c) + len us.
Lemma shape_nil c : sound_curve c -> shape_of c c [].
Proof. intros S. split; [exact S|]. split; [reflexivity|]. split; [reflexivity|]. unfold len; cbn; lia. Qed.

Lemma runs_vinsert {A} (l : list A) k x : 0 <= k <= len l -> runs (vinsert l k 1 x) (fun l' => len l' = len l + 1).
Proof.
  intros Hk. unfold vinsert. destruct (Z.leb_spec 0 k); [|lia]. destruct (Z.leb_spec k (len l)); [|lia]. cbn. eexists. split; [reflexivity|].
  apply (perm_len _ _ x). rewrite <- (firstn_skipn (Z.to_nat k) l) at 3. symmetry. apply Permutation_cons_app. reflexivity.
Qed.
Lemma runs_ndiv64 (a b : b64) : runs (ndiv a b) (fun _ => True).
Proof. exact (total_b64 a b). Qed.

Lemma Curve_InsertKnot64 c x : sound_curve c -> inner64 x -> runs (Curve_InsertKnot c x) (fun c' => shape_of c c' [x]).
Proof.
  intros [Sk Sn] Hx. destruct (sound_insert _ _ _ Sk Hx) as [l' [k [E [Hp [Hk [Ll [Sk' P]]]]]]]. unfold Curve_InsertKnot. rewrite E. cbn [bind].
  rb ltac:(apply runs_vinsert; lia). intros pts Lp. cbv beta zeta in *.
  rb ltac:(apply (runs_for (fun l => len l = len (ControlPoints c) + 1))); [exact Lp| |].
  { intros i np Hi Ln. rget. rget. rb ltac:(apply runs_ndiv64). intros al _. rget. rget. rb ltac:(apply (runs_FromHomo total_b64)). intros q _. apply (runs_weak _ (fun l => len l = len np)); [intros; zl|]. apply runs_vset. lia. }
  intros np Ln. apply runs_ok. cbv beta in Ln. split; [split; [exact Sk'|cbn [ControlPoints Knots Degree]; lia]|]. split; [reflexivity|]. split; [exact P|]. cbn [ControlPoints]. unfold len in *. cbn [length]. lia.
Qed.

Lemma insert_one64 p l pts x : sound_knots p l -> len pts = len l - p - 1 -> inner64 x ->
  runs (insert_one p (l, pts) x) (fun st => sound_knots p (fst st) /\ len (snd st) = len pts + 1 /\ Permutation (fst st) (x :: l)).
Proof.
  intros Sk Sn Hx. destruct (sound_insert_one _ _ _ Sk Hx) as [k [l' [E [V [Hp [Hk [Ll [Sk' P]]]]]]]]. unfold insert_one. rewrite E. cbn [bind].
  rget. rb ltac:(apply runs_vinsert; lia). intros pts' Lp. rget.
  rb ltac:(apply (runs_for (fun st : list (vec4 b64) * vec4 b64 => len (fst st) = len pts + 1))); [exact Lp| |].
  { intros i [np la] Hi Ln. cbn [fst] in Ln. rget. rget. rb ltac:(apply runs_ndiv64). intros al _. rget. cbv zeta. rb ltac:(apply (runs_FromHomo total_b64)). intros q _.
    rb ltac:(apply runs_vset; zl). intros np' Ln'. apply runs_ok. cbn [fst]. zl. }
  intros [np la] Ln. cbn [fst] in Ln. rewrite V. cbn [bind]. apply runs_ok. cbn [fst snd]. auto.
Qed.
Lemma insert_all64 p us : Forall inner64 us -> forall l pts, sound_knots p l -> len pts = len l - p - 1 ->
  runs (foldM (insert_one p) us (l, pts)) (fun st => sound_knots p (fst st) /\ len (snd st) = len pts + len us /\ Permutation (fst st) (us ++ l)).
Proof.
  induction us as [|x us IH]; intros Hu l pts Sk Sn; cbn [foldM].
  - apply runs_ok. cbn [fst snd]. split; [exact Sk|]. split; [unfold len; cbn; lia|reflexivity].
  - inversion Hu as [|? ? Hx Hus]; subst. rb ltac:(apply insert_one64; assumption). intros [l' pts'] [Sk' [L' P']]. cbn [fst snd] in *.
    pose proof (perm_len _ _ _ P') as Ll'. eapply runs_weak; [|apply (IH Hus l' pts' Sk'); lia]. intros [l2 pts2] [Sk2 [L2 P2]]. cbn [fst snd] in *. split; [exact Sk2|].
    split; [unfold len in *; cbn [length]; lia|]. rewrite P2, P'. cbn [app]. symmetry. apply Permutation_middle.
Qed.
Lemma Curve_InsertKnot_list64 c us : sound_curve c -> Forall inner64 us -> runs (Curve_InsertKnot_list c us) (fun c' => shape_of c c' us).
Proof.
  intros [Sk Sn] Hu. unfold Curve_InsertKnot_list. rb ltac:(apply insert_all64; [exact Hu|exact Sk|exact Sn]). intros [l' pts'] [Sk' [L' P']]. cbn [fst snd] in *. apply runs_ok.
  split; [split; [exact Sk'|]|]. { cbn [ControlPoints Knots Degree]. apply Permutation_length in P'. rewrite app_length in P'. unfold len in *. lia. }
  split; [reflexivity|]. split; [exact P'|exact L'].
Qed.
