(** Evaluation never leaves its arrays, whatever the numbers are. *)
From Coq Require Import ZArith List Lia Bool.
From Verif Require Import Outcome Num ModelCore ModelBasis ModelCurve ModelSurface SpecCore SpecDeriv ThOutcome ThVec ThGrid ThMath ThElevCode.
Import ListNotations.
Open Scope Z_scope.

(** [m] returns normally with a result satisfying [Q] *)
Definition runs {A} (m : outcome A) (Q : A -> Prop) : Prop := exists a, m = Ok a /\ Q a.
Lemma runs_ok {A} (a : A) (Q : A -> Prop) : Q a -> runs (Ok a) Q.
Proof. intros H. exists a. split; [reflexivity|exact H]. Qed.
Lemma runs_bind {A C} (m : outcome A) (f : A -> outcome C) Q R : runs m Q -> (forall a, Q a -> runs (f a) R) -> runs (bind m f) R.
Proof. intros [a [-> Ha]] H. apply H. exact Ha. Qed.
Lemma runs_weak {A} (m : outcome A) (Q R : A -> Prop) : (forall a, Q a -> R a) -> runs m Q -> runs m R.
Proof. intros H [a [E Q1]]. exists a. auto. Qed.
Lemma runs_for {S} (P : S -> Prop) lo hi (body : Z -> S -> outcome S) s : P s ->
  (forall i s, lo <= i < hi -> P s -> runs (body i s) P) -> runs (for_up lo hi body s) P.
Proof.
  intros H0 Hb. destruct (Z_le_dec lo hi).
  - destruct (for_up_inv (fun _ => P) lo hi body s l H0) as [s' [E Q]]; [intros i s0 Hi Ps; apply Hb; assumption|]. exists s'. auto.
  - rewrite for_up_empty by lia. apply runs_ok. exact H0.
Qed.
Lemma runs_tab {A} (P : A -> Prop) lo hi f : lo <= hi -> (forall i, lo <= i < hi -> runs (f i) P) -> runs (tabulate lo hi f) (fun l => len l = hi - lo).
Proof.
  intros Hlh. unfold tabulate. remember (Z.to_nat (hi - lo)) as n eqn:En. revert lo Hlh En. induction n as [|n IH]; intros lo Hlh En Hf.
  - apply runs_ok. rewrite len_nil. lia.
  - cbn [tabulate_nat]. eapply runs_bind; [apply Hf; lia|]. intros a _. eapply runs_bind; [apply (IH (lo + 1)); [lia|lia|intros; apply Hf; lia]|].
    intros l Hl. apply runs_ok. rewrite len_cons, Hl. lia.
Qed.
Lemma runs_vget {A} (l : list A) i : 0 <= i < len l -> runs (vget l i) (fun _ => True).
Proof. intros H. destruct (vget_ex l i H) as [a E]. exists a. auto. Qed.
Lemma runs_vset {A} (l : list A) i x : 0 <= i < len l -> runs (vset l i x) (fun l' => len l' = len l).
Proof. intros H. destruct (vset_spec l i x H) as [l' [E [L _]]]. exists l'. auto. Qed.
Lemma runs_vmake {A} n (x : A) : 0 <= n -> runs (vmake n x) (fun l => len l = n).
Proof. intros H. destruct (vmake_spec n x H) as [l [E [L _]]]. exists l. auto. Qed.

(** a matrix with the right number of cells *)
Definition shaped {T} (r c : Z) (m : matrix T) : Prop := mrows m = r /\ mcols m = c /\ len (mdata m) = r * c.
Lemma cell_range r c i j : 0 <= i < r -> 0 <= j < c -> 0 <= i * c + j < r * c.
Proof. intros. nia. Qed.
Lemma in_range_ok r c i j : 0 <= i < r -> 0 <= j < c -> in_range r c i j = true.
Proof. intros. unfold in_range. repeat (apply andb_true_intro; split); first [apply Z.leb_le|apply Z.ltb_lt]; lia. Qed.
Lemma runs_mget {T} (m : matrix T) r c i j : shaped r c m -> 0 <= i < r -> 0 <= j < c -> runs (mget m i j) (fun _ => True).
Proof. intros [<- [<- L]] Hi Hj. unfold mget. rewrite in_range_ok by assumption. apply runs_vget. rewrite L. apply cell_range; assumption. Qed.
Lemma runs_mset {T} (m : matrix T) r c i j x : shaped r c m -> 0 <= i < r -> 0 <= j < c -> runs (mset m i j x) (shaped r c).
Proof.
  intros [<- [<- L]] Hi Hj. unfold mset. rewrite in_range_ok by assumption. eapply runs_bind; [apply runs_vset; rewrite L; apply cell_range; assumption|].
  intros d Hd. apply runs_ok. split; [reflexivity|]. split; [reflexivity|]. cbn [mdata]. rewrite Hd. exact L.
Qed.
Lemma runs_mzero {T} `{Num T} r c : 0 <= r -> 0 <= c -> runs (mzero (T := T) r c) (shaped r c).
Proof.
  intros Hr Hc. unfold mzero. destruct (Z.ltb_spec r 0); [lia|]. destruct (Z.ltb_spec c 0); [lia|]. cbn [orb]. apply runs_ok.
  split; [reflexivity|]. split; [reflexivity|]. cbn [mdata]. rewrite len_repeat. nia.
Qed.
Lemma runs_int z : INT_MIN <= z <= INT_MAX -> runs (int_ z) (fun a => a = z).
Proof. intros H. unfold int_, fits_int. destruct (Z.leb_spec INT_MIN z); [|lia]. destruct (Z.leb_spec z INT_MAX); [|lia]. cbn. apply runs_ok. reflexivity. Qed.

(** grids with the right number of cells *)
Definition gshaped {A} (u v : Z) (g : grid A) : Prop := UCount g = u /\ VCount g = v /\ len (Values g) = u * v.
Lemma gcell u v i j : 0 <= i < u -> 0 <= j < v -> 0 <= j * u + i < u * v.
Proof. intros. nia. Qed.
Lemma runs_gget {A} (g : grid A) u v i j : gshaped u v g -> 0 <= i < u -> 0 <= j < v -> runs (Grid_Get g i j) (fun _ => True).
Proof.
  intros [<- [<- L]] Hi Hj. unfold Grid_Get. destruct (Z.ltb_spec i (UCount g)); [|lia]. destruct (Z.ltb_spec j (VCount g)); [|lia]. cbn [andb assert_ bind].
  apply runs_vget. rewrite L. apply gcell; assumption.
Qed.
Lemma runs_gset {A} (g : grid A) u v i j x : gshaped u v g -> 0 <= i < u -> 0 <= j < v -> runs (Grid_Set g i j x) (gshaped u v).
Proof.
  intros [<- [<- L]] Hi Hj. unfold Grid_Set. destruct (Z.ltb_spec i (UCount g)); [|lia]. destruct (Z.ltb_spec j (VCount g)); [|lia]. cbn [andb assert_ bind].
  eapply runs_bind; [apply runs_vset; rewrite L; apply gcell; assumption|]. intros l Hl. apply runs_ok. split; [reflexivity|]. split; [reflexivity|]. cbn [Values]. rewrite Hl. exact L.
Qed.
Lemma runs_gmake {A} u v (x : A) : 0 <= u -> 0 <= v -> u * v <= INT_MAX -> runs (Grid_make u v x) (gshaped u v).
Proof.
  intros Hu Hv Hi. unfold Grid_make. eapply runs_bind; [apply runs_int; unfold INT_MIN; nia|]. intros n ->. eapply runs_bind; [apply runs_vmake; nia|].
  intros l Hl. apply runs_ok. split; [reflexivity|]. split; [reflexivity|exact Hl].
Qed.
Lemma runs_binomial n i : 0 <= i <= n -> n <= 29 -> runs (Binomial n i) (fun b => b = choose (Z.to_nat n) (Z.to_nat i)).
Proof. intros. exists (choose (Z.to_nat n) (Z.to_nat i)). split; [apply Binomial_Z; assumption|reflexivity]. Qed.

(** division always gives a number *)
Definition total_division (T : Type) `{Num T} : Prop := forall a b : T, runs (ndiv a b) (fun _ => True).
Lemma total_b64 : total_division b64.
Proof. intros a b. apply runs_ok. exact I. Qed.

Ltac zl := cbv beta iota in *; lia.
Ltac rb t := eapply runs_bind; [t|].
Ltac rget := rb ltac:(apply runs_vget; zl); intros ? _.
Ltac rmget r c := rb ltac:(apply (runs_mget _ r c); [assumption|zl|zl]); intros ? _.

Section Safe.
  Context {T : Type} `{Num T}.
  Hypothesis total : total_division T.

  Lemma runs_v3div (a : vec3 T) w : runs (v3div a w) (fun _ => True).
  Proof.
    unfold v3div. rb ltac:(apply total). intros x _. rb ltac:(apply total). intros y _. rb ltac:(apply total). intros z _. apply runs_ok. exact I.
  Qed.
  Lemma runs_FromHomo (a : vec4 T) : runs (FromHomo a) (fun _ => True).
  Proof. unfold FromHomo. rb ltac:(apply runs_v3div). intros x _. apply runs_ok. exact I. Qed.

  Lemma runs_Basis p (l : list T) i x : 0 <= p -> p <= i -> i + p < len l -> runs (Basis_Evaluate p l i x) (fun r => len r = p + 1).
  Proof.
    intros Hp Hi Hl. unfold Basis_Evaluate. rb ltac:(apply runs_vmake; zl). intros res Lr. rb ltac:(apply runs_vmake; zl). intros lf Ll. rb ltac:(apply runs_vmake; zl). intros rt Lt.
    rb ltac:(apply runs_vset; zl). intros res1 Lr1.
    rb ltac:(apply (runs_for (fun st => let '(result, lft, rgt) := st in len result = p + 1 /\ len lft = p + 1 /\ len rgt = p + 1))).
    - zl.
    - intros j [[result lft] rgt] Hj [A1 [A2 A3]]. rget. rb ltac:(apply runs_vset; zl). intros lft' B2. rget. rb ltac:(apply runs_vset; zl). intros rgt' B3.
      rb ltac:(apply (runs_for (fun st => let '(result, saved) := st in len result = p + 1))).
      + exact A1.
      + intros r [result' saved] Hr C1. rget. rget. rget. rb ltac:(apply total). intros t _. rb ltac:(apply runs_vset; zl). intros result'' C2. apply runs_ok; zl.
      + intros [result' saved] C1. rb ltac:(apply runs_vset; zl). intros result'' C2. apply runs_ok; zl.
    - intros [[result lft] rgt] [A1 _]. apply runs_ok. exact A1.
  Qed.

  Lemma runs_ndu p (l : list T) i x : 0 <= p -> p <= i -> i + p < len l -> runs (Basis_ndu p l i x) (shaped (p + 1) (p + 1)).
  Proof.
    intros Hp Hi Hl. unfold Basis_ndu. rb ltac:(apply runs_vmake; zl). intros lf Ll. rb ltac:(apply runs_vmake; zl). intros rt Lt.
    rb ltac:(apply runs_mzero; zl). intros ndu0 Sh0. rb ltac:(apply (runs_mset _ (p + 1) (p + 1)); [assumption|zl|zl]). intros ndu1 Sh1.
    rb ltac:(apply (runs_for (fun st => let '(ndu, lft, rgt) := st in shaped (p + 1) (p + 1) ndu /\ len lft = p + 1 /\ len rgt = p + 1))).
    - auto.
    - intros j [[ndu lft] rgt] Hj [A1 [A2 A3]]. rget. rb ltac:(apply runs_vset; zl). intros lft' B2. rget. rb ltac:(apply runs_vset; zl). intros rgt' B3.
      rb ltac:(apply (runs_for (fun st => let '(ndu, saved) := st in shaped (p + 1) (p + 1) ndu))).
      + exact A1.
      + intros r [ndu' saved] Hr C1. rget. rget. rb ltac:(apply (runs_mset _ (p + 1) (p + 1)); [assumption|zl|zl]). intros ndu2 C2.
        rmget (p + 1) (p + 1). rmget (p + 1) (p + 1). rb ltac:(apply total). intros t _.
        rb ltac:(apply (runs_mset _ (p + 1) (p + 1)); [assumption|zl|zl]). intros ndu3 C3. apply runs_ok. exact C3.
      + intros [ndu' saved] C1. rb ltac:(apply (runs_mset _ (p + 1) (p + 1)); [assumption|zl|zl]). intros ndu3 C3. apply runs_ok. split; [exact C3|]. split; zl.
    - intros [[ndu lft] rgt] [A1 _]. apply runs_ok. exact A1.
  Qed.

  Definition ders_ok (p order : Z) (st : matrix T * matrix T * Z * Z) : Prop :=
    let '(result, a, s1, s2) := st in shaped (order + 1) (p + 1) result /\ shaped 2 (p + 1) a /\ 0 <= s1 < 2 /\ 0 <= s2 < 2.
  Lemma runs_ders p ndu r order k st : 0 <= r <= p -> 1 <= k <= order -> shaped (p + 1) (p + 1) ndu -> ders_ok p order st ->
    runs (Basis_ders_step p ndu r k st) (ders_ok p order).
  Proof.
    destruct st as [[[result a] s1] s2]. intros Hr Hk Sn [S1 [S2 [H1 H2]]]. unfold Basis_ders_step. cbv zeta.
    rb ltac:(apply (runs_weak _ (fun st => shaped 2 (p + 1) (fst st)) (fun st => shaped 2 (p + 1) (fst st))); [intros ? Q; exact Q|]).
    - destruct (Z.leb_spec k r); [|apply runs_ok; exact S2].
      rmget 2 (p + 1). rmget (p + 1) (p + 1). rb ltac:(apply total). intros q _. rb ltac:(apply (runs_mset _ 2 (p + 1)); [assumption|zl|zl]). intros a' S3.
      rmget 2 (p + 1). rmget (p + 1) (p + 1). apply runs_ok. exact S3.
    - intros [a1 d1] S3. cbn [fst] in S3.
      rb ltac:(apply (runs_for (fun st => let '(a, d) := st in shaped 2 (p + 1) a))).
      + exact S3.
      + intros j [a2 d2] Hj S4.
        assert (1 <= j <= p /\ 0 <= r - k + j <= p /\ k <= p) as [J1 [J2 J3]].
        { destruct (Z.leb_spec (-1) (r - k)), (Z.leb_spec (r - 1) (p - k)); zl. }
        rmget 2 (p + 1). rmget 2 (p + 1). rmget (p + 1) (p + 1). rb ltac:(apply total). intros q _.
        rb ltac:(apply (runs_mset _ 2 (p + 1)); [assumption|zl|zl]). intros a' S5. rmget 2 (p + 1). rmget (p + 1) (p + 1). apply runs_ok. exact S5.
      + intros [a2 d2] S4.
        rb ltac:(apply (runs_weak _ (fun st => shaped 2 (p + 1) (fst st)) (fun st => shaped 2 (p + 1) (fst st))); [intros ? Q; exact Q|]).
        * destruct (Z.leb_spec r (p - k)); [|apply runs_ok; exact S4].
          rmget 2 (p + 1). rmget (p + 1) (p + 1). rb ltac:(apply total). intros q _. rb ltac:(apply (runs_mset _ 2 (p + 1)); [assumption|zl|zl]). intros a' S5.
          rmget 2 (p + 1). rmget (p + 1) (p + 1). apply runs_ok. exact S5.
        * intros [a3 d3] S5. cbn [fst] in S5. rb ltac:(apply (runs_mset _ (order + 1) (p + 1)); [assumption|zl|zl]). intros res' S6. apply runs_ok.
          split; [exact S6|]. split; [exact S5|]. split; assumption.
  Qed.
  Lemma runs_scale_row (m : matrix T) r c k f : shaped r c m -> 0 <= k < r -> runs (scale_row m k f) (shaped r c).
  Proof.
    intros S Hk. unfold scale_row. pose proof S as [_ [Ec _]]. rewrite Ec. apply runs_for; [exact S|]. intros j m' Hj S'. rmget r c.
    apply runs_mset; assumption.
  Qed.
  Lemma runs_BasisAll p (l : list T) i x order : 0 <= p -> p <= i -> i + p < len l -> 0 <= order ->
    runs (Basis_EvaluateAll p l i x order) (shaped (order + 1) (p + 1)).
  Proof.
    intros Hp Hi Hl Ho. unfold Basis_EvaluateAll. rb ltac:(apply runs_ndu; assumption). intros ndu Sn. rb ltac:(apply runs_mzero; zl). intros r0 S0.
    rb ltac:(apply (runs_for (shaped (order + 1) (p + 1)))); [exact S0| |].
    { intros r m Hr Sm. rmget (p + 1) (p + 1). apply runs_mset; [assumption|zl|zl]. }
    intros r1 S1. rb ltac:(apply runs_mzero; zl). intros a0 Sa.
    rb ltac:(apply (runs_for (fun st => let '(result, a) := st in shaped (order + 1) (p + 1) result /\ shaped 2 (p + 1) a))); [split; assumption| |].
    { intros r [res a] Hr [A1 A2]. rb ltac:(apply (runs_mset _ 2 (p + 1)); [assumption|zl|zl]). intros a' A3.
      rb ltac:(apply (runs_for (ders_ok p order))); [unfold ders_ok; repeat split; try zl; first [apply A1|apply A3]| |].
      - intros k st Hk S. apply runs_ders; try assumption; zl.
      - intros [[[res' a''] s1] s2] [B1 [B2 _]]. apply runs_ok. split; assumption. }
    intros [r2 a2] [S2 _].
    rb ltac:(apply (runs_for (fun st => let '(result, fac) := st in shaped (order + 1) (p + 1) result))); [exact S2| |].
    { intros k [res f] Hk S. rb ltac:(apply (runs_scale_row _ (order + 1) (p + 1)); [assumption|zl]). intros res' S'. apply runs_ok. exact S'. }
    intros [r3 f3] S3. apply runs_ok. exact S3.
  Qed.

  (** ** Curves *)
  Variables (c : curve T) (x : T) (i : Z).
  Hypothesis In_unit : ngeb x n0 && nleb x n1 = true.
  Hypothesis Span : KnotVector_FindSpanIndex (Knots c) (Degree c) x = Ok i.
  Hypothesis Hi : 0 <= Degree c /\ Degree c <= i <= len (Knots c) - Degree c - 2.
  Hypothesis Hn : len (ControlPoints c) = len (Knots c) - Degree c - 1.

  Lemma runs_Curve_Evaluate : runs (Curve_Evaluate c x) (fun _ => True).
  Proof.
    unfold Curve_Evaluate. rewrite In_unit. cbn [assert_ bind]. rewrite Span. cbn [bind]. rb ltac:(apply runs_Basis; zl). intros b Lb. rewrite Lb, Z.eqb_refl. cbn [assert_ bind].
    rb ltac:(apply (runs_for (fun _ => True))); [exact I| |]. { intros k s Hk _. rget. rget. apply runs_ok. exact I. }
    intros s _. apply runs_v3div.
  Qed.
  Lemma runs_Curve_Homo order : 0 <= order -> runs (Curve_HomogeneousDerivative c x order) (fun l => len l = order + 1).
  Proof.
    intros Ho. unfold Curve_HomogeneousDerivative. rewrite In_unit. cbn [assert_ bind]. rewrite Span. cbn [bind]. rb ltac:(apply (runs_BasisAll _ _ _ _ order); zl). intros b Sb. pose proof Sb as [Rb [Cb _]].
    rewrite Rb, Cb, !Z.eqb_refl. cbn [assert_ bind].
    apply (runs_weak _ (fun l => len l = order + 1 - 0)); [intros; zl|]. apply (runs_tab (fun _ => True)); [zl|]. intros k Hk.
    apply runs_for; [exact I|]. intros j s Hj _. rget. rmget (order + 1) (Degree c + 1). apply runs_ok. exact I.
  Qed.
  Lemma runs_Curve_All order : 0 <= order <= 29 -> runs (Curve_EvaluateAll c x order) (fun l => len l = order + 1).
  Proof.
    intros Ho. unfold Curve_EvaluateAll. rb ltac:(apply (runs_Curve_Homo order); zl). intros hd Lh. rb ltac:(apply runs_vmake; zl). intros r0 L0. rget. cbv zeta.
    apply runs_for; [zl|]. intros k res Hk Lr. rget. rb ltac:(apply (runs_for (fun _ => True))); [exact I| |].
    { intros j s Hj _. rget. rb ltac:(apply runs_binomial; zl). intros bn _. rget. apply runs_ok. exact I. }
    intros s _. rb ltac:(apply runs_v3div). intros q _. apply (runs_weak _ (fun l => len l = len res)); [intros; zl|]. apply runs_vset. zl.
  Qed.
  Lemma runs_Curve_Derivative order : 0 <= order <= 29 -> runs (Curve_EvaluateDerivative c x order) (fun _ => True).
  Proof. intros Ho. unfold Curve_EvaluateDerivative. rb ltac:(apply runs_Curve_All; exact Ho). intros l Ll. apply runs_vget. zl. Qed.
End Safe.
