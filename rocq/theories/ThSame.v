(** Two runs side by side: Evaluate and the zeroth row of EvaluateAll perform the
    same operations in every arithmetic (C86). *)
From Coq Require Import ZArith List Lia Bool.
From Verif Require Import Outcome Num ModelCore ModelBasis ModelAlgo ModelCurve ModelSurface ThOutcome ThVec ThGrid.
Import ListNotations.
Open Scope Z_scope.

(** Both fail in the same way, or both succeed with related results. *)
Definition orel {A B} (R : A -> B -> Prop) (o : outcome A) (o' : outcome B) : Prop :=
  match o, o' with
  | Ok a, Ok b => R a b
  | Throw e, Throw e' => e = e'
  | AssertFail, AssertFail => True
  | Undefined u, Undefined u' => u = u'
  | NotFinite, NotFinite => True
  | OutOfFuel, OutOfFuel => True
  | _, _ => False
  end.
Lemma orel_refl {A} (o : outcome A) : orel eq o o.
Proof. destruct o; cbn; auto. Qed.
Lemma orel_eq {A} (o o' : outcome A) : orel eq o o' -> o = o'.
Proof. destruct o, o'; cbn; intros; subst; tauto || reflexivity. Qed.
Lemma orel_bind {A B C D} (R : A -> B -> Prop) (Q : C -> D -> Prop) o o' f g :
  orel R o o' -> (forall a b, R a b -> orel Q (f a) (g b)) -> orel Q (bind o f) (bind o' g).
Proof. destruct o, o'; cbn; intros H K; auto; try contradiction. Qed.
Lemma orel_same {A C D} (Q : C -> D -> Prop) (o : outcome A) f g :
  (forall a, o = Ok a -> orel Q (f a) (g a)) -> orel Q (bind o f) (bind o g).
Proof. destruct o; cbn; intros; auto. Qed.
Lemma orel_imp {A B} (R Q : A -> B -> Prop) o o' : orel R o o' -> (forall a b, R a b -> Q a b) -> orel Q o o'.
Proof. destruct o, o'; cbn; auto. Qed.
Lemma orel_loop {S S'} (R : Z -> S -> S' -> Prop) hi b b' n : forall i s s', i + Z.of_nat n = hi -> R i s s' ->
  (forall k s s', i <= k < hi -> R k s s' -> orel (R (k + 1)) (b k s) (b' k s')) -> orel (R hi) (loop n i b s) (loop n i b' s').
Proof.
  induction n as [|n IH]; intros i s s' E H0 St.
  - cbn [loop orel]. replace hi with i by lia. exact H0.
  - cbn [loop]. apply (orel_bind (R (i + 1))); [apply St; [lia|exact H0]|].
    intros a a' Ha. apply IH; [lia|exact Ha|]. intros k t t' Hk. apply St. lia.
Qed.
Lemma orel_for {S S'} (R : Z -> S -> S' -> Prop) lo hi b b' s s' : lo <= hi -> R lo s s' ->
  (forall k s s', lo <= k < hi -> R k s s' -> orel (R (k + 1)) (b k s) (b' k s')) -> orel (R hi) (for_up lo hi b s) (for_up lo hi b' s').
Proof. intros L H0 St. unfold for_up. apply orel_loop; auto. lia. Qed.

Lemma tabulate_one {A} (f : Z -> outcome A) : tabulate 0 (0 + 1) f = bind (f 0) (fun a => Ok [a]).
Proof. unfold tabulate. change (Z.to_nat (0 + 1 - 0)) with 1%nat. cbn [tabulate_nat]. destruct (f 0); reflexivity. Qed.
Lemma for_up_one {S} (b : Z -> S -> outcome S) s : for_up 0 (0 + 1) b s = b 0 s.
Proof. unfold for_up. change (Z.to_nat (0 + 1 - 0)) with 1%nat. cbn [loop]. destruct (b 0 s); reflexivity. Qed.

Section Generic.
  Context {T : Type} `{Num T}.

  (** the last column of the triangular table *)
  Definition column_of (p : Z) (l : list T) (m : matrix T) : Prop :=
    len l = p + 1 /\ mwf m (p + 1) (p + 1) /\ forall r, 0 <= r <= p -> vget l r = mget m r p.
  Lemma ndu_column p (kn : list T) sp x : 0 <= p -> orel (column_of p) (Basis_Evaluate p kn sp x) (Basis_ndu p kn sp x).
  Proof.
    intros Hp. unfold Basis_Evaluate, Basis_ndu.
    destruct (vmake_spec (p + 1) n0 ltac:(lia)) as [z [Ez [Lz _]]]. rewrite !Ez. cbn [bind].
    destruct (vset_spec z 0 n1 ltac:(lia)) as [l0 [E0 [L0 [G0 _]]]]. rewrite E0. cbn [bind].
    destruct (mzero_spec (T := T) (p + 1) (p + 1) ltac:(lia) ltac:(lia)) as [m0 [Em [Wm _]]]. rewrite Em. cbn [bind].
    destruct (mset_spec m0 (p + 1) (p + 1) 0 0 n1 Wm ltac:(lia) ltac:(lia)) as [m1 [E1 [W1 [G1 _]]]]. rewrite E1. cbn [bind].
    pose (Rj := fun (j : Z) (s : list T * list T * list T) (s' : matrix T * list T * list T) =>
      let '(l, a, b) := s in let '(m, a', b') := s' in a = a' /\ b = b' /\ len l = p + 1 /\ mwf m (p + 1) (p + 1) /\
        forall r, 0 <= r < j -> vget l r = mget m r (j - 1)).
    apply (orel_bind (Rj (p + 1))).
    - apply orel_for; [lia| |].
      + cbn. repeat split; auto; try lia; try apply W1. intros r Hr. replace r with 0 by lia. change (1 - 1) with 0. now rewrite G0, G1.
      + clear. intros j [[l a] b] [[m a'] b'] Hj [<- [<- [Ll [Wm G]]]].
        apply orel_same. intros kl _. apply orel_same. intros a1 _. apply orel_same. intros kr _. apply orel_same. intros b1 _.
        pose (Rr := fun (r : Z) (s : list T * T) (s' : matrix T * T) => let '(l, v) := s in let '(m, v') := s' in
          v = v' /\ len l = p + 1 /\ mwf m (p + 1) (p + 1) /\ (forall i, 0 <= i < r -> vget l i = mget m i j) /\
          forall i, r <= i < j -> vget l i = mget m i (j - 1)).
        apply (orel_bind (Rr j)).
        * apply orel_for; [lia| |].
          -- cbn. repeat split; auto; try lia; try apply Wm.
          -- clear l m Ll Wm G. intros r [l v] [m v'] Hr [<- [Ll [Wm [G1 G2]]]].
             destruct (vget_ex l r ltac:(lia)) as [e Ee]. rewrite Ee. cbn [bind].
             apply orel_same. intros rr _. apply orel_same. intros lf _.
             destruct (mset_spec m (p + 1) (p + 1) j r (nadd rr lf) Wm ltac:(lia) ltac:(lia)) as [m2 [E2 [W2 [H2 K2]]]]. rewrite E2. cbn [bind].
             rewrite K2 by lia. rewrite <- G2 by lia. rewrite Ee. cbn [bind]. rewrite H2. cbn [bind].
             apply orel_same. intros tmp _.
             destruct (vset_spec l r (nadd v (nmul rr tmp)) ltac:(lia)) as [l3 [E3 [L3 [H3 K3]]]]. rewrite E3. cbn [bind].
             destruct (mset_spec m2 (p + 1) (p + 1) r j (nadd v (nmul rr tmp)) W2 ltac:(lia) ltac:(lia)) as [m4 [E4 [W4 [H4 K4]]]]. rewrite E4. cbn [bind orel].
             split; [reflexivity|]. split; [lia|]. split; [exact W4|]. split.
             ++ intros i Hi. destruct (Z.eq_dec i r) as [-> |Ne]; [now rewrite H3, H4|]. rewrite K3, K4, K2 by lia. apply G1. lia.
             ++ intros i Hi. rewrite K3, K4, K2 by lia. apply G2. lia.
        * intros [l5 v5] [m5 v5'] [<- [L5 [W5 [G5 _]]]].
          destruct (vset_spec l5 j v5 ltac:(lia)) as [l6 [E6 [L6 [H6 K6]]]]. rewrite E6. cbn [bind].
          destruct (mset_spec m5 (p + 1) (p + 1) j j v5 W5 ltac:(lia) ltac:(lia)) as [m7 [E7 [W7 [H7 K7]]]]. rewrite E7. cbn [bind orel].
          split; [reflexivity|]. split; [reflexivity|]. split; [lia|]. split; [exact W7|].
          intros r Hr. replace (j + 1 - 1) with j by lia. destruct (Z.eq_dec r j) as [-> |Ne]; [now rewrite H6, H7|].
          rewrite K6, K7 by lia. apply G5. lia.
    - intros [[l a] b] [[m a'] b'] [_ [_ [Ll [Wm2 G]]]]. cbn [orel]. split; [exact Ll|]. split; [exact Wm2|].
      intros r Hr. rewrite G by lia. f_equal. lia.
  Qed.
  Definition row_of (p : Z) (l : list T) (m : matrix T) : Prop :=
    len l = p + 1 /\ mwf m 1 (p + 1) /\ forall r, 0 <= r <= p -> vget l r = mget m 0 r.
  Lemma basis_row0 p (kn : list T) sp x : 0 <= p -> orel (row_of p) (Basis_Evaluate p kn sp x) (Basis_EvaluateAll p kn sp x 0).
  Proof.
    intros Hp. unfold Basis_EvaluateAll.
    replace (Basis_Evaluate p kn sp x) with (bind (Basis_Evaluate p kn sp x) (fun l => Ok l)) by (destruct (Basis_Evaluate p kn sp x); reflexivity).
    apply (orel_bind (column_of p)); [apply ndu_column; exact Hp|]. intros l ndu [Ll [Wn G]].
    destruct (mzero_spec (T := T) (0 + 1) (p + 1) ltac:(lia) ltac:(lia)) as [m0 [Em [Wm _]]]. rewrite Em. cbn [bind].
    destruct (for_up_inv (fun i m => mwf m 1 (p + 1) /\ forall r, 0 <= r < i -> mget m 0 r = vget l r) 0 (p + 1)
      (fun r result => bind (mget ndu r p) (fun e => mset result 0 r e)) m0) as [m1 [E1 [W1 G1]]].
    - lia.
    - split; [exact Wm|intros; lia].
    - intros i m Hi [W Gm]. rewrite <- G by lia. destruct (vget_ex l i ltac:(lia)) as [e Ee]. rewrite Ee. cbn [bind].
      destruct (mset_spec m 1 (p + 1) 0 i e W ltac:(lia) ltac:(lia)) as [m2 [E2 [W2 [H2 K2]]]]. exists m2. split; [exact E2|]. split; [exact W2|].
      intros r Hr. destruct (Z.eq_dec r i) as [-> |Ne]; [now rewrite H2, Ee|]. rewrite K2 by lia. apply Gm. lia.
    - rewrite E1. cbn [bind].
      destruct (mzero_spec (T := T) 2 (p + 1) ltac:(lia) ltac:(lia)) as [a0 [Ea [Wa _]]]. rewrite Ea. cbn [bind].
      destruct (for_up_inv (fun i (s : matrix T * matrix T) => fst s = m1 /\ mwf (snd s) 2 (p + 1)) 0 (p + 1)
        (fun r '(result, a) => a <- mset a 0 0 n1 ;; '(result, a, _, _) <- for_up 1 (0 + 1) (Basis_ders_step p ndu r) (result, a, 0, 1) ;; Ok (result, a)) (m1, a0)) as [[m2 a2] [E2 [Em2 _]]].
      + lia.
      + split; [reflexivity|exact Wa].
      + intros i [m a] Hi [Hm W]. cbn [fst snd] in *.
        destruct (mset_spec a 2 (p + 1) 0 0 n1 W ltac:(lia) ltac:(lia)) as [a' [E' [W' _]]]. rewrite E'. cbn [bind].
        rewrite for_up_empty by lia. cbn [bind]. eexists. split; [reflexivity|]. cbn [fst snd]. split; assumption.
      + cbn [fst] in Em2. subst m2. rewrite E2. cbn [bind]. rewrite for_up_empty by lia. cbn [bind orel].
        split; [exact Ll|]. split; [exact W1|]. intros r Hr. symmetry. apply G1. lia.
  Qed.
  (** a negative degree fails in both in the same way *)
  Lemma basis_negative p (kn : list T) sp x n : p < 0 -> exists e : forall A, outcome A, (forall A B (f : A -> outcome B), bind (e A) f = e B) /\
    Basis_Evaluate p kn sp x = e _ /\ Basis_EvaluateAll p kn sp x n = e _.
  Proof.
    intros Hp. unfold Basis_EvaluateAll, Basis_Evaluate, Basis_ndu, vmake. destruct (Z.ltb_spec (p + 1) 0) as [L|L].
    - exists (fun A => Throw LengthError). repeat split; reflexivity.
    - assert (E : p + 1 = 0) by lia. rewrite E. exists (fun A => Undefined OutOfBounds). repeat split; reflexivity.
  Qed.

  Lemma curve_zero (c : curve T) x : Curve_EvaluateAll c x 0 = (q <- Curve_Evaluate c x ;; Ok [q]).
  Proof.
    symmetry. apply orel_eq. unfold Curve_EvaluateAll, Curve_HomogeneousDerivative, Curve_Evaluate.
    destruct (assert_ _); cbn [bind]; try apply orel_refl; try exact I; try reflexivity.
    destruct (KnotVector_FindSpanIndex _ _ _) as [sp| | | | |]; cbn [bind]; try apply orel_refl; try exact I; try reflexivity.
    destruct (Z_lt_le_dec (Degree c) 0) as [L|L].
    { destruct (basis_negative (Degree c) (Knots c) sp x 0 L) as [e [B [E1 E2]]]. rewrite E1, E2, !B. apply orel_refl. }
    pose proof (basis_row0 (Degree c) (Knots c) sp x L) as Rb.
    destruct (Basis_Evaluate _ _ _ _) as [l| | | | |], (Basis_EvaluateAll _ _ _ _ _) as [m| | | | |]; cbn [orel bind] in *; try contradiction; auto.
    destruct Rb as [Ll [[Mr [Mc [_ [_ _]]]] G]]. rewrite Ll, Z.eqb_refl, Mr, Mc. replace (1 =? 0 + 1) with true by reflexivity. rewrite Z.eqb_refl. cbn [assert_ bind].
    rewrite tabulate_one.
    rewrite (for_up_ext 0 (Degree c + 1) (fun i result => p <- vget (ControlPoints c) (sp - Degree c + i) ;; b <- vget l i ;; Ok (v4add result (v4scale b (ToHomo p))))
      (fun i tmp => p <- vget (ControlPoints c) (sp - Degree c + i) ;; b <- mget m 0 i ;; Ok (v4add tmp (v4scale b (ToHomo p))))).
    2: { intros i s Hi. rewrite G by lia. reflexivity. }
    destruct (for_up 0 (Degree c + 1) _ _) as [h| | | | |]; cbn [bind]; try exact I; try reflexivity.
    change (vmake (0 + 1) v3zero) with (Ok [@v3zero T _]). change (vget [h] 0) with (Ok h). cbn [bind].
    rewrite for_up_one. change (vget [h] 0) with (Ok h). cbn [bind]. rewrite for_up_empty by lia. cbn [bind].
    destruct (v3div _ _); cbn [bind]; try exact I; try reflexivity.
  Qed.
  Lemma surface_zero (s : surface T) u v : Surface_EvaluateAll s u v 0 0 = (q <- Surface_Evaluate s u v ;; Ok (Grid 1 1 [q])).
  Proof.
    symmetry. apply orel_eq. unfold Surface_EvaluateAll, Surface_HomogeneousDerivative, Surface_Evaluate.
    destruct (assert_ (ngeb u n0 && nleb u n1)); cbn [bind]; try exact I; try reflexivity.
    destruct (assert_ _); cbn [bind]; try exact I; try reflexivity.
    destruct (KnotVector_FindSpanIndex (KnotsU s) _ _) as [su| | | | |]; cbn [bind]; try exact I; try reflexivity.
    destruct (KnotVector_FindSpanIndex _ _ _) as [sv| | | | |]; cbn [bind]; try exact I; try reflexivity.
    destruct (Z_lt_le_dec (DegreeU s) 0) as [Lu|Lu].
    { destruct (basis_negative (DegreeU s) (KnotsU s) su u 0 Lu) as [e [B [E1 E2]]]. rewrite E1, E2, !B. apply orel_refl. }
    pose proof (basis_row0 (DegreeU s) (KnotsU s) su u Lu) as Rb.
    destruct (Basis_Evaluate (DegreeU s) _ _ _) as [l| | | | |], (Basis_EvaluateAll (DegreeU s) _ _ _ _) as [m| | | | |]; cbn [orel bind] in *; try contradiction; auto.
    destruct (Z_lt_le_dec (DegreeV s) 0) as [Lv|Lv].
    { destruct (basis_negative (DegreeV s) (KnotsV s) sv v 0 Lv) as [e [B [E1 E2]]]. rewrite E1, E2, !B. apply orel_refl. }
    pose proof (basis_row0 (DegreeV s) (KnotsV s) sv v Lv) as Rc.
    destruct (Basis_Evaluate (DegreeV s) _ _ _) as [l'| | | | |], (Basis_EvaluateAll (DegreeV s) _ _ _ _) as [m'| | | | |]; cbn [orel bind] in *; try contradiction; auto.
    destruct Rb as [Ll [[Mr [Mc [_ [_ _]]]] G]]. destruct Rc as [Ll' [[Mr' [Mc' [_ [_ _]]]] G']].
    rewrite Ll, Ll', Mc, Mc', !Z.eqb_refl. cbn [assert_ bind].
    change (Grid_make (0 + 1) (0 + 1) v4zero) with (Ok (Grid 1 1 [@v4zero T _])). cbn [bind]. rewrite !for_up_one.
    set (f := for_up 0 (DegreeV s + 1) _ v4zero). set (g := for_up 0 (DegreeV s + 1) _ (Grid 1 1 _)).
    assert (Rf : orel (fun r gr => gr = Grid 1 1 [r]) f g).
    { apply (orel_for (fun _ r gr => gr = Grid 1 1 [r])); [lia|reflexivity|].
      intros j r gr Hj ->.
      rewrite (for_up_ext 0 (DegreeU s + 1) (fun i tmp => p <- Grid_Get (Net s) (su - DegreeU s + i) (sv - DegreeV s + j) ;; b <- vget l i ;; Ok (v4add tmp (v4scale b (ToHomo p))))
        (fun i tmp => p <- Grid_Get (Net s) (su - DegreeU s + i) (sv - DegreeV s + j) ;; b <- mget m 0 i ;; Ok (v4add tmp (v4scale b (ToHomo p))))).
      2: { intros i t Hi. rewrite G by lia. reflexivity. }
      apply orel_same. intros tmp _. change (Grid_Get (Grid 1 1 [r]) 0 0) with (Ok r). cbn [bind]. rewrite <- G' by lia.
      apply orel_same. intros b _. reflexivity. }
    destruct f as [r| | | | |], g as [gr| | | | |]; cbn [orel bind] in *; try contradiction; auto.
    subst gr. change (Grid_make (0 + 1) (0 + 1) v3zero) with (Ok (Grid 1 1 [@v3zero T _])). change (Grid_Get (Grid 1 1 [r]) 0 0) with (Ok r). cbn [bind].
    rewrite !for_up_one. change (Grid_Get (Grid 1 1 [r]) 0 0) with (Ok r). cbn [bind].
    rewrite for_up_empty by lia. cbn [bind]. rewrite for_up_empty by lia. cbn [bind]. rewrite for_up_empty by lia. cbn [bind].
    destruct (v3div _ _); cbn [bind]; try exact I; try reflexivity.
  Qed.
End Generic.
