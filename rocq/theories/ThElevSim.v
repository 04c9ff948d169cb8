(** Degree elevation: which outcome a run has does not depend on the control points. *)
From Coq Require Import ZArith List Lia Bool.
From Verif Require Import Outcome Num ModelCore ModelAlgo SpecCore ThOutcome ThVec ThSafe.
Import ListNotations.
Open Scope Z_scope.

Section Sim.
  Context {T1 T2 : Type} `{Num T1} `{Num T2}.
  Let tot1 : Prop := total_division T1.
  Let tot2 : Prop := total_division T2.
  Hypothesis D1 : forall a b : T1, runs (ndiv a b) (fun _ => True) \/ ndiv a b = NotFinite /\ ~ tot1.
  Hypothesis D2 : forall a b : T2, runs (ndiv a b) (fun _ => True) \/ ndiv a b = NotFinite /\ ~ tot2.

  (** Two runs end the same way, with results related by [Q]; a run that leaves
      the numbers is related to anything. *)
  Inductive sim {A B : Type} (Q : A -> B -> Prop) : outcome A -> outcome B -> Prop :=
  | sim_ok a b : Q a b -> sim Q (Ok a) (Ok b)
  | sim_throw e : sim Q (Throw e) (Throw e)
  | sim_assert : sim Q AssertFail AssertFail
  | sim_ub u : sim Q (Undefined u) (Undefined u)
  | sim_fuel : sim Q OutOfFuel OutOfFuel
  | sim_left m : ~ tot1 -> sim Q NotFinite m
  | sim_right m : ~ tot2 -> sim Q m NotFinite.

  Lemma sim_bind {A B A' B'} (Q : A -> B -> Prop) (R : A' -> B' -> Prop) m m' f f' :
    sim Q m m' -> (forall a b, Q a b -> sim R (f a) (f' b)) -> sim R (bind m f) (bind m' f').
  Proof. intros [] Hf; cbn [bind]; try constructor; auto. Qed.
  Lemma sim_weak {A B} (Q R : A -> B -> Prop) m m' : (forall a b, Q a b -> R a b) -> sim Q m m' -> sim R m m'.
  Proof. intros HQ [] ; constructor; auto. Qed.
  Lemma sim_div a b a' b' : sim (fun _ _ => True) (ndiv a b : outcome T1) (ndiv a' b' : outcome T2).
  Proof.
    destruct (D1 a b) as [[x [-> _]]|[-> N]]; [|apply sim_left; exact N]. destruct (D2 a' b') as [[y [-> _]]|[-> N]]; [apply sim_ok; exact I|apply sim_right; exact N].
  Qed.
  Lemma F2_len {A B} (Q : A -> B -> Prop) l l' : Forall2 Q l l' -> len l = len l'.
  Proof. induction 1 as [|x y l l' _ _ IH]; [reflexivity|]. rewrite !len_cons, IH. reflexivity. Qed.
  Lemma sim_vget {A B} (Q : A -> B -> Prop) l l' i : Forall2 Q l l' -> sim Q (vget l i) (vget l' i).
  Proof.
    intros F. unfold vget. destruct (i <? 0); [constructor|]. generalize (Z.to_nat i). clear i. intros n. revert n. induction F as [|x y l l' Q1 F IH]; intros n.
    - destruct n; constructor.
    - destruct n as [|n]; cbn [nth_error]; [constructor; exact Q1|apply IH].
  Qed.
  Lemma update_F2 {A B} (Q : A -> B -> Prop) l l' x y : Forall2 Q l l' -> Q x y -> forall n, Forall2 Q (update n x l) (update n y l').
  Proof. intros F Qx. induction F as [|a b l l' Q1 F IH]; intros n; [destruct n; constructor|]. destruct n as [|n]; cbn [update]; constructor; auto. Qed.
  Lemma sim_vset {A B} (Q : A -> B -> Prop) l l' i x y : Forall2 Q l l' -> Q x y -> sim (Forall2 Q) (vset l i x) (vset l' i y).
  Proof. intros F Qx. unfold vset. rewrite (F2_len Q l l' F). destruct (_ && _); constructor. apply update_F2; assumption. Qed.
  Lemma repeat_F2 {A B} (Q : A -> B -> Prop) x y n : Q x y -> Forall2 Q (repeat x n) (repeat y n).
  Proof. intros Qx. induction n; cbn [repeat]; constructor; assumption. Qed.
  Lemma sim_vmake {A B} (Q : A -> B -> Prop) n x y : Q x y -> sim (Forall2 Q) (vmake n x) (vmake n y).
  Proof. intros Qx. unfold vmake. destruct (n <? 0); constructor. apply repeat_F2. exact Qx. Qed.
  Definition orel {A B} (o : option A) (o' : option B) : Prop := match o, o' with Some _, Some _ => True | None, None => True | _, _ => False end.
  Lemma sim_uninit {A B} n : sim (Forall2 orel) (uninit A n) (uninit B n).
  Proof. unfold uninit. destruct (n <? 0); constructor. apply repeat_F2. exact I. Qed.
  Definition any {A B} : A -> B -> Prop := fun _ _ => True.
  Lemma sim_ugets {A B} (l : list (option A)) (l' : list (option B)) i : Forall2 orel l l' -> sim any (ugets l i) (ugets l' i).
  Proof. intros F. unfold ugets. eapply sim_bind; [apply (sim_vget orel); exact F|]. intros [x|] [y|] O; try contradiction; constructor. exact I. Qed.
  Lemma sim_usets {A B} (l : list (option A)) (l' : list (option B)) i x y : Forall2 orel l l' -> sim (Forall2 orel) (usets l i x) (usets l' i y).
  Proof. intros F. apply sim_vset; [exact F|exact I]. Qed.
  Lemma sim_freeze {A B} (l : list (option A)) (l' : list (option B)) : Forall2 orel l l' -> sim (Forall2 any) (freeze l) (freeze l').
  Proof.
    induction 1 as [|o o' l l' O F IH]; cbn [freeze]; [constructor; constructor|]. destruct o as [x|], o' as [y|]; try contradiction; [|constructor].
    eapply sim_bind; [exact IH|]. intros a b Q. constructor. constructor; [exact I|exact Q].
  Qed.
  Lemma sim_vresize {A B} (Q : A -> B -> Prop) l l' n x y : Forall2 Q l l' -> Q x y -> sim (Forall2 Q) (vresize l n x) (vresize l' n y).
  Proof.
    intros F Qx. unfold vresize. destruct (n <? 0); constructor. rewrite (F2_len Q l l' F). apply Forall2_app; [|apply repeat_F2; exact Qx].
    generalize (Z.to_nat n). clear -F. induction F as [|a b l l' Q1 F IH]; intros [|k]; cbn [firstn]; constructor; auto.
  Qed.
  Lemma sim_mapM {A B A' B'} (Q : A -> B -> Prop) (R : A' -> B' -> Prop) f f' l l' : (forall a b, Q a b -> sim R (f a) (f' b)) -> Forall2 Q l l' ->
    sim (Forall2 R) (mapM f l) (mapM f' l').
  Proof.
    intros Hf. induction 1 as [|a b l l' Q1 F IH]; cbn [mapM]; [constructor; constructor|]. eapply sim_bind; [apply Hf; exact Q1|]. intros x y R1.
    eapply sim_bind; [exact IH|]. intros r r' R2. constructor. constructor; assumption.
  Qed.
  Lemma sim_loop {S S'} (Q : S -> S' -> Prop) body body' : (forall i s s', Q s s' -> sim Q (body i s) (body' i s')) ->
    forall n i s s', Q s s' -> sim Q (loop n i body s) (loop n i body' s').
  Proof.
    intros Hb. induction n as [|n IH]; intros i s s' Hs; cbn [loop]; [constructor; exact Hs|]. eapply sim_bind; [apply Hb; exact Hs|]. intros a b Q1. apply IH. exact Q1.
  Qed.
  Lemma sim_for {S S'} (Q : S -> S' -> Prop) lo hi body body' s s' : Q s s' -> (forall i s s', Q s s' -> sim Q (body i s) (body' i s')) ->
    sim Q (for_up lo hi body s) (for_up lo hi body' s').
  Proof. intros Hs Hb. unfold for_up. apply sim_loop; assumption. Qed.
  Lemma sim_loop_down {S S'} (Q : S -> S' -> Prop) body body' : (forall i s s', Q s s' -> sim Q (body i s) (body' i s')) ->
    forall n i s s', Q s s' -> sim Q (loop_down n i body s) (loop_down n i body' s').
  Proof.
    intros Hb. induction n as [|n IH]; intros i s s' Hs; cbn [loop_down]; [constructor; exact Hs|]. eapply sim_bind; [apply Hb; exact Hs|]. intros a b Q1. apply IH. exact Q1.
  Qed.
  Lemma sim_down {S S'} (Q : S -> S' -> Prop) hi lo body body' s s' : Q s s' -> (forall i s s', Q s s' -> sim Q (body i s) (body' i s')) ->
    sim Q (for_down hi lo body s) (for_down hi lo body' s').
  Proof. intros Hs Hb. unfold for_down. apply sim_loop_down; assumption. Qed.
  Lemma sim_while {S S'} (Q : S -> S' -> Prop) cond cond' body body' : (forall s s', Q s s' -> sim eq (cond s) (cond' s')) ->
    (forall s s', Q s s' -> sim Q (body s) (body' s')) -> forall n s s', Q s s' -> sim Q (while_ n cond body s) (while_ n cond' body' s').
  Proof.
    intros Hc Hb. induction n as [|n IH]; intros s s' Hs; cbn [while_]; (eapply sim_bind; [apply Hc; exact Hs|]); intros [|] ? <-; try (constructor; exact Hs).
    eapply sim_bind; [apply Hb; exact Hs|]. exact IH.
  Qed.
  Lemma sim_tabulate {A B} (Q : A -> B -> Prop) lo hi f f' : (forall i, sim Q (f i) (f' i)) -> sim (Forall2 Q) (tabulate lo hi f) (tabulate lo hi f').
  Proof.
    intros Hf. unfold tabulate. generalize (Z.to_nat (hi - lo)). intros n. revert lo. induction n as [|n IH]; intros lo; cbn [tabulate_nat]; [constructor; constructor|].
    eapply sim_bind; [apply Hf|]. intros a b Qa. eapply sim_bind; [apply IH|]. intros l l' F. constructor. constructor; assumption.
  Qed.
  Lemma sim_refl {A} (m : outcome A) (N : m <> NotFinite) : sim eq m m.
  Proof. destruct m; try (constructor; reflexivity). congruence. Qed.

  Lemma sim_v3div (a : vec3 T1) (b : vec3 T2) w w' : sim any (v3div a w) (v3div b w').
  Proof. unfold v3div. repeat (eapply sim_bind; [apply sim_div|intros ? ? _]). constructor. exact I. Qed.
  Lemma sim_FromHomo (a : vec4 T1) (b : vec4 T2) : sim any (FromHomo a) (FromHomo b).
  Proof. unfold FromHomo. eapply sim_bind; [apply sim_v3div|]. intros ? ? _. constructor. exact I. Qed.

  (** ** The knots *)
  Variable kr : T1 -> T2 -> Prop.
  Hypothesis K0 : kr n0 n0.
  Hypothesis KV : forall l l', Forall2 kr l l' -> ValidateKnots l = ValidateKnots l'.
  Variables (k1 : list T1) (k2 : list T2).
  Hypothesis KK : Forall2 kr k1 k2.
  Hypothesis KA : forall i a b a' b', vget k1 i = Ok a -> vget k1 (i + 1) = Ok b -> vget k2 i = Ok a' -> vget k2 (i + 1) = Ok b' ->
    Approx a b lit_1e_6 = Approx a' b' lit_1e_6.

  Local Notation same := (Forall2 any).
  Local Notation sameo := (Forall2 orel).
  Local Notation same2 := (Forall2 (Forall2 any)).
  Ltac sb t := eapply sim_bind; [t|].
  Lemma any_i {A B} (a : A) (b : B) : any a b. Proof. exact I. Qed.
  Hint Resolve any_i : core.

  Lemma sim_get2 (m : list (list T1)) (m' : list (list T2)) i j : same2 m m' -> sim any (get2 m i j) (get2 m' i j).
  Proof. intros F. unfold get2. sb ltac:(apply (sim_vget same); exact F). intros r r' Fr. apply sim_vget. exact Fr. Qed.
  Lemma sim_set2 (m : list (list T1)) (m' : list (list T2)) i j x y : same2 m m' -> sim same2 (set2 m i j x) (set2 m' i j y).
  Proof.
    intros F. unfold set2. sb ltac:(apply (sim_vget same); exact F). intros r r' Fr. sb ltac:(apply sim_vset; [exact Fr|exact I]). intros q q' Fq. apply sim_vset; assumption.
  Qed.
  Lemma Binomial_finite n k : Binomial n k <> NotFinite.
  Proof.
    unfold Binomial. destruct (k >? n); [discriminate|]. unfold for_up.
    assert (forall m i r, loop m i (fun i result => f <- int_ (n - i + 1) ;; prod <- int_ (result * f) ;; Ok (Z.quot prod i)) r <> NotFinite) as L; [|apply L].
    induction m as [|m IH]; intros i r; cbn [loop]; [discriminate|]. unfold int_. destruct (fits_int (n - i + 1)); cbn [bind]; [|discriminate].
    destruct (fits_int (r * (n - i + 1))); cbn [bind]; [|discriminate]. apply IH.
  Qed.
  Lemma sim_bezalfs p t : sim same2 (elevation_bezalfs (T := T1) p t) (elevation_bezalfs (T := T2) p t).
  Proof.
    unfold elevation_bezalfs. sb ltac:(apply (sim_vmake any); exact I). intros r r' Fr. sb ltac:(apply (sim_vmake same); exact Fr). intros m m' Fm.
    sb ltac:(apply sim_set2; exact Fm). clear m m' Fm. intros m m' Fm. sb ltac:(apply sim_set2; exact Fm). clear m m' Fm. intros m m' Fm.
    sb ltac:(apply (sim_for same2); [exact Fm|]).
    - intros i s s' Fs. sb ltac:(apply sim_refl; apply Binomial_finite). intros b ? <-. sb ltac:(apply sim_div). intros x y _. apply (sim_for same2); [exact Fs|].
      intros j u u' Fu. sb ltac:(apply sim_refl; apply Binomial_finite). intros c ? <-. sb ltac:(apply sim_refl; apply Binomial_finite). intros d ? <-. apply sim_set2. exact Fu.
    - clear m m' Fm. intros m m' Fm. apply (sim_for same2); [exact Fm|]. intros i s s' Fs. apply (sim_for same2); [exact Fs|].
      intros j u u' Fu. sb ltac:(apply sim_get2; exact Fu). intros e e' _. apply sim_set2. exact Fu.
  Qed.
  Lemma KA_sim i : sim eq (kb <- vget k1 i ;; kb1 <- vget k1 (i + 1) ;; Ok (Approx kb kb1 lit_1e_6)) (kb <- vget k2 i ;; kb1 <- vget k2 (i + 1) ;; Ok (Approx kb kb1 lit_1e_6)).
  Proof.
    pose proof (sim_vget kr k1 k2 i KK) as S1. pose proof (sim_vget kr k1 k2 (i + 1) KK) as S2. specialize (KA i).
    destruct S1; cbn [bind]; try (constructor; auto; fail). destruct S2; cbn [bind]; try (constructor; auto; fail).
  Qed.
  Lemma sim_scan m b : sim eq (elevation_scan k1 m b) (elevation_scan k2 m b).
  Proof.
    unfold elevation_scan. apply sim_while; [| |reflexivity].
    - intros s ? <-. destruct (s <? m); [apply KA_sim|constructor; reflexivity].
    - intros s ? <-. constructor. reflexivity.
  Qed.
  Definition prel {A A' B B'} (Q : A -> A' -> Prop) (R : B -> B' -> Prop) (x : A * B) (y : A' * B') : Prop := Q (fst x) (fst y) /\ R (snd x) (snd y).
  Lemma sim_insert p mul r a (ua ub : T1) (ua' ub' : T2) (bp : list (vec4 T1)) (bp' : list (vec4 T2)) (nb : list (option (vec4 T1))) (nb' : list (option (vec4 T2))) : same bp bp' -> sameo nb nb' ->
    sim (prel same sameo) (elevation_insert k1 p mul r a ua ub bp nb) (elevation_insert k2 p mul r a ua' ub' bp' nb').
  Proof.
    intros Fb Fn. unfold elevation_insert. destruct (r >? 0); [|constructor; split; assumption]. cbv zeta. sb ltac:(apply (sim_vmake any); exact I). intros al al' Fa.
    sb ltac:(apply (sim_down same); [exact Fa|]).
    - intros k s s' Fs. sb ltac:(apply (sim_vget kr); exact KK). intros ka ka' _. sb ltac:(apply sim_div). intros q q' _. apply sim_vset; [exact Fs|exact I].
    - clear al al' Fa. intros al al' Fa. apply (sim_for (prel same sameo)); [split; assumption|].
      intros j [b1 n1] [b2 n2] [F1 F2]. cbn [fst snd] in *. sb ltac:(apply (sim_down same); [exact F1|]).
      + intros k s s' Fs. sb ltac:(apply (sim_vget any); exact Fa). intros f f' _. sb ltac:(apply (sim_vget any); exact Fs). intros x x' _. sb ltac:(apply (sim_vget any); exact Fs).
        intros y y' _. apply sim_vset; [exact Fs|exact I].
      + intros c1 c2 Fc. sb ltac:(apply (sim_vget any); exact Fc). intros x x' _. sb ltac:(apply sim_usets; exact F2). intros m m' Fm. constructor. split; assumption.
  Qed.
  Lemma sim_bezier p t lbz (bz : list (list T1)) (bz' : list (list T2)) (bp : list (vec4 T1)) (bp' : list (vec4 T2)) (eb : list (option (vec4 T1))) (eb' : list (option (vec4 T2))) : same2 bz bz' -> same bp bp' -> sameo eb eb' ->
    sim sameo (elevation_bezier p t lbz bz bp eb) (elevation_bezier p t lbz bz' bp' eb').
  Proof.
    intros Fz Fb Fe. unfold elevation_bezier. apply (sim_for sameo); [exact Fe|]. intros i s s' Fs. sb ltac:(apply sim_usets; exact Fs). intros e e' F1. cbv zeta.
    apply (sim_for sameo); [exact F1|]. intros j u u' Fu. sb ltac:(apply sim_get2; exact Fz). intros c c' _. sb ltac:(apply (sim_vget any); exact Fb). intros x x' _.
    sb ltac:(apply sim_ugets; exact Fu). intros y y' _. apply sim_usets. exact Fu.
  Qed.
  Definition rel5 (x : Z * Z * Z * list (option (vec4 T1)) * list (option (vec4 T1))) (y : Z * Z * Z * list (option (vec4 T2)) * list (option (vec4 T2))) : Prop :=
    let '(i, j, k, Q, e) := x in let '(i', j', k', Q', e') := y in i = i' /\ j = j' /\ k = k' /\ sameo Q Q' /\ sameo e e'.
  Lemma sim_pass ph kind lbz cind oldr tr ua ub den bet Uh ua' ub' den' bet' Uh' st st' : Forall2 kr Uh Uh' -> rel5 st st' ->
    sim rel5 (elevation_remove_pass ph kind lbz cind oldr tr ua ub den bet Uh st) (elevation_remove_pass ph kind lbz cind oldr tr ua' ub' den' bet' Uh' st').
  Proof.
    intros FU R. unfold elevation_remove_pass. destruct st as [[[[i0 j0] kj0] Q0] e0], st' as [[[[i0' j0'] kj0'] Q0'] e0']. pose proof R as [E1 [E2 _]]. subst i0' j0'.
    apply (sim_while rel5); [| |exact R].
    - intros [[[[i j] k] Q] e] [[[[i' j'] k'] Q'] e'] [-> [-> _]]. constructor. reflexivity.
    - clear R i0 j0 kj0 Q0 e0 kj0' Q0' e0'. intros [[[[i j] k] Q] e] [[[[i' j'] k'] Q'] e'] [<- [<- [<- [FQ Fe]]]].
      sb ltac:(instantiate (1 := sameo)).
      + destruct (i <? cind); [|constructor; exact FQ]. sb ltac:(apply (sim_vget kr); exact FU). intros u u' _. sb ltac:(apply sim_div). intros al al' _.
        sb ltac:(apply sim_ugets; exact FQ). intros x x' _. sb ltac:(apply sim_ugets; exact FQ). intros y y' _. apply sim_usets. exact FQ.
      + clear FQ. intros q q' FQ. sb ltac:(instantiate (1 := sameo)).
        * destruct (lbz <=? j); [|constructor; exact Fe]. sb ltac:(instantiate (1 := any)).
          -- destruct (_ <=? _); [|constructor; exact I]. sb ltac:(apply (sim_vget kr); exact FU). intros u u' _. apply sim_div.
          -- intros g g' _. sb ltac:(apply sim_ugets; exact Fe). intros x x' _. sb ltac:(apply sim_ugets; exact Fe). intros y y' _. apply sim_usets. exact Fe.
        * clear Fe. intros f f' Fe. constructor. repeat split; assumption.
  Qed.
  Lemma sim_remove ph kind lbz cind oldr (ua ub : T1) Uh Qw eb (ua' ub' : T2) Uh' Qw' eb' : Forall2 kr Uh Uh' -> sameo Qw Qw' -> sameo eb eb' ->
    sim (prel sameo sameo) (elevation_remove ph kind lbz cind oldr ua ub Uh Qw eb) (elevation_remove ph kind lbz cind oldr ua' ub' Uh' Qw' eb').
  Proof.
    intros FU FQ Fe. unfold elevation_remove. destruct (oldr >? 1); [|constructor; split; assumption]. cbv zeta. sb ltac:(apply (sim_vget kr); exact FU). intros u u' _.
    sb ltac:(apply sim_div). intros bet bet' _.
    sb ltac:(apply (sim_for (fun (x : Z * Z * list (option (vec4 T1)) * list (option (vec4 T1))) (y : Z * Z * list (option (vec4 T2)) * list (option (vec4 T2))) =>
      let '(i, j, Q, e) := x in let '(i', j', Q', e') := y in i = i' /\ j = j' /\ sameo Q Q' /\ sameo e e'))).
    - repeat split; assumption.
    - intros tr [[[i j] Q] e] [[[i' j'] Q'] e'] [<- [<- [F1 F2]]]. sb ltac:(apply sim_pass; [exact FU|]; repeat split; assumption).
      intros [[[[a b] c] Q1] e1] [[[[a' b'] c'] Q1'] e1'] [_ [_ [_ [F3 F4]]]]. constructor. repeat split; assumption.
    - intros [[[i j] Q] e] [[[i' j'] Q'] e'] [_ [_ [F1 F2]]]. constructor. split; assumption.
  Qed.
  Record erel (s : estate (T := T1)) (s' : estate (T := T2)) : Prop := {
    er_mh : es_mh s = es_mh s'; er_kind : es_kind s = es_kind s'; er_r : es_r s = es_r s'; er_a : es_a s = es_a s'; er_b : es_b s = es_b s'; er_cind : es_cind s = es_cind s';
    er_ua : kr (es_ua s) (es_ua s'); er_Qw : sameo (es_Qw s) (es_Qw s'); er_Uh : Forall2 kr (es_Uh s) (es_Uh s');
    er_bpts : same (es_bpts s) (es_bpts s'); er_nextbpts : sameo (es_nextbpts s) (es_nextbpts s'); er_ebpts : sameo (es_ebpts s) (es_ebpts s') }.
  Lemma sim_step pts pts' p t m bz bz' s s' : same pts pts' -> same2 bz bz' -> erel s s' ->
    sim erel (elevation_step k1 pts p t m bz s) (elevation_step k2 pts' p t m bz' s').
  Proof.
    intros Fp Fz R. destruct s as [mh kind r a b cind ua Qw Uh bp nb eb], s' as [mh' kind' r' a' b' cind' ua' Qw' Uh' bp' nb' eb'].
    destruct R as [E1 E2 E3 E4 E5 E6 Ku FQ FU Fb Fn Fe]. cbn [es_mh es_kind es_r es_a es_b es_cind es_ua es_Qw es_Uh es_bpts es_nextbpts es_ebpts] in *. subst mh' kind' r' a' b' cind'.
    unfold elevation_step. cbn [es_mh es_kind es_r es_a es_b es_cind es_ua es_Qw es_Uh es_bpts es_nextbpts es_ebpts]. cbv zeta.
    sb ltac:(apply sim_scan). intros b1 ? <-. sb ltac:(apply (sim_vget kr); exact KK). intros ub ub' Kb.
    sb ltac:(apply sim_insert; assumption). intros [bp1 nb1] [bp1' nb1'] [Fb1 Fn1]. cbn [fst snd] in *.
    sb ltac:(apply sim_bezier; eassumption). intros eb1 eb1' Fe1.
    sb ltac:(apply sim_remove; eassumption). intros [Qw1 eb2] [Qw1' eb2'] [FQ1 Fe2]. cbn [fst snd] in *.
    sb ltac:(instantiate (1 := prel (Forall2 kr) eq)).
    { destruct (negb (a =? p)); [|constructor; split; [exact FU|reflexivity]]. apply (sim_for (prel (Forall2 kr) eq)); [split; [exact FU|reflexivity]|].
      intros i [U k] [U' k'] [F1 F2]. cbn [fst snd] in *. subst k'. sb ltac:(apply sim_vset; [exact F1|exact Ku]). intros V V' FV. constructor. split; [exact FV|reflexivity]. }
    intros [Uh1 kind1] [Uh1' kind1'] [FU1 Ek]. cbn [fst snd] in *. subst kind1'.
    sb ltac:(apply (sim_for (prel sameo eq)); [split; [exact FQ1|reflexivity]|]).
    { intros j [Q c] [Q' c'] [F1 F2]. cbn [fst snd] in *. subst c'. sb ltac:(apply (sim_vget orel); exact Fe2). intros e e' Oe.
      sb ltac:(apply sim_vset; [exact F1|exact Oe]). intros V V' FV. constructor. split; [exact FV|reflexivity]. }
    intros [Qw2 cind2] [Qw2' cind2'] [FQ2 Ec]. cbn [fst snd] in *. subst cind2'.
    destruct (b1 <? m).
    - sb ltac:(apply (sim_for same); [exact Fb1|]).
      { intros j l l' Fl. sb ltac:(apply sim_ugets; exact Fn1). intros x x' _. apply sim_vset; [exact Fl|exact I]. }
      intros bp2 bp2' Fb2. sb ltac:(apply (sim_for same); [exact Fb2|]).
      { intros j l l' Fl. sb ltac:(apply (sim_vget any); exact Fp). intros x x' _. apply sim_vset; [exact Fl|exact I]. }
      intros bp3 bp3' Fb3. constructor. constructor; assumption || reflexivity.
    - sb ltac:(apply (sim_for (Forall2 kr)); [exact FU1|]).
      { intros i l l' Fl. apply sim_vset; [exact Fl|exact Kb]. }
      intros Uh2 Uh2' FU2. constructor. constructor; assumption || reflexivity.
  Qed.
  (** the result: same degree, related knots, same number of points *)
  Definition eres (x : Z * list T1 * list (vec4 T1)) (y : Z * list T2 * list (vec4 T2)) : Prop :=
    let '(d, k, q) := x in let '(d', k', q') := y in d = d' /\ Forall2 kr k k' /\ same q q'.
  Lemma sim_elevation pts pts' p t : len pts = len pts' -> sim eres (NurbsDegreeElevation k1 pts p t) (NurbsDegreeElevation k2 pts' p t).
  Proof.
    intros L. unfold NurbsDegreeElevation. destruct (1 <=? t); cbn [assert_ bind]; [|constructor]. cbv zeta. rewrite !len_map, L.
    assert (same (map ToHomo pts) (map ToHomo pts')) as Fp.
    { assert (length pts = length pts') as L' by (unfold len in L; lia). clear -L'. revert pts' L'. induction pts as [|x l IH]; intros [|y l'] E; try discriminate; cbn [map]; constructor; [exact I|].
      apply IH. cbn [length] in E. lia. }
    generalize dependent (map ToHomo pts'). generalize (map ToHomo pts). intros hs hs' Fp.
    sb ltac:(apply sim_bezalfs). intros bz bz' Fz. sb ltac:(apply (sim_vget kr); exact KK). intros ua ua' Ku. sb ltac:(apply sim_uninit). intros Q Q' FQ.
    sb ltac:(apply (sim_vget any); exact Fp). intros x x' _. sb ltac:(apply sim_usets; exact FQ). clear Q Q' FQ. intros Q Q' FQ.
    sb ltac:(apply (sim_vmake kr); exact K0). intros U U' FU. sb ltac:(apply (sim_for (Forall2 kr)); [exact FU|]).
    { intros i l l' Fl. apply sim_vset; [exact Fl|exact Ku]. }
    clear U U' FU. intros U U' FU. sb ltac:(apply (sim_tabulate any); intros i; apply sim_vget; exact Fp). intros bp bp' Fb. sb ltac:(apply sim_uninit). intros nb nb' Fn.
    sb ltac:(apply sim_uninit). intros eb eb' Fe. sb ltac:(apply (sim_while erel)).
    - intros s s' R. rewrite (er_b _ _ R). constructor. reflexivity.
    - intros s s' R. apply sim_step; eassumption.
    - constructor; cbn [es_mh es_kind es_r es_a es_b es_cind es_ua es_Qw es_Uh es_bpts es_nextbpts es_ebpts]; assumption || reflexivity.
    - intros s s' R. rewrite (er_mh _ _ R). sb ltac:(apply sim_vresize; [apply (er_Qw _ _ R)|exact I]). clear Q Q' FQ. intros Q Q' FQ.
      sb ltac:(apply sim_vresize; [apply (er_Uh _ _ R)|exact K0]). clear U U' FU. intros U U' FU. sb ltac:(apply sim_freeze; exact FQ). intros f f' Ff.
      sb ltac:(apply (sim_mapM any any); [intros u v _; apply sim_FromHomo|exact Ff]). intros g g' Fg. unfold KnotVector_make. rewrite (KV U U' FU).
      destruct (ValidateKnots U'); cbn [bind]; [|constructor]. constructor. split; [reflexivity|]. split; assumption.
  Qed.
End Sim.
