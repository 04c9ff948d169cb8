(** Degree elevation: a run with shorter buffers ends like the run with longer
    ones, or leaves its buffers. *)
From Coq Require Import ZArith List Lia Bool.
From Verif Require Import Outcome Num ModelCore ModelAlgo SpecCore ThOutcome ThVec.
Import ListNotations.
Open Scope Z_scope.

Section Pre.
  Context {T : Type} `{Num T}.
  (** when the longer run succeeds, the shorter one succeeds or is out of range *)
  Definition psim {A B : Type} (Q : A -> B -> Prop) (m : outcome A) (m' : outcome B) : Prop :=
    forall b, m' = Ok b -> m = Undefined OutOfBounds \/ exists a, m = Ok a /\ Q a b.
  Lemma psim_ok {A B} (Q : A -> B -> Prop) a b : Q a b -> psim Q (Ok a) (Ok b).
  Proof. intros Qa x E. injection E as <-. right. exists a. split; [reflexivity|exact Qa]. Qed.
  Lemma psim_refl {A} (m : outcome A) : psim eq m m.
  Proof. intros b E. right. exists b. split; [exact E|reflexivity]. Qed.
  Lemma psim_bind {A B A' B'} (Q : A -> B -> Prop) (R : A' -> B' -> Prop) m m' f f' :
    psim Q m m' -> (forall a b, Q a b -> psim R (f a) (f' b)) -> psim R (bind m f) (bind m' f').
  Proof.
    intros S Hf c E. destruct m' as [b| | | | |]; try discriminate. cbn [bind] in E. destruct (S b eq_refl) as [->|[a [-> Qa]]]; cbn [bind]; [left; reflexivity|].
    exact (Hf a b Qa c E).
  Qed.
  Lemma psim_weak {A B} (Q R : A -> B -> Prop) m m' : (forall a b, Q a b -> R a b) -> psim Q m m' -> psim R m m'.
  Proof. intros HQ S b E. destruct (S b E) as [L|[a [Ea Qa]]]; [left; exact L|right; exists a; split; [exact Ea|apply HQ; exact Qa]]. Qed.
  Lemma psim_loop {S S'} (Q : S -> S' -> Prop) body body' : (forall i s s', Q s s' -> psim Q (body i s) (body' i s')) ->
    forall n i s s', Q s s' -> psim Q (loop n i body s) (loop n i body' s').
  Proof. intros Hb. induction n as [|n IH]; intros i s s' Hs; cbn [loop]; [apply psim_ok; exact Hs|]. eapply psim_bind; [apply Hb; exact Hs|]. intros a b Q1. apply IH. exact Q1. Qed.
  Lemma psim_for {S S'} (Q : S -> S' -> Prop) lo hi body body' s s' : Q s s' -> (forall i s s', Q s s' -> psim Q (body i s) (body' i s')) ->
    psim Q (for_up lo hi body s) (for_up lo hi body' s').
  Proof. intros Hs Hb. unfold for_up. apply psim_loop; assumption. Qed.
  Lemma psim_while {S S'} (Q : S -> S' -> Prop) cond cond' body body' : (forall s s', Q s s' -> psim eq (cond s) (cond' s')) ->
    (forall s s', Q s s' -> psim Q (body s) (body' s')) -> forall n s s', Q s s' -> psim Q (while_ n cond body s) (while_ n cond' body' s').
  Proof.
    intros Hc Hb. induction n as [|n IH]; intros s s' Hs; cbn [while_]; (eapply psim_bind; [apply Hc; exact Hs|]); intros [|] ? <-; try (apply psim_ok; exact Hs); try discriminate.
    eapply psim_bind; [apply Hb; exact Hs|]. exact IH.
  Qed.
  (** [l], of length [n], is the beginning of [l'] *)
  Definition pf {A} (n : Z) (l l' : list A) : Prop := len l = n /\ exists e, l' = l ++ e.
  Lemma psim_vget {A} n (l l' : list A) i : pf n l l' -> psim eq (vget l i) (vget l' i).
  Proof.
    intros [_ [e ->]] b. unfold vget. destruct (i <? 0); [discriminate|]. destruct (nth_error l (Z.to_nat i)) as [x|] eqn:E.
    - assert (nth_error (l ++ e) (Z.to_nat i) = Some x) as -> by (rewrite nth_error_app1; [exact E|apply nth_error_Some; congruence]). intros Eb. right. exists x. split; [reflexivity|congruence].
    - intros _. left. reflexivity.
  Qed.
  Lemma update_app {A} (l e : list A) x : forall k, (k < length l)%nat -> update k x (l ++ e) = update k x l ++ e.
  Proof. induction l as [|y l IH]; intros [|k] Hk; cbn [length app update] in *; try lia; [reflexivity|]. rewrite IH by lia. reflexivity. Qed.
  Lemma len_update {A} (x : A) : forall l k, len (update k x l) = len l.
  Proof. intros l k. unfold len. f_equal. revert k. induction l as [|y l IH]; intros [|k]; cbn [update length]; auto. Qed.
  Lemma psim_vset {A} n (l l' : list A) i x : pf n l l' -> psim (fun a b => pf n a b /\ i < n) (vset l i x) (vset l' i x).
  Proof.
    intros [L [e ->]] b. unfold vset. rewrite len_app. destruct (Z.leb_spec 0 i), (Z.ltb_spec i (len l)), (Z.ltb_spec i (len l + len e)); cbn [andb]; intros E; try discriminate; try (left; reflexivity).
    - right. injection E as <-. eexists. split; [reflexivity|]. split; [|lia]. split; [rewrite len_update; exact L|]. exists e. apply update_app. unfold len in *. lia.
  Qed.
  Lemma psim_ugets {A} n (l l' : list (option A)) i : pf n l l' -> psim eq (ugets l i) (ugets l' i).
  Proof. intros F. unfold ugets. eapply psim_bind; [apply (psim_vget n); exact F|]. intros o ? <-. apply psim_refl. Qed.
  Lemma psim_usets {A} n (l l' : list (option A)) i x : pf n l l' -> psim (pf n) (usets l i x) (usets l' i x).
  Proof. intros F. unfold usets. eapply psim_weak; [|apply psim_vset; exact F]. intros a b [P _]. exact P. Qed.

  Ltac pb tac := eapply psim_bind; [tac|].
  Variables nQ nU : Z.
  Lemma psim_pass ph kind lbz cind oldr tr (ua ub den bet : T) Uh Uh' i j kj Qw Qw' eb : pf nU Uh Uh' -> pf nQ Qw Qw' ->
    psim (fun x y => let '(i, j, k, Q, e) := x in let '(i', j', k', Q', e') := y in i = i' /\ j = j' /\ k = k' /\ pf nQ Q Q' /\ e = e')
      (elevation_remove_pass ph kind lbz cind oldr tr ua ub den bet Uh (i, j, kj, Qw, eb)) (elevation_remove_pass ph kind lbz cind oldr tr ua ub den bet Uh' (i, j, kj, Qw', eb)).
  Proof.
    intros FU FQ. unfold elevation_remove_pass. apply psim_while; [| |repeat split; apply FQ].
    - intros [[[[i1 j1] k1] Q1] e1] [[[[i2 j2] k2] Q2] e2] [<- [<- _]]. apply psim_refl.
    - intros [[[[i1 j1] k1] Q1] e1] [[[[i2 j2] k2] Q2] e2] [<- [<- [<- [F1 <-]]]]. pb ltac:(instantiate (1 := pf nQ)).
      { destruct (i1 <? cind); [|apply psim_ok; exact F1]. pb ltac:(apply (psim_vget nU); exact FU). intros ui ? <-. pb ltac:(apply psim_refl). intros al ? <-.
        pb ltac:(apply (psim_ugets nQ); exact F1). intros q ? <-. pb ltac:(apply (psim_ugets nQ); exact F1). intros q1 ? <-. apply psim_usets. exact F1. }
      intros Q3 Q4 F3. pb ltac:(instantiate (1 := eq)).
      { destruct (lbz <=? j1); [|apply psim_refl]. pb ltac:(instantiate (1 := eq)).
        { destruct (j1 - tr <=? kind - ph + oldr); [|apply psim_refl]. pb ltac:(apply (psim_vget nU); exact FU). intros uj ? <-. apply psim_refl. }
        intros g ? <-. apply psim_refl. }
      intros e3 ? <-. apply psim_ok. repeat split; apply F3.
  Qed.
  Lemma psim_remove ph kind lbz cind oldr (ua ub : T) Uh Uh' Qw Qw' eb : pf nU Uh Uh' -> pf nQ Qw Qw' ->
    psim (fun x y => pf nQ (fst x) (fst y) /\ snd x = snd y) (elevation_remove ph kind lbz cind oldr ua ub Uh Qw eb) (elevation_remove ph kind lbz cind oldr ua ub Uh' Qw' eb).
  Proof.
    intros FU FQ. unfold elevation_remove. destruct (oldr >? 1); [|apply psim_ok; split; [exact FQ|reflexivity]]. cbv zeta.
    pb ltac:(apply (psim_vget nU); exact FU). intros uk ? <-. pb ltac:(apply psim_refl). intros bet ? <-.
    pb ltac:(apply (psim_for (fun x y : Z * Z * list (option (vec4 T)) * list (option (vec4 T)) => let '(i, j, Q, e) := x in let '(i', j', Q', e') := y in i = i' /\ j = j' /\ pf nQ Q Q' /\ e = e'))).
    - repeat split; apply FQ.
    - intros tr [[[i1 j1] Q1] e1] [[[i2 j2] Q2] e2] [<- [<- [F1 <-]]]. pb ltac:(apply psim_pass; [exact FU|exact F1]).
      intros [[[[a1 b1] c1] Q3] e3] [[[[a2 b2] c2] Q4] e4] [_ [_ [_ [F3 <-]]]]. apply psim_ok. repeat split; apply F3.
    - intros [[[i1 j1] Q1] e1] [[[i2 j2] Q2] e2] [_ [_ [F1 <-]]]. apply psim_ok. split; [exact F1|reflexivity].
  Qed.
  Record prel (s s' : estate (T := T)) : Prop := {
    pr_mh : es_mh s = es_mh s'; pr_kind : es_kind s = es_kind s'; pr_r : es_r s = es_r s'; pr_a : es_a s = es_a s'; pr_b : es_b s = es_b s'; pr_cind : es_cind s = es_cind s';
    pr_ua : es_ua s = es_ua s'; pr_Qw : pf nQ (es_Qw s) (es_Qw s'); pr_Uh : pf nU (es_Uh s) (es_Uh s');
    pr_bpts : es_bpts s = es_bpts s'; pr_nextbpts : es_nextbpts s = es_nextbpts s'; pr_ebpts : es_ebpts s = es_ebpts s'; pr_le : es_cind s <= nQ }.
  Lemma psim_step knots pts p t m bz s s' : prel s s' -> psim prel (elevation_step knots pts p t m bz s) (elevation_step knots pts p t m bz s').
  Proof.
    intros R. destruct s as [mh kind r a b cind ua Qw Uh bp nb eb], s' as [mh' kind' r' a' b' cind' ua' Qw' Uh' bp' nb' eb'].
    destruct R as [E1 E2 E3 E4 E5 E6 E7 FQ FU E8 E9 E10 Le]. cbn [es_mh es_kind es_r es_a es_b es_cind es_ua es_Qw es_Uh es_bpts es_nextbpts es_ebpts] in *. subst mh' kind' r' a' b' cind' ua' bp' nb' eb'.
    unfold elevation_step. cbn [es_mh es_kind es_r es_a es_b es_cind es_ua es_Qw es_Uh es_bpts es_nextbpts es_ebpts]. cbv zeta.
    pb ltac:(apply psim_refl). intros b1 ? <-. pb ltac:(apply psim_refl). intros ub ? <-. pb ltac:(apply psim_refl). intros [bp1 nb1] ? <-. pb ltac:(apply psim_refl). intros eb1 ? <-.
    pb ltac:(apply psim_remove; eassumption). intros [Qw1 eb2] [Qw1' eb2'] [FQ1 Ee]. cbn [fst snd] in *. subst eb2'.
    pb ltac:(instantiate (1 := fun x y => pf nU (fst x) (fst y) /\ snd x = snd y)).
    { destruct (negb (a =? p)); [|apply psim_ok; split; [exact FU|reflexivity]]. apply (psim_for (fun x y => pf nU (fst x) (fst y) /\ snd x = snd y)); [split; [exact FU|reflexivity]|].
      intros i [U k] [U' k'] [F1 F2]. cbn [fst snd] in *. subst k'. pb ltac:(apply psim_vset; exact F1). intros V V' [FV _]. apply psim_ok. split; [exact FV|reflexivity]. }
    intros [Uh1 kind1] [Uh1' kind1'] [FU1 Ek]. cbn [fst snd] in *. subst kind1'.
    pb ltac:(apply (psim_for (fun x y => pf nQ (fst x) (fst y) /\ snd x = snd y /\ snd x <= nQ)); [split; [exact FQ1|split; [reflexivity|exact Le]]|]).
    { intros j [Q c] [Q' c'] [F1 [F2 F3]]. cbn [fst snd] in *. subst c'. pb ltac:(apply psim_refl). intros e ? <-.
      pb ltac:(apply psim_vset; exact F1). intros V V' [FV Lc]. apply psim_ok. split; [exact FV|]. cbn [snd]. split; [reflexivity|lia]. }
    intros [Qw2 cind2] [Qw2' cind2'] [FQ2 [Ec Lc]]. cbn [fst snd] in *. subst cind2'.
    destruct (b1 <? m).
    - pb ltac:(apply psim_refl). intros bp2 ? <-. pb ltac:(apply psim_refl). intros bp3 ? <-. apply psim_ok. constructor; assumption || reflexivity.
    - pb ltac:(apply (psim_for (pf nU)); [exact FU1|]).
      { intros i l l' Fl. eapply psim_weak; [|apply psim_vset; exact Fl]. intros u v [F _]. exact F. }
      intros Uh2 Uh2' FU2. apply psim_ok. constructor; assumption || reflexivity.
  Qed.
End Pre.
