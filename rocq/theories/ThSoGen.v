(** Runs on two objects whose points are related by a relation closed under the vector operations:
    evaluation, refinement, elevation and extraction (C107-C109). *)
From Coq Require Import ZArith List Lia Bool.
From Verif Require Import Outcome Num ModelCore ModelBasis ModelAlgo ModelCurve ModelSurface SpecMove ThOutcome ThVec ThSo.
Import ListNotations.
Open Scope Z_scope.

Section Gen.
  Context {T : Type} `{Num T}.
  (** [hr]: homogeneous points; [cr]: control points; [vr]: points of space *)
  Variables (hr cr : vec4 T -> vec4 T -> Prop) (vr : vec3 T -> vec3 T -> Prop).
  Hypothesis H0 : hr v4zero v4zero.
  Hypothesis HA : forall a b a' b', hr a a' -> hr b b' -> hr (v4add a b) (v4add a' b').
  Hypothesis HS : forall s a a', hr a a' -> hr (v4scale s a) (v4scale s a').
  Hypothesis HT : forall p q, cr p q -> hr (ToHomo p) (ToHomo q).
  Hypothesis HF : forall p q, hr p q -> so cr (FromHomo p) (FromHomo q).
  Hypothesis HD : forall p q, hr p q -> so vr (v3div (head3 p) (w4 p)) (v3div (head3 q) (w4 q)).
  Hypothesis C0 : cr v4zero v4zero.
  Let Hl := Forall2 hr.
  Let Ho := Forall2 (ro hr).
  Let Cl := Forall2 cr.
  Lemma HB s t a b a' b' : hr a a' -> hr b b' -> hr (v4add (v4scale s a) (v4scale t b)) (v4add (v4scale s a') (v4scale t b')).
  Proof. intros. apply HA; apply HS; assumption. Qed.
  Lemma homos l l' : Cl l l' -> Hl (map ToHomo l) (map ToHomo l').
  Proof. apply F2_map. exact HT. Qed.

  (** one step of two runs *)
  Local Ltac sb tac := eapply so_bind; [tac|].
  Local Ltac here := apply so_same; intros ?.

  Lemma so_Curve_Evaluate c d x : curve_by cr c d -> so vr (Curve_Evaluate c x) (Curve_Evaluate d x).
  Proof.
    intros [E1 [E2 F]]. unfold Curve_Evaluate. rewrite <- E1, <- E2. repeat here. sb ltac:(apply (so_for hr); [exact H0|]).
    - intros i s s' Hs. sb ltac:(apply (so_vget cr); exact F). intros p q Cp. here. apply HA; [exact Hs|]. apply HS. apply HT. exact Cp.
    - exact HD.
  Qed.
  Lemma so_Curve_Homogeneous c d x n : curve_by cr c d -> so Hl (Curve_HomogeneousDerivative c x n) (Curve_HomogeneousDerivative d x n).
  Proof.
    intros [E1 [E2 F]]. unfold Curve_HomogeneousDerivative. rewrite <- E1, <- E2. do 5 here. apply so_tabulate. intros k. apply (so_for hr); [exact H0|].
    intros i s s' Hs. sb ltac:(apply (so_vget cr); exact F). intros p q Cp. here. apply HA; [exact Hs|]. apply HS. apply HT. exact Cp.
  Qed.
  Lemma so_Surface_Evaluate s t u v : surface_by cr s t -> so vr (Surface_Evaluate s u v) (Surface_Evaluate t u v).
  Proof.
    intros [E1 [E2 [E3 [E4 G]]]]. unfold Surface_Evaluate. rewrite <- E1, <- E2, <- E3, <- E4. do 8 here. cbv zeta. sb ltac:(apply (so_for hr); [exact H0|]).
    - intros j r r' Hr. sb ltac:(apply (so_for hr); [exact H0|]).
      + intros i w w' Hw. sb ltac:(apply (so_Grid_Get cr); exact G). intros p q Cp. here. apply HA; [exact Hw|]. apply HS. apply HT. exact Cp.
      + intros w w' Hw. here. apply HA; [exact Hr|]. apply HS. exact Hw.
    - exact HD.
  Qed.
  Lemma so_Surface_Homogeneous s t u v m n : surface_by cr s t -> so (grid_by hr) (Surface_HomogeneousDerivative s u v m n) (Surface_HomogeneousDerivative t u v m n).
  Proof.
    intros [E1 [E2 [E3 [E4 G]]]]. unfold Surface_HomogeneousDerivative. rewrite <- E1, <- E2, <- E3, <- E4. do 8 here. cbv zeta.
    sb ltac:(apply (so_Grid_make hr); exact H0). intros r r' Gr. apply (so_for (grid_by hr)); [exact Gr|]. clear r r' Gr. intros l r r' Gr.
    apply (so_for (grid_by hr)); [exact Gr|]. clear r r' Gr. intros k r r' Gr. apply (so_for (grid_by hr)); [exact Gr|]. clear r r' Gr. intros j r r' Gr.
    sb ltac:(apply (so_for hr); [exact H0|]).
    - intros i w w' Hw. sb ltac:(apply (so_Grid_Get cr); exact G). intros p q Cp. here. apply HA; [exact Hw|]. apply HS. apply HT. exact Cp.
    - intros w w' Hw. sb ltac:(apply (so_Grid_Get hr); exact Gr). intros o o' Oo. here. apply so_Grid_Set; [exact Gr|]. apply HA; [exact Oo|]. apply HS. exact Hw.
  Qed.

  (** ** Knot insertion *)
  Lemma so_InsertKnot c d u : curve_by cr c d -> so (curve_by cr) (Curve_InsertKnot c u) (Curve_InsertKnot d u).
  Proof.
    intros [E1 [E2 F]]. unfold Curve_InsertKnot. rewrite <- E1, <- E2. apply so_same. intros [nk k].
    sb ltac:(apply (so_vinsert cr); [exact F|exact C0]). intros l l' Fl. cbv zeta. sb ltac:(apply (so_for Cl); [exact Fl|]).
    - clear l l' Fl. intros i l l' Fl. do 3 here. sb ltac:(apply (so_vget cr); exact F). intros p p' Cp. sb ltac:(apply (so_vget cr); exact F). intros q q' Cq.
      sb ltac:(apply HF; apply HB; apply HT; assumption). intros r r' Cr. apply so_vset; assumption.
    - intros m m' Fm. split; [reflexivity|]. split; [reflexivity|exact Fm].
  Qed.
  Lemma so_insert_one deg st st' u : rp eq Cl st st' -> so (rp eq Cl) (insert_one deg st u) (insert_one deg st' u).
  Proof.
    destruct st as [kn l], st' as [kn' l']. intros [E F]. cbn [fst snd] in *. subst kn'. unfold insert_one. here.
    sb ltac:(apply (so_vget cr); exact F). intros p p' Cp. sb ltac:(apply (so_vinsert cr); [exact F|exact Cp]). clear l l' F. intros l l' F.
    sb ltac:(apply (so_vget cr); exact F). intros q q' Cq. sb ltac:(apply (so_for (rp Cl hr)); [split; [exact F|apply HT; exact Cq]|]).
    - clear l l' F. intros i [l h] [l' h'] [F Hh]. cbn [fst snd] in *. do 3 here. sb ltac:(apply (so_vget cr); exact F). intros x x' Cx. cbv zeta.
      sb ltac:(apply HF; apply HB; [apply HT; exact Cx|exact Hh]). intros y y' Cy. sb ltac:(apply so_vset; eassumption). intros m m' Fm. split; [exact Fm|apply HT; exact Cx].
    - clear l l' F. intros [l h] [l' h'] [F Hh]. cbn [fst snd] in *. here. split; [reflexivity|exact F].
  Qed.
  Lemma so_InsertKnot_list c d us : curve_by cr c d -> so (curve_by cr) (Curve_InsertKnot_list c us) (Curve_InsertKnot_list d us).
  Proof.
    intros [E1 [E2 F]]. unfold Curve_InsertKnot_list. rewrite <- E1. sb ltac:(apply (so_foldM (rp eq Cl)); [intros x s s' R; apply so_insert_one; exact R|split; [exact E2|exact F]]).
    intros [k l] [k' l'] [Ek Fl]. cbn [fst snd] in *. subst k'. split; [reflexivity|]. split; [reflexivity|exact Fl].
  Qed.
  Lemma so_InsertKnot_times c d u n : curve_by cr c d -> so (curve_by cr) (Curve_InsertKnot_times c u n) (Curve_InsertKnot_times d u n).
  Proof. intros R. unfold Curve_InsertKnot_times. here. apply so_InsertKnot_list. exact R. Qed.

  Lemma so_InsertKnotU junk junk' s t u : cr junk junk' -> surface_by cr s t -> so (surface_by cr) (Surface_InsertKnotU junk s u) (Surface_InsertKnotU junk' t u).
  Proof.
    intros Cj [E1 [E2 [E3 [E4 G]]]]. unfold Surface_InsertKnotU. rewrite <- E1, <- E2, <- E3, <- E4. apply so_same. intros [nk k].
    sb ltac:(apply (so_Grid_InsertU cr); [exact Cj|exact G|exact C0]). intros g h Gg. cbv zeta. here. pose proof Gg as [_ [EV _]]. rewrite <- EV.
    sb ltac:(apply (so_for (grid_by cr)); [exact Gg|]).
    - clear g h Gg EV. intros j g h Gg. apply (so_for (grid_by cr)); [exact Gg|]. clear g h Gg. intros i g h Gg.
      sb ltac:(apply (so_Grid_Get cr); exact G). intros p p' Cp. sb ltac:(apply (so_Grid_Get cr); exact G). intros q q' Cq. here.
      sb ltac:(apply HF; apply HB; apply HT; assumption). intros r r' Cr. apply so_Grid_Set; assumption.
    - intros m m' Gm. repeat split; try reflexivity; apply Gm.
  Qed.
  Lemma so_InsertKnotV s t u : surface_by cr s t -> so (surface_by cr) (Surface_InsertKnotV s u) (Surface_InsertKnotV t u).
  Proof.
    intros [E1 [E2 [E3 [E4 G]]]]. unfold Surface_InsertKnotV. rewrite <- E1, <- E2, <- E3, <- E4. apply so_same. intros [nk k].
    sb ltac:(apply (so_Grid_InsertV cr); [exact G|exact C0]). intros g h Gg. cbv zeta. here. pose proof Gg as [EU _]. rewrite <- EU.
    sb ltac:(apply (so_for (grid_by cr)); [exact Gg|]).
    - clear g h Gg EU. intros j g h Gg. apply (so_for (grid_by cr)); [exact Gg|]. clear g h Gg. intros i g h Gg.
      sb ltac:(apply (so_Grid_Get cr); exact G). intros p p' Cp. sb ltac:(apply (so_Grid_Get cr); exact G). intros q q' Cq. here.
      sb ltac:(apply HF; apply HB; apply HT; assumption). intros r r' Cr. apply so_Grid_Set; assumption.
    - intros m m' Gm. repeat split; try reflexivity; apply Gm.
  Qed.
  Lemma so_InsertKnotU_list junk junk' s t us : cr junk junk' -> surface_by cr s t -> so (surface_by cr) (Surface_InsertKnotU_list junk s us) (Surface_InsertKnotU_list junk' t us).
  Proof. intros Cj R. unfold Surface_InsertKnotU_list. apply (so_foldM (surface_by cr)); [|exact R]. intros x a b R'. apply so_InsertKnotU; assumption. Qed.
  Lemma so_InsertKnotV_list s t us : surface_by cr s t -> so (surface_by cr) (Surface_InsertKnotV_list s us) (Surface_InsertKnotV_list t us).
  Proof. intros R. unfold Surface_InsertKnotV_list. apply (so_foldM (surface_by cr)); [|exact R]. intros x a b R'. apply so_InsertKnotV; assumption. Qed.
  Lemma so_InsertKnotU_times junk junk' s t u n : cr junk junk' -> surface_by cr s t -> so (surface_by cr) (Surface_InsertKnotU_times junk s u n) (Surface_InsertKnotU_times junk' t u n).
  Proof. intros Cj R. unfold Surface_InsertKnotU_times. here. apply so_InsertKnotU_list; assumption. Qed.
  Lemma so_InsertKnotV_times s t u n : surface_by cr s t -> so (surface_by cr) (Surface_InsertKnotV_times s u n) (Surface_InsertKnotV_times t u n).
  Proof. intros R. unfold Surface_InsertKnotV_times. here. apply so_InsertKnotV_list; assumption. Qed.

  (** ** Bezier extraction *)
  Lemma so_extract_refine deg b b' it : curve_by cr b b' -> so (curve_by cr) (extract_refine deg b it) (extract_refine deg b' it).
  Proof. intros R. unfold extract_refine. cbv zeta. apply so_if; [exact R|]. apply so_if; [exact R|]. apply so_InsertKnot_times. exact R. Qed.
  Lemma so_extract_cut n : forall p l l' i, Cl l l' -> so (Forall2 (curve_by cr)) (extract_cut n p l i) (extract_cut n p l' i).
  Proof.
    induction n as [|n IH]; intros p l l' i F; cbn [extract_cut]; rewrite (F2_len cr l l' F); (apply so_if; [|constructor]); [exact I|].
    here. sb ltac:(apply (so_tabulate cr); intros k; apply so_vget; exact F). intros q q' Fq. sb ltac:(apply IH; exact F). intros r r' Fr. constructor; [|exact Fr].
    split; [reflexivity|]. split; [reflexivity|exact Fq].
  Qed.
  Lemma so_ExtractBezier c d : curve_by cr c d -> so (Forall2 (curve_by cr)) (Curve_ExtractBezier c) (Curve_ExtractBezier d).
  Proof.
    intros R. pose proof R as [E1 [E2 F]]. unfold Curve_ExtractBezier. rewrite <- E1, <- E2.
    sb ltac:(apply (so_foldM (curve_by cr)); [intros x s s' R'; apply so_extract_refine; exact R'|exact R]).
    intros a b [E3 [E4 F']]. rewrite <- E3. pose proof (F2_len cr _ _ F') as L. unfold len in L. apply Nat2Z.inj in L. rewrite <- L. apply so_extract_cut. exact F'.
  Qed.

  (** ** Degree elevation *)
  Lemma so_el_insert kn p mul r a ua ub bp bp' nb nb' : Hl bp bp' -> Ho nb nb' -> so (rp Hl Ho) (elevation_insert kn p mul r a ua ub bp nb) (elevation_insert kn p mul r a ua ub bp' nb').
  Proof.
    intros F1 F2. unfold elevation_insert. apply so_if; [|split; assumption]. cbv zeta. here. here. apply (so_for (rp Hl Ho)); [split; assumption|].
    clear bp bp' nb nb' F1 F2. intros j [bp nb] [bp' nb'] [F1 F2]. cbn [fst snd] in *. sb ltac:(apply (so_down Hl); [exact F1|]).
    - intros i l l' Fl. here. sb ltac:(apply (so_vget hr); exact Fl). intros x x' Hx. sb ltac:(apply (so_vget hr); exact Fl). intros y y' Hy. apply so_vset; [exact Fl|]. apply HB; assumption.
    - intros l l' Fl. sb ltac:(apply (so_vget hr); exact Fl). intros x x' Hx. sb ltac:(apply so_usets; eassumption). intros m m' Fm. split; assumption.
  Qed.
  Lemma so_el_bezier p t lbz bz bp bp' eb eb' : Hl bp bp' -> Ho eb eb' -> so Ho (elevation_bezier p t lbz bz bp eb) (elevation_bezier p t lbz bz bp' eb').
  Proof.
    intros Fb Fe. unfold elevation_bezier. cbv zeta. apply (so_for Ho); [exact Fe|]. intros i s s' Fs. sb ltac:(apply so_usets; [exact Fs|exact H0]). intros e e' F1.
    apply (so_for Ho); [exact F1|]. intros j u u' Fu. here. sb ltac:(apply (so_vget hr); exact Fb). intros x x' Hx. sb ltac:(apply (so_ugets hr); exact Fu). intros y y' Hy.
    apply so_usets; [exact Fu|]. apply HA; [exact Hy|]. apply HS. exact Hx.
  Qed.
  Definition el5 (x y : Z * Z * Z * list (option (vec4 T)) * list (option (vec4 T))) : Prop :=
    let '(i, j, k, Q, e) := x in let '(i', j', k', Q', e') := y in i = i' /\ j = j' /\ k = k' /\ Ho Q Q' /\ Ho e e'.
  Lemma so_el_pass ph kind lbz cind oldr tr ua ub den bet Uh st st' : el5 st st' ->
    so el5 (elevation_remove_pass ph kind lbz cind oldr tr ua ub den bet Uh st) (elevation_remove_pass ph kind lbz cind oldr tr ua ub den bet Uh st').
  Proof.
    intros R. unfold elevation_remove_pass. destruct st as [[[[i0 j0] kj0] Q0] e0], st' as [[[[i0' j0'] kj0'] Q0'] e0']. pose proof R as [E1 [E2 _]]. subst i0' j0'.
    apply (so_while el5); [| |exact R].
    - intros [[[[i j] k] Q] e] [[[[i' j'] k'] Q'] e'] [-> [-> _]]. reflexivity.
    - clear R i0 j0 kj0 Q0 e0 kj0' Q0' e0'. intros [[[[i j] k] Q] e] [[[[i' j'] k'] Q'] e'] [<- [<- [<- [FQ Fe]]]].
      eapply (so_bind Ho).
      + apply so_if; [|exact FQ]. do 2 here. sb ltac:(apply (so_ugets hr); exact FQ). intros x x' Hx. sb ltac:(apply (so_ugets hr); exact FQ). intros y y' Hy.
        apply so_usets; [exact FQ|]. apply HB; assumption.
      + clear Q Q' FQ. intros Q Q' FQ. eapply (so_bind Ho).
        * apply so_if; [|exact Fe]. here. sb ltac:(apply (so_ugets hr); exact Fe). intros x x' Hx. sb ltac:(apply (so_ugets hr); exact Fe). intros y y' Hy.
          apply so_usets; [exact Fe|]. apply HB; assumption.
        * clear e e' Fe. intros e e' Fe. repeat split; assumption.
  Qed.
  Lemma so_el_remove ph kind lbz cind oldr ua ub Uh Qw eb Qw' eb' : Ho Qw Qw' -> Ho eb eb' ->
    so (rp Ho Ho) (elevation_remove ph kind lbz cind oldr ua ub Uh Qw eb) (elevation_remove ph kind lbz cind oldr ua ub Uh Qw' eb').
  Proof.
    intros FQ Fe. unfold elevation_remove. apply so_if; [|split; assumption]. cbv zeta. do 2 here.
    sb ltac:(apply (so_for (fun x y : Z * Z * list (option (vec4 T)) * list (option (vec4 T)) =>
      let '(i, j, Q, e) := x in let '(i', j', Q', e') := y in i = i' /\ j = j' /\ Ho Q Q' /\ Ho e e'))).
    - repeat split; assumption.
    - intros tr [[[i j] Q] e] [[[i' j'] Q'] e'] [<- [<- [F1 F2]]]. sb ltac:(apply so_el_pass; repeat split; assumption).
      intros [[[[a1 b1] c1] Q1] e1] [[[[a1' b1'] c1'] Q1'] e1'] [_ [_ [_ [F3 F4]]]]. repeat split; assumption.
    - intros [[[i j] Q] e] [[[i' j'] Q'] e'] [_ [_ [F1 F2]]]. split; assumption.
  Qed.
  Record elr (s s' : estate (T := T)) : Prop := {
    el_mh : es_mh s = es_mh s'; el_kind : es_kind s = es_kind s'; el_r : es_r s = es_r s'; el_a : es_a s = es_a s'; el_b : es_b s = es_b s'; el_cind : es_cind s = es_cind s';
    el_ua : es_ua s = es_ua s'; el_Qw : Ho (es_Qw s) (es_Qw s'); el_Uh : es_Uh s = es_Uh s';
    el_bpts : Hl (es_bpts s) (es_bpts s'); el_nextbpts : Ho (es_nextbpts s) (es_nextbpts s'); el_ebpts : Ho (es_ebpts s) (es_ebpts s') }.
  Lemma so_el_step kn pts pts' p t m bz s s' : Hl pts pts' -> elr s s' -> so elr (elevation_step kn pts p t m bz s) (elevation_step kn pts' p t m bz s').
  Proof.
    intros Fp R. destruct s as [mh kind r a b cind ua Qw Uh bp nb eb], s' as [mh' kind' r' a' b' cind' ua' Qw' Uh' bp' nb' eb'].
    destruct R as [E1 E2 E3 E4 E5 E6 E7 FQ E8 Fb Fn Fe]. cbn [es_mh es_kind es_r es_a es_b es_cind es_ua es_Qw es_Uh es_bpts es_nextbpts es_ebpts] in *. subst mh' kind' r' a' b' cind' ua' Uh'.
    unfold elevation_step. cbn [es_mh es_kind es_r es_a es_b es_cind es_ua es_Qw es_Uh es_bpts es_nextbpts es_ebpts]. cbv zeta.
    apply so_same. intros b1. apply so_same. intros ub. sb ltac:(apply so_el_insert; assumption). intros [bp1 nb1] [bp1' nb1'] [Fb1 Fn1]. cbn [fst snd] in *.
    sb ltac:(apply so_el_bezier; eassumption). intros eb1 eb1' Fe1. sb ltac:(apply so_el_remove; eassumption). intros [Qw1 eb2] [Qw1' eb2'] [FQ1 Fe2]. cbn [fst snd] in *.
    apply so_same. intros [Uh1 kind1]. sb ltac:(apply (so_for (rp Ho eq)); [split; [exact FQ1|reflexivity]|]).
    { intros j [Q c] [Q' c'] [F1 F2]. cbn [fst snd] in *. subst c'. sb ltac:(apply (so_vget (ro hr)); exact Fe2). intros e e' Oe.
      sb ltac:(apply so_vset; [exact F1|exact Oe]). intros V V' FV. split; [exact FV|reflexivity]. }
    intros [Qw2 cind2] [Qw2' cind2'] [FQ2 Ec]. cbn [fst snd] in *. subst cind2'. destruct (b1 <? m).
    - sb ltac:(apply (so_for Hl); [exact Fb1|]).
      { intros j l l' Fl. sb ltac:(apply (so_ugets hr); exact Fn1). intros x x' Hx. apply so_vset; assumption. }
      intros bp2 bp2' Fb2. sb ltac:(apply (so_for Hl); [exact Fb2|]).
      { intros j l l' Fl. sb ltac:(apply (so_vget hr); exact Fp). intros x x' Hx. apply so_vset; assumption. }
      intros bp3 bp3' Fb3. constructor; assumption || reflexivity.
    - apply so_same. intros Uh2. constructor; assumption || reflexivity.
  Qed.
  Definition elres (x y : Z * list T * list (vec4 T)) : Prop := fst x = fst y /\ Cl (snd x) (snd y).
  Lemma so_elevation kn pts pts' p t : Cl pts pts' -> so elres (NurbsDegreeElevation kn pts p t) (NurbsDegreeElevation kn pts' p t).
  Proof.
    intros F. unfold NurbsDegreeElevation. here. cbv zeta. rewrite !len_map, (F2_len cr _ _ F). pose proof (homos _ _ F) as Fp.
    generalize dependent (map ToHomo pts'). generalize (map ToHomo pts). intros hs hs' Fp. do 2 here. sb ltac:(apply (so_uninit hr)). intros Q Q' FQ.
    sb ltac:(apply (so_vget hr); exact Fp). intros x x' Hx. sb ltac:(apply so_usets; eassumption). clear Q Q' FQ. intros Q Q' FQ. do 2 here.
    sb ltac:(apply (so_tabulate hr); intros i; apply so_vget; exact Fp). intros bp bp' Fb. sb ltac:(apply (so_uninit hr)). intros nb nb' Fn.
    sb ltac:(apply (so_uninit hr)). intros eb eb' Fe. sb ltac:(apply (so_while elr)).
    - intros s s' R. rewrite (el_b _ _ R). reflexivity.
    - intros s s' R. apply so_el_step; eassumption.
    - constructor; cbn [es_mh es_kind es_r es_a es_b es_cind es_ua es_Qw es_Uh es_bpts es_nextbpts es_ebpts]; assumption || reflexivity.
    - intros s s' R. rewrite (el_mh _ _ R), (el_Uh _ _ R). sb ltac:(apply (so_vresize (ro hr)); [apply (el_Qw _ _ R)|exact I]). clear Q Q' FQ. intros Q Q' FQ. here.
      sb ltac:(apply so_freeze; exact FQ). intros f f' Ff. sb ltac:(apply (so_mapM hr cr); [exact HF|exact Ff]). intros g g' Fg. here. split; [reflexivity|exact Fg].
  Qed.
  Lemma so_ElevateDegree c d t : curve_by cr c d -> so (curve_by cr) (Curve_ElevateDegree c t) (Curve_ElevateDegree d t).
  Proof.
    intros [E1 [E2 F]]. unfold Curve_ElevateDegree. rewrite <- E1, <- E2. here. sb ltac:(apply so_elevation; exact F). intros [[p k] l] [[p' k'] l'] [E F']. cbn [fst snd] in *.
    injection E as <- <-. split; [reflexivity|]. split; [reflexivity|exact F'].
  Qed.
  Lemma F2_some l l' : Cl l l' -> Forall2 (ro cr) (map Some l) (map Some l').
  Proof. apply F2_map. auto. Qed.
  Lemma so_ElevateDegreeU s s' t : surface_by cr s s' -> so (surface_by cr) (Surface_ElevateDegreeU s t) (Surface_ElevateDegreeU s' t).
  Proof.
    intros [E1 [E2 [E3 [E4 G]]]]. pose proof G as [EU [EV _]]. unfold Surface_ElevateDegreeU. rewrite <- E1, <- E2, <- E3, <- E4, <- EU, <- EV.
    sb ltac:(apply (so_grid_uninit cr)). intros g g' Gg. sb ltac:(apply (so_for (rp eq (grid_by (ro cr)))); [split; [reflexivity|exact Gg]|]).
    - clear g g' Gg. intros i [[d k] g] [[d' k'] g'] [E Gg]. cbn [fst snd] in *. injection E as <- <-. sb ltac:(apply (so_Grid_GetV cr); exact G). intros l l' Fl.
      sb ltac:(apply so_elevation; exact Fl). intros [[p k1] q] [[p' k1'] q'] [E Fq]. cbn [fst snd] in *. injection E as <- <-.
      destruct (i =? VCount (Net s) - 1); (sb ltac:(apply (so_Grid_SetV (ro cr)); [exact Gg|apply F2_some; exact Fq])); intros h h' Gh; (split; [reflexivity|exact Gh]).
    - clear g g' Gg. intros [[d k] g] [[d' k'] g'] [E Gg]. cbn [fst snd] in *. injection E as <- <-. sb ltac:(apply (so_grid_freeze cr); exact Gg). intros h h' Gh.
      repeat split; try reflexivity; apply Gh.
  Qed.
  Lemma so_ElevateDegreeV s s' t : surface_by cr s s' -> so (surface_by cr) (Surface_ElevateDegreeV s t) (Surface_ElevateDegreeV s' t).
  Proof.
    intros [E1 [E2 [E3 [E4 G]]]]. pose proof G as [EU [EV _]]. unfold Surface_ElevateDegreeV. rewrite <- E1, <- E2, <- E3, <- E4, <- EU, <- EV.
    sb ltac:(apply (so_grid_uninit cr)). intros g g' Gg. sb ltac:(apply (so_for (rp eq (grid_by (ro cr)))); [split; [reflexivity|exact Gg]|]).
    - clear g g' Gg. intros i [[d k] g] [[d' k'] g'] [E Gg]. cbn [fst snd] in *. injection E as <- <-. sb ltac:(apply (so_Grid_GetU cr); exact G). intros l l' Fl.
      sb ltac:(apply so_elevation; exact Fl). intros [[p k1] q] [[p' k1'] q'] [E Fq]. cbn [fst snd] in *. injection E as <- <-.
      destruct (i =? UCount (Net s) - 1); (sb ltac:(apply (so_Grid_SetU (ro cr)); [exact Gg|apply F2_some; exact Fq])); intros h h' Gh; (split; [reflexivity|exact Gh]).
    - clear g g' Gg. intros [[d k] g] [[d' k'] g'] [E Gg]. cbn [fst snd] in *. injection E as <- <-. sb ltac:(apply (so_grid_freeze cr); exact Gg). intros h h' Gh.
      repeat split; try reflexivity; apply Gh.
  Qed.
End Gen.
