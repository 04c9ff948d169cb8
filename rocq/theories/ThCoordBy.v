(** As ThCoord, with any relation between the coordinates that is closed under the arithmetic
    (C111: opposite coordinates). *)
From Coq Require Import Reals ZArith List Lia Bool.
From Verif Require Import Outcome Num ModelCore ModelBasis ModelAlgo ModelCurve ModelSurface SpecMove ThOutcome ThVec ThSo ThSoGen ThOpp.
Import ListNotations.
Open Scope Z_scope.

Section CoordBy.
  Set Default Proof Using "All".
  Context {T : Type} `{Num T}.
  Variable rl : T -> T -> Prop.
  Hypothesis RZ : rl n0 n0.
  Hypothesis RA : forall x y x' y', rl x x' -> rl y y' -> rl (nadd x y) (nadd x' y').
  Hypothesis RS : forall x y x' y', rl x x' -> rl y y' -> rl (nsub x y) (nsub x' y').
  Hypothesis RM : forall s x x', rl x x' -> rl (nmul s x) (nmul s x').
  Hypothesis RN : forall s x x', rl x x' -> rl (nmul x s) (nmul x' s).
  (** divisions succeed and keep the relation *)
  Hypothesis RD : forall s x x', exists y y', ndiv x s = Ok y /\ ndiv x' s = Ok y' /\ (rl x x' -> rl y y').
  Variables a b : axis3.
  Let cp := coord_point_by rl a b.
  Let cv := coord_vec_by rl a b.
  Lemma cp_zero : cp v4zero v4zero.
  Proof. split; [|reflexivity]. destruct a, b; exact RZ. Qed.
  Lemma cp_add p q p' q' : cp p p' -> cp q q' -> cp (v4add p q) (v4add p' q').
  Proof. intros [E1 E2] [E3 E4]. split; [|cbn; congruence]. destruct a, b; cbn in *; apply RA; assumption. Qed.
  Lemma cp_scale s p p' : cp p p' -> cp (v4scale s p) (v4scale s p').
  Proof. intros [E1 E2]. split; [|cbn; congruence]. destruct a, b; cbn in *; apply RM; assumption. Qed.
  Lemma cp_homo p p' : cp p p' -> cp (ToHomo p) (ToHomo p').
  Proof. intros [E1 E2]. split; [|cbn; congruence]. destruct a, b; cbn in *; rewrite <- E2; first [apply RN; assumption|apply RM; assumption]. Qed.
  Lemma cp_head p p' : cp p p' -> cv (head3 p) (head3 p').
  Proof. intros [E1 E2]. unfold cv, coord_vec_by. destruct a, b; exact E1. Qed.
  Lemma cv_div v v' s : cv v v' -> so cv (v3div v s) (v3div v' s).
  Proof.
    intros E. unfold v3div.
    destruct (RD s (x3 v) (coord b v')) as [x [x1 [Ex [Fx Rx]]]], (RD s (y3 v) (coord b v')) as [y [y1 [Ey [Fy Ry]]]], (RD s (z3 v) (coord b v')) as [z [z1 [Ez [Fz Rz]]]].
    destruct (RD s (coord a v) (x3 v')) as [x2 [x' [Gx [Ex' Rx']]]], (RD s (coord a v) (y3 v')) as [y2 [y' [Gy [Ey' Ry']]]], (RD s (coord a v) (z3 v')) as [z2 [z' [Gz [Ez' Rz']]]].
    rewrite Ex, Ey, Ez, Ex', Ey', Ez'. cbn [bind same_outcome]. unfold cv, coord_vec_by in *. clear cp cv.
    destruct a, b; cbn [coord x3 y3 z3] in *; congruence || (repeat match goal with H1 : ndiv ?u ?w = Ok ?p, H2 : ndiv ?u ?w = Ok ?q |- _ => rewrite H1 in H2; injection H2 as <- end; auto).
  Qed.
  Lemma cp_from p p' : cp p p' -> so cp (FromHomo p) (FromHomo p').
  Proof.
    intros C. unfold FromHomo. pose proof (cp_head p p' C) as E. destruct C as [_ Ew]. rewrite <- Ew. eapply so_bind; [apply cv_div; exact E|]. intros h h' Eh.
    split; [|exact Ew]. unfold cv, coord_vec_by in Eh. clear cp cv E. destruct a, b; cbn in *; exact Eh.
  Qed.
  Lemma cp_point p p' : cp p p' -> so cv (v3div (head3 p) (w4 p)) (v3div (head3 p') (w4 p')).
  Proof. intros C. pose proof (cp_head p p' C) as E. destruct C as [_ Ew]. rewrite <- Ew. apply cv_div. exact E. Qed.
  Lemma cv_sub u v u' v' : cv u u' -> cv v v' -> cv (v3sub u v) (v3sub u' v').
  Proof. unfold cv, coord_vec_by. clear cp cv. destruct a, b; cbn; apply RS. Qed.
  Lemma cv_scale s u u' : cv u u' -> cv (v3scale s u) (v3scale s u').
  Proof. unfold cv, coord_vec_by. clear cp cv. destruct a, b; cbn; apply RM. Qed.
  Lemma cv_zero : cv v3zero v3zero.
  Proof. unfold cv, coord_vec_by. destruct a, b; exact RZ. Qed.

  Local Ltac all1 := first [exact cp_zero|exact cp_add|exact cp_scale|exact cp_homo|exact cp_from|exact cp_point].
  Lemma by_Evaluate c d x : curve_by cp c d -> so cv (Curve_Evaluate c x) (Curve_Evaluate d x).
  Proof. apply (so_Curve_Evaluate cp cp cv); all1. Qed.
  Lemma by_EvaluateAll c d x n : curve_by cp c d -> so (Forall2 cv) (Curve_EvaluateAll c x n) (Curve_EvaluateAll d x n).
  Proof.
    intros R. unfold Curve_EvaluateAll. eapply so_bind; [apply (so_Curve_Homogeneous cp cp); [all1..|exact R]|]. intros hs hs' Fh.
    eapply so_bind; [apply (so_vmake cv); exact cv_zero|]. intros r r' Fr. eapply so_bind; [apply (so_vget cp); exact Fh|]. intros h h' [_ Eh]. cbv zeta. rewrite <- Eh.
    apply (so_for (Forall2 cv)); [exact Fr|]. clear r r' Fr. intros k r r' Fr. eapply so_bind; [apply (so_vget cp); exact Fh|]. intros g g' Cg.
    eapply so_bind; [apply (so_for cv); [apply cp_head; exact Cg|]|].
    - intros i A A' CA. eapply so_bind; [apply (so_vget cp); exact Fh|]. intros f f' [_ Ef]. rewrite <- Ef. apply so_same. intros bin.
      eapply so_bind; [apply (so_vget cv); exact Fr|]. intros y y' Cy. apply cv_sub; [exact CA|]. apply cv_scale. exact Cy.
    - intros A A' CA. eapply so_bind; [apply cv_div; exact CA|]. intros q q' Cq. apply so_vset; assumption.
  Qed.
  Lemma by_Derivative c d x n : curve_by cp c d -> so cv (Curve_EvaluateDerivative c x n) (Curve_EvaluateDerivative d x n).
  Proof. intros R. unfold Curve_EvaluateDerivative. eapply so_bind; [apply by_EvaluateAll; exact R|]. intros l l' F. apply so_vget. exact F. Qed.
  Lemma by_InsertKnot c d u : curve_by cp c d -> so (curve_by cp) (Curve_InsertKnot c u) (Curve_InsertKnot d u).
  Proof. apply (so_InsertKnot cp cp); all1. Qed.
  Lemma by_InsertKnot_list c d us : curve_by cp c d -> so (curve_by cp) (Curve_InsertKnot_list c us) (Curve_InsertKnot_list d us).
  Proof. apply (so_InsertKnot_list cp cp); all1. Qed.
  Lemma by_InsertKnot_times c d u n : curve_by cp c d -> so (curve_by cp) (Curve_InsertKnot_times c u n) (Curve_InsertKnot_times d u n).
  Proof. apply (so_InsertKnot_times cp cp); all1. Qed.
  Lemma by_ElevateDegree c d t : curve_by cp c d -> so (curve_by cp) (Curve_ElevateDegree c t) (Curve_ElevateDegree d t).
  Proof. apply (so_ElevateDegree cp cp); all1. Qed.
  Lemma by_ExtractBezier c d : curve_by cp c d -> so (Forall2 (curve_by cp)) (Curve_ExtractBezier c) (Curve_ExtractBezier d).
  Proof. apply (so_ExtractBezier cp cp); all1. Qed.
  Lemma by_Surface_Evaluate s t u v : surface_by cp s t -> so cv (Surface_Evaluate s u v) (Surface_Evaluate t u v).
  Proof. apply (so_Surface_Evaluate cp cp cv); all1. Qed.
  Lemma by_Surface_EvaluateAll s t u v m n : surface_by cp s t -> so (grid_by cv) (Surface_EvaluateAll s u v m n) (Surface_EvaluateAll t u v m n).
  Proof.
    intros R. unfold Surface_EvaluateAll. eapply so_bind; [apply (so_Surface_Homogeneous cp cp); [all1..|exact R]|]. intros hs hs' Gh.
    eapply so_bind; [apply (so_Grid_make cv); exact cv_zero|]. intros r r' Gr. eapply so_bind; [apply (so_Grid_Get cp); exact Gh|]. intros h h' [_ Eh]. cbv zeta. rewrite <- Eh.
    apply (so_for (grid_by cv)); [exact Gr|]. clear r r' Gr. intros k r r' Gr. apply (so_for (grid_by cv)); [exact Gr|]. clear r r' Gr. intros l r r' Gr.
    eapply so_bind; [apply (so_Grid_Get cp); exact Gh|]. intros g g' Cg. eapply so_bind; [apply (so_for cv); [apply cp_head; exact Cg|]|].
    { intros i A A' CA. eapply so_bind; [apply (so_Grid_Get cp); exact Gh|]. intros f f' [_ Ef]. rewrite <- Ef. apply so_same. intros bin.
      eapply so_bind; [apply (so_Grid_Get cv); exact Gr|]. intros y y' Cy. apply cv_sub; [exact CA|]. apply cv_scale. exact Cy. }
    intros A A' CA. eapply so_bind; [apply (so_for cv); [exact CA|]|].
    { clear A A' CA. intros i A A' CA. eapply so_bind; [apply (so_Grid_Get cp); exact Gh|]. intros f f' [_ Ef]. rewrite <- Ef. apply so_same. intros bin.
      eapply so_bind; [apply (so_Grid_Get cv); exact Gr|]. intros y y' Cy. apply cv_sub; [exact CA|]. apply cv_scale. exact Cy. }
    clear A A' CA. intros A A' CA. eapply so_bind; [apply (so_for cv); [exact CA|]|].
    { clear A A' CA. intros i A A' CA. apply so_same. intros bi. apply (so_for cv); [exact CA|]. clear A A' CA. intros j A A' CA.
      eapply so_bind; [apply (so_Grid_Get cp); exact Gh|]. intros f f' [_ Ef]. rewrite <- Ef. do 2 (apply so_same; intros ?).
      eapply so_bind; [apply (so_Grid_Get cv); exact Gr|]. intros y y' Cy. apply cv_sub; [exact CA|]. apply cv_scale. exact Cy. }
    clear A A' CA. intros A A' CA. eapply so_bind; [apply cv_div; exact CA|]. intros q q' Cq. apply so_Grid_Set; assumption.
  Qed.
  Lemma by_Surface_Derivative s t u v m n : surface_by cp s t -> so cv (Surface_EvaluateDerivative s u v m n) (Surface_EvaluateDerivative t u v m n).
  Proof. intros R. unfold Surface_EvaluateDerivative. eapply so_bind; [apply by_Surface_EvaluateAll; exact R|]. intros l l' F. apply so_Grid_Get. exact F. Qed.
  Lemma by_InsertKnotU j j' s t u : cp j j' -> surface_by cp s t -> so (surface_by cp) (Surface_InsertKnotU j s u) (Surface_InsertKnotU j' t u).
  Proof. apply (so_InsertKnotU cp cp); all1. Qed.
  Lemma by_InsertKnotV s t u : surface_by cp s t -> so (surface_by cp) (Surface_InsertKnotV s u) (Surface_InsertKnotV t u).
  Proof. apply (so_InsertKnotV cp cp); all1. Qed.
  Lemma by_InsertKnotU_times j j' s t u n : cp j j' -> surface_by cp s t -> so (surface_by cp) (Surface_InsertKnotU_times j s u n) (Surface_InsertKnotU_times j' t u n).
  Proof. apply (so_InsertKnotU_times cp cp); all1. Qed.
  Lemma by_InsertKnotV_times s t u n : surface_by cp s t -> so (surface_by cp) (Surface_InsertKnotV_times s u n) (Surface_InsertKnotV_times t u n).
  Proof. apply (so_InsertKnotV_times cp cp); all1. Qed.
  Lemma by_ElevateDegreeU s t n : surface_by cp s t -> so (surface_by cp) (Surface_ElevateDegreeU s n) (Surface_ElevateDegreeU t n).
  Proof. apply (so_ElevateDegreeU cp cp); all1. Qed.
  Lemma by_ElevateDegreeV s t n : surface_by cp s t -> so (surface_by cp) (Surface_ElevateDegreeV s n) (Surface_ElevateDegreeV t n).
  Proof. apply (so_ElevateDegreeV cp cp); all1. Qed.
End CoordBy.

Section Opposite.
  Lemma opp_n0 : opposite n0 n0.
  Proof. apply opp_zero. Qed.
  Lemma opp_ndiv (s x x' : b64) : exists y y', ndiv x s = Ok y /\ ndiv x' s = Ok y' /\ (opposite x x' -> opposite y y').
  Proof. do 2 eexists. split; [reflexivity|]. split; [reflexivity|]. apply opp_div. Qed.
End Opposite.
