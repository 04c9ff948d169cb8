(** Each coordinate is computed from the same coordinate and the weights alone (C107). *)
From Coq Require Import Reals ZArith List Lia Bool.
From Verif Require Import Outcome Num ModelCore ModelBasis ModelAlgo ModelCurve ModelSurface SpecMove ThOutcome ThVec ThSo ThSoGen.
Import ListNotations.
Open Scope Z_scope.

Section Coord.
  Context {T : Type} `{Num T}.
  (** whether a division succeeds depends on the divisor only *)
  Hypothesis DV : forall a a' s : T, so (fun _ _ => True) (ndiv a s) (ndiv a' s).
  Variables a b : axis3.
  Let cp := coord_point (T := T) a b.
  Let cv := coord_vec (T := T) a b.
  Lemma cp_zero : cp v4zero v4zero.
  Proof. split; destruct a, b; reflexivity. Qed.
  Lemma cp_add p q p' q' : cp p p' -> cp q q' -> cp (v4add p q) (v4add p' q').
  Proof. intros [E1 E2] [E3 E4]. split; [|cbn; congruence]. clear cp cv DV. destruct a, b; cbn in *; congruence. Qed.
  Lemma cp_scale s p p' : cp p p' -> cp (v4scale s p) (v4scale s p').
  Proof. intros [E1 E2]. split; [|cbn; congruence]. clear cp cv DV. destruct a, b; cbn in *; congruence. Qed.
  Lemma cp_homo p p' : cp p p' -> cp (ToHomo p) (ToHomo p').
  Proof. intros [E1 E2]. split; [|cbn; congruence]. clear cp cv DV. destruct a, b; cbn in *; congruence. Qed.
  Lemma cp_head p p' : cp p p' -> cv (head3 p) (head3 p').
  Proof. intros [E1 E2]. unfold cv, coord_vec. clear cp cv DV. destruct a, b; exact E1. Qed.
  Lemma div_all (v : vec3 T) s : (exists x y z, ndiv (x3 v) s = Ok x /\ ndiv (y3 v) s = Ok y /\ ndiv (z3 v) s = Ok z) \/
    (exists r : outcome T, (forall x, r <> Ok x) /\ forall c, so eq (ndiv c s) r).
  Proof.
    pose proof (DV (x3 v) (y3 v) s) as A. pose proof (DV (x3 v) (z3 v) s) as B. destruct (ndiv (x3 v) s) as [x|e| |u| |] eqn:E1.
    - left. destruct (ndiv (y3 v) s) as [y| | | | |]; try contradiction. destruct (ndiv (z3 v) s) as [z| | | | |]; try contradiction. exists x, y, z. auto.
    - right. exists (Throw e). split; [discriminate|]. intros c. pose proof (DV c (x3 v) s) as C. rewrite E1 in C. destruct (ndiv c s); try contradiction; exact C.
    - right. exists AssertFail. split; [discriminate|]. intros c. pose proof (DV c (x3 v) s) as C. rewrite E1 in C. destruct (ndiv c s); try contradiction; exact C.
    - right. exists (Undefined u). split; [discriminate|]. intros c. pose proof (DV c (x3 v) s) as C. rewrite E1 in C. destruct (ndiv c s); try contradiction; exact C.
    - right. exists NotFinite. split; [discriminate|]. intros c. pose proof (DV c (x3 v) s) as C. rewrite E1 in C. destruct (ndiv c s); try contradiction; exact C.
    - right. exists OutOfFuel. split; [discriminate|]. intros c. pose proof (DV c (x3 v) s) as C. rewrite E1 in C. destruct (ndiv c s); try contradiction; exact C.
  Qed.
  Lemma cv_div v v' s : cv v v' -> so cv (v3div v s) (v3div v' s).
  Proof.
    intros E. unfold v3div. destruct (div_all v s) as [[x [y [z [E1 [E2 E3]]]]]|[r [N Ar]]].
    - destruct (div_all v' s) as [[x' [y' [z' [E1' [E2' E3']]]]]|[r [N Ar]]].
      + rewrite E1, E2, E3, E1', E2', E3'. cbn. unfold cv, coord_vec in *. clear DV cp cv. destruct a, b; cbn [coord x3 y3 z3] in *; congruence.
      + exfalso. pose proof (Ar (x3 v)) as C. rewrite E1 in C. destruct r; try contradiction. exact (N _ eq_refl).
    - pose proof (Ar (x3 v)) as C1. pose proof (Ar (x3 v')) as C2. apply so_eq in C1, C2. rewrite C1, C2. destruct r; cbn; auto. destruct (N _ eq_refl).
  Qed.
  Lemma cp_from p p' : cp p p' -> so cp (FromHomo p) (FromHomo p').
  Proof.
    intros C. unfold FromHomo. pose proof (cp_head p p' C) as E. destruct C as [_ Ew]. rewrite <- Ew. eapply so_bind; [apply cv_div; exact E|]. intros h h' Eh.
    split; [|exact Ew]. unfold cv, coord_vec in Eh. clear DV cp cv E. destruct a, b; cbn in *; exact Eh.
  Qed.
  Lemma cp_point p p' : cp p p' -> so cv (v3div (head3 p) (w4 p)) (v3div (head3 p') (w4 p')).
  Proof. intros C. pose proof (cp_head p p' C) as E. destruct C as [_ Ew]. rewrite <- Ew. apply cv_div. exact E. Qed.
  Lemma cv_sub u v u' v' : cv u u' -> cv v v' -> cv (v3sub u v) (v3sub u' v').
  Proof. unfold cv, coord_vec. clear DV cp cv. destruct a, b; cbn; congruence. Qed.
  Lemma cv_scale s u u' : cv u u' -> cv (v3scale s u) (v3scale s u').
  Proof. unfold cv, coord_vec. clear DV cp cv. destruct a, b; cbn; congruence. Qed.
  Lemma cv_zero : cv v3zero v3zero.
  Proof. unfold cv, coord_vec. destruct a, b; reflexivity. Qed.

  Local Ltac all1 := first [exact cp_zero|exact cp_add|exact cp_scale|exact cp_homo|exact cp_from|exact cp_point].
  Lemma coord_Evaluate c d x : curve_by cp c d -> so cv (Curve_Evaluate c x) (Curve_Evaluate d x).
  Proof. apply (so_Curve_Evaluate cp cp cv); all1. Qed.
  Lemma coord_EvaluateAll c d x n : curve_by cp c d -> so (Forall2 cv) (Curve_EvaluateAll c x n) (Curve_EvaluateAll d x n).
  Proof.
    intros R. unfold Curve_EvaluateAll. eapply so_bind; [apply (so_Curve_Homogeneous cp cp); [all1..|exact R]|]. intros hs hs' Fh.
    eapply so_bind; [apply (so_vmake cv); exact cv_zero|]. intros r r' Fr. eapply so_bind; [apply (so_vget cp); exact Fh|]. intros h h' [_ Eh]. cbv zeta. rewrite <- Eh.
    apply (so_for (Forall2 cv)); [exact Fr|]. clear r r' Fr. intros k r r' Fr. eapply so_bind; [apply (so_vget cp); exact Fh|]. intros g g' Cg.
    eapply so_bind; [apply (so_for cv); [apply cp_head; exact Cg|]|].
    - intros i A A' CA. eapply so_bind; [apply (so_vget cp); exact Fh|]. intros f f' [_ Ef]. rewrite <- Ef. apply so_same. intros bin.
      eapply so_bind; [apply (so_vget cv); exact Fr|]. intros y y' Cy. apply cv_sub; [exact CA|]. apply cv_scale. exact Cy.
    - intros A A' CA. eapply so_bind; [apply cv_div; exact CA|]. intros q q' Cq. apply so_vset; assumption.
  Qed.
  Lemma coord_Derivative c d x n : curve_by cp c d -> so cv (Curve_EvaluateDerivative c x n) (Curve_EvaluateDerivative d x n).
  Proof. intros R. unfold Curve_EvaluateDerivative. eapply so_bind; [apply coord_EvaluateAll; exact R|]. intros l l' F. apply so_vget. exact F. Qed.
  Lemma coord_InsertKnot c d u : curve_by cp c d -> so (curve_by cp) (Curve_InsertKnot c u) (Curve_InsertKnot d u).
  Proof. apply (so_InsertKnot cp cp); all1. Qed.
  Lemma coord_InsertKnot_list c d us : curve_by cp c d -> so (curve_by cp) (Curve_InsertKnot_list c us) (Curve_InsertKnot_list d us).
  Proof. apply (so_InsertKnot_list cp cp); all1. Qed.
  Lemma coord_InsertKnot_times c d u n : curve_by cp c d -> so (curve_by cp) (Curve_InsertKnot_times c u n) (Curve_InsertKnot_times d u n).
  Proof. apply (so_InsertKnot_times cp cp); all1. Qed.
  Lemma coord_ElevateDegree c d t : curve_by cp c d -> so (curve_by cp) (Curve_ElevateDegree c t) (Curve_ElevateDegree d t).
  Proof. apply (so_ElevateDegree cp cp); all1. Qed.
  Lemma coord_ExtractBezier c d : curve_by cp c d -> so (Forall2 (curve_by cp)) (Curve_ExtractBezier c) (Curve_ExtractBezier d).
  Proof. apply (so_ExtractBezier cp cp); all1. Qed.
  Lemma coord_Surface_Evaluate s t u v : surface_by cp s t -> so cv (Surface_Evaluate s u v) (Surface_Evaluate t u v).
  Proof. apply (so_Surface_Evaluate cp cp cv); all1. Qed.
  Lemma coord_Surface_EvaluateAll s t u v m n : surface_by cp s t -> so (grid_by cv) (Surface_EvaluateAll s u v m n) (Surface_EvaluateAll t u v m n).
  Proof.
    intros R. unfold Surface_EvaluateAll. eapply so_bind; [apply (so_Surface_Homogeneous cp cp); [all1..|exact R]|]. intros hs hs' Gh.
    eapply so_bind; [apply (so_Grid_make cv); exact cv_zero|]. intros r r' Gr. eapply so_bind; [apply (so_Grid_Get cp); exact Gh|]. intros h h' [_ Eh]. cbv zeta. rewrite <- Eh.
    apply (so_for (grid_by cv)); [exact Gr|]. clear r r' Gr. intros k r r' Gr. apply (so_for (grid_by cv)); [exact Gr|]. clear r r' Gr. intros l r r' Gr.
    eapply so_bind; [apply (so_Grid_Get cp); exact Gh|]. intros g g' Cg. eapply so_bind; [apply (so_for cv); [apply cp_head; exact Cg|]|].
    { intros i A A' CA. eapply so_bind; [apply (so_Grid_Get cp); exact Gh|]. intros f f' [_ Ef]. rewrite <- Ef. apply so_same. intros bin.
      eapply so_bind; [apply (so_Grid_Get cv); exact Gr|]. intros y y' Cy. apply cv_sub; [exact CA|]. apply cv_scale. exact Cy. }
    intros A A' CA. eapply so_bind; [apply (so_for cv); [exact CA|]|].
    { clear A A' CA. intros i A A' CA. eapply so_bind; [apply (so_Grid_Get cp); exact Gh|]. intros f f' [_ Ef]. rewrite <- Ef. apply so_same. intros bin.
      eapply so_bind; [apply (so_Grid_Get cv); exact Gr|]. intros y y' Cy. apply cv_sub; [exact CA|]. apply cv_scale. exact Cy. }
    clear A A' CA. intros A A' CA. eapply so_bind; [apply (so_for cv); [exact CA|]|].
    { clear A A' CA. intros i A A' CA. apply so_same. intros bi. apply (so_for cv); [exact CA|]. clear A A' CA. intros j A A' CA.
      eapply so_bind; [apply (so_Grid_Get cp); exact Gh|]. intros f f' [_ Ef]. rewrite <- Ef. do 2 (apply so_same; intros ?).
      eapply so_bind; [apply (so_Grid_Get cv); exact Gr|]. intros y y' Cy. apply cv_sub; [exact CA|]. apply cv_scale. exact Cy. }
    clear A A' CA. intros A A' CA. eapply so_bind; [apply cv_div; exact CA|]. intros q q' Cq. apply so_Grid_Set; assumption.
  Qed.
  Lemma coord_Surface_Derivative s t u v m n : surface_by cp s t -> so cv (Surface_EvaluateDerivative s u v m n) (Surface_EvaluateDerivative t u v m n).
  Proof. intros R. unfold Surface_EvaluateDerivative. eapply so_bind; [apply coord_Surface_EvaluateAll; exact R|]. intros l l' F. apply so_Grid_Get. exact F. Qed.
  Lemma coord_InsertKnotU j j' s t u : cp j j' -> surface_by cp s t -> so (surface_by cp) (Surface_InsertKnotU j s u) (Surface_InsertKnotU j' t u).
  Proof. apply (so_InsertKnotU cp cp); all1. Qed.
  Lemma coord_InsertKnotV s t u : surface_by cp s t -> so (surface_by cp) (Surface_InsertKnotV s u) (Surface_InsertKnotV t u).
  Proof. apply (so_InsertKnotV cp cp); all1. Qed.
  Lemma coord_InsertKnotU_times j j' s t u n : cp j j' -> surface_by cp s t -> so (surface_by cp) (Surface_InsertKnotU_times j s u n) (Surface_InsertKnotU_times j' t u n).
  Proof. apply (so_InsertKnotU_times cp cp); all1. Qed.
  Lemma coord_InsertKnotV_times s t u n : surface_by cp s t -> so (surface_by cp) (Surface_InsertKnotV_times s u n) (Surface_InsertKnotV_times t u n).
  Proof. apply (so_InsertKnotV_times cp cp); all1. Qed.
  Lemma coord_ElevateDegreeU s t n : surface_by cp s t -> so (surface_by cp) (Surface_ElevateDegreeU s n) (Surface_ElevateDegreeU t n).
  Proof. apply (so_ElevateDegreeU cp cp); all1. Qed.
  Lemma coord_ElevateDegreeV s t n : surface_by cp s t -> so (surface_by cp) (Surface_ElevateDegreeV s n) (Surface_ElevateDegreeV t n).
  Proof. apply (so_ElevateDegreeV cp cp); all1. Qed.
End Coord.

Lemma div_b64 (a a' s : b64) : so (fun _ _ => True) (ndiv a s) (ndiv a' s).
Proof. exact I. Qed.
Lemma div_R (a a' s : R) : so (fun _ _ => True) (ndiv a s) (ndiv a' s).
Proof. cbn. destruct (Req_EM_T s 0); exact I. Qed.
