(** Knot removal on doubles commutes with mirror images (C111). *)
From Coq Require Import Reals ZArith List Lia Bool Floats.SpecFloat.
From Verif Require Import Outcome Num ModelCore ModelAlgo ModelCurve ModelSurface SpecMove ThOutcome ThVec ThSo ThSoGen ThOpp ThRigid.
Import ListNotations.
Open Scope Z_scope.

Definition sg (s : bool) (x y : b64) : Prop := if s then opposite x y else x = y.
Lemma sg_zero s : sg s n0 n0.
Proof. destruct s; [apply opp_zero|reflexivity]. Qed.
Lemma sg_add s x y x' y' : sg s x x' -> sg s y y' -> sg s (nadd x y) (nadd x' y').
Proof. destruct s; cbn [sg]; [apply opp_add|congruence]. Qed.
Lemma sg_sub s x y x' y' : sg s x x' -> sg s y y' -> sg s (nsub x y) (nsub x' y').
Proof. destruct s; cbn [sg]; [apply opp_sub|congruence]. Qed.
Lemma sg_mul s c x x' : sg s x x' -> sg s (nmul c x) (nmul c x').
Proof. destruct s; cbn [sg]; [apply opp_mul_r|congruence]. Qed.
Lemma sg_mul_l s c x x' : sg s x x' -> sg s (nmul x c) (nmul x' c).
Proof. destruct s; cbn [sg]; [apply opp_mul_l|congruence]. Qed.
Lemma sg_div s c x x' : sg s x x' -> sg s (SFdiv 53 1024 x c) (SFdiv 53 1024 x' c).
Proof. destruct s; cbn [sg]; [apply opp_div|congruence]. Qed.
(** squares are equal *)
Lemma sg_square s x x' : sg s x x' -> nmul x x = nmul x' x'.
Proof.
  destruct s; cbn [sg]; [|congruence]. intros [->|[[t ->] [t' ->]]]; [|destruct t, t'; reflexivity].
  destruct x as [s|s| |s m e]; [destruct s; reflexivity|destruct s; reflexivity|reflexivity|]. cbn [nmul nopp Num_b64 SFopp SFmul]. destruct s; reflexivity.
Qed.

Section Flip.
  Variable f : axis3 -> bool.
  Let fp := flipped f.
  Local Ltac co a := destruct a; cbn in *.
  Lemma fp_zero : fp v4zero v4zero.
  Proof. split; [reflexivity|]. intros a. pose proof (sg_zero (f a)) as E. destruct a; exact E. Qed.
  Lemma fp_add p q p' q' : fp p p' -> fp q q' -> fp (v4add p q) (v4add p' q').
  Proof. intros [E1 E2] [F1 F2]. split; [cbn; congruence|]. intros a. pose proof (sg_add (f a) _ _ _ _ (E2 a) (F2 a)) as E. destruct a; exact E. Qed.
  Lemma fp_sub p q p' q' : fp p p' -> fp q q' -> fp (v4sub p q) (v4sub p' q').
  Proof. intros [E1 E2] [F1 F2]. split; [cbn; congruence|]. intros a. pose proof (sg_sub (f a) _ _ _ _ (E2 a) (F2 a)) as E. destruct a; exact E. Qed.
  Lemma fp_scale s p p' : fp p p' -> fp (v4scale s p) (v4scale s p').
  Proof. intros [E1 E2]. split; [cbn; congruence|]. intros a. pose proof (sg_mul (f a) s _ _ (E2 a)) as E. destruct a; exact E. Qed.
  Lemma fp_homo p p' : fp p p' -> fp (ToHomo p) (ToHomo p').
  Proof.
    intros [E1 E2]. split; [cbn; congruence|]. intros a. pose proof (sg_mul_l (f a) (w4 p) _ _ (E2 a)) as E. rewrite E1 in E at 2.
    destruct a; exact E.
  Qed.
  Lemma fp_div s p p' : fp p p' -> so fp (v4div p s) (v4div p' s).
  Proof. intros [E1 E2]. cbn. split; [cbn; congruence|]. intros a. pose proof (sg_div (f a) s _ _ (E2 a)) as E. destruct a; exact E. Qed.
  Lemma fp_from p p' : fp p p' -> so fp (FromHomo p) (FromHomo p').
  Proof. intros [E1 E2]. cbn. split; [exact E1|]. intros a. pose proof (sg_div (f a) (w4 p) _ _ (E2 a)) as E. rewrite E1 in E at 2. destruct a; exact E. Qed.
  Lemma fp_w p q : fp p q -> w4 p = w4 q.
  Proof. intros [E _]. exact E. Qed.
  Lemma fp_norm3 p q : fp p q -> v3norm (head3 p) = v3norm (head3 q).
  Proof.
    intros [_ E]. pose proof (sg_square _ _ _ (E AX)) as X. pose proof (sg_square _ _ _ (E AY)) as Y. pose proof (sg_square _ _ _ (E AZ)) as Z'.
    cbn [coord4] in X, Y, Z'. unfold v3norm, v3dot. cbn [x3 y3 z3 head3]. rewrite X, Y, Z'. reflexivity.
  Qed.
  Lemma fp_norm4 p q : fp p q -> v4norm p = v4norm q.
  Proof.
    intros [W E]. pose proof (sg_square _ _ _ (E AX)) as X. pose proof (sg_square _ _ _ (E AY)) as Y. pose proof (sg_square _ _ _ (E AZ)) as Z'.
    cbn [coord4] in X, Y, Z'. unfold v4norm. rewrite X, Y, Z', W. reflexivity.
  Qed.
  Local Ltac all1 := first [exact fp_zero|exact fp_add|exact fp_sub|exact fp_scale|exact fp_div|exact fp_homo|exact fp_from|exact fp_w|exact fp_norm4|exact fp_norm3].
  Lemma flip_RemoveKnot c d u n tol : curve_by fp c d -> so (fun x y => curve_by fp (fst x) (fst y) /\ snd x = snd y) (Curve_RemoveKnot c u n tol) (Curve_RemoveKnot d u n tol).
  Proof. apply (rm_Curve fp); all1. Qed.
  Lemma flip_RemoveKnotU s t u n tol : surface_by fp s t -> so (fun x y => surface_by fp (fst x) (fst y) /\ snd x = snd y) (Surface_RemoveKnotU s u n tol) (Surface_RemoveKnotU t u n tol).
  Proof. apply (rm_SurfaceU fp); all1. Qed.
  Lemma flip_RemoveKnotV s t u n tol : surface_by fp s t -> so (fun x y => surface_by fp (fst x) (fst y) /\ snd x = snd y) (Surface_RemoveKnotV s u n tol) (Surface_RemoveKnotV t u n tol).
  Proof. apply (rm_SurfaceV fp); all1. Qed.
End Flip.
