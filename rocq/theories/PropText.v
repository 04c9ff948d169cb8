(** Property theorems: text files (C60, C61). *)
From Coq Require Import List ZArith Reals.
From Verif Require Import Outcome Num ModelCore ModelCurve ModelSurface ModelSerial SpecText ThSerialWit ThTextSurf ThTextWit.
Import ListNotations.
Open Scope Z_scope.

(** * C60: the degree comes back exactly and every number as the nearest
    binary64 of its 17-decimal rendering, with its sign. *)
Theorem C60_curve_text_roundtrip : forall c prior : curve dbl,
  INT_MIN <= Degree c <= INT_MAX -> Forall finite_dbl (Knots c) -> Forall (on_coords finite_dbl) (ControlPoints c) ->
  Knots prior = [] -> ControlPoints prior = [] ->
  exists c', Curve_LoadFromFile prior (Curve_SaveToFile c false) = (c', Ok tt) /\ Degree c' = Degree c /\
    Forall2 restored (Knots c) (Knots c') /\ Forall2 restored4 (ControlPoints c) (ControlPoints c').
Proof. exact C60_lemma. Qed.
Print Assumptions C60_curve_text_roundtrip.
(** hence exactly when every number is at least 1/16 or a multiple of 2^-17 *)
Theorem C60_curve_text_exact : forall c prior : curve dbl,
  INT_MIN <= Degree c <= INT_MAX -> Forall text_exact (Knots c) -> Forall (on_coords text_exact) (ControlPoints c) ->
  Knots prior = [] -> ControlPoints prior = [] ->
  Curve_LoadFromFile prior (Curve_SaveToFile c false) = (c, Ok tt).
Proof. exact C60_exact_lemma. Qed.
Print Assumptions C60_curve_text_exact.
Example C60_ex : Forall text_exact (Knots text_curve) /\ Forall (on_coords text_exact) (ControlPoints text_curve) /\
  Curve_LoadFromFile Curve_default (Curve_SaveToFile text_curve false) = (text_curve, Ok tt).
Proof. split; [exact (proj1 C60_ex_lemma)|]. split; [exact (proj2 C60_ex_lemma)|]. vm_compute. reflexivity. Qed.
(** The restriction is needed: a small positive coordinate may come back as 0, *)
Theorem C60_small_number_lost : exists c c' : curve dbl, Forall finite_dbl (Knots c) /\ Forall (on_coords finite_dbl) (ControlPoints c) /\
  Curve_LoadFromFile (Curve (-1) [] []) (Curve_SaveToFile c false) = (c', Ok tt) /\
  exists p q, In p (ControlPoints c) /\ ControlPoints c' = q :: tl (ControlPoints c) /\ (0 < real_of (x4 p))%R /\ real_of (x4 q) = 0%R.
Proof. exact C60_loss_lemma. Qed.
Print Assumptions C60_small_number_lost.
(** and a curve with a NaN or infinite coordinate is saved but cannot be loaded. *)
Theorem C60_nonfinite_not_reloaded : forall x, In x [dnan; d_ (SpecFloat.S754_infinity false); d_ (SpecFloat.S754_infinity true)] ->
  ~ finite_dbl x /\ exists c', Curve_LoadFromFile (Curve (-1) [] []) (Curve_SaveToFile (Curve 1 [d0; d0; d1; d1] [Vec4 x d0 d0 d1; Vec4 d1 d0 d0 d1]) false) = (c', Throw RuntimeError).
Proof. exact C60_nonfinite_lemma. Qed.
Print Assumptions C60_nonfinite_not_reloaded.

(** * C61 *)
Theorem C61_surface_text_roundtrip : forall s : surface dbl,
  INT_MIN <= DegreeU s <= INT_MAX -> INT_MIN <= DegreeV s <= INT_MAX ->
  Forall finite_dbl (KnotsU s) -> Forall finite_dbl (KnotsV s) -> Forall (on_coords finite_dbl) (Values (Net s)) ->
  0 < UCount (Net s) -> 0 < VCount (Net s) -> len (Values (Net s)) = UCount (Net s) * VCount (Net s) -> len (Values (Net s)) <= INT_MAX ->
  exists file, Surface_SaveToFile s false = Ok file /\ forall prior, KnotsU prior = [] -> KnotsV prior = [] ->
    exists s', Surface_LoadFromFile prior file = (s', Ok tt) /\ DegreeU s' = DegreeU s /\ DegreeV s' = DegreeV s /\
      UCount (Net s') = UCount (Net s) /\ VCount (Net s') = VCount (Net s) /\
      Forall2 restored (KnotsU s) (KnotsU s') /\ Forall2 restored (KnotsV s) (KnotsV s') /\ Forall2 restored4 (Values (Net s)) (Values (Net s')).
Proof. exact C61_lemma. Qed.
Print Assumptions C61_surface_text_roundtrip.
Theorem C61_surface_text_exact : forall s : surface dbl,
  INT_MIN <= DegreeU s <= INT_MAX -> INT_MIN <= DegreeV s <= INT_MAX ->
  Forall text_exact (KnotsU s) -> Forall text_exact (KnotsV s) -> Forall (on_coords text_exact) (Values (Net s)) ->
  0 < UCount (Net s) -> 0 < VCount (Net s) -> len (Values (Net s)) = UCount (Net s) * VCount (Net s) -> len (Values (Net s)) <= INT_MAX ->
  exists file, Surface_SaveToFile s false = Ok file /\ forall prior, KnotsU prior = [] -> KnotsV prior = [] -> Surface_LoadFromFile prior file = (s, Ok tt).
Proof. exact C61_exact_lemma. Qed.
Print Assumptions C61_surface_text_exact.
Example C61_ex : (Forall text_exact (KnotsU text_surface) /\ Forall text_exact (KnotsV text_surface) /\ Forall (on_coords text_exact) (Values (Net text_surface)) /\
  len (Values (Net text_surface)) = UCount (Net text_surface) * VCount (Net text_surface)) /\
  exists file, Surface_SaveToFile text_surface false = Ok file /\ Surface_LoadFromFile Surface_default file = (text_surface, Ok tt).
Proof. split; [exact C61_ex_lemma|]. eexists. split; [vm_compute; reflexivity|]. vm_compute. reflexivity. Qed.
