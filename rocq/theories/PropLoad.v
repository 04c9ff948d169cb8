(** Property theorems: loading arbitrary bytes (C70-C72). *)
From Coq Require Import List ZArith Lia Ascii String.
From Verif Require Import Outcome Num ModelCore ModelCurve ModelSurface ModelSerial SpecSerial ThSerialWit ThSerial2 ThCoreWit ThLoad.
Import ListNotations.
Open Scope Z_scope.

(** * C70.  Full claim: on every byte stream LoadFromFile returns or throws; it
    never has undefined behaviour.  True of curves. *)
Theorem C70_curve_load_safe : forall (c : curve dbl) is,
  exists c', Curve_LoadFromFile c is = (c', Ok tt) \/ Curve_LoadFromFile c is = (c', Throw RuntimeError).
Proof. exact C70_curve_lemma. Qed.
Print Assumptions C70_curve_load_safe.
Example C70_ex : (exists c', Curve_LoadFromFile line_dbl (str "LIBNURBS TXT CURVE") = (c', Ok tt)) /\
  (exists c', Curve_LoadFromFile line_dbl (Curve_SaveToFile curve_dbl true) = (c', Ok tt)) /\
  (exists c', Curve_LoadFromFile line_dbl cut_curve = (c', Throw RuntimeError)).
Proof. split; [|split]; eexists; vm_compute; reflexivity. Qed.
(** Of surfaces except for files announcing more than INT_MAX points. *)
Theorem C70_surface_load_partial : forall (s : surface dbl) is,
  exists s', Surface_LoadFromFile s is = (s', Ok tt) \/ Surface_LoadFromFile s is = (s', Throw RuntimeError) \/
  (Surface_LoadFromFile s is = (s', Undefined IntOverflow) /\
   0 < UCount (Net s') /\ 0 < VCount (Net s') /\ INT_MAX < UCount (Net s') * VCount (Net s')).
Proof. exact C70_surface_lemma. Qed.
Print Assumptions C70_surface_load_partial.
Theorem C70_surface_load_refuted : forall s : surface dbl,
  snd (Surface_LoadFromFile s huge_txt) = Undefined IntOverflow /\ snd (Surface_LoadFromFile s huge_bin) = Undefined IntOverflow.
Proof. exact C70_refuted_lemma. Qed.
Print Assumptions C70_surface_load_refuted.

(** * C71.  Full claim: an object that was loaded successfully can be evaluated
    on [0, 1] and saved without an abort or undefined behaviour.  What holds: a binary file,
    or any file read into a surface with a complete grid, gives a complete grid. *)
Theorem C71_loaded_grid_partial : forall (s s' : surface dbl) is, Surface_LoadFromFile s is = (s', Ok tt) ->
  (exists rest, good_header "SURFACE" true is rest) \/
  (0 < UCount (Net s) /\ 0 < VCount (Net s) /\ len (Values (Net s)) = UCount (Net s) * VCount (Net s)) ->
  0 < UCount (Net s') /\ 0 < VCount (Net s') /\ len (Values (Net s')) = UCount (Net s') * VCount (Net s').
Proof. exact C71_surface_lemma. Qed.
Print Assumptions C71_loaded_grid_partial.
Example C71_ex : Surface_SaveToFile square_dbl false = Ok square_txt /\ (exists s', Surface_LoadFromFile surface_dbl square_txt = (s', Ok tt)) /\
  0 < UCount (Net surface_dbl) /\ 0 < VCount (Net surface_dbl) /\ len (Values (Net surface_dbl)) = UCount (Net surface_dbl) * VCount (Net surface_dbl).
Proof. split; [vm_compute; reflexivity|]. split; [eexists; vm_compute; reflexivity|]. split; [vm_compute; reflexivity|]. split; vm_compute; reflexivity. Qed.
(** Degrees, knots and points are not checked against each other, and a text
    file without any section is accepted. *)
Theorem C71_loaded_usable_refuted :
  (exists is c, Curve_LoadFromFile (@Curve_default dbl) is = (c, Ok tt) /\ Curve_Evaluate (curve_value c) dhalf = Undefined OutOfBounds) /\
  (exists is s, Surface_LoadFromFile (@Surface_default dbl) is = (s, Ok tt) /\ Surface_Evaluate (surface_value s) dhalf dhalf = AssertFail) /\
  (exists is s, Surface_LoadFromFile (@Surface_default dbl) is = (s, Ok tt) /\ Surface_SaveToFile s true = Undefined OutOfBounds).
Proof. exact C71_refuted_lemma. Qed.
Print Assumptions C71_loaded_usable_refuted.

(** * C72.  Full claim: a load that throws leaves the object unchanged, or at
    least as safe to use as before. *)
Theorem C72_failed_load_refuted :
  (exists c is c', Curve_LoadFromFile c is = (c', Throw RuntimeError) /\ c' <> c /\
     (exists p, Curve_Evaluate (curve_value c) dhalf = Ok p) /\ Curve_Evaluate (curve_value c') dhalf = Undefined OutOfBounds) /\
  (exists s is s', Surface_LoadFromFile s is = (s', Throw RuntimeError) /\ s' <> s /\
     (exists p, Surface_Evaluate (surface_value s) dhalf dhalf = Ok p) /\ (exists file, Surface_SaveToFile s true = Ok file) /\ Surface_SaveToFile s' true = Undefined OutOfBounds).
Proof. exact C72_refuted_lemma. Qed.
Print Assumptions C72_failed_load_refuted.
