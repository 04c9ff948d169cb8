(** Property theorems: knot removal on surfaces (C51). *)
From Coq Require Import Reals ZArith List Lra Lia Permutation.
From Verif Require Import Outcome Num ModelCore ModelCurve ModelSurface SpecCore SpecBasis SpecCurve SpecSurface
  ThB64 ThCoreWit ThDecide ThSurfWit ThRemove3 ThRemoveWit ThSurfRemove ThSurfRemove2.
Import ListNotations.
Open Scope Z_scope.

(** * C51.  Full claim: RemoveKnotU/V report 0 and return the surface, or report
    t > 0 and shrink knots and grid by t; removing undoes inserting. *)

(** What holds of every run, for every number type: all or nothing, but the
    sizes shrink by [times], whatever [t] is. *)
Theorem C51_all_or_nothingU_partial : forall (T : Type) (NT : Num T) (s s' : surface T) nu nv f u times tol t,
  grid_is (Net s) nu nv f -> 0 < nv -> Surface_RemoveKnotU s u times tol = Ok (s', t) ->
  (t = 0 /\ s' = s) \/
  (0 < t <= times /\ DegreeU s' = DegreeU s /\ DegreeV s' = DegreeV s /\ KnotsV s' = KnotsV s /\
   len (KnotsU s') = len (KnotsU s) - times /\
   UCount (Net s') = nu - times /\ VCount (Net s') = nv /\ len (Values (Net s')) = (nu - times) * nv).
Proof. exact @C51_U_lemma. Qed.
Print Assumptions C51_all_or_nothingU_partial.
Theorem C51_all_or_nothingV_partial : forall (T : Type) (NT : Num T) (s s' : surface T) nu nv f v times tol t,
  grid_is (Net s) nu nv f -> 0 < nu -> Surface_RemoveKnotV s v times tol = Ok (s', t) ->
  (t = 0 /\ s' = s) \/
  (0 < t <= times /\ DegreeU s' = DegreeU s /\ DegreeV s' = DegreeV s /\ KnotsU s' = KnotsU s /\
   len (KnotsV s') = len (KnotsV s) - times /\
   UCount (Net s') = nu /\ VCount (Net s') = nv - times /\ len (Values (Net s')) = nu * (nv - times)).
Proof. exact @C51_V_lemma. Qed.
Print Assumptions C51_all_or_nothingV_partial.
Example C51_all_ex : (exists s', Surface_RemoveKnotU (extrudeU hat64) dhalf 1 dz = Ok (s', 1)) /\
  (exists s', Surface_RemoveKnotV (extrudeV hat64) dhalf 1 dz = Ok (s', 1)) /\
  Surface_RemoveKnotU (extrudeU corner64) dhalf 1 dz = Ok (extrudeU corner64, 0) /\
  Surface_RemoveKnotV (extrudeV corner64) dhalf 1 dz = Ok (extrudeV corner64, 0).
Proof. repeat split; try eexists; vm_compute; reflexivity. Qed.

Theorem C51_roundtripU_partial : forall jk (s : surface R) u n tol, wf_surface s -> 1 <= DegreeU s -> (0 < u < 1)%R -> separated u (KnotsU s) -> 1 <= n ->
  count u (KnotsU s) + n <= DegreeU s + 1 -> n <= DegreeU s + count u (KnotsU s) -> (0 <= tol)%R -> UCount (Net s) * VCount (Net s) <= INT_MAX ->
  exists s', Surface_InsertKnotU_times jk s u n = Ok s' /\ Surface_RemoveKnotU s' u n tol = Ok (s, n).
Proof. exact C51_roundU_lemma. Qed.
Print Assumptions C51_roundtripU_partial.
Theorem C51_roundtripV_partial : forall (s : surface R) v n tol, wf_surface s -> 1 <= DegreeV s -> (0 < v < 1)%R -> separated v (KnotsV s) -> 1 <= n ->
  count v (KnotsV s) + n <= DegreeV s + 1 -> n <= DegreeV s + count v (KnotsV s) -> (0 <= tol)%R -> UCount (Net s) * VCount (Net s) <= INT_MAX ->
  exists s', Surface_InsertKnotV_times s v n = Ok s' /\ Surface_RemoveKnotV s' v n tol = Ok (s, n).
Proof. exact C51_roundV_lemma. Qed.
Print Assumptions C51_roundtripV_partial.
Example C51_round_ex : wf_surface surf_ex /\ 1 <= DegreeU surf_ex /\ 1 <= DegreeV surf_ex /\ (0 < 1/4 < 1)%R /\
  separated (1/4) (KnotsU surf_ex) /\ separated (1/4) (KnotsV surf_ex) /\
  count (1/4) (KnotsU surf_ex) = 0 /\ count (1/4) (KnotsV surf_ex) = 0 /\ UCount (Net surf_ex) * VCount (Net surf_ex) <= INT_MAX.
Proof. exact C51_round_ex_lemma. Qed.

(** A removal accepted with tolerance 0 for all [times] leaves the surface as a
    set of points unchanged, and takes exactly [times] copies of the knot away. *)
Theorem C51_exactU_partial : forall (s : surface R) u times s', wf_surface s -> (0 < u < 1)%R -> separated u (KnotsU s) ->
  1 <= times <= count u (KnotsU s) -> count u (KnotsU s) <= DegreeU s + 1 -> 2 * times <= DegreeU s + count u (KnotsU s) ->
  Surface_RemoveKnotU s u times 0%R = Ok (s', times) ->
  DegreeU s' = DegreeU s /\ DegreeV s' = DegreeV s /\ KnotsV s' = KnotsV s /\
  clamped (DegreeU s') (KnotsU s') /\ Permutation (KnotsU s) (repeat u (Z.to_nat times) ++ KnotsU s') /\
  UCount (Net s') = UCount (Net s) - times /\ VCount (Net s') = VCount (Net s) /\ len (Values (Net s')) = UCount (Net s') * VCount (Net s') /\
  forall x y, Surface_Evaluate s' x y = Surface_Evaluate s x y.
Proof. exact C51_exactU_lemma. Qed.
Print Assumptions C51_exactU_partial.
Theorem C51_exactV_partial : forall (s : surface R) v times s', wf_surface s -> (0 < v < 1)%R -> separated v (KnotsV s) ->
  1 <= times <= count v (KnotsV s) -> count v (KnotsV s) <= DegreeV s + 1 -> 2 * times <= DegreeV s + count v (KnotsV s) ->
  Surface_RemoveKnotV s v times 0%R = Ok (s', times) ->
  DegreeU s' = DegreeU s /\ DegreeV s' = DegreeV s /\ KnotsU s' = KnotsU s /\
  clamped (DegreeV s') (KnotsV s') /\ Permutation (KnotsV s) (repeat v (Z.to_nat times) ++ KnotsV s') /\
  UCount (Net s') = UCount (Net s) /\ VCount (Net s') = VCount (Net s) - times /\ len (Values (Net s')) = UCount (Net s') * VCount (Net s') /\
  forall x y, Surface_Evaluate s' x y = Surface_Evaluate s x y.
Proof. exact C51_exactV_lemma. Qed.
Print Assumptions C51_exactV_partial.
Example C51_exactU_ex : exists s s', wf_surface s /\ (0 < 1/4 < 1)%R /\ separated (1/4) (KnotsU s) /\
  1 <= 1 <= count (1/4) (KnotsU s) /\ count (1/4) (KnotsU s) <= DegreeU s + 1 /\ 2 * 1 <= DegreeU s + count (1/4) (KnotsU s) /\
  Surface_RemoveKnotU s (1/4)%R 1 0%R = Ok (s', 1).
Proof. exact C51_exactU_ex_lemma. Qed.
Example C51_exactV_ex : exists s s', wf_surface s /\ (0 < 1/4 < 1)%R /\ separated (1/4) (KnotsV s) /\
  1 <= 1 <= count (1/4) (KnotsV s) /\ count (1/4) (KnotsV s) <= DegreeV s + 1 /\ 2 * 1 <= DegreeV s + count (1/4) (KnotsV s) /\
  Surface_RemoveKnotV s (1/4)%R 1 0%R = Ok (s', 1).
Proof. exact C51_exactV_ex_lemma. Qed.

(** What fails: with a partial success the sizes do not match the report ... *)
Theorem C51_count_refuted :
  (exists (s : surface b64) u times s' t, wf_surface (surface_val s) /\ (0 < val u < 1)%R /\
     Surface_RemoveKnotU s u times dz = Ok (s', t) /\ 0 < t < times /\
     len (KnotsU s') <> len (KnotsU s) - t /\ UCount (Net s') <> UCount (Net s) - t) /\
  (exists (s : surface b64) v times s' t, wf_surface (surface_val s) /\ (0 < val v < 1)%R /\
     Surface_RemoveKnotV s v times dz = Ok (s', t) /\ 0 < t < times /\
     len (KnotsV s') <> len (KnotsV s) - t /\ VCount (Net s') <> VCount (Net s) - t).
Proof. exact C51_refuted_lemma. Qed.
Print Assumptions C51_count_refuted.
(** ... and a value that is not a knot makes the code read out of bounds. *)
Theorem C51_not_a_knot_refuted :
  (exists (s : surface b64) u, wf_surface (surface_val s) /\ (0 < val u < 1)%R /\ ~ In (val u) (vals (KnotsU s)) /\
     Surface_RemoveKnotU s u 1 dz = Undefined OutOfBounds) /\
  (exists (s : surface b64) v, wf_surface (surface_val s) /\ (0 < val v < 1)%R /\ ~ In (val v) (vals (KnotsV s)) /\
     Surface_RemoveKnotV s v 1 dz = Undefined OutOfBounds).
Proof. exact C51_not_a_knot_lemma. Qed.
Print Assumptions C51_not_a_knot_refuted.
