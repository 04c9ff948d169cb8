(** C118: the boundary curves of a surface of doubles. *)
From Coq Require Import Reals QArith ZArith List Lra Lia Floats.SpecFloat.
From Flocq Require Import Core.
From Verif Require Import Outcome Num ModelCore ModelCurve ModelSurface SpecCore SpecBasis SpecErr SpecGeom64 SpecEnd64 SpecCorner64 SpecEdge64 ThB64 ThCoreWit ThDecide ThErrWit ThBBoxWit ThEdge64 ThEdge64w.
Import ListNotations.
Open Scope R_scope.

(** * C118 *)
(** on the edges v = 0 and v = 1 the surface has exactly the values of the curve of the first or last row of its net *)
Theorem C118_row : forall (s : surface b64) M u v kv dv, sound_surface s -> apart (KnotsU s) -> (DegreeU s <= 50)%Z -> Forall (tame M) (Values (Net s)) -> 0 <= M <= 2 ^ 100 ->
  end_of (DegreeV s) (KnotsV s) v kv dv -> undone dv -> finite64 u -> 0 <= val u <= 1 ->
  exists q q', Curve_Evaluate (net_row s kv) u = Ok q /\ Surface_Evaluate s u v = Ok q' /\ finite64 (x3 q') /\ finite64 (y3 q') /\ finite64 (z3 q') /\ val3 q' = val3 q.
Proof. exact C118_row_lemma. Qed.
Print Assumptions C118_row.
Example C118_row_ex : sound_surface err_surface /\ apart (KnotsU err_surface) /\ Forall (tame 1) (Values (Net err_surface)) /\
  end_of 1 (KnotsV err_surface) done_ 1 1 /\ undone 1 /\ finite64 (dq (1 # 3)) /\ 0 <= val (dq (1 # 3)) <= 1 /\
  ControlPoints (net_row err_surface 1) = [pt 1 0 1 1; pt 1 1 1 (1 # 2); pt (-1) 1 1 (3 # 4); pt (-1) 0 1 1] /\
  Surface_Evaluate err_surface (dq (1 # 3)) done_ = Curve_Evaluate (net_row err_surface 1) (dq (1 # 3)) /\
  Surface_Evaluate err_surface (dq (1 # 3)) dz <> Curve_Evaluate (net_row err_surface 1) (dq (1 # 3)).
Proof.
  split; [apply err_surface_ok|]. split; [apply err_apart|]. split; [apply err_surface_ok|]. split; [apply edge_ends|]. split; [apply edge_ends|]. split; [apply third_unit|]. split; [apply third_unit|].
  split; [vm_compute; reflexivity|]. split; [vm_compute; reflexivity|vm_compute; discriminate].
Qed.

(** on the edges u = 0 and u = 1 it is the curve of the first or last column *)
Theorem C118_column : forall (s : surface b64) M u v ku du, sound_surface s -> apart (KnotsV s) -> (DegreeV s <= 50)%Z -> Forall (tame M) (Values (Net s)) -> 0 <= M <= 2 ^ 100 ->
  end_of (DegreeU s) (KnotsU s) u ku du -> undone du -> finite64 v -> 0 <= val v <= 1 ->
  exists q q', Curve_Evaluate (net_column s ku) v = Ok q /\ Surface_Evaluate s u v = Ok q' /\ finite64 (x3 q') /\ finite64 (y3 q') /\ finite64 (z3 q') /\ val3 q' = val3 q.
Proof. exact C118_column_lemma. Qed.
Print Assumptions C118_column.
Example C118_column_ex : sound_surface err_surface /\ apart (KnotsV err_surface) /\ Forall (tame 1) (Values (Net err_surface)) /\
  end_of 2 (KnotsU err_surface) dz 0 (1 / 2) /\ undone (1 / 2) /\ finite64 (dq (1 # 3)) /\ 0 <= val (dq (1 # 3)) <= 1 /\
  ControlPoints (net_column err_surface 0) = [pt 1 0 0 1; pt 1 0 1 1] /\
  Surface_Evaluate err_surface dz (dq (1 # 3)) = Curve_Evaluate (net_column err_surface 0) (dq (1 # 3)) /\
  Surface_Evaluate err_surface done_ (dq (1 # 3)) <> Curve_Evaluate (net_column err_surface 0) (dq (1 # 3)).
Proof.
  split; [apply err_surface_ok|]. split; [apply err_apart|]. split; [apply err_surface_ok|]. split; [apply edge_ends|]. split; [apply edge_ends|]. split; [apply third_unit|]. split; [apply third_unit|].
  split; [vm_compute; reflexivity|]. split; [vm_compute; reflexivity|vm_compute; discriminate].
Qed.

(** a first V span of 49/64 is not undone, and there the edge is not the row's curve to the last bit *)
Theorem C118_span : exists (s : surface b64) u v dv q q', sound_surface s /\ apart (KnotsU s) /\ Forall (tame 1) (Values (Net s)) /\
  end_of (DegreeV s) (KnotsV s) v 0 dv /\ finite64 u /\ 0 <= val u <= 1 /\
  Curve_Evaluate (net_row s 0) u = Ok q /\ Surface_Evaluate s u v = Ok q' /\ val3 q' <> val3 q.
Proof. exact C118_span_lemma. Qed.
Print Assumptions C118_span.
