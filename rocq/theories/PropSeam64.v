(** C119: surfaces of doubles that share an edge meet without a crack. *)
From Coq Require Import Reals QArith ZArith List Lra Lia Floats.SpecFloat.
From Flocq Require Import Core.
From Verif Require Import Outcome Num ModelCore ModelCurve ModelSurface SpecCore SpecBasis SpecErr SpecGeom64 SpecEnd64 SpecCorner64 SpecEdge64 SpecSeam64 ThB64 ThCoreWit ThDecide ThErrWit ThBBoxWit ThEdge64w ThSeam64.
Import ListNotations.
Open Scope R_scope.

(** * C119 *)
Theorem C119_seam : forall (s s' : surface b64) M c x u v u' v', sound_surface s -> sound_surface s' -> Forall (tame M) (Values (Net s)) -> Forall (tame M) (Values (Net s')) -> 0 <= M <= 2 ^ 100 ->
  apart (Knots c) -> (Degree c <= 50)%Z -> finite64 x -> 0 <= val x <= 1 -> on_edge s c x u v -> on_edge s' c x u' v' ->
  exists q q', Surface_Evaluate s u v = Ok q /\ Surface_Evaluate s' u' v' = Ok q' /\ finite64 (x3 q) /\ finite64 (y3 q) /\ finite64 (z3 q) /\ val3 q = val3 q'.
Proof. exact C119_lemma. Qed.
Print Assumptions C119_seam.
Example C119_seam_ex : sound_surface err_surface /\ sound_surface next_surface /\ Forall (tame 1) (Values (Net err_surface)) /\ Forall (tame 1) (Values (Net next_surface)) /\
  apart (Knots (net_row err_surface 1)) /\ finite64 (dq (1 # 3)) /\ 0 <= val (dq (1 # 3)) <= 1 /\
  on_edge err_surface (net_row err_surface 1) (dq (1 # 3)) (dq (1 # 3)) done_ /\ on_edge next_surface (net_row err_surface 1) (dq (1 # 3)) done_ (dq (1 # 3)) /\
  Surface_Evaluate err_surface (dq (1 # 3)) done_ = Surface_Evaluate next_surface done_ (dq (1 # 3)) /\
  Surface_Evaluate err_surface (dq (1 # 3)) dz <> Surface_Evaluate next_surface dz (dq (1 # 3)).
Proof.
  split; [apply err_surface_ok|]. split; [apply next_ok|]. split; [apply err_surface_ok|]. split; [apply next_ok|]. split; [apply err_apart|]. split; [apply third_unit|]. split; [apply third_unit|].
  split; [apply next_ok|]. split; [apply next_ok|]. split; [vm_compute; reflexivity|vm_compute; discriminate].
Qed.
