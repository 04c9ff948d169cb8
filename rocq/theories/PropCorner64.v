(** C116: the corners of a surface of doubles. *)
From Coq Require Import Reals QArith ZArith List Lra Lia Floats.SpecFloat.
From Flocq Require Import Core.
From Verif Require Import Outcome Num ModelCore ModelSurface SpecCore SpecBasis SpecErr SpecGeom64 SpecEnd64 SpecCorner64 ThB64 ThCoreWit ThDecide ThBBoxWit ThEnd64w ThCorner64 ThCorner64w.
Import ListNotations.
Open Scope R_scope.

(** * C116 *)
Theorem C116_corner : forall (s : surface b64) u v ku kv du dv corner, sound_surface s -> Forall mild (Values (Net s)) ->
  end_of (DegreeU s) (KnotsU s) u ku du -> end_of (DegreeV s) (KnotsV s) v kv dv -> undone du \/ undone dv ->
  nth_error (Values (Net s)) (Z.to_nat (kv * UCount (Net s) + ku)) = Some corner -> plain_end corner ->
  exists q, Surface_Evaluate s u v = Ok q /\ finite64 (x3 q) /\ finite64 (y3 q) /\ finite64 (z3 q) /\ val3 q = val3 (spot corner).
Proof. exact C116_corner_lemma. Qed.
Print Assumptions C116_corner.
Example C116_corner_ex : sound_surface corner_surface /\ Forall mild (Values (Net corner_surface)) /\
  end_of 1 (KnotsU corner_surface) dz 0 (at_ (vals gap_knots) 2) /\ end_of 1 (KnotsV corner_surface) done_ 1 1 /\ undone 1 /\
  nth_error (Values (Net corner_surface)) (Z.to_nat (1 * UCount (Net corner_surface) + 0)) = Some (pt 3 (1 # 10) 1 1) /\ plain_end (pt 3 (1 # 10) 1 1) /\
  Surface_Evaluate corner_surface dz done_ = Ok (Vec3 (dq 3) (dq (1 # 10)) (dq 1)).
Proof. split; [apply corner_ok|]. split; [apply corner_ok|]. split; [apply corner_ends|]. split; [apply corner_ends|]. split; [apply corner_ends|]. split; [reflexivity|]. split; [apply corner_ok|vm_compute; reflexivity]. Qed.

(** spans whose length is a power of two, one included, are undone *)
Theorem C116_power : forall k : nat, (k <= 900)%nat -> undone (/ 2 ^ k).
Proof. exact C116_power_lemma. Qed.
Print Assumptions C116_power.
Example C116_power_ex : undone (/ 2 ^ 3).
Proof. apply C116_power_lemma. lia. Qed.

(** with a first span of 49/64 in both directions the corner (3,0,0) of weight one is missed *)
Theorem C116_two_spans : exists (s : surface b64) u v du dv corner q, sound_surface s /\ Forall mild (Values (Net s)) /\
  end_of (DegreeU s) (KnotsU s) u 0 du /\ end_of (DegreeV s) (KnotsV s) v 0 dv /\
  nth_error (Values (Net s)) 0 = Some corner /\ plain_end corner /\ Surface_Evaluate s u v = Ok q /\ val3 q <> val3 (spot corner).
Proof. exact C116_two_spans_lemma. Qed.
Print Assumptions C116_two_spans.
