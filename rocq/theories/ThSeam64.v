(** Proof of C119. *)
From Coq Require Import Reals QArith ZArith List Lra Lia Floats.SpecFloat.
From Flocq Require Import Core.
From Verif Require Import Outcome Num ModelCore ModelCurve ModelSurface SpecCore SpecBasis SpecErr SpecGeom64 SpecEnd64 SpecCorner64 SpecEdge64 SpecSeam64
  ThB64 ThCoreWit ThCurveWit ThDecide ThErrWit ThBBoxWit ThCorner64w ThEdge64 ThEdge64w.
Import ListNotations.
Open Scope R_scope.

Lemma edge_value (s : surface b64) M c x u v : sound_surface s -> Forall (tame M) (Values (Net s)) -> 0 <= M <= 2 ^ 100 -> apart (Knots c) -> (Degree c <= 50)%Z ->
  finite64 x -> 0 <= val x <= 1 -> on_edge s c x u v ->
  exists q q', Curve_Evaluate c x = Ok q /\ Surface_Evaluate s u v = Ok q' /\ finite64 (x3 q') /\ finite64 (y3 q') /\ finite64 (z3 q') /\ val3 q' = val3 q.
Proof.
  intros S T HM A D F H [[k [d [-> [-> [E U]]]]]|[k [d [-> [-> [E U]]]]]].
  - exact (C118_row_lemma s M x v k d S A D T HM E U F H).
  - exact (C118_column_lemma s M u x k d S A D T HM E U F H).
Qed.
Lemma C119_lemma : forall (s s' : surface b64) M c x u v u' v', sound_surface s -> sound_surface s' -> Forall (tame M) (Values (Net s)) -> Forall (tame M) (Values (Net s')) -> 0 <= M <= 2 ^ 100 ->
  apart (Knots c) -> (Degree c <= 50)%Z -> finite64 x -> 0 <= val x <= 1 -> on_edge s c x u v -> on_edge s' c x u' v' ->
  exists q q', Surface_Evaluate s u v = Ok q /\ Surface_Evaluate s' u' v' = Ok q' /\ finite64 (x3 q) /\ finite64 (y3 q) /\ finite64 (z3 q) /\ val3 q = val3 q'.
Proof.
  intros s s' M c x u v u' v' S S' T T' HM A D F H E E'.
  destruct (edge_value s M c x u v S T HM A D F H E) as [q0 [q [E0 [Eq [F1 [F2 [F3 V]]]]]]].
  destruct (edge_value s' M c x u' v' S' T' HM A D F H E') as [q1 [q' [E1 [Eq' [_ [_ [_ V']]]]]]].
  rewrite E0 in E1. injection E1 as <-. exists q, q'. split; [exact Eq|]. split; [exact Eq'|]. split; [exact F1|]. split; [exact F2|]. split; [exact F3|]. congruence.
Qed.

(** a second patch, whose edge u = 1 carries the row v = 1 of [err_surface] *)
Definition next_surface : surface b64 := Surface 1 2 [dz; dz; done_; done_] err_knots
  (Grid 2 4 [pt (1 # 9) 1 (1 # 7) (5 # 8); pt 1 0 1 1; pt 0 (1 # 3) 0 1; pt 1 1 1 (1 # 2); pt 1 0 1 (2 # 3); pt (-1) 1 1 (3 # 4); pt 0 (-1 # 7) 1 1; pt (-1) 0 1 1]).
Lemma next_ok : sound_surface next_surface /\ Forall (tame 1) (Values (Net next_surface)) /\
  on_edge err_surface (net_row err_surface 1) (dq (1 # 3)) (dq (1 # 3)) done_ /\ on_edge next_surface (net_row err_surface 1) (dq (1 # 3)) done_ (dq (1 # 3)).
Proof.
  split; [split; [apply soundb_ok; vm_compute; reflexivity|]; split; [apply soundb_ok; vm_compute; reflexivity|]; split; [reflexivity|]; split; reflexivity|].
  split; [apply tameb_ok; vm_compute; reflexivity|]. destruct edge_ends as [E [U _]]. split.
  - left. exists 1%Z, 1. split; [reflexivity|]. split; [reflexivity|]. split; assumption.
  - right. exists 1%Z, 1. split; [reflexivity|]. split; [vm_compute; reflexivity|]. split; assumption.
Qed.
