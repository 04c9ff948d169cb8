(** Specification of the accuracy of knot insertion in binary64. *)
From Coq Require Import Reals ZArith List.
From Verif Require Import Outcome Num ModelCore SpecCore ThB64.
Import ListNotations.
Open Scope R_scope.

(** a finite control point: the coordinates within [eps] of the exact ones, the
    weight within [eta] of the exact one, relatively *)
Definition near_point (eps eta : R) (q : vec4 b64) (p : vec4 R) : Prop :=
  finite64 (x4 q) /\ finite64 (y4 q) /\ finite64 (z4 q) /\ finite64 (w4 q) /\
  Rabs (val (x4 q) - x4 p) <= eps /\ Rabs (val (y4 q) - y4 p) <= eps /\ Rabs (val (z4 q) - z4 p) <= eps /\
  Rabs (val (w4 q) - w4 p) <= eta * w4 p.
(** every weight lies between [lo] and [hi] *)
Definition weights_in (lo hi : R) (l : list (vec4 b64)) : Prop := Forall (fun p => lo <= val (w4 p) <= hi) l.
(** each coordinate of two points differs by at most [eps] *)
Definition within3 (eps : R) (p q : vec3 R) : Prop :=
  Rabs (x3 p - x3 q) <= eps /\ Rabs (y3 p - y3 q) <= eps /\ Rabs (z3 p - z3 q) <= eps.
