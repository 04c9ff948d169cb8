(** Vocabulary for statements about how often a curve crosses a plane. *)
From Coq Require Import Reals ZArith List.
From Verif Require Import Outcome Num ModelCore.
Import ListNotations.
Open Scope Z_scope.

(** the plane a x + b y + d z = e: positive on one side, negative on the other *)
Definition side (a b d e : R) (q : vec3 R) : R := (a * x3 q + b * y3 q + d * z3 q - e)%R.
(** non-zero values of strictly changing sign *)
Inductive alternating : list R -> Prop :=
  | alternating_one x : x <> 0%R -> alternating [x]
  | alternating_cons x y l : (x * y < 0)%R -> alternating (y :: l) -> alternating (x :: y :: l).
(** same side, off the plane *)
Definition same_sign (x y : R) : Prop := (0 < x * y)%R.
