(** What the parameter searches are required to do, independently of how they
    search (properties C44, C45, C54). *)
From Coq Require Import Reals.
From Verif Require Import Num ModelCore.
Open Scope R_scope.

(** Euclidean distance of two points. *)
Definition dist3 (a b : vec3 R) : R :=
  sqrt ((x3 a - x3 b) * (x3 a - x3 b) + (y3 a - y3 b) * (y3 a - y3 b) + (z3 a - z3 b) * (z3 a - z3 b)).

(** [f] decreases strictly on [[0,m]] and increases strictly on [[m,1]]. *)
Definition strictly_unimodal (f : R -> R) (m : R) : Prop :=
  0 <= m <= 1 /\
  (forall x y, 0 <= x -> x < y -> y <= m -> f y < f x) /\
  (forall x y, m <= x -> x < y -> y <= 1 -> f x < f y).

(** The unit interval and the unit square. *)
Definition unit_interval (u : R) : Prop := 0 <= u <= 1.
Definition unit_square (uv : R * R) : Prop := unit_interval (fst uv) /\ unit_interval (snd uv).

(** [DBL_MAX], the start value of the residual. *)
Definition dbl_max : R := IZR (2 ^ 1024 - 2 ^ 971).

(** A number of any arithmetic that compares as lying in [[0,1]] (NaN does not). *)
Definition in_unit {T} `{Num T} (u : T) : Prop := nleb n0 u = true /\ nleb u n1 = true.
