(** Specification of derivatives of piecewise functions. *)
From Coq Require Import Reals ZArith List Lra Lia.
From Coquelicot Require Import Coquelicot.
From Verif Require Import Outcome Num ModelCore ModelCurve SpecCore SpecBasis SpecCurve.
Import ListNotations.
Open Scope R_scope.

(** [v] is the k-th derivative at [x], taken inside the piece [a,b], of a
    function [f] that is smooth inside the piece: the derivatives [F 0 = f, F 1,
    F 2, ...] of [f] on the open piece extend differentiably to the closed piece
    and [v = F k x].  At the ends of the piece this is the one-sided derivative. *)
Definition piece_derivative (f : R -> R) (a b : R) (k : nat) (x v : R) : Prop :=
  exists F : nat -> R -> R,
    (forall t, a < t < b -> f t = F O t) /\
    (forall n t, a <= t <= b -> is_derive (F n) t (F (S n) t)) /\
    F k x = v.

(** the same for a vector-valued function *)
Definition piece_derivative3 (f : R -> vec3 R) (a b : R) (k : nat) (x : R) (v : vec3 R) : Prop :=
  piece_derivative (fun t => x3 (f t)) a b k x (x3 v) /\
  piece_derivative (fun t => y3 (f t)) a b k x (y3 v) /\
  piece_derivative (fun t => z3 (f t)) a b k x (z3 v).
Definition is_derive_n3 (f : R -> vec3 R) (k : nat) (x : R) (v : vec3 R) : Prop :=
  is_derive_n (fun t => x3 (f t)) k x (x3 v) /\
  is_derive_n (fun t => y3 (f t)) k x (y3 v) /\
  is_derive_n (fun t => z3 (f t)) k x (z3 v).

(** mixed partial derivative of order (k, l), inside the piece [a,b] x [c,d] *)
Definition piece_partial (f : R -> R -> R) (a b c d : R) (k l : nat) (u v r : R) : Prop :=
  exists F : nat -> nat -> R -> R -> R,
    (forall s t, a < s < b -> c < t < d -> f s t = F O O s t) /\
    (forall m n s t, a <= s <= b -> c <= t <= d ->
       is_derive (fun s => F m n s t) s (F (S m) n s t) /\
       is_derive (fun t => F m n s t) t (F m (S n) s t)) /\
    F k l u v = r.
Definition piece_partial3 (f : R -> R -> vec3 R) (a b c d : R) (k l : nat) (u v : R) (r : vec3 R) : Prop :=
  piece_partial (fun s t => x3 (f s t)) a b c d k l u v (x3 r) /\
  piece_partial (fun s t => y3 (f s t)) a b c d k l u v (y3 r) /\
  piece_partial (fun s t => z3 (f s t)) a b c d k l u v (z3 r).
(** the k-th derivative in the first argument of the l-th derivative in the second *)
Definition is_partial (f : R -> R -> R) (k l : nat) (u v r : R) : Prop :=
  is_derive_n (fun s => Derive_n (fun t => f s t) l v) k u r.
Definition is_partial3 (f : R -> R -> vec3 R) (k l : nat) (u v : R) (r : vec3 R) : Prop :=
  is_partial (fun s t => x3 (f s t)) k l u v (x3 r) /\
  is_partial (fun s t => y3 (f s t)) k l u v (y3 r) /\
  is_partial (fun s t => z3 (f s t)) k l u v (z3 r).
(** the products of binomial coefficients formed for these orders fit in an int *)
Definition binomials_fit (a b : Z) : Prop :=
  (forall m n i j : nat, Z.of_nat m <= a -> Z.of_nat n <= b -> (i <= m)%nat -> (j <= n)%nat ->
    choose m i * choose n j <= INT_MAX)%Z.
