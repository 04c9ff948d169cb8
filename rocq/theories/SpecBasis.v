(** Specification of B-splines: Cox-de Boor basis functions and finite sums. *)
From Coq Require Import Reals ZArith List Lra Lia.
From Verif Require Import Outcome.
Import ListNotations.
Open Scope Z_scope.

(** Finite sum of [f i] for lo <= i < hi. *)
Definition zsum (lo hi : Z) (f : Z -> R) : R :=
  fold_right Rplus 0%R (map f (map (fun k => lo + Z.of_nat k) (seq 0 (Z.to_nat (hi - lo))))).

(** The knot sequence of a knot list, extended constantly to both sides. *)
Definition kf (l : list R) (i : Z) : R := nth (Z.to_nat i) l 1%R.

(** a/b with the convention 0/0 = 0 of the Cox-de Boor recurrence. *)
Definition ratio (a b : R) : R := if Req_EM_T b 0 then 0%R else (a / b)%R.

(** Characteristic function of the span [U i, U (i+1)), closed at 1. *)
Definition N0 (U : Z -> R) (i : Z) (x : R) : R :=
  if Rle_dec (U i) x then
    if Rlt_dec x (U (i + 1)) then 1%R
    else if Req_EM_T x 1 then
      if Rlt_dec (U i) 1 then if Req_EM_T (U (i + 1)) 1 then 1%R else 0%R else 0%R
    else 0%R
  else 0%R.

(** Cox-de Boor basis function N_{i,p}. *)
Fixpoint N (U : Z -> R) (p : nat) (i : Z) (x : R) : R :=
  match p with
  | O => N0 U i x
  | S q =>
      (ratio (x - U i) (U (i + Z.of_nat p)%Z - U i) * N U q i x +
       ratio (U (i + Z.of_nat p + 1)%Z - x) (U (i + Z.of_nat p + 1)%Z - U (i + 1)%Z) * N U q (i + 1)%Z x)%R
  end.
