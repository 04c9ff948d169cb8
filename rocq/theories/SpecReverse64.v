(** Reversing knot vectors of doubles (C103, C104). *)
From Coq Require Import Reals ZArith List.
From Verif Require Import Outcome Num ModelCore ModelCurve ModelSurface SpecCore SpecAlign SpecRows ThB64.
Import ListNotations.
Open Scope Z_scope.

(** all numbers lie in the unit interval *)
Definition in_unit_interval (l : list R) : Prop := Forall (fun x => 0 <= x <= 1)%R l.
(** all numbers are multiples of 2^-53 *)
Definition on_grid53 (l : list R) : Prop := Forall (fun x => exists m : Z, x = (IZR m / 2 ^ 53)%R) l.
(** [l'] is [l] backwards, each number subtracted from one *)
Definition flipped_knots (l l' : list b64) : Prop :=
  len l' = len l /\ forall i, 0 <= i < len l -> exists x, vget l (len l - 1 - i) = Ok x /\ vget l' i = Ok (nsub n1 x).
Definition flipped_if (b : bool) (l l' : list b64) : Prop := if b then flipped_knots l l' else l' = l.
(** [d] is [s] with the two directions exchanged if [swap], then the first
    reversed if [ru] and the second if [rv]; the control points are moved, never changed *)
Definition turned (s d : surface b64) (swap ru rv : bool) : Prop :=
  DegreeU d = (if swap then DegreeV s else DegreeU s) /\ DegreeV d = (if swap then DegreeU s else DegreeV s) /\
  flipped_if ru (if swap then KnotsV s else KnotsU s) (KnotsU d) /\ flipped_if rv (if swap then KnotsU s else KnotsV s) (KnotsV d) /\
  UCount (Net d) = (if swap then VCount (Net s) else UCount (Net s)) /\ VCount (Net d) = (if swap then UCount (Net s) else VCount (Net s)) /\
  full_grid (Net d) /\
  forall i j, 0 <= i < UCount (Net d) -> 0 <= j < VCount (Net d) ->
    let a := if ru then UCount (Net d) - 1 - i else i in let b := if rv then VCount (Net d) - 1 - j else j in
    exists p, Grid_Get (Net d) i j = Ok p /\ (if swap then Grid_Get (Net s) b a else Grid_Get (Net s) a b) = Ok p.
(** axis [a] dominates the vector by more than the rounding errors *)
Definition clearly_dominated (v : vec3 R) (a : AlignAxis) : Prop :=
  forall b, b <> a -> (Rabs (coord b v) * (1 + / 2 ^ 50) < Rabs (coord a v))%R.
(** some coordinate of the vector is at least 2e-6 in absolute value *)
Definition clearly_long (v : vec3 R) : Prop := exists c, (1 / 500000 <= Rabs (coord c v))%R.
