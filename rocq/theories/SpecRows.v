(** Specification of surface operations that work line by line on the control
    net: the lines of a net. *)
From Coq Require Import ZArith List.
From Verif Require Import Outcome ModelCore.
Import ListNotations.
Open Scope Z_scope.

(** the table has as many cells as the counts say *)
Definition full_grid {A} (g : grid A) : Prop := 0 <= UCount g /\ 0 <= VCount g /\ len (Values g) = UCount g * VCount g.
(** [l] is the line of cells (0,j), (1,j), ... of the net *)
Definition line_u {A} (g : grid A) (j : Z) (l : list A) : Prop :=
  0 <= j < VCount g /\ len l = UCount g /\
  forall i, 0 <= i < UCount g -> nth_error l (Z.to_nat i) = nth_error (Values g) (Z.to_nat (j * UCount g + i)).
(** [l] is the line of cells (i,0), (i,1), ... of the net *)
Definition line_v {A} (g : grid A) (i : Z) (l : list A) : Prop :=
  0 <= i < UCount g /\ len l = VCount g /\
  forall j, 0 <= j < VCount g -> nth_error l (Z.to_nat j) = nth_error (Values g) (Z.to_nat (j * UCount g + i)).
