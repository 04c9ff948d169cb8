(** Matrices of doubles (C113). *)
From Coq Require Import Reals ZArith.
From Verif Require Import Outcome Num ModelCore ThB64 SpecGeom64 ThBBoxWit.
Open Scope R_scope.

(** nine finite entries of absolute value at most [K] *)
Definition small_mat (K : R) (m : mat3 b64) : Prop := small3 K (row0 m) /\ small3 K (row1 m) /\ small3 K (row2 m).
(** the matrix of the values *)
Definition mat_val (m : mat3 b64) : mat3 R := Mat3 (val3 (row0 m)) (val3 (row1 m)) (val3 (row2 m)).
