(** Vocabulary of degree elevation (C40, C41, C52). *)
From Coq Require Import Reals ZArith List.
From Verif Require Import Outcome SpecCore.
Import ListNotations.
Open Scope Z_scope.

(** Every distinct value of [l] occurs [t] more times in [l'], and nothing else does. *)
Definition gains (t : Z) (l l' : list R) : Prop :=
  nondecreasing l' /\ (forall x, In x l -> count x l' = count x l + t) /\ (forall x, ~ In x l -> ~ In x l').
(** neighbouring distinct knots *)
Definition consecutive (l : list R) (x y : R) : Prop :=
  In x l /\ In y l /\ (x < y)%R /\ forall z, In z l -> ~ (x < z < y)%R.
(** Distinct knots are at least 1e-6 apart. *)
Definition spread (l : list R) : Prop := forall x y, consecutive l x y -> ~ close x y.
(** The multiplicities of neighbouring interior knots do not jump up by more than one,
    or the degree is small compared with them. *)
Definition gentle (p t : Z) (l : list R) : Prop := forall x y, consecutive l x y -> (0 < x)%R -> (y < 1)%R ->
  count y l <= count x l + 1 \/ p <= count y l + 2 * (count x l + t) + 2.
(** Number of non-empty spans: distinct knots minus one. *)
Definition spans (l : list R) : Z := len (nodup Req_EM_T l) - 1.
