(** Specification vocabulary for the knot-vector queries on doubles (C112). *)
From Coq Require Import List ZArith Reals Floats.SpecFloat.
From Flocq Require Import BinarySingleNaN.
From Verif Require Import Outcome Num ModelCore SpecCore ThB64.
Import ListNotations.
Open Scope Z_scope.
Open Scope bool_scope.

(** a knot pair with its value read as a real number; index and multiplicity are kept *)
Definition pair_val (k : knotpair b64) : knotpair R := KnotPair (kp_Index k) (val (kp_Value k)) (kp_Multiplicity k).
(** value and multiplicity of a knot pair *)
Definition coded (k : knotpair b64) : R * Z := (val (kp_Value k), kp_Multiplicity k).
(** run-length expansion without leaving the doubles *)
Definition expand64 (ks : list (knotpair b64)) : list b64 :=
  flat_map (fun k => repeat (kp_Value k) (Z.to_nat (kp_Multiplicity k))) ks.
(** number of finite doubles of a list whose distance from [u] satisfies a test *)
Definition how_many (test : R -> bool) (l : list b64) (u : R) : Z :=
  len (filter (fun v => is_finite_SF v && test (Rabs (val v - u))%R) l).
Definition below (t d : R) : bool := if Rlt_dec d t then true else false.
Definition at_most (t d : R) : bool := if Rle_dec d t then true else false.
(** every gap is zero or differs from the first non-zero gap by at most [t] *)
Definition spaced_within (t : R) (l : list R) : Prop :=
  Forall (fun d => d = 0%R \/ (Rabs (d - first_nonzero (gaps l)) <= t)%R) (gaps l).
