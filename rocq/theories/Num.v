(** The arithmetic of the library's [Numeric] (C++ [double],
    include/libnurbs/Core/Typedefs.hpp:17), as an interface with two readings:
    - [R]: exact real arithmetic (used for the geometric theorems);
    - [spec_float]: IEEE-754 binary64, round-to-nearest-even, from the standard
      library's [SpecFloat] (used to run the model on real doubles). *)
From Coq Require Import Reals ZArith QArith Qreals Bool List.
From Coq Require Import Floats.SpecFloat.
From Verif Require Import Outcome.
Import ListNotations.
Open Scope Z_scope.

Class Num (T : Type) := {
  n0 : T;
  n1 : T;
  nadd : T -> T -> T;
  nsub : T -> T -> T;
  nmul : T -> T -> T;
  nopp : T -> T;
  (** division; exact arithmetic has no value for x/0 and answers [NotFinite] *)
  ndiv : T -> T -> outcome T;
  nltb : T -> T -> bool;
  nleb : T -> T -> bool;
  neqb : T -> T -> bool;
  (** int -> double conversion *)
  nofZ : Z -> T;
  (** decimal literal *)
  nlit : Q -> T;
  nsqrt : T -> T;
}.

Declare Scope num_scope.
Delimit Scope num_scope with num.
Infix "+" := nadd : num_scope.
Infix "-" := nsub : num_scope.
Infix "*" := nmul : num_scope.
Infix "</?" := ndiv (at level 40, left associativity) : num_scope.
Infix "<?" := nltb : num_scope.
Infix "<=?" := nleb : num_scope.
Infix "=?" := neqb : num_scope.

(** Literals used by the library. *)
Definition lit_1e_6 {T} `{Num T} : T := nlit (1 # 1000000).

(** Derived C++ operations. *)
Section Derived.
  Context {T : Type} `{Num T}.
  Open Scope num_scope.
  (** a > b, a >= b, a != b *)
  Definition ngtb (a b : T) : bool := b <? a.
  Definition ngeb (a b : T) : bool := b <=? a.
  Definition nneb (a b : T) : bool := negb (a =? b).
  (** std::abs(double) : clears the sign *)
  Definition nabs (a : T) : T := if a <? n0 then nopp a else a.
  (** std::min(a,b) = (b < a) ? b : a ; std::max(a,b) = (a < b) ? b : a *)
  Definition nmin (a b : T) : T := if b <? a then b else a.
  Definition nmax (a b : T) : T := if a <? b then b else a.
  (** std::clamp(v,lo,hi) = (v < lo) ? lo : (hi < v) ? hi : v *)
  Definition nclamp (v lo hi : T) : T := if v <? lo then lo else if hi <? v then hi else v.
End Derived.

(** ** Exact real arithmetic *)
Definition Rltb (x y : R) : bool := if Rlt_dec x y then true else false.
Definition Rleb (x y : R) : bool := if Rle_dec x y then true else false.
Definition Reqb (x y : R) : bool := if Req_EM_T x y then true else false.

#[global] Instance Num_R : Num R := {|
  n0 := 0%R;
  n1 := 1%R;
  nadd := Rplus;
  nsub := Rminus;
  nmul := Rmult;
  nopp := Ropp;
  ndiv := fun x y => if Req_EM_T y 0%R then NotFinite else Ok (x / y)%R;
  nltb := Rltb;
  nleb := Rleb;
  neqb := Reqb;
  nofZ := IZR;
  nlit := Q2R;
  nsqrt := sqrt;
|}.

(** ** IEEE-754 binary64, rounding to nearest even (no NaN payloads) *)
Definition b64 : Type := spec_float.
Definition b64_of_Z (z : Z) : b64 := binary_normalize 53 1024 z 0 false.
(** A decimal literal n/d whose n and d are exactly representable is rounded
    once by the division, i.e. correctly. *)
Definition b64_of_Q (q : Q) : b64 :=
  SFdiv 53 1024 (b64_of_Z (Qnum q)) (b64_of_Z (Zpos (Qden q))).

#[global] Instance Num_b64 : Num b64 | 100 := {|
  n0 := S754_zero false;
  n1 := b64_of_Z 1;
  nadd := SFadd 53 1024;
  nsub := SFsub 53 1024;
  nmul := SFmul 53 1024;
  nopp := SFopp;
  ndiv := fun x y => Ok (SFdiv 53 1024 x y);
  nltb := SFltb;
  nleb := SFleb;
  neqb := SFeqb;
  nofZ := b64_of_Z;
  nlit := b64_of_Q;
  nsqrt := SFsqrt 53 1024;
|}.
