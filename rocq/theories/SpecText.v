(** Specification of text files: what a number printed with 17 decimals comes
    back as.  IEEE-754 binary64 spelt out on the bit pattern, independent of the
    model's decoding, printing and parsing. *)
From Coq Require Import List ZArith Reals Ascii.
From Flocq Require Import Core.
From Verif Require Import Outcome Num ModelCore ModelCurve ModelSerial.
Import ListNotations.
Open Scope Z_scope.

(** the 64-bit pattern of a double in memory (little endian) *)
Definition byte_value (c : ascii) : Z := Z.of_N (N_of_ascii c).
Definition pattern (d : dbl) : Z :=
  byte_value (byte0 d) + 2 ^ 8 * byte_value (byte1 d) + 2 ^ 16 * byte_value (byte2 d) + 2 ^ 24 * byte_value (byte3 d)
  + 2 ^ 32 * byte_value (byte4 d) + 2 ^ 40 * byte_value (byte5 d) + 2 ^ 48 * byte_value (byte6 d) + 2 ^ 56 * byte_value (byte7 d).
Definition exponent_field (d : dbl) : Z := (pattern d / 2 ^ 52) mod 2 ^ 11.
Definition fraction_field (d : dbl) : Z := pattern d mod 2 ^ 52.
(** sign bit *)
Definition negative (d : dbl) : Prop := 2 ^ 63 <= pattern d.
(** neither infinite nor NaN *)
Definition finite_dbl (d : dbl) : Prop := exponent_field d <> 2047.
(** the real number denoted by a finite pattern *)
Definition magnitude (d : dbl) : R :=
  if exponent_field d =? 0 then (IZR (fraction_field d) * bpow radix2 (-1074))%R
  else (IZR (2 ^ 52 + fraction_field d) * bpow radix2 (exponent_field d - 1075))%R.
Definition real_of (d : dbl) : R := if 2 ^ 63 <=? pattern d then (- magnitude d)%R else magnitude d.

(** [x] written with 17 decimals, ties to even *)
Definition decimals17 (x : R) : R := (IZR (ZnearestE (x * IZR (10 ^ 17))) / IZR (10 ^ 17))%R.
(** nearest binary64, ties to even (unbounded above) *)
Definition nearest64 (x : R) : R := round radix2 (FLT_exp (-1074) 53) ZnearestE x.
(** what a double must come back as *)
Definition restored (d d' : dbl) : Prop :=
  finite_dbl d' /\ (negative d' <-> negative d) /\ real_of d' = nearest64 (decimals17 (real_of d)) /\
  ((/ 16 <= Rabs (real_of d))%R \/ (exists k : Z, real_of d = (IZR k / IZR (2 ^ 17))%R) -> d' = d).
Definition on_coords (P : dbl -> Prop) (p : vec4 dbl) : Prop := P (x4 p) /\ P (y4 p) /\ P (z4 p) /\ P (w4 p).
Definition restored4 (p q : vec4 dbl) : Prop :=
  restored (x4 p) (x4 q) /\ restored (y4 p) (y4 q) /\ restored (z4 p) (z4 q) /\ restored (w4 p) (w4 q).
(** numbers that survive exactly *)
Definition text_exact (d : dbl) : Prop :=
  finite_dbl d /\ ((/ 16 <= Rabs (real_of d))%R \/ exists k : Z, real_of d = (IZR k / IZR (2 ^ 17))%R).
