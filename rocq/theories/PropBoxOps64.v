(** C114: the operations of BoundingBox on doubles. *)
From Coq Require Import Reals QArith ZArith List Lra Lia Floats.SpecFloat.
From Flocq Require Import Core.
From Verif Require Import Outcome Num ModelCore SpecCore SpecBox64 SpecGeom64 SpecBoxOps64 ThB64 ThCoreWit ThDecide ThBBoxWit ThBoxOps64.
Open Scope R_scope.

(** * C114 *)
Theorem C114_make : forall a b : vec3 b64, finite3 a -> finite3 b ->
  let m := BoundingBox_make a b in
  finite_box m /\ ordered (box_val m) /\ BoundingBox_Contains m a = true /\ BoundingBox_Contains m b = true /\
  forall d, in_box (val3 a) d -> in_box (val3 b) d -> box_incl (box_val m) d.
Proof. exact C114_make_lemma. Qed.
Print Assumptions C114_make.
Example C114_make_ex : finite3 boxq /\ finite3 boxr.
Proof. split; apply box_pts. Qed.

Theorem C114_contains : forall (b : bbox b64) p,
  (finite_box b -> finite3 p -> (BoundingBox_Contains b p = true <-> in_box (val3 p) (box_val b))) /\
  (nan3 p \/ nan3 (Min b) \/ nan3 (Max b) -> BoundingBox_Contains b p = false).
Proof. exact C114_contains_lemma. Qed.
Print Assumptions C114_contains.
Example C114_contains_ex : finite_box box_ex /\ finite3 boxq /\ BoundingBox_Contains box_ex boxq = true /\ nan3 (Vec3 dz S754_nan dz).
Proof. split; [apply box_fine|]. split; [apply box_pts|]. split; [vm_compute; reflexivity|right; left; reflexivity]. Qed.

Theorem C114_contains_box : forall b c : bbox b64, finite_box b -> finite_box c -> ordered (box_val c) ->
  (BoundingBox_Contains_box b c = true <-> box_incl (box_val c) (box_val b)).
Proof. exact C114_contains_box_lemma. Qed.
Print Assumptions C114_contains_box.
Example C114_contains_box_ex : finite_box box_ex /\ ordered (box_val box_ex) /\ BoundingBox_Contains_box box_ex box_ex = true.
Proof. split; [apply box_fine|]. split; [apply box_fine|vm_compute; reflexivity]. Qed.

Theorem C114_join : forall b c : bbox b64, finite_box b -> finite_box c -> ordered (box_val b) -> ordered (box_val c) ->
  let j := BoundingBox_ExpandToInclude_box b c in
  finite_box j /\ ordered (box_val j) /\ BoundingBox_Contains_box j b = true /\ BoundingBox_Contains_box j c = true /\
  forall d, box_incl (box_val b) d -> box_incl (box_val c) d -> box_incl (box_val j) d.
Proof. exact C114_join_lemma. Qed.
Print Assumptions C114_join.
Example C114_join_ex : finite_box box_ex /\ ordered (box_val box_ex).
Proof. split; apply box_fine. Qed.

Theorem C114_expand : forall (b : bbox b64) p, finite_box b -> finite3 p ->
  let e := BoundingBox_ExpandToInclude b p in
  finite_box e /\ BoundingBox_Contains e p = true /\ val3 (Max e) = val3 p /\ val3 (Min e) = v3min (val3 (Min b)) (val3 p).
Proof. exact C114_expand_lemma. Qed.
Print Assumptions C114_expand.
Example C114_expand_ex : finite_box box_ex /\ finite3 boxr.
Proof. split; [apply box_fine|apply box_pts]. Qed.

Theorem C114_center : forall b : bbox b64, small_box (bpow radix2 1022) b -> ordered (box_val b) ->
  let m := BoundingBox_Center b in
  mid_ok (x3 m) (x3 (Min b)) (x3 (Max b)) /\ mid_ok (y3 m) (y3 (Min b)) (y3 (Max b)) /\ mid_ok (z3 m) (z3 (Min b)) (z3 (Max b)) /\ BoundingBox_Contains b m = true.
Proof. exact C114_center_lemma. Qed.
Print Assumptions C114_center.
Example C114_center_ex : small_box (bpow radix2 1022) box_ex /\ ordered (box_val box_ex).
Proof. split; [apply (box_small (bpow radix2 1022)); apply one_1022|apply box_fine]. Qed.

Theorem C114_center_overflow : exists b : bbox b64, finite_box b /\ ordered (box_val b) /\ x3 (BoundingBox_Center b) = S754_infinity false /\ BoundingBox_Contains b (BoundingBox_Center b) = false.
Proof. exact C114_center_overflow_lemma. Qed.
Print Assumptions C114_center_overflow.

Theorem C114_length : forall b : bbox b64, small_box (bpow radix2 1022) b -> ordered (box_val b) ->
  let l := BoundingBox_Length b in side_ok (x3 l) (x3 (Min b)) (x3 (Max b)) /\ side_ok (y3 l) (y3 (Min b)) (y3 (Max b)) /\ side_ok (z3 l) (z3 (Min b)) (z3 (Max b)).
Proof. exact C114_length_lemma. Qed.
Print Assumptions C114_length.
Example C114_length_ex : small_box (bpow radix2 1022) box_ex /\ ordered (box_val box_ex).
Proof. split; [apply (box_small (bpow radix2 1022)); apply one_1022|apply box_fine]. Qed.

Theorem C114_volume : forall b : bbox b64, small_box (2 ^ 300) b -> ordered (box_val b) ->
  let v := ((val (x3 (Max b)) - val (x3 (Min b))) * (val (y3 (Max b)) - val (y3 (Min b))) * (val (z3 (Max b)) - val (z3 (Min b)))) in
  finite64 (BoundingBox_Volume b) /\ 0 <= val (BoundingBox_Volume b) /\ Rabs (val (BoundingBox_Volume b) - v) <= 15 / 2 ^ 53 * v + / 2 ^ 700.
Proof. exact C114_volume_lemma. Qed.
Print Assumptions C114_volume.
Example C114_volume_ex : small_box (2 ^ 300) box_ex /\ ordered (box_val box_ex).
Proof. split; [apply (box_small (2 ^ 300)); apply pow_R1_Rle; lra|apply box_fine]. Qed.

Theorem C114_volume_zero : exists b : bbox b64, finite_box b /\ (val (x3 (Min b)) < val (x3 (Max b)) /\ val (y3 (Min b)) < val (y3 (Max b)) /\ val (z3 (Min b)) < val (z3 (Max b))) /\
  BoundingBox_Volume b = S754_zero false.
Proof. exact C114_volume_zero_lemma. Qed.
Print Assumptions C114_volume_zero.

