(** C112: the knot-vector queries on doubles. *)
From Coq Require Import Reals QArith ZArith List Lra Lia Bool Floats.SpecFloat.
From Flocq Require Import BinarySingleNaN.
From Verif Require Import Outcome Num ModelCore SpecCore SpecQuery ThB64 ThDecide ThQuery ThQueryWit.
Import ListNotations.
Open Scope Z_scope.

(** * C112 *)
Theorem C112_clamped : forall l : list b64, all_finite l -> KnotVector_IsValid l = true ->
  (KnotVector_IsClamped l = true <-> count 0 (vals l) + count 1 (vals l) = len l - 1).
Proof. exact clamped_lemma. Qed.
Print Assumptions C112_clamped.
Example C112_clamped_ex : all_finite q_ex /\ KnotVector_IsValid q_ex = true /\ KnotVector_IsClamped q_ex = true.
Proof. split; [apply query_ex|]. split; reflexivity. Qed.

Theorem C112_degree : forall l : list b64, all_finite l ->
  (Forall (fun a => a = 0%R) (vals l) -> KnotVector_DetectDegree l = Throw OutOfRange) /\
  (~ Forall (fun a => a = 0%R) (vals l) -> KnotVector_DetectDegree l = Ok (leading 0 (vals l) - 1)) /\
  (forall p, clamped p (vals l) -> KnotVector_DetectDegree l = Ok p).
Proof. exact degree_lemma. Qed.
Print Assumptions C112_degree.
Example C112_degree_ex : all_finite q_ex /\ clamped 1 (vals q_ex) /\ KnotVector_DetectDegree q_ex = Ok 1.
Proof. split; [apply query_ex|]. split; [apply query_ex|reflexivity]. Qed.

Theorem C112_pairs : forall l : list b64, all_finite l -> nondecreasing (vals l) ->
  let ks := KnotVector_GetKnotPairs l in let ps := map coded ks in
  vals (expand64 ks) = vals l /\ increasing ps /\ Forall (fun k => In (kp_Value k) l) ks /\
  (forall v m, In (v, m) ps -> 1 <= m /\ m = count v (vals l)) /\
  (forall v, In v l -> exists m, In (val v, m) ps) /\
  map kp_Index ks = indices_from 0 ps.
Proof. exact pairs_lemma. Qed.
Print Assumptions C112_pairs.
Example C112_pairs_ex : all_finite q_ex /\ nondecreasing (vals q_ex) /\ len (KnotVector_GetKnotPairs q_ex) = 3.
Proof. split; [apply query_ex|]. split; [exact (proj1 (proj1 (proj2 query_ex)))|reflexivity]. Qed.

Theorem C112_of_pairs : forall ks : list (knotpair b64), Forall (fun k => finite64 (kp_Value k)) ks ->
  (acceptable (expand (map coded ks)) -> KnotVector_of_pairs ks = Ok (expand64 ks)) /\
  (~ acceptable (expand (map coded ks)) -> KnotVector_of_pairs ks = Throw InvalidArgument).
Proof. exact of_pairs_lemma. Qed.
Print Assumptions C112_of_pairs.
Example C112_of_pairs_ex : let ks := [KnotPair 7 (dq 0) 2; KnotPair 9 (dq (1 # 2)) 1; KnotPair 0 (dq 1) 2] in
  Forall (fun k => finite64 (kp_Value k)) ks /\ KnotVector_of_pairs ks = Ok q_ex.
Proof. split; [repeat constructor|reflexivity]. Qed.

(** A negative zero is not kept by the round trip through pairs. *)
Theorem C112_signed_zero : exists l l' : list b64, KnotVector_make l = Ok l /\
  KnotVector_of_pairs (KnotVector_GetKnotPairs l) = Ok l' /\ l' <> l /\ vals l' = vals l.
Proof. exact zero_lemma. Qed.
Print Assumptions C112_signed_zero.

Theorem C112_findspan : forall (l : list b64) u, all_finite l -> unit_knots (vals l) -> double u ->
  (finite64 u -> (0 <= val u <= 1)%R ->
     exists j L R_, KnotVector_FindSpan l u = Ok (KnotSpan j L R_) /\ 0 <= j /\
       nth_error (KnotVector_GetKnotPairs l) (Z.to_nat j) = Some L /\ nth_error (KnotVector_GetKnotPairs l) (Z.to_nat (j + 1)) = Some R_ /\
       (val (kp_Value L) <= val u)%R /\
       ((val u < val (kp_Value R_))%R \/ (j + 2 = len (KnotVector_GetKnotPairs l) /\ val u = val (kp_Value R_)))) /\
  (~ (finite64 u /\ (0 <= val u <= 1)%R) -> KnotVector_FindSpan l u = AssertFail).
Proof. exact findspan_lemma. Qed.
Print Assumptions C112_findspan.
Example C112_findspan_ex : all_finite q_ex /\ unit_knots (vals q_ex) /\ double (dq (3 # 4)) /\
  exists L R_, KnotVector_FindSpan q_ex (dq (3 # 4)) = Ok (KnotSpan 1 L R_).
Proof. split; [apply query_ex|]. split; [apply query_ex|]. split; [reflexivity|]. eexists _, _. reflexivity. Qed.

Theorem C112_multiplicity : forall (l : list b64) u, Forall double l -> double u ->
  (finite64 u -> how_many (at_most (999999999999999 / 1000000000000000000000)) l (val u) <= KnotVector_GetMultiplicity l u
                 <= how_many (below (1 / 1000000)) l (val u)) /\
  (finite64 u -> all_finite l -> (forall v, In v l -> val v = val u \/ (1 / 1000000 <= Rabs (val v - val u))%R) ->
     KnotVector_GetMultiplicity l u = count (val u) (vals l)) /\
  (is_finite_SF u = false -> KnotVector_GetMultiplicity l u = 0).
Proof. exact multiplicity_lemma. Qed.
Print Assumptions C112_multiplicity.
Example C112_multiplicity_ex : Forall double (S754_nan :: q_ex) /\ KnotVector_GetMultiplicity (S754_nan :: q_ex) (dq 1) = 2.
Proof. split; [repeat constructor|reflexivity]. Qed.

(** The tolerance is the double below 1e-6: a knot at exactly that distance is nearer than 1e-6 and not counted. *)
Theorem C112_multiplicity_edge : exists (l : list b64) u, KnotVector_make l = Ok l /\ finite64 u /\ all_finite l /\
  KnotVector_GetMultiplicity l u = 2 /\ KnotVector_GetMultiplicity (vals l) (val u) = 3.
Proof. exact edge_lemma. Qed.
Print Assumptions C112_multiplicity_edge.

Theorem C112_uniform : forall l : list b64, all_finite l -> Forall (fun a => 0 <= a <= 1)%R (vals l) ->
  (spaced_within (999999999 / 1000000000000000) (vals l) -> KnotVector_IsUniform l = true) /\
  ((exists d, In d (gaps (vals l)) /\ d <> 0%R /\
      (1000000001 / 1000000000000000 <= Rabs (d - first_nonzero (gaps (vals l))))%R) -> KnotVector_IsUniform l = false).
Proof. exact uniform_lemma. Qed.
Print Assumptions C112_uniform.
Example C112_uniform_ex : all_finite q_ex /\ Forall (fun a => 0 <= a <= 1)%R (vals q_ex) /\ spaced_within (999999999 / 1000000000000000) (vals q_ex).
Proof. repeat split; apply query_ex. Qed.
Example C112_uneven_ex : let l := map dq [0; 0; 1 # 4; 1; 1]%Q in KnotVector_IsUniform l = false /\ exists d, In d (gaps (vals l)) /\ d <> 0%R /\
  (1000000001 / 1000000000000000 <= Rabs (d - first_nonzero (gaps (vals l))))%R.
Proof. split; [reflexivity|exact uneven_ex]. Qed.
