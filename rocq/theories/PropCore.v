(** Properties of knot vectors, grids, boxes and helpers: C01-C13, C18-C26, C32, C64.
    Numbers are exact reals unless the type says [b64] (IEEE-754 binary64). *)
From Coq Require Import Reals Lra ZArith Lia Bool List Permutation Ascii Floats.SpecFloat.
From Verif Require Import Outcome Num ModelCore ModelCurve ModelSurface ModelSerial SpecCore ThOutcome ThReal
  ThKnots ThKnots2 ThMath ThGrid ThBox ThB64 ThMisc ThCoreWit.
Import ListNotations.
Open Scope Z_scope.

(** * C01 *)
Theorem C01_constructor : forall l : list R,
  (acceptable l -> KnotVector_make l = Ok l) /\
  (~ acceptable l -> KnotVector_make l = Throw InvalidArgument).
Proof. exact C01_lemma. Qed.
Print Assumptions C01_constructor.
Example C01_constructor_ex : acceptable [0; 0; 1/2; 1; 1]%R.
Proof. exact acceptable_ex. Qed.

Theorem C01_constructor_b64 : forall l : list b64, Forall double l -> Forall not_nan l ->
  (all_finite l /\ acceptable (vals l) -> KnotVector_make l = Ok l) /\
  (~ (all_finite l /\ acceptable (vals l)) -> KnotVector_make l = Throw InvalidArgument).
Proof. exact C01_b64_lemma. Qed.
Print Assumptions C01_constructor_b64.
Example C01_constructor_b64_ex : all_finite [dz; dz; dhalf; done_; done_] /\ acceptable (vals [dz; dz; dhalf; done_; done_]).
Proof. split; [exact all_finite_ex|rewrite vals_ex; exact acceptable_ex]. Qed.

(** A NaN inside the list is not rejected. *)
Theorem C01_nan_refuted : exists l : list b64, In S754_nan l /\ KnotVector_make l = Ok l.
Proof. exact C01_nan_lemma. Qed.
Print Assumptions C01_nan_refuted.

(** * C02 *)
Theorem C02_pairs : forall l : list R, nondecreasing l ->
  let ps := map pair_of (KnotVector_GetKnotPairs l) in
  expand ps = l /\ increasing ps /\
  (forall v m, In (v, m) ps -> 1 <= m /\ m = count v l) /\
  (forall v, In v l -> exists m, In (v, m) ps) /\
  fold_right Z.add 0 (map snd ps) = len l.
Proof. exact C02_pairs_lemma. Qed.
Print Assumptions C02_pairs.
Example C02_pairs_ex : nondecreasing [0; 0; 1/2; 1; 1]%R.
Proof. nondec. Qed.

Theorem C02_of_pairs : forall ks : list (knotpair R),
  (acceptable (expand (map pair_of ks)) -> KnotVector_of_pairs ks = Ok (expand (map pair_of ks))) /\
  (~ acceptable (expand (map pair_of ks)) -> KnotVector_of_pairs ks = Throw InvalidArgument).
Proof. exact C02_make_lemma. Qed.
Print Assumptions C02_of_pairs.
Example C02_of_pairs_ex : acceptable (expand (map pair_of [KnotPair 7 0%R 2; KnotPair 9 (1/2)%R 1; KnotPair 0 1%R 2])).
Proof. exact acceptable_ex. Qed.

Theorem C02_roundtrip :
  (forall l l' : list R, KnotVector_make l = Ok l' -> KnotVector_of_pairs (KnotVector_GetKnotPairs l') = Ok l') /\
  (forall (ks : list (knotpair R)) l, Forall (fun k => 1 <= kp_Multiplicity k) ks ->
     increasing (map pair_of ks) -> KnotVector_of_pairs ks = Ok l ->
     map pair_of (KnotVector_GetKnotPairs l) = map pair_of ks).
Proof. exact C02_roundtrip_lemma. Qed.
Print Assumptions C02_roundtrip.
Example C02_roundtrip_ex :
  let ks := [KnotPair 7 0%R 2; KnotPair 9 (1/2)%R 1; KnotPair 0 1%R 2] in
  Forall (fun k => 1 <= kp_Multiplicity k) ks /\ increasing (map pair_of ks) /\
  KnotVector_of_pairs ks = Ok [0; 0; 1/2; 1; 1]%R.
Proof.
  intros ks. split; [repeat constructor; simpl; lia|]. split; [simpl; lra|].
  apply (proj1 (C02_make_lemma ks)). exact acceptable_ex.
Qed.

(** * C03: refuted; every pair but the last carries the index one past its run *)
Theorem C03_index_refuted : exists (l : list R) k, KnotVector_make l = Ok l /\
  In k (KnotVector_GetKnotPairs l) /\ nth_error l (Z.to_nat (kp_Index k)) <> Some (kp_Value k).
Proof. exact C03_refuted_R_lemma. Qed.
Print Assumptions C03_index_refuted.

Theorem C03_index_b64_refuted : exists (l : list b64) k, KnotVector_make l = Ok l /\
  In k (KnotVector_GetKnotPairs l) /\ nth_error l (Z.to_nat (kp_Index k)) <> Some (kp_Value k).
Proof. exact C03_refuted_lemma. Qed.
Print Assumptions C03_index_b64_refuted.

Theorem C03_actual_index : forall l : list R,
  map kp_Index (KnotVector_GetKnotPairs l) = indices_from 0 (map pair_of (KnotVector_GetKnotPairs l)).
Proof. exact pairs_index. Qed.
Print Assumptions C03_actual_index.
Example C03_actual_index_ex : indices_from 0 [(0%R, 2); ((1/2)%R, 1); (1%R, 2)] = [2; 3; 3].
Proof. reflexivity. Qed.

(** * C04 *)
Theorem C04_uniform : forall p n, 0 <= p -> 2 * (p + 1) <= n ->
  exists l : list R, KnotVector_Uniform p n = Ok l /\ len l = n /\
    (forall i, 0 <= i < n -> at_ l i = uniform_knot p (n - 2 * (p + 1)) i) /\
    clamped p l /\ (4 <= n -> KnotVector_IsValid l = true) /\ KnotVector_IsUniform l = true /\
    KnotVector_DetectDegree l = Ok p.
Proof. exact C04_lemma. Qed.
Print Assumptions C04_uniform.
Example C04_uniform_ex : 0 <= 3 /\ 2 * (3 + 1) <= 11.
Proof. lia. Qed.

Theorem C04_too_few : forall p n, n < 2 * (p + 1) -> @KnotVector_Uniform R _ p n = AssertFail.
Proof. exact Uniform_assert. Qed.
Print Assumptions C04_too_few.
Example C04_too_few_ex : 7 < 2 * (3 + 1).
Proof. lia. Qed.

(** * C05 *)
Theorem C05_isvalid : forall l : list R, KnotVector_IsValid l = true <->
  4 <= len l /\ at_ l 0 = 0%R /\ at_ l (len l - 1) = 1%R /\ nondecreasing l.
Proof. exact IsValid_R. Qed.
Print Assumptions C05_isvalid.
Example C05_isvalid_ex : 4 <= len [0; 0; 1/2; 1; 1]%R /\ nondecreasing [0; 0; 1/2; 1; 1]%R.
Proof. split; [unfold len; simpl; lia|nondec]. Qed.

Theorem C05_isvalid_b64 : forall l : list b64, all_finite l -> KnotVector_IsValid l = KnotVector_IsValid (vals l).
Proof. exact IsValid_b64. Qed.
Print Assumptions C05_isvalid_b64.
Example C05_isvalid_b64_ex : all_finite [dz; dz; dhalf; done_; done_] /\ KnotVector_IsValid [dz; dz; dhalf; done_; done_] = true.
Proof. split; [exact all_finite_ex|reflexivity]. Qed.

(** * C06: refuted in both directions; what is decided is "exactly one interior knot" *)
Theorem C06_isclamped_refuted :
  (exists p n (l : list b64), 1 <= p /\ KnotVector_Uniform p n = Ok l /\ KnotVector_IsValid l = true /\ KnotVector_IsClamped l = false) /\
  (exists l : list R, KnotVector_IsValid l = true /\ clamped_meaning l /\ KnotVector_IsClamped l = false) /\
  (exists l : list R, KnotVector_IsValid l = true /\ ~ clamped_meaning l /\ KnotVector_IsClamped l = true).
Proof. exact C06_refuted_lemma. Qed.
Print Assumptions C06_isclamped_refuted.

Theorem C06_actual : forall l : list R, KnotVector_IsValid l = true ->
  (KnotVector_IsClamped l = true <-> count 0 l + count 1 l = len l - 1).
Proof. exact C06_lemma. Qed.
Print Assumptions C06_actual.
Example C06_actual_ex : @KnotVector_IsValid b64 _ [dz; dz; dhalf; done_; done_] = true /\
  @KnotVector_IsClamped b64 _ [dz; dz; dhalf; done_; done_] = true.
Proof. split; reflexivity. Qed.

(** * C07 *)
Theorem C07_isuniform : forall l : list R, KnotVector_IsUniform l = true <->
  Forall (fun d => d = 0%R \/ close d (first_nonzero (gaps l))) (gaps l).
Proof. exact IsUniform_R. Qed.
Print Assumptions C07_isuniform.
Example C07_isuniform_ex : gaps [0; 0; 1/2; 1; 1]%R = [0 - 0; 1/2 - 0; 1 - 1/2; 1 - 1]%R.
Proof. reflexivity. Qed.

(** * C08 *)
Theorem C08_findspan : forall p (l : list R) u, clamped p l ->
  ((0 <= u <= 1)%R -> exists i, KnotVector_FindSpanIndex l p u = Ok i /\ p <= i <= len l - p - 2 /\ in_span l i u /\
     forall j, 0 <= j < len l - 1 -> in_span l j u -> j = i) /\
  (~ (0 <= u <= 1)%R -> KnotVector_FindSpanIndex l p u = AssertFail).
Proof. exact C08_lemma. Qed.
Print Assumptions C08_findspan.
Example C08_findspan_ex : clamped 2 [0; 0; 0; 1/3; 1/2; 1/2; 1; 1; 1]%R.
Proof. exact clamped_ex. Qed.

Theorem C08_findspan_b64 : forall p (l : list b64) u, all_finite l -> clamped p (vals l) -> double u ->
  (finite64 u -> (0 <= val u <= 1)%R ->
     exists i, KnotVector_FindSpanIndex l p u = Ok i /\ p <= i <= len l - p - 2 /\ in_span (vals l) i (val u)) /\
  (~ (finite64 u /\ (0 <= val u <= 1)%R) -> KnotVector_FindSpanIndex l p u = AssertFail).
Proof. exact C08_b64_lemma. Qed.
Print Assumptions C08_findspan_b64.
Example C08_findspan_b64_ex : clamped 1 (vals [dz; dz; dhalf; done_; done_]) /\ all_finite [dz; dz; dhalf; done_; done_].
Proof. split; [exact clamped_ex64|exact all_finite_ex]. Qed.

(** * C09 *)
Theorem C09_findspan : forall (l : list R) u, nondecreasing l -> at_ l 0 = 0%R -> at_ l (len l - 1) = 1%R ->
  (0 <= u <= 1)%R ->
  let ps := KnotVector_GetKnotPairs l in
  exists j L R_, KnotVector_FindSpan l u = Ok (KnotSpan j L R_) /\ 0 <= j /\
    nth_error ps (Z.to_nat j) = Some L /\ nth_error ps (Z.to_nat (j + 1)) = Some R_ /\
    (kp_Value L <= u)%R /\
    ((u < kp_Value R_)%R \/ (j + 2 = len ps /\ u = kp_Value R_)).
Proof. exact C09_lemma. Qed.
Print Assumptions C09_findspan.
Example C09_findspan_ex : unit_knots [0; 0; 1/2; 1; 1]%R.
Proof. exact unit_ex. Qed.

Theorem C09_outside : forall (l : list R) u, ~ (0 <= u <= 1)%R -> KnotVector_FindSpan l u = AssertFail.
Proof. exact C09_assert_lemma. Qed.
Print Assumptions C09_outside.
Example C09_outside_ex : ~ (0 <= 3/2 <= 1)%R.
Proof. lra. Qed.

(** * C10 *)
Theorem C10_detectdegree : forall l : list R,
  (Forall (fun a => a = 0%R) l -> KnotVector_DetectDegree l = Throw OutOfRange) /\
  (~ Forall (fun a => a = 0%R) l -> KnotVector_DetectDegree l = Ok (leading 0 l - 1)) /\
  (forall p, clamped p l -> KnotVector_DetectDegree l = Ok p).
Proof. exact C10_lemma. Qed.
Print Assumptions C10_detectdegree.
Example C10_detectdegree_ex : clamped 2 [0; 0; 0; 1/3; 1/2; 1/2; 1; 1; 1]%R.
Proof. exact clamped_ex. Qed.

(** * C11 *)
Theorem C11_multiplicity : forall (l : list R) u,
  KnotVector_GetMultiplicity l u = len (filter (near u) l) /\
  ((forall v, In v l -> v = u \/ (1 / 1000000 <= Rabs (v - u))%R) -> KnotVector_GetMultiplicity l u = count u l).
Proof. exact C11_lemma. Qed.
Print Assumptions C11_multiplicity.
Example C11_multiplicity_ex : forall v, In v [0; 0; 1/2; 1; 1]%R -> v = 1%R \/ (1 / 1000000 <= Rabs (v - 1))%R.
Proof. simpl. intros v H. repeat destruct H as [<-|H]; auto; try contradiction; right; unfold Rabs; destruct Rcase_abs; lra. Qed.

(** * C12 *)
Theorem C12_insert : forall (l : list R) v times, unit_knots l -> 0 <= times ->
  ((0 < v < 1)%R -> exists l' i, KnotVector_InsertKnot l v times = Ok (l', i) /\
     0 <= i < len l - 1 /\ (at_ l i <= v < at_ l (i + 1))%R /\
     unit_knots l' /\ Permutation l' (repeat v (Z.to_nat times) ++ l)) /\
  (~ (0 < v < 1)%R -> KnotVector_InsertKnot l v times = AssertFail).
Proof. exact C12_lemma. Qed.
Print Assumptions C12_insert.
Example C12_insert_ex : unit_knots [0; 0; 1/2; 1; 1]%R /\ 0 <= 2 /\ (0 < 1/2 < 1)%R.
Proof. split; [exact unit_ex|split; [lia|lra]]. Qed.

Theorem C12_insert_b64 : forall (l : list b64) v times, all_finite l -> unit_knots (vals l) -> 0 <= times -> double v ->
  (finite64 v -> (0 < val v < 1)%R -> exists l' i, KnotVector_InsertKnot l v times = Ok (l', i) /\
     0 <= i < len l - 1 /\ (at_ (vals l) i <= val v < at_ (vals l) (i + 1))%R /\
     unit_knots (vals l') /\ Permutation l' (repeat v (Z.to_nat times) ++ l)) /\
  (~ (finite64 v /\ (0 < val v < 1)%R) -> KnotVector_InsertKnot l v times = AssertFail).
Proof. exact C12_b64_lemma. Qed.
Print Assumptions C12_insert_b64.
Example C12_insert_b64_ex : unit_knots (vals [dz; dz; dhalf; done_; done_]) /\ finite64 dhalf /\ (0 < val dhalf < 1)%R.
Proof. rewrite vals_ex, val_dhalf. split; [exact unit_ex|split; [exact finite_dhalf|lra]]. Qed.

(** * C13 *)
Theorem C13_reverse : forall l : list R,
  let l' := KnotVector_Reverse l in
  len l' = len l /\
  (forall i, 0 <= i < len l -> at_ l' i = (1 - at_ l (len l - 1 - i))%R) /\
  (KnotVector_IsValid l = true -> KnotVector_IsValid l' = true) /\
  (forall p, clamped p l -> clamped p l') /\ KnotVector_Reverse l' = l.
Proof. exact C13_lemma. Qed.
Print Assumptions C13_reverse.
Example C13_reverse_ex : clamped 2 [0; 0; 0; 1/3; 1/2; 1/2; 1; 1; 1]%R.
Proof. exact clamped_ex. Qed.

(** in binary64 it is not an involution (this is outside the claim, which is about exact arithmetic) *)
Theorem C13_b64_not_involutive : exists l : list b64, KnotVector_make l = Ok l /\
  KnotVector_Reverse (KnotVector_Reverse l) <> l.
Proof. exact C13_b64_refuted_lemma. Qed.
Print Assumptions C13_b64_not_involutive.

(** * C18 *)
Theorem C18_factorial : forall n, (n <= 9)%nat -> Factorial (Z.of_nat n) = Ok (Z.of_nat (fact n)).
Proof. exact Factorial_ok. Qed.
Print Assumptions C18_factorial.
Example C18_factorial_ex : Factorial 9 = Ok 362880.
Proof. reflexivity. Qed.
Theorem C18_assert : forall n, n < 0 \/ 9 < n -> Factorial n = AssertFail.
Proof. exact Factorial_assert. Qed.
Print Assumptions C18_assert.
Example C18_assert_ex : 10 < 0 \/ 9 < 10.
Proof. lia. Qed.

(** * C19 *)
Theorem C19_binomial : forall n k : nat,
  ((k <= n)%nat -> Z.of_nat n <= INT_MAX -> binomial_fits n k -> Binomial (Z.of_nat n) (Z.of_nat k) = Ok (choose n k)) /\
  ((n < k)%nat -> Binomial (Z.of_nat n) (Z.of_nat k) = Ok 0 /\ choose n k = 0) /\
  ((n <= 29)%nat -> Binomial (Z.of_nat n) (Z.of_nat k) = Ok (choose n k)).
Proof. exact C19_lemma. Qed.
Print Assumptions C19_binomial.
Example C19_binomial_ex : binomial_fits 29 14 /\ (14 <= 29)%nat.
Proof. split; [apply binomial_fits_29; lia|lia]. Qed.

(** negative k gives 1, and products beyond int overflow *)
Theorem C19_negative_and_overflow_refuted :
  (exists n k, 0 <= n /\ k < 0 /\ Binomial n k = Ok 1) /\
  (exists n k, 0 <= k <= n /\ Binomial n k = Undefined IntOverflow).
Proof. exact C19_refuted_lemma. Qed.
Print Assumptions C19_negative_and_overflow_refuted.

Theorem C19_overflow : forall n k j : nat, (j < k)%nat -> (k <= n)%nat -> Z.of_nat n <= INT_MAX ->
  binomial_fits n j -> INT_MAX < (Z.of_nat n - Z.of_nat j) * choose n j ->
  Binomial (Z.of_nat n) (Z.of_nat k) = Undefined IntOverflow.
Proof. exact Binomial_overflow. Qed.
Print Assumptions C19_overflow.
Example C19_overflow_ex : Binomial 30 16 = Undefined IntOverflow /\ Binomial 30 15 = Undefined IntOverflow.
Proof. vm_compute. auto. Qed.

(** * C20 *)
Theorem C20_make : forall A u v (x : A), 0 <= u -> 0 <= v -> u * v <= INT_MAX ->
  exists g, Grid_make u v x = Ok g /\ grid_is g u v (fun _ _ => x).
Proof. exact @Grid_make_ok. Qed.
Print Assumptions C20_make.
Theorem C20_get : forall A (g : grid A) u v f i j, grid_is g u v f -> 0 <= i < u -> 0 <= j < v ->
  Grid_Get g i j = Ok (f i j).
Proof. exact @Grid_Get_ok. Qed.
Print Assumptions C20_get.
Theorem C20_set : forall A (g : grid A) u v f i j x, grid_is g u v f -> 0 <= i < u -> 0 <= j < v ->
  exists g', Grid_Set g i j x = Ok g' /\
    grid_is g' u v (fun i' j' => if (i' =? i) && (j' =? j) then x else f i' j').
Proof. exact @Grid_Set_ok. Qed.
Print Assumptions C20_set.
Theorem C20_getU : forall A (g : grid A) u v f i, grid_is g u v f -> 0 <= i < u ->
  Grid_GetU g i = Ok (map (f i) (zrange 0 v)).
Proof. exact @Grid_GetU_ok. Qed.
Print Assumptions C20_getU.
Theorem C20_getV : forall A (g : grid A) u v f j, grid_is g u v f -> 0 <= j < v ->
  Grid_GetV g j = Ok (map (fun i => f i j) (zrange 0 u)).
Proof. exact @Grid_GetV_ok. Qed.
Print Assumptions C20_getV.
Theorem C20_setU : forall A (g : grid A) u v f i w, grid_is g u v f -> 0 <= i < u ->
  exists g', Grid_SetU g i (map w (zrange 0 v)) = Ok g' /\
    grid_is g' u v (fun i' j' => if i' =? i then w j' else f i' j').
Proof. exact @Grid_SetU_ok. Qed.
Print Assumptions C20_setU.
Theorem C20_setV : forall A (g : grid A) u v f j w, grid_is g u v f -> 0 <= j < v ->
  exists g', Grid_SetV g j (map w (zrange 0 u)) = Ok g' /\
    grid_is g' u v (fun i' j' => if j' =? j then w i' else f i' j').
Proof. exact @Grid_SetV_ok. Qed.
Print Assumptions C20_setV.
Theorem C20_setget_identity : forall A (g : grid A) u v f, grid_is g u v f ->
  (forall i l, 0 <= i < u -> Grid_GetU g i = Ok l -> Grid_SetU g i l = Ok g) /\
  (forall j l, 0 <= j < v -> Grid_GetV g j = Ok l -> Grid_SetV g j l = Ok g).
Proof. exact C20_setget_lemma. Qed.
Print Assumptions C20_setget_identity.
(** indices at or above the bound, and wrong lengths, fail the assertion *)
Theorem C20_assert_above : forall A (g : grid A) u v f i j x l, grid_is g u v f ->
  (u <= i \/ v <= j -> Grid_Get g i j = AssertFail /\ Grid_Set g i j x = AssertFail) /\
  (u <= i -> Grid_GetU g i = AssertFail) /\ (v <= j -> Grid_GetV g j = AssertFail) /\
  (u <= i \/ len l <> v -> Grid_SetU g i l = AssertFail) /\
  (v <= j \/ len l <> u -> Grid_SetV g j l = AssertFail).
Proof.
  exact (fun A g u v f i j x l G =>
    conj (fun H => conj (Grid_Get_assert g u v f i j G H) (Grid_Set_assert g u v f i j x G H))
   (conj (Grid_GetU_assert g u v f i G) (conj (Grid_GetV_assert g u v f j G)
   (conj (Grid_SetU_assert g u v f i l G) (Grid_SetV_assert g u v f j l G))))).
Qed.
Print Assumptions C20_assert_above.
Example C20_ex : grid_is (Grid 2 3 [0; 1; 10; 11; 20; 21]) 2 3 (fun i j => 10 * j + i).
Proof.
  repeat split; try (simpl; lia); try reflexivity.
  intros i j Hi Hj. assert (i = 0 \/ i = 1) as [-> | ->] by lia;
    assert (j = 0 \/ j = 1 \/ j = 2) as [-> | [-> | ->]] by lia; reflexivity.
Qed.
(** negative indices are not caught: another cell is returned *)
Theorem C20_negative_refuted : exists (g : grid Z) u v, grid_is g 2 2 (fun i j => 10 * j + i) /\
  u < 0 /\ Grid_Get g u v = Ok 1.
Proof. exact C20_refuted_lemma. Qed.
Print Assumptions C20_negative_refuted.

(** * C21, C22 *)
Theorem C21_insertV : forall A (g : grid A) u v f k d, grid_is g u v f -> 0 <= k < v ->
  exists g', Grid_InsertV g k d = Ok g' /\
    grid_is g' u (v + 1) (fun i j => if j <? k then f i j else if j =? k then d else f i (j - 1)).
Proof. exact @Grid_InsertV_ok. Qed.
Print Assumptions C21_insertV.
Theorem C21_outside : forall A (g : grid A) u v f k d, grid_is g u v f -> k < 0 \/ v <= k ->
  Grid_InsertV g k d = AssertFail.
Proof. exact @Grid_InsertV_assert. Qed.
Print Assumptions C21_outside.
Example C21_ex : grid_is (Grid 2 3 [0; 1; 10; 11; 20; 21]) 2 3 (fun i j => 10 * j + i) /\ 0 <= 1 < 3.
Proof. split; [exact C20_ex|lia]. Qed.

(** [jk] is the value a moved-from cell is left with: the result does not depend on it *)
Theorem C22_insertU : forall A jk (g : grid A) u v f k d, grid_is g u v f -> 0 <= k < u ->
  exists g', Grid_InsertU jk g k d = Ok g' /\
    grid_is g' (u + 1) v (fun i j => if i <? k then f i j else if i =? k then d else f (i - 1) j).
Proof. exact @Grid_InsertU_ok. Qed.
Print Assumptions C22_insertU.
Theorem C22_outside : forall A jk (g : grid A) u v f k d, grid_is g u v f -> k < 0 \/ u <= k ->
  Grid_InsertU jk g k d = AssertFail.
Proof. exact @Grid_InsertU_assert. Qed.
Print Assumptions C22_outside.
Example C22_ex : grid_is (Grid 2 3 [0; 1; 10; 11; 20; 21]) 2 3 (fun i j => 10 * j + i) /\ 0 <= 1 < 2.
Proof. split; [exact C20_ex|lia]. Qed.

(** * C23: every grid built by the sized constructor and the modifiers; the default one refutes it *)
Theorem C23_count_partial : forall A (g : grid A), reachable g -> len (Values g) <= INT_MAX ->
  Grid_Count g = Ok (len (Values g)).
Proof. exact C23_lemma. Qed.
Print Assumptions C23_count_partial.
Example C23_ex : exists g, reachable g /\ Values g = [7; 7; 7; 7; 7; 7].
Proof. eexists. split; [eapply (reach_make 2 3 7); [lia|lia|reflexivity]|reflexivity]. Qed.
Theorem C23_default_refuted : exists g : grid Z, g = Grid_default /\ Grid_Count g = Ok 1 /\ len (Values g) = 0.
Proof. exact C23_refuted_lemma. Qed.
Print Assumptions C23_default_refuted.

(** * C24 *)
Theorem C24_make : forall a b : vec3 R,
  ordered (BoundingBox_make a b) /\ in_box a (BoundingBox_make a b) /\ in_box b (BoundingBox_make a b) /\
  forall d, in_box a d -> in_box b d -> box_incl (BoundingBox_make a b) d.
Proof.
  exact (fun a b => conj (box_make_ordered a b) (conj (box_make_left a b) (conj (box_make_right a b) (box_make_least a b)))).
Qed.
Print Assumptions C24_make.
Theorem C24_contains : forall (b : bbox R) p, BoundingBox_Contains b p = true <-> in_box p b.
Proof. exact box_contains_spec. Qed.
Print Assumptions C24_contains.
Theorem C24_contains_box : forall b c : bbox R, ordered c -> (BoundingBox_Contains_box b c = true <-> box_incl c b).
Proof. exact box_contains_box_spec. Qed.
Print Assumptions C24_contains_box.
Theorem C24_center_length_volume : forall b : bbox R, ordered b ->
  in_box (BoundingBox_Center b) b /\ le3 (Vec3 0 0 0)%R (BoundingBox_Length b) /\
  (forall a c, Min b = a -> Max b = c ->
    (BoundingBox_Volume b = (x3 c - x3 a) * (y3 c - y3 a) * (z3 c - z3 a))%R).
Proof.
  exact (fun b O => conj (box_center_in b O) (conj (box_length_nonneg b O) (box_volume b))).
Qed.
Print Assumptions C24_center_length_volume.
(** The centre is the midpoint of the box and Length the vector of side lengths. *)
Theorem C24_midpoint : forall (b : bbox R) a c, Min b = a -> Max b = c ->
  (let m := BoundingBox_Center b in x3 m - x3 a = x3 c - x3 m /\ y3 m - y3 a = y3 c - y3 m /\ z3 m - z3 a = z3 c - z3 m)%R /\
  BoundingBox_Length b = Vec3 (x3 c - x3 a)%R (y3 c - y3 a)%R (z3 c - z3 a)%R.
Proof. exact box_center_mid. Qed.
Print Assumptions C24_midpoint.
Example C24_ex : ordered (BBox (Vec3 0 (-1) 0) (Vec3 2 2 0))%R.
Proof. unfold ordered, le3; simpl; lra. Qed.

(** * C25: the box forgets its old upper corner *)
Theorem C25_expand_refuted : exists (b : bbox R) p q, ordered b /\ in_box q b /\
  ~ in_box q (BoundingBox_ExpandToInclude b p).
Proof. exact C25_refuted_lemma. Qed.
Print Assumptions C25_expand_refuted.
Theorem C25_contains_point_partial : forall (b : bbox R) p, in_box p (BoundingBox_ExpandToInclude b p).
Proof. exact box_expand_contains. Qed.
Print Assumptions C25_contains_point_partial.
Theorem C25_actual : forall (b : bbox R) p, BoundingBox_ExpandToInclude b p = BBox (v3min (Min b) p) p.
Proof. exact box_expand_point. Qed.
Print Assumptions C25_actual.

(** * C26 *)
Theorem C26_join : forall b c : bbox R,
  box_incl b (BoundingBox_ExpandToInclude_box b c) /\ box_incl c (BoundingBox_ExpandToInclude_box b c) /\
  (forall d, ordered b -> ordered c -> box_incl b d -> box_incl c d ->
     box_incl (BoundingBox_ExpandToInclude_box b c) d).
Proof. exact (fun b c => conj (box_join_left b c) (conj (box_join_right b c) (box_join_least b c))). Qed.
Print Assumptions C26_join.
Theorem C26_semilattice :
  (forall a b : bbox R, BoundingBox_ExpandToInclude_box a b = BoundingBox_ExpandToInclude_box b a) /\
  (forall a b c : bbox R, BoundingBox_ExpandToInclude_box a (BoundingBox_ExpandToInclude_box b c)
     = BoundingBox_ExpandToInclude_box (BoundingBox_ExpandToInclude_box a b) c) /\
  (forall a : bbox R, BoundingBox_ExpandToInclude_box a a = a).
Proof. exact (conj box_join_comm (conj box_join_assoc box_join_idem)). Qed.
Print Assumptions C26_semilattice.
Example C26_ex : ordered (BBox (Vec3 0 (-1) 0) (Vec3 2 2 0))%R /\ ordered (BBox (Vec3 1 1 (-1)) (Vec3 2 3 0))%R.
Proof. unfold ordered, le3; simpl; lra. Qed.

(** * C32 *)
Theorem C32_curve : forall c : curve R, Curve_IsRational c = true <-> unequal_weights (ControlPoints c).
Proof. exact (fun c => rational_list (ControlPoints c)). Qed.
Print Assumptions C32_curve.
Theorem C32_surface : forall s : surface R, Surface_IsRational s = true <-> unequal_weights (Values (Net s)).
Proof. exact (fun s => rational_list (Values (Net s))). Qed.
Print Assumptions C32_surface.
Example C32_ex : unequal_weights [Vec4 0 0 0 1; Vec4 1 0 0 1; Vec4 1 1 0 2]%R.
Proof. exists (Vec4 0 0 0 1)%R, (Vec4 1 1 0 2)%R. simpl. repeat split; auto. lra. Qed.

(** * C64 *)
Theorem C64_trim : forall s t, trimmed s t <-> t = TrimString s.
Proof. exact TrimString_spec. Qed.
Print Assumptions C64_trim.
Theorem C64_idempotent : forall s, TrimString (TrimString s) = TrimString s.
Proof. exact TrimString_idem. Qed.
Print Assumptions C64_idempotent.
Example C64_ex : TrimString [" "; "a"; " "; "b"; "010"]%char = ["a"; " "; "b"]%char.
Proof. reflexivity. Qed.
