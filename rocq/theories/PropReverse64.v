(** KnotVector::Reverse and AlignParameterDomain on doubles (C103, C104).
    [all_finite], [vals]: the doubles are finite; their real values. *)
From Coq Require Import Reals QArith ZArith List Lra Lia Permutation SpecFloat.
From Verif Require Import Outcome Num ModelCore ModelBasis ModelCurve ModelSurface SpecCore SpecBasis SpecSurface SpecAlign SpecErr SpecRows SpecGeom64 SpecReverse64
  ThB64 ThCurveWit ThSurfWit ThDecide ThAlignWit ThErrWit ThReverse64 ThReverse64Wit ThAlign64 ThAlignDir64 ThAlignDirWit.
Import ListNotations.
Open Scope Z_scope.

(** * C103.  [in_unit_interval]: all numbers in [0,1]; [on_grid53]: all numbers
    multiples of 2^-53; [sound_knots p]: finite and clamped for degree [p]. *)
Theorem C103_reverse_doubles : forall l : list b64, all_finite l -> in_unit_interval (vals l) -> nondecreasing (vals l) ->
  all_finite (KnotVector_Reverse l) /\ len (KnotVector_Reverse l) = len l /\ nondecreasing (vals (KnotVector_Reverse l)) /\
  forall i, 0 <= i < len l -> (Rabs (at_ (vals (KnotVector_Reverse l)) i - (1 - at_ (vals l) (len l - 1 - i))) <= / 2 ^ 54)%R.
Proof. exact C103_reverse_lemma. Qed.
Print Assumptions C103_reverse_doubles.
Theorem C103_clamped_iff : forall p (l : list b64), sound_knots p l -> (sound_knots p (KnotVector_Reverse l) <-> (/ 2 ^ 54 < at_ (vals l) (p + 1))%R).
Proof. exact C103_clamped_lemma. Qed.
Print Assumptions C103_clamped_iff.
Theorem C103_exact_grid : forall l : list b64, all_finite l -> in_unit_interval (vals l) -> on_grid53 (vals l) ->
  (forall i, 0 <= i < len l -> at_ (vals (KnotVector_Reverse l)) i = (1 - at_ (vals l) (len l - 1 - i))%R) /\
  vals (KnotVector_Reverse (KnotVector_Reverse l)) = vals l.
Proof. exact C103_exact_lemma. Qed.
Print Assumptions C103_exact_grid.
(** knots 0,0,1/10,2/3,1,1 and 0,0,1/4,5/8,1,1 (degree 2) *)
Example C103_ex : sound_knots 2 rev_knots /\ in_unit_interval (vals rev_knots) /\ nondecreasing (vals rev_knots) /\ (/ 2 ^ 54 < at_ (vals rev_knots) (2 + 1))%R.
Proof. exact rev_knots_ok. Qed.
Example C103_exact_ex : all_finite dyadic_knots /\ in_unit_interval (vals dyadic_knots) /\ on_grid53 (vals dyadic_knots).
Proof. exact dyadic_knots_ok. Qed.
(** Refuted: reversal keeps a vector clamped whatever its interior knots. *)
Theorem C103_clamped_refuted : exists l : list b64, sound_knots 1 l /\ KnotVector_IsValid (KnotVector_Reverse l) = true /\ ~ sound_knots 1 (KnotVector_Reverse l).
Proof. exact C103_lost_lemma. Qed.
Print Assumptions C103_clamped_refuted.

(** * C104.  [turned s d swap ru rv]: [d] is [s] with the directions exchanged
    and reversed as told, every control point carried over bit for bit;
    [square_sym] is the same symmetry of the parameter square; [jump_at]: an
    interior knot of multiplicity above the degree. *)
Theorem C104_align_doubles : forall acos_ sort_ (s : surface b64) u_axis v_axis, (forall l, Permutation (sort_ l) l) ->
  full_grid (Net s) -> UCount (Net s) * VCount (Net s) <= INT_MAX ->
  exists d swap ru rv, Surface_AlignParameterDomain acos_ sort_ s u_axis v_axis = Ok d /\ turned s d swap ru rv.
Proof. exact C104_lemma. Qed.
Print Assumptions C104_align_doubles.
Theorem C104_evaluate_partial : forall acos_ sort_ (s : surface b64) u_axis v_axis M, (forall l, Permutation (sort_ l) l) ->
  sound_surface s -> Forall (tame M) (Values (Net s)) -> UCount (Net s) * VCount (Net s) <= INT_MAX ->
  on_grid53 (vals (KnotsU s)) -> on_grid53 (vals (KnotsV s)) -> DegreeU s <= 50 -> DegreeV s <= 50 -> (0 <= M <= 2 ^ 100)%R ->
  exists d swap ru rv, Surface_AlignParameterDomain acos_ sort_ s u_axis v_axis = Ok d /\ turned s d swap ru rv /\ sound_surface d /\
    forall u v, finite64 u -> (0 <= val u <= 1)%R -> finite64 v -> (0 <= val v <= 1)%R ->
    let c := square_sym swap ru rv (val u, val v) in
    ((if swap then rv else ru) = true -> ~ jump_at (DegreeU s) (vals (KnotsU s)) (fst c)) ->
    ((if swap then ru else rv) = true -> ~ jump_at (DegreeV s) (vals (KnotsV s)) (snd c)) ->
    exists q, Surface_Evaluate d u v = Ok q /\
      near3 (45 * (IZR (DegreeU s) + IZR (DegreeV s) + 1) / 2 ^ 53 * M + / 2 ^ 450) q (surf_point (surface_val s) (fst c) (snd c)).
Proof. exact C104_eval_lemma. Qed.
Print Assumptions C104_evaluate_partial.
(** [clearly_dominated v a]: coordinate [a] exceeds the others by a factor 1 + 2^-50;
    [clearly_long v]: some coordinate is at least 2e-6. *)
Theorem C104_direction_partial : forall acos_ sort_ (s : surface b64) u_axis v_axis a b, (forall l, Permutation (sort_ l) l) ->
  full_grid (Net s) -> UCount (Net s) * VCount (Net s) <= INT_MAX ->
  2 <= UCount (Net s) -> 2 <= VCount (Net s) -> Forall (fun p => small3 (2 ^ 100) (spot p)) (Values (Net s)) ->
  (forall side, clearly_long (edgeU (surface_val s) side) /\ clearly_long (edgeV (surface_val s) side)) ->
  clearly_dominated (edgeU (surface_val s) false) a -> clearly_dominated (edgeV (surface_val s) false) b ->
  (a = u_axis /\ b = v_axis) \/ (a = v_axis /\ b = u_axis) ->
  (0 < coord a (edgeU (surface_val s) false) * coord a (edgeU (surface_val s) true))%R ->
  (0 < coord b (edgeV (surface_val s) false) * coord b (edgeV (surface_val s) true))%R ->
  exists d swap ru rv, Surface_AlignParameterDomain acos_ sort_ s u_axis v_axis = Ok d /\ turned s d swap ru rv /\
    forall side, (0 < coord u_axis (edgeU (surface_val d) side) /\ 0 < coord v_axis (edgeV (surface_val d) side))%R.
Proof. exact C104_direction_lemma. Qed.
Print Assumptions C104_direction_partial.
(** u edges along -y, v edges along -x *)
Example C104_ex : full_grid (Net turned64) /\ UCount (Net turned64) * VCount (Net turned64) <= INT_MAX /\ sound_surface turned64 /\
  Forall (tame 2) (Values (Net turned64)) /\ Forall (fun p => small3 (2 ^ 100) (spot p)) (Values (Net turned64)) /\
  on_grid53 (vals (KnotsU turned64)) /\ on_grid53 (vals (KnotsV turned64)) /\
  (forall side, clearly_long (edgeU (surface_val turned64) side) /\ clearly_long (edgeV (surface_val turned64) side)) /\
  clearly_dominated (edgeU (surface_val turned64) false) YAxis /\ clearly_dominated (edgeV (surface_val turned64) false) XAxis /\
  (0 < coord YAxis (edgeU (surface_val turned64) false) * coord YAxis (edgeU (surface_val turned64) true))%R /\
  (0 < coord XAxis (edgeV (surface_val turned64) false) * coord XAxis (edgeV (surface_val turned64) true))%R.
Proof. exact C104_ex_lemma. Qed.
(** Refuted: exact strict dominance is enough on doubles.  The rounded edge ties
    and the surface is left as it is, running against the requested axis. *)
Theorem C104_tie_refuted : exists s : surface b64, sound_surface s /\ Forall (fun p => small3 6 (spot p)) (Values (Net s)) /\
  (forall side, clearly_long (edgeU (surface_val s) side) /\ clearly_long (edgeV (surface_val s) side)) /\
  dominated_by (edgeU (surface_val s) false) YAxis /\ clearly_dominated (edgeV (surface_val s) false) XAxis /\
  forall acos_ sort_, (forall l, Permutation (sort_ l) l) -> Surface_AlignParameterDomain acos_ sort_ s YAxis XAxis = Ok s /\
  forall side, (coord YAxis (edgeU (surface_val s) side) < 0)%R.
Proof. exact C104_tie_lemma. Qed.
Print Assumptions C104_tie_refuted.
