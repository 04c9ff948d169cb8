(** AlignParameterDomain: C53.  Its parts: the result is the original surface
    composed with one symmetry of the square; the directions of the net edges. *)
From Coq Require Import Reals ZArith List Permutation.
From Verif Require Import Outcome Num ModelCore ModelSurface SpecCore SpecSurface SpecAlign ThB64 ThSurfWit ThAlignWit.
Import ListNotations.
Open Scope Z_scope.

(** * C53 *)
(** Partial: at an interior knot of multiplicity above the degree, reversal
    exchanges the two one-sided values ([C53_jump_refuted]). *)
Theorem C53_reparameterise_partial : forall acos_ sort_ s u_axis v_axis,
  rearranges sort_ -> wf_surface s -> UCount (Net s) * VCount (Net s) <= INT_MAX ->
  exists d swap ru rv, Surface_AlignParameterDomain acos_ sort_ s u_axis v_axis = Ok d /\
    wf_surface d /\ reparameterised s d swap ru rv.
Proof. exact C53_lemma. Qed.
Print Assumptions C53_reparameterise_partial.

(** Partial: the four corner edges are longer than 1e-6, and opposite edges run
    the same way along the dominant axes. *)
Theorem C53_direction_partial : forall acos_ sort_ s u_axis v_axis a b,
  rearranges sort_ -> wf_surface s -> UCount (Net s) * VCount (Net s) <= INT_MAX ->
  2 <= UCount (Net s) -> 2 <= VCount (Net s) ->
  (forall side, (1 / 1000000 < length3 (edgeU s side) /\ 1 / 1000000 < length3 (edgeV s side))%R) ->
  dominated_by (edgeU s false) a -> dominated_by (edgeV s false) b ->
  (a = u_axis /\ b = v_axis) \/ (a = v_axis /\ b = u_axis) ->
  (0 < coord a (edgeU s false) * coord a (edgeU s true))%R -> (0 < coord b (edgeV s false) * coord b (edgeV s true))%R ->
  exists d swap ru rv, Surface_AlignParameterDomain acos_ sort_ s u_axis v_axis = Ok d /\
    wf_surface d /\ reparameterised s d swap ru rv /\
    forall side, (0 < coord u_axis (edgeU d side) /\ 0 < coord v_axis (edgeV d side))%R.
Proof. exact C53_direction_lemma. Qed.
Print Assumptions C53_direction_partial.

(** Without the condition on opposite edges: the two edges that were looked at
    (at the image of the corner (0,0)) point the requested way. *)
Theorem C53_corner_partial : forall acos_ sort_ s u_axis v_axis a b,
  rearranges sort_ -> wf_surface s -> UCount (Net s) * VCount (Net s) <= INT_MAX ->
  2 <= UCount (Net s) -> 2 <= VCount (Net s) ->
  (forall side, (1 / 1000000 < length3 (edgeU s side) /\ 1 / 1000000 < length3 (edgeV s side))%R) ->
  dominated_by (edgeU s false) a -> dominated_by (edgeV s false) b ->
  (a = u_axis /\ b = v_axis) \/ (a = v_axis /\ b = u_axis) ->
  exists d swap ru rv, Surface_AlignParameterDomain acos_ sort_ s u_axis v_axis = Ok d /\
    wf_surface d /\ reparameterised s d swap ru rv /\
    (0 < coord u_axis (edgeU d rv))%R /\ (0 < coord v_axis (edgeV d ru))%R.
Proof. exact C53_corner_lemma. Qed.
Print Assumptions C53_corner_partial.
(** a patch whose u edges run along -y and whose v edges run along -x, to be aligned with (x, y) *)
Example C53_ex : exists s, wf_surface s /\ UCount (Net s) * VCount (Net s) <= INT_MAX /\ 2 <= UCount (Net s) /\ 2 <= VCount (Net s) /\
  (forall side, (1 / 1000000 < length3 (edgeU s side) /\ 1 / 1000000 < length3 (edgeV s side))%R) /\
  dominated_by (edgeU s false) YAxis /\ dominated_by (edgeV s false) XAxis /\
  (0 < coord YAxis (edgeU s false) * coord YAxis (edgeU s true))%R /\ (0 < coord XAxis (edgeV s false) * coord XAxis (edgeV s true))%R /\
  (coord YAxis (edgeU s false) < 0)%R.
Proof. exact C53_ex_lemma. Qed.

(** Refuted: with an interior knot of multiplicity above the degree the result
    is the original under none of the eight symmetries. *)
Theorem C53_jump_refuted : exists s : surface b64, wf_surface (surface_val s) /\
  forall acos_ sort_, (forall l, Permutation (sort_ l) l) ->
  exists d, Surface_AlignParameterDomain acos_ sort_ s XAxis YAxis = Ok d /\
  forall swap ru rv, exists u v u' v' p q, square_sym swap ru rv (val u, val v) = (val u', val v') /\
    Surface_Evaluate d u v = Ok p /\ Surface_Evaluate s u' v' = Ok q /\ p <> q.
Proof. exact C53_jump_lemma. Qed.
Print Assumptions C53_jump_refuted.

(** Refuted: the dominant axes match, yet an edge of the result points the wrong way. *)
Theorem C53_opposite_refuted : exists s : surface b64, wf_surface (surface_val s) /\
  (forall side, (1 / 1000000 < length3 (edgeU (surface_val s) side) /\ 1 / 1000000 < length3 (edgeV (surface_val s) side))%R) /\
  dominated_by (edgeU (surface_val s) false) XAxis /\ dominated_by (edgeV (surface_val s) false) YAxis /\
  forall acos_ sort_, (forall l, Permutation (sort_ l) l) ->
  exists d, Surface_AlignParameterDomain acos_ sort_ s XAxis YAxis = Ok d /\ (coord XAxis (edgeU (surface_val d) false) < 0)%R.
Proof. exact C53_bow_lemma. Qed.
Print Assumptions C53_opposite_refuted.

(** Refuted: with one collapsed edge the u edges run along y and the v edges
    along x, yet nothing is exchanged and no u edge runs along x. *)
Theorem C53_collapsed_refuted : exists s : surface b64, wf_surface (surface_val s) /\
  dominated_by (edgeU (surface_val s) false) YAxis /\ dominated_by (edgeV (surface_val s) false) XAxis /\
  dominated_by (edgeV (surface_val s) true) XAxis /\
  forall acos_ sort_, acos_like acos_ -> sorts_extents sort_ ->
  exists d, Surface_AlignParameterDomain acos_ sort_ s XAxis YAxis = Ok d /\
    forall side, coord XAxis (edgeU (surface_val d) side) = 0%R.
Proof. exact C53_fan_lemma. Qed.
Print Assumptions C53_collapsed_refuted.
