(** AlignParameterDomain on patches with collapsed edges (C99). *)
From Coq Require Import Reals ZArith List Permutation.
From Verif Require Import Outcome Num ModelCore ModelSurface SpecCore SpecSurface SpecAlign SpecFan ThFan ThFanWit.
Import ListNotations.
Open Scope Z_scope.

(** * C99 *)
(** Between one and three border edges are longer than 1e-6.  The two axes
    along which the corners spread most are taken; the one to which more of the
    remaining edges lean counts as the u axis, whichever parameter those edges
    belong to, and its sign is the sign of their sum. *)
Theorem C99_decision : forall acos_ sort_ s u_axis v_axis m1 m2 m3,
  decreasing01 acos_ -> sorts_down sort_ -> wf_surface s ->
  UCount (Net s) * VCount (Net s) <= INT_MAX -> 2 <= UCount (Net s) -> 2 <= VCount (Net s) ->
  wider s m1 m2 -> wider s m2 m3 -> (0 < length (visible s) < 4)%nat ->
  let l1 := leaning m1 m2 (visible s) in let l2 := not_leaning m1 m2 (visible s) in
  exists d, Surface_AlignParameterDomain acos_ sort_ s u_axis v_axis = Ok d /\ wf_surface d /\
    forall cu cv lu lv, ((length l2 <= length l1)%nat /\ cu = m1 /\ cv = m2 /\ lu = l1 /\ lv = l2) \/
                        ((length l1 < length l2)%nat /\ cu = m2 /\ cv = m1 /\ lu = l2 /\ lv = l1) ->
      (cu = u_axis -> cv = v_axis -> reparameterised s d false (backwards cu lu) (backwards cv lv)) /\
      (cu = u_axis -> cv <> v_axis -> reparameterised s d false (backwards cu lu) false) /\
      (cu = v_axis -> cv = u_axis -> reparameterised s d true (backwards cv lv) (backwards cu lu)) /\
      (cu <> u_axis -> cu <> v_axis \/ cv <> u_axis -> d = s).
Proof. exact C99_decision_lemma. Qed.
Print Assumptions C99_decision.

Theorem C99_all_collapsed : forall acos_ sort_ s u_axis v_axis,
  sorts_down sort_ -> wf_surface s -> UCount (Net s) * VCount (Net s) <= INT_MAX ->
  (forall side, collapsed (edgeU s side) /\ collapsed (edgeV s side)) ->
  Surface_AlignParameterDomain acos_ sort_ s u_axis v_axis = Ok s.
Proof. exact C99_all_lemma. Qed.
Print Assumptions C99_all_collapsed.

(** One v edge collapsed: the result is aligned as requested. *)
Theorem C99_collapsed_v : forall acos_ sort_ s u_axis v_axis a b c t,
  decreasing01 acos_ -> sorts_down sort_ -> wf_surface s ->
  UCount (Net s) * VCount (Net s) <= INT_MAX -> 2 <= UCount (Net s) -> 2 <= VCount (Net s) ->
  wider s a b \/ wider s b a -> wider s a c -> wider s b c ->
  (a = u_axis /\ b = v_axis) \/ (a = v_axis /\ b = u_axis) ->
  (forall side, ~ collapsed (edgeU s side) /\ leans a b (edgeU s side)) ->
  ~ collapsed (edgeV s t) -> leans b a (edgeV s t) -> collapsed (edgeV s (negb t)) ->
  (0 < coord a (edgeU s false) * coord a (edgeU s true))%R ->
  exists d sw ru rv, Surface_AlignParameterDomain acos_ sort_ s u_axis v_axis = Ok d /\ wf_surface d /\ reparameterised s d sw ru rv /\
    forall side, (~ collapsed (edgeU d side) -> leans u_axis v_axis (edgeU d side) /\ (0 < coord u_axis (edgeU d side))%R) /\
                 (~ collapsed (edgeV d side) -> leans v_axis u_axis (edgeV d side) /\ (0 < coord v_axis (edgeV d side))%R).
Proof. exact C99_v_lemma. Qed.
Print Assumptions C99_collapsed_v.
Example C99_ex : decreasing01 acos /\ sorts_down isort /\
  exists s t, wf_surface s /\ (UCount (Net s) * VCount (Net s) <= INT_MAX /\ 2 <= UCount (Net s) /\ 2 <= VCount (Net s)) /\
    wider s YAxis XAxis /\ wider s YAxis ZAxis /\ wider s XAxis ZAxis /\ (0 < length (visible s) < 4)%nat /\
    (forall side, ~ collapsed (edgeU s side) /\ leans YAxis XAxis (edgeU s side)) /\
    ~ collapsed (edgeV s t) /\ leans XAxis YAxis (edgeV s t) /\ collapsed (edgeV s (negb t)) /\
    (0 < coord YAxis (edgeU s false) * coord YAxis (edgeU s true))%R.
Proof. exact C99_ex_lemma. Qed.

(** One u edge collapsed: the requested alignment always comes out exchanged. *)
Theorem C99_collapsed_u_refuted : forall acos_ sort_ s u_axis v_axis a b c t,
  decreasing01 acos_ -> sorts_down sort_ -> wf_surface s ->
  UCount (Net s) * VCount (Net s) <= INT_MAX -> 2 <= UCount (Net s) -> 2 <= VCount (Net s) ->
  wider s a b \/ wider s b a -> wider s a c -> wider s b c ->
  (a = u_axis /\ b = v_axis) \/ (a = v_axis /\ b = u_axis) ->
  (forall side, ~ collapsed (edgeV s side) /\ leans b a (edgeV s side)) ->
  ~ collapsed (edgeU s t) -> leans a b (edgeU s t) -> collapsed (edgeU s (negb t)) ->
  exists d sw ru rv, Surface_AlignParameterDomain acos_ sort_ s u_axis v_axis = Ok d /\ wf_surface d /\ reparameterised s d sw ru rv /\
    forall side, (~ collapsed (edgeU d side) -> leans v_axis u_axis (edgeU d side)) /\
                 (~ collapsed (edgeV d side) -> leans u_axis v_axis (edgeV d side)).
Proof. exact C99_u_lemma. Qed.
Print Assumptions C99_collapsed_u_refuted.
Example C99_ex_u : exists s t, wf_surface s /\ (UCount (Net s) * VCount (Net s) <= INT_MAX /\ 2 <= UCount (Net s) /\ 2 <= VCount (Net s)) /\
    (wider s XAxis YAxis \/ wider s YAxis XAxis) /\ wider s XAxis ZAxis /\ wider s YAxis ZAxis /\
    (forall side, ~ collapsed (edgeV s side) /\ leans YAxis XAxis (edgeV s side)) /\
    ~ collapsed (edgeU s t) /\ leans XAxis YAxis (edgeU s t) /\ collapsed (edgeU s (negb t)).
Proof. exact C99_ex_u_lemma. Qed.
