(** Knot removal from surfaces in any arithmetic: line by line. *)
From Coq Require Import ZArith List Lia Bool.
From Verif Require Import Outcome Num ModelCore ModelAlgo ModelCurve ModelSurface SpecCore SpecRows ThOutcome ThVec ThGrid ThSurface2 ThRemoveWit ThSurfRemove ThRows.
Import ListNotations.
Open Scope Z_scope.
Open Scope outcome_scope.

Section Knots.
  Context {T : Type} {NT : Num T}.
  Lemma KnotRemoval_knots (knots : list T) pts p u times tol t k' q' : KnotRemoval knots pts p u times tol = Ok (t, k', q') -> t <> 0 ->
    (r <- KnotVector_FindSpanIndex knots p u ;;
     k2 <- for_up (r + 1) (len pts - 1 + p + 1 + 1) (fun k knots => x <- vget knots k ;; vset knots (k - times) x) knots ;;
     vresize k2 (len k2 - times) n0) = Ok k'.
  Proof.
    intros E Nt. unfold KnotRemoval in E. cbv zeta in E.
    destruct (KnotVector_FindSpanIndex knots p u) as [r| | | | |]; cbn [bind] in E; try discriminate. rewrite bind_ret.
    destruct (CalcTOL (map ToHomo pts) tol) as [tl| | | | |]; cbn [bind] in E; try discriminate.
    destruct (uninit (vec4 T) (2 * p + 1)) as [tmp| | | | |]; cbn [bind] in E; try discriminate.
    match type of E with bind ?m _ = _ => destruct m as [[t2 ps]| | | | |]; cbn [bind] in E; try discriminate end.
    destruct (Z.eqb_spec t2 0) as [Z0|Z0]; [inversion E; subst; contradiction|].
    destruct (for_up 1 t2 _ _) as [[i j]| | | | |]; cbn [bind] in E; try discriminate.
    match type of E with bind ?m _ = _ => destruct m as [[p2 j2]| | | | |]; cbn [bind] in E; try discriminate end.
    match type of E with bind ?m _ = _ => destruct m as [p3| | | | |]; cbn [bind] in E; try discriminate end.
    rewrite len_map in E.
    match type of E with bind ?m _ = _ => destruct m as [k2| | | | |]; cbn [bind] in E; try discriminate end. rewrite bind_ret.
    match type of E with bind ?m _ = _ => destruct m as [k3| | | | |]; cbn [bind] in E; try discriminate end.
    match type of E with bind ?m _ = _ => destruct m as [p4| | | | |]; cbn [bind] in E; try discriminate end.
    inversion E; subst. reflexivity.
  Qed.
  Lemma KnotRemoval_same_knots (knots : list T) a b p u times tol t k q t' k' q' : KnotRemoval knots a p u times tol = Ok (t, k, q) -> KnotRemoval knots b p u times tol = Ok (t', k', q') ->
    t <> 0 -> t' <> 0 -> len a = len b -> k = k'.
  Proof.
    intros Ea Eb Nt Nt' L. pose proof (KnotRemoval_knots _ _ _ _ _ _ _ _ _ Ea Nt) as A. pose proof (KnotRemoval_knots _ _ _ _ _ _ _ _ _ Eb Nt') as B.
    rewrite L in A. rewrite A in B. inversion B. reflexivity.
  Qed.
End Knots.

Section Rows.
  Context {T : Type} `{NT : Num T}.
  Variable getrow : Z -> outcome (list (vec4 T)).
  Variable setrow : grid (option (vec4 T)) -> Z -> list (option (vec4 T)) -> outcome (grid (option (vec4 T))).
  Variables (p : Z) (u : T) (times : Z) (tol : T) (rows M : Z) (row : Z -> list (vec4 T)).
  Variable G : grid (option (vec4 T)) -> (Z -> Z -> option (vec4 T)) -> Prop.
  Hypothesis Get : forall r, 0 <= r < rows -> getrow r = Ok (row r).
  Hypothesis Set_ok : forall net f r w, G net f -> 0 <= r < rows -> exists net', setrow net r (map w (zrange 0 M)) = Ok net' /\
    G net' (fun r' c => if r' =? r then w c else f r' c).
  (** one reported count for all rows *)
  Definition agreed (knots : list T) (it t0 : Z) : Prop := forall r, it <= r < rows -> exists k q, KnotRemoval knots (row r) p u times tol = Ok (t0, k, q).
  Lemma rows_run knots : (forall r, 0 <= r < rows -> exists t k q, KnotRemoval knots (row r) p u times tol = Ok (t, k, q) /\ (t <> 0 -> len q = M)) ->
    forall n it t net f, it + Z.of_nat n = rows -> 0 <= it -> G net f ->
    rem_rows getrow setrow p u times tol rows n it t knots net = Ok None /\ ~ (exists t0, t0 <> 0 /\ (it <> 0 -> t0 = t) /\ agreed knots it t0) \/
    (exists st, rem_rows getrow setrow p u times tol rows n it t knots net = Ok (Some st)).
  Proof.
    intros H. induction n as [|n IH]; intros it t net f Hn Hi Gn; cbn [rem_rows].
    - right. eexists. reflexivity.
    - rewrite Get by lia. cbn [bind]. destruct (H it ltac:(lia)) as [t1 [k1 [q1 [Ek L1]]]]. rewrite Ek. cbn [bind].
      destruct (Z.eqb_spec t1 0) as [->|Nz].
      { left. split; [reflexivity|]. intros [t0 [N0 [_ A]]]. destruct (A it ltac:(lia)) as [k [q Q]]. rewrite Ek in Q. inversion Q. congruence. }
      cbn [orb]. destruct (negb (it =? 0) && negb (t =? t1)) eqn:Eb.
      { left. split; [reflexivity|]. intros [t0 [N0 [I0 A]]]. destruct (A it ltac:(lia)) as [k [q Q]]. rewrite Ek in Q. inversion Q. subst t0.
        destruct (Z.eqb_spec it 0); [discriminate|]. rewrite I0 in Eb by assumption. rewrite Z.eqb_refl in Eb. discriminate. }
      cbv zeta. specialize (L1 Nz). destruct (Set_ok net f it (fun c => Some (znth dflt q1 c)) Gn ltac:(lia)) as [net1 [E1 G1]].
      rewrite <- map_map with (g := Some) in E1. rewrite <- L1, <- ThSurfRemove.list_tab in E1. rewrite E1. cbn [bind].
      destruct (Z.eqb_spec it (rows - 1)) as [Last|Last].
      + assert (n = O) as -> by lia. right. eexists. reflexivity.
      + destruct (IH (it + 1) t1 net1 _ ltac:(lia) ltac:(lia) G1) as [[E2 A2]|E2]; [left|right; exact E2]. split; [exact E2|].
        intros [t0 [N0 [I0 A]]]. apply A2. exists t0. split; [exact N0|]. split; [|intros r Hr; apply A; lia]. intros _.
        destruct (A it ltac:(lia)) as [k [q Q]]. rewrite Ek in Q. inversion Q. reflexivity.
  Qed.
End Rows.

Section Surf.
  Context {T : Type} `{NT : Num T}.
  Variables (s : surface T) (u : T) (times : Z) (tol : T).
  Hypothesis F : full_grid (Net s).
  Hypothesis U01 : ngtb u n0 && nltb u n1 = true.
  Hypothesis T1 : 1 <= times.
  Notation nu := (UCount (Net s)).
  Notation nv := (VCount (Net s)).
  Lemma curve_removal p k (l : list (vec4 T)) : Curve_RemoveKnot (Curve p k l) u times tol = ('(t, k', q) <- KnotRemoval k l p u times tol ;; Ok (Curve p k' q, t)).
  Proof. unfold Curve_RemoveKnot. rewrite U01. destruct (Z.ltb_spec 0 times); [|lia]. reflexivity. Qed.
  Lemma curve_removal_ok p k (l : list (vec4 T)) t k' q : KnotRemoval k l p u times tol = Ok (t, k', q) -> Curve_RemoveKnot (Curve p k l) u times tol = Ok (Curve p k' q, t).
  Proof. intros E. rewrite curve_removal, E. reflexivity. Qed.
  Lemma curve_removal_inv p k (l : list (vec4 T)) c' t : Curve_RemoveKnot (Curve p k l) u times tol = Ok (c', t) ->
    exists k' q, KnotRemoval k l p u times tol = Ok (t, k', q) /\ c' = Curve p k' q.
  Proof. rewrite curve_removal. destruct (KnotRemoval k l p u times tol) as [[[t1 k1] q1]| | | | |]; cbn [bind]; try discriminate. intros E. inversion E; subst. exists k1, q1. auto. Qed.
  Lemma freeze_map {A} (l : list A) : freeze (map Some l) = Ok l.
  Proof. induction l as [|a l IH]; [reflexivity|]. cbn [map freeze]. rewrite IH. reflexivity. Qed.
  Lemma freeze_some (l : list (option (vec4 T))) : (forall i, 0 <= i < len l -> exists a, vget l i = Ok (Some a)) -> exists l', freeze l = Ok l'.
  Proof.
    induction l as [|o l IH]; intros H; [exists []; reflexivity|]. destruct (H 0) as [a E]; [rewrite len_cons; pose proof (len_nonneg l); lia|]. cbn in E. inversion E; subst.
    destruct IH as [l' E']; [|exists (a :: l'); cbn [freeze]; rewrite E'; reflexivity]. intros i Hi. destruct (H (i + 1)) as [b Eb]; [rewrite len_cons; lia|]. exists b.
    rewrite <- Eb. unfold vget. destruct (Z.ltb_spec i 0), (Z.ltb_spec (i + 1) 0); try lia. replace (Z.to_nat (i + 1)) with (S (Z.to_nat i)) by lia. reflexivity.
  Qed.
  Lemma freeze_grid (net : grid (option (vec4 T))) a b (f : Z -> Z -> option (vec4 T)) : grid_is net a b f -> (forall i j, 0 <= i < a -> 0 <= j < b -> exists q, f i j = Some q) -> exists net', grid_freeze net = Ok net'.
  Proof.
    intros [Gu [Gv [Ha [Hb [L C]]]]] H. destruct (freeze_some (Values net)) as [l E]; [|exists (Grid (UCount net) (VCount net) l); unfold grid_freeze; rewrite E; reflexivity].
    intros k Hk. rewrite L in Hk. assert (0 < a) by nia. assert (0 <= k / a < b) as Hj by (split; [apply Z.div_pos; lia|apply Z.div_lt_upper_bound; lia]).
    pose proof (Z.mod_pos_bound k a ltac:(lia)) as Hi. destruct (H (k mod a) (k / a) Hi Hj) as [q Eq]. exists q.
    pose proof (C (k mod a) (k / a) Hi Hj) as E. rewrite Eq in E. replace (k / a * a + k mod a) with k in E by (pose proof (Z.div_mod k a ltac:(lia)); lia).
    unfold vget. destruct (Z.ltb_spec k 0); [lia|]. rewrite E. reflexivity.
  Qed.

  Lemma removeU_lines : 1 <= nv -> times <= nu -> nu * nv <= INT_MAX ->
    (forall j l, line_u (Net s) j l -> exists c' t, Curve_RemoveKnot (Curve (DegreeU s) (KnotsU s) l) u times tol = Ok (c', t)) ->
    exists s' t, Surface_RemoveKnotU s u times tol = Ok (s', t) /\
      (t = 0 /\ s' = s /\ ~ (exists t0, t0 <> 0 /\ forall j l, line_u (Net s) j l -> exists c', Curve_RemoveKnot (Curve (DegreeU s) (KnotsU s) l) u times tol = Ok (c', t0)) \/
       t <> 0 /\ full_grid (Net s') /\ DegreeU s' = DegreeU s /\ DegreeV s' = DegreeV s /\ KnotsV s' = KnotsV s /\ UCount (Net s') = nu - times /\ VCount (Net s') = nv /\
       forall j l, line_u (Net s) j l -> exists l', line_u (Net s') j l' /\ Curve_RemoveKnot (Curve (DegreeU s) (KnotsU s) l) u times tol = Ok (Curve (DegreeU s) (KnotsU s') l', t)).
  Proof.
    intros V1 Tn Im H. pose proof (full_is _ F) as G. set (row := rowU nu (cell (Net s))).
    assert (forall j, 0 <= j < nv -> line_u (Net s) j (row j)) as Lr by (intros; apply (line_u_ex _ _ _ _ _ G); assumption).
    assert (forall j, len (row j) = nu) as Rl by (intros; unfold row, rowU; rewrite len_map, len_zrange; destruct F; lia).
    assert (forall j, 0 <= j < nv -> exists t k q, KnotRemoval (KnotsU s) (row j) (DegreeU s) u times tol = Ok (t, k, q) /\ (t <> 0 -> len q = nu - times)) as Hr.
    { intros j Hj. destruct (H j (row j) (Lr j Hj)) as [c' [t E]]. apply curve_removal_inv in E. destruct E as [k' [q [E _]]]. exists t, k', q. split; [exact E|].
      intros Nt. apply KnotRemoval_count in E. destruct E as [_ [_ E]]. destruct (E Nt) as [_ [_ ->]]. rewrite Rl. reflexivity. }
    assert (exists st, Surface_RemoveKnotU s u times tol = Ok st /\ (snd st = 0 -> ~ (exists t0, t0 <> 0 /\ agreed (DegreeU s) u times tol nv row (KnotsU s) 0 t0))) as [[s' t] [E Ag]].
    { unfold Surface_RemoveKnotU, grid_uninit. destruct (Grid_make_ok (nu - times) nv (@None (vec4 T))) as [net0 [E0 G0]]; [lia|lia|nia|]. rewrite E0. cbn [bind].
      rewrite (removeU_eq s nu nv _ G).
      pose proof (rows_run (Grid_GetV (Net s)) Grid_SetV (DegreeU s) u times tol nv (nu - times) row (fun net g => grid_is net (nu - times) nv (fun i j => g j i))
        (fun r Hr => getV_row s nu nv _ G r Hr) (fun net g r w Gn Hr => Grid_SetV_ok net _ _ _ r w Gn Hr) (KnotsU s) Hr (Z.to_nat nv) 0 0 net0 (fun _ _ => None) ltac:(lia) ltac:(lia) G0) as R.
      destruct R as [[E1 A1]|[[[t1 k1] net1] E1]]; rewrite E1; cbn [bind].
      - eexists. split; [reflexivity|]. intros _ [t0 [N0 A]]. apply A1. exists t0. split; [exact N0|]. split; [lia|exact A].
      - destruct (rows_inv (Grid_GetV (Net s)) Grid_SetV (DegreeU s) u times tol nv (nu - times) row
          (fun net g => grid_is net (nu - times) nv (fun i j => g j i))) with (6 := E1) (f := fun _ _ : Z => @None (vec4 T)) as [_ R]; try lia; try exact G0.
        + intros r Hr'. apply (getV_row s nu nv _ G). exact Hr'.
        + intros net g r w Gn Hr'. apply (Grid_SetV_ok net _ _ _ r w Gn Hr').
        + intros net g r l net' Gn Hr' Es. apply (setV_len _ _ _ _ _ _ _ Gn Hr' Es).
        + intros net g g' Ex Gn. apply (grid_is_eq _ _ _ _ _ Gn). intros; apply Ex; assumption.
        + destruct (R ltac:(lia)) as [Nz [_ [q [Q Gq]]]]. destruct (freeze_grid _ _ _ _ Gq) as [net2 E2].
          { intros i j Hi Hj. destruct (Z.leb_spec 0 j); [|lia]. eexists. reflexivity. }
          rewrite E2. cbn [bind]. eexists. split; [reflexivity|]. cbn [snd]. intros; contradiction. }
    exists s', t. split; [exact E|]. cbn [snd] in Ag. destruct (RemoveKnotU_inv s s' nu nv (cell (Net s)) u times tol t G ltac:(lia) E) as [[-> ->]|A]; [left|right].
    - split; [reflexivity|]. split; [reflexivity|]. intros [t0 [N0 A]]. apply (Ag eq_refl). exists t0. split; [exact N0|]. intros r Hr'.
      destruct (A r (row r) (Lr r Hr')) as [c' Ec]. apply curve_removal_inv in Ec. destruct Ec as [k' [q [Ec _]]]. exists k', q. exact Ec.
    - destruct A as [At [A1 [A2 [A3 [A4 [A5 [A6 [_ [q [Q C]]]]]]]]]]. split; [lia|]. assert (full_grid (Net s')) as Fs by (split; [lia|]; split; [lia|]; rewrite A4, A5; exact A6).
      split; [exact Fs|]. do 3 (split; [assumption|]). split; [exact A4|]. split; [exact A5|]. intros j l Ll. pose proof Ll as [Hj _]. rewrite (line_u_fun _ _ _ _ F Ll (Lr j Hj)).
      exists (q j). destruct (Q j Hj) as [k [Ek [Lq _]]]. destruct (Q (nv - 1) ltac:(lia)) as [kl [Ekl [_ [_ Kl]]]]. rewrite (Kl eq_refl). split.
      + unfold line_u. rewrite A4, A5. split; [exact Hj|]. split; [exact Lq|]. intros i Hi. pose proof (idx_range j i _ _ Hj Hi) as Ix.
        rewrite (nth_error_nth' (q j) dflt) by (unfold len in Lq; lia). rewrite (nth_error_nth' (Values (Net s')) dflt) by (unfold len in A6; lia). f_equal.
        symmetry. apply (C i j); lia.
      + apply curve_removal_ok. assert (k = kl) as <-; [|exact Ek]. apply (KnotRemoval_same_knots _ _ _ _ _ _ _ _ _ _ _ _ _ Ek Ekl); [lia|lia|].
        change (len (row j) = len (row (nv - 1))). rewrite !Rl. reflexivity.
  Qed.
  Lemma removeV_lines : 1 <= nu -> times <= nv -> nu * nv <= INT_MAX ->
    (forall i l, line_v (Net s) i l -> exists c' t, Curve_RemoveKnot (Curve (DegreeV s) (KnotsV s) l) u times tol = Ok (c', t)) ->
    exists s' t, Surface_RemoveKnotV s u times tol = Ok (s', t) /\
      (t = 0 /\ s' = s /\ ~ (exists t0, t0 <> 0 /\ forall i l, line_v (Net s) i l -> exists c', Curve_RemoveKnot (Curve (DegreeV s) (KnotsV s) l) u times tol = Ok (c', t0)) \/
       t <> 0 /\ full_grid (Net s') /\ DegreeU s' = DegreeU s /\ DegreeV s' = DegreeV s /\ KnotsU s' = KnotsU s /\ UCount (Net s') = nu /\ VCount (Net s') = nv - times /\
       forall i l, line_v (Net s) i l -> exists l', line_v (Net s') i l' /\ Curve_RemoveKnot (Curve (DegreeV s) (KnotsV s) l) u times tol = Ok (Curve (DegreeV s) (KnotsV s') l', t)).
  Proof.
    intros U1 Tn Im H. pose proof (full_is _ F) as G. set (row := rowV nv (cell (Net s))).
    assert (forall i, 0 <= i < nu -> line_v (Net s) i (row i)) as Lr by (intros; apply (line_v_ex _ _ _ _ _ G); assumption).
    assert (forall i, len (row i) = nv) as Rl by (intros; unfold row, rowV; rewrite len_map, len_zrange; destruct F as [_ [? _]]; lia).
    assert (forall i, 0 <= i < nu -> exists t k q, KnotRemoval (KnotsV s) (row i) (DegreeV s) u times tol = Ok (t, k, q) /\ (t <> 0 -> len q = nv - times)) as Hr.
    { intros j Hj. destruct (H j (row j) (Lr j Hj)) as [c' [t E]]. apply curve_removal_inv in E. destruct E as [k' [q [E _]]]. exists t, k', q. split; [exact E|].
      intros Nt. apply KnotRemoval_count in E. destruct E as [_ [_ E]]. destruct (E Nt) as [_ [_ ->]]. rewrite Rl. reflexivity. }
    assert (exists st, Surface_RemoveKnotV s u times tol = Ok st /\ (snd st = 0 -> ~ (exists t0, t0 <> 0 /\ agreed (DegreeV s) u times tol nu row (KnotsV s) 0 t0))) as [[s' t] [E Ag]].
    { unfold Surface_RemoveKnotV, grid_uninit. destruct (Grid_make_ok nu (nv - times) (@None (vec4 T))) as [net0 [E0 G0]]; [lia|lia|nia|]. rewrite E0. cbn [bind].
      rewrite (removeV_eq s nu nv _ G).
      pose proof (rows_run (Grid_GetU (Net s)) Grid_SetU (DegreeV s) u times tol nu (nv - times) row (fun net g => grid_is net nu (nv - times) g)
        (fun r Hr => getU_row s nu nv _ G r Hr) (fun net g r w Gn Hr => Grid_SetU_ok net _ _ _ r w Gn Hr) (KnotsV s) Hr (Z.to_nat nu) 0 0 net0 (fun _ _ => None) ltac:(lia) ltac:(lia) G0) as R.
      destruct R as [[E1 A1]|[[[t1 k1] net1] E1]]; rewrite E1; cbn [bind].
      - eexists. split; [reflexivity|]. intros _ [t0 [N0 A]]. apply A1. exists t0. split; [exact N0|]. split; [lia|exact A].
      - destruct (rows_inv (Grid_GetU (Net s)) Grid_SetU (DegreeV s) u times tol nu (nv - times) row
          (fun net g => grid_is net nu (nv - times) g)) with (6 := E1) (f := fun _ _ : Z => @None (vec4 T)) as [_ R]; try lia; try exact G0.
        + intros r Hr'. apply (getU_row s nu nv _ G). exact Hr'.
        + intros net g r w Gn Hr'. apply (Grid_SetU_ok net _ _ _ r w Gn Hr').
        + intros net g r l net' Gn Hr' Es. apply (setU_len _ _ _ _ _ _ _ Gn Hr' Es).
        + intros net g g' Ex Gn. apply (grid_is_eq _ _ _ _ _ Gn). intros; apply Ex; assumption.
        + destruct (R ltac:(lia)) as [Nz [_ [q [Q Gq]]]]. destruct (freeze_grid _ _ _ _ Gq) as [net2 E2].
          { intros i j Hi Hj. destruct (Z.leb_spec 0 i); [|lia]. eexists. reflexivity. }
          rewrite E2. cbn [bind]. eexists. split; [reflexivity|]. cbn [snd]. intros; contradiction. }
    exists s', t. split; [exact E|]. cbn [snd] in Ag. destruct (RemoveKnotV_inv s s' nu nv (cell (Net s)) u times tol t G ltac:(lia) E) as [[-> ->]|A]; [left|right].
    - split; [reflexivity|]. split; [reflexivity|]. intros [t0 [N0 A]]. apply (Ag eq_refl). exists t0. split; [exact N0|]. intros r Hr'.
      destruct (A r (row r) (Lr r Hr')) as [c' Ec]. apply curve_removal_inv in Ec. destruct Ec as [k' [q [Ec _]]]. exists k', q. exact Ec.
    - destruct A as [At [A1 [A2 [A3 [A4 [A5 [A6 [_ [q [Q C]]]]]]]]]]. split; [lia|]. assert (full_grid (Net s')) as Fs by (split; [lia|]; split; [lia|]; rewrite A4, A5; exact A6).
      split; [exact Fs|]. do 3 (split; [assumption|]). split; [exact A4|]. split; [exact A5|]. intros i l Ll. pose proof Ll as [Hi _]. rewrite (line_v_fun _ _ _ _ F Ll (Lr i Hi)).
      exists (q i). destruct (Q i Hi) as [k [Ek [Lq _]]]. destruct (Q (nu - 1) ltac:(lia)) as [kl [Ekl [_ [_ Kl]]]]. rewrite (Kl eq_refl). split.
      + unfold line_v. rewrite A4, A5. split; [exact Hi|]. split; [exact Lq|]. intros j Hj. pose proof (idx_range j i _ _ Hj Hi) as Ix.
        rewrite (nth_error_nth' (q i) dflt) by (unfold len in Lq; lia). rewrite (nth_error_nth' (Values (Net s')) dflt) by (unfold len in A6; lia). f_equal.
        symmetry. apply (C i j); lia.
      + apply curve_removal_ok. assert (k = kl) as <-; [|exact Ek]. apply (KnotRemoval_same_knots _ _ _ _ _ _ _ _ _ _ _ _ _ Ek Ekl); [lia|lia|].
        change (len (row i) = len (row (nu - 1))). rewrite !Rl. reflexivity.
  Qed.
End Surf.
