(** Knot removal on surfaces: row by row. *)
From Coq Require Import Reals ZArith List Lra Lia Bool Permutation.
From Verif Require Import Outcome Num ModelCore ModelAlgo ModelCurve ModelSurface SpecCore SpecBasis SpecCurve SpecSurface
  ThOutcome ThReal ThKnots ThGrid ThVec ThSum ThSpline ThBasis ThCurve ThInsert ThCurveWit ThSurface ThSurface2 ThGeom
  ThRemove ThRemove2 ThRemove3 ThRemoveWit.
Import ListNotations.
Open Scope Z_scope.

Lemma list_tab {A} (d : A) l : l = map (fun i => znth d l i) (zrange 0 (len l)).
Proof.
  pose proof (len_nonneg l). apply ze_ext; [rewrite len_map, len_zrange; lia|]. intros i Hi. rewrite ze_map_zrange by lia.
  unfold ze, znth. apply nth_error_nth'. unfold len in Hi. lia.
Qed.
Lemma map_zrange_ext {A} (f g : Z -> A) a b : (forall i, a <= i < b -> f i = g i) -> map f (zrange a b) = map g (zrange a b).
Proof. intros H. apply map_ext_in. intros i Hi. apply In_zrange in Hi. apply H. exact Hi. Qed.

Section Rows.
  Context {T : Type} `{NT : Num T}.
  (** [R] rows of [M] cells; [G net f]: cell [c] of row [r] of [net] is [f r c]. *)
  Variable getrow : Z -> outcome (list (vec4 T)).
  Variable setrow : grid (option (vec4 T)) -> Z -> list (option (vec4 T)) -> outcome (grid (option (vec4 T))).
  Variables (p : Z) (u : T) (times : Z) (tol : T) (rows M : Z) (row : Z -> list (vec4 T)).
  Variable G : grid (option (vec4 T)) -> (Z -> Z -> option (vec4 T)) -> Prop.
  Hypothesis Get : forall r, 0 <= r < rows -> getrow r = Ok (row r).
  Hypothesis Set_ok : forall net f r w, G net f -> 0 <= r < rows -> exists net', setrow net r (map w (zrange 0 M)) = Ok net' /\
    G net' (fun r' c => if r' =? r then w c else f r' c).
  Hypothesis Set_len : forall net f r l net', G net f -> 0 <= r < rows -> setrow net r l = Ok net' -> len l = M.
  Hypothesis Gext : forall net f f', (forall r c, 0 <= r < rows -> 0 <= c < M -> f r c = f' r c) -> G net f -> G net f'.
  Fixpoint rem_rows (n : nat) (it t : Z) (knots : list T) (net : grid (option (vec4 T)))
    : outcome (option (Z * list T * grid (option (vec4 T)))) :=
    match n with
    | O => Ok (Some (t, knots, net))
    | S n' =>
        points <- getrow it ;;
        '(t_tmp, k', points) <- KnotRemoval knots points p u times tol ;;
        if (t_tmp =? 0) || (negb (it =? 0) && negb (t =? t_tmp)) then Ok None
        else
          let knots := if it =? rows - 1 then k' else knots in
          net <- setrow net it (map Some points) ;;
          rem_rows n' (it + 1) t_tmp knots net
    end.
  Definition dflt : vec4 T := v4zero.
  Lemma setrow_list net f r l net' : G net f -> 0 <= r < rows -> setrow net r (map Some l) = Ok net' ->
    len l = M /\ G net' (fun r' c => if r' =? r then Some (znth dflt l c) else f r' c).
  Proof.
    intros Gn Hr E. pose proof (Set_len _ _ _ _ _ Gn Hr E) as L. rewrite len_map in L. split; [exact L|].
    destruct (Set_ok net f r (fun c => Some (znth dflt l c)) Gn Hr) as [net2 [E2 G2]].
    rewrite <- map_map with (g := Some) in E2. rewrite <- L, <- list_tab in E2. rewrite E in E2. inversion E2; subst. exact G2.
  Qed.
  Lemma rows_inv n : forall it t knots net f t' k' net', G net f ->
    rem_rows n it t knots net = Ok (Some (t', k', net')) -> it + Z.of_nat n = rows -> 0 <= it ->
    (n = O -> t' = t /\ k' = knots /\ net' = net) /\
    (n <> O -> t' <> 0 /\ (it <> 0 -> t' = t) /\ exists q,
       (forall r, it <= r < rows -> exists k, KnotRemoval knots (row r) p u times tol = Ok (t', k, q r) /\ len (q r) = M /\ (r = rows - 1 -> k' = k)) /\
       G net' (fun r c => if it <=? r then Some (znth dflt (q r) c) else f r c)).
  Proof.
    induction n as [|n IH]; intros it t knots net f t' k' net' Gn E Hn Hi; cbn [rem_rows] in E.
    - inversion E; subst. split; [auto|]. intros []; reflexivity.
    - split; [discriminate|]. intros _. rewrite Get in E by lia. cbn [bind] in E.
      destruct (KnotRemoval knots (row it) p u times tol) as [[[t1 k1] q1]| | | | |] eqn:Ek; cbn [bind] in E; try discriminate.
      destruct (Z.eqb_spec t1 0) as [|Nz]; [discriminate|]. cbn [orb] in E.
      destruct (negb (it =? 0) && negb (t =? t1)) eqn:Eb; [discriminate|]. cbv zeta in E.
      destruct (setrow net it (map Some q1)) as [net1| | | | |] eqn:Es; cbn [bind] in E; try discriminate.
      destruct (setrow_list net f it q1 net1 Gn ltac:(lia) Es) as [L1 G1].
      assert (it <> 0 -> t1 = t) as T1.
      { intros N0. destruct (Z.eqb_spec it 0); [lia|]. destruct (Z.eqb_spec t t1); [congruence|discriminate]. }
      destruct n as [|n].
      + destruct (IH (it + 1) _ _ _ _ _ _ _ G1 E ltac:(lia) ltac:(lia)) as [A _]. destruct (A eq_refl) as [-> [-> ->]].
        split; [exact Nz|]. split; [exact T1|]. exists (fun _ => q1). split.
        * intros r Hr. assert (r = it) as -> by lia. exists k1. split; [exact Ek|]. split; [exact L1|]. intros _.
          destruct (Z.eqb_spec it (rows - 1)); [reflexivity|lia].
        * eapply Gext; [|exact G1]. intros r c Hr Hc. cbv beta. destruct (Z.eqb_spec r it), (Z.leb_spec it r); try reflexivity; lia.
      + destruct (Z.eqb_spec it (rows - 1)); [lia|].
        destruct (IH (it + 1) _ _ _ _ _ _ _ G1 E ltac:(lia) ltac:(lia)) as [_ A]. destruct (A ltac:(discriminate)) as [B [C [q [D F]]]].
        specialize (C ltac:(lia)). subst t'. split; [exact Nz|]. split; [exact T1|].
        exists (fun r => if r =? it then q1 else q r). split.
        * intros r Hr. destruct (Z.eqb_spec r it) as [->|].
          -- exists k1. split; [exact Ek|]. split; [exact L1|]. lia.
          -- apply D. lia.
        * eapply Gext; [|exact F]. intros r c Hr Hc. cbv beta. destruct (Z.leb_spec (it + 1) r), (Z.eqb_spec r it), (Z.leb_spec it r); try reflexivity; lia.
  Qed.
  Lemma rows_ok t k' q : t <> 0 -> forall n it t0 knots net f, it + Z.of_nat n = rows -> 0 <= it -> (n = O -> t0 = t /\ knots = k') -> (it <> 0 -> t0 = t) -> G net f ->
    (forall r, it <= r < rows -> KnotRemoval knots (row r) p u times tol = Ok (t, k', q r) /\ len (q r) = M) ->
    exists net', rem_rows n it t0 knots net = Ok (Some (t, k', net')) /\
      G net' (fun r c => if it <=? r then Some (znth dflt (q r) c) else f r c).
  Proof.
    intros Nz. induction n as [|n IH]; intros it t0 knots net f Hn Hi N0 It Gn H.
    - destruct (N0 eq_refl) as [-> ->]. exists net. split; [reflexivity|]. eapply Gext; [|exact Gn]. intros r c Hr Hc.
      destruct (Z.leb_spec it r); [lia|reflexivity].
    - cbn [rem_rows]. rewrite Get by lia. cbn [bind]. destruct (H it ltac:(lia)) as [Ek L]. rewrite Ek. cbn [bind].
      destruct (Z.eqb_spec t 0); [contradiction|]. cbn [orb].
      assert (negb (it =? 0) && negb (t0 =? t) = false) as ->.
      { destruct (Z.eqb_spec it 0); [reflexivity|]. rewrite It by assumption. rewrite Z.eqb_refl. reflexivity. }
      cbv zeta. destruct (Set_ok net f it (fun c => Some (znth dflt (q it) c)) Gn ltac:(lia)) as [net1 [E1 G1]].
      rewrite <- map_map with (g := Some) in E1. rewrite <- L, <- list_tab in E1. rewrite E1. cbn [bind].
      destruct (Z.eqb_spec it (rows - 1)) as [Last|Last].
      + assert (n = O) as -> by lia. cbn [rem_rows]. exists net1. split; [reflexivity|].
        eapply Gext; [|exact G1]. intros r c Hr Hc. cbv beta. destruct (Z.eqb_spec r it), (Z.leb_spec it r); subst; try reflexivity; lia.
      + edestruct (IH (it + 1) t knots net1) as [net' [E' G']]; [lia|lia|lia|reflexivity|exact G1|intros; apply H; lia|].
        exists net'. split; [exact E'|]. eapply Gext; [|exact G']. intros r c Hr Hc. cbv beta.
        destruct (Z.leb_spec (it + 1) r), (Z.eqb_spec r it), (Z.leb_spec it r); subst; try reflexivity; lia.
  Qed.
End Rows.

(** ** The two directions *)
Section Dirs.
  Context {T : Type} `{NT : Num T}.
  Variable s : surface T.
  Variables (nu nv : Z) (f : Z -> Z -> vec4 T).
  Hypothesis G : grid_is (Net s) nu nv f.
  Variables (u : T) (times : Z) (tol : T).
  Definition rowU (j : Z) : list (vec4 T) := map (fun i => f i j) (zrange 0 nu).
  Definition rowV (i : Z) : list (vec4 T) := map (fun j => f i j) (zrange 0 nv).
  Lemma removeU_eq n : forall it t knots net,
    removeU_rows s u times tol n it t knots net = rem_rows (Grid_GetV (Net s)) Grid_SetV (DegreeU s) u times tol nv n it t knots net.
  Proof.
    destruct G as [_ [Gv _]]. induction n as [|n IH]; intros; [reflexivity|]. cbn [removeU_rows rem_rows].
    destruct (Grid_GetV (Net s) it); cbn [bind]; try reflexivity. destruct (KnotRemoval _ _ _ _ _ _) as [[[? ?] ?]| | | | |]; cbn [bind]; try reflexivity.
    rewrite Gv. destruct ((_ =? 0) || _); [reflexivity|]. cbv zeta. destruct (Grid_SetV _ _ _); cbn [bind]; try reflexivity. apply IH.
  Qed.
  Lemma removeV_eq n : forall it t knots net,
    removeV_rows s u times tol n it t knots net = rem_rows (Grid_GetU (Net s)) Grid_SetU (DegreeV s) u times tol nu n it t knots net.
  Proof.
    destruct G as [Gu _]. induction n as [|n IH]; intros; [reflexivity|]. cbn [removeV_rows rem_rows].
    destruct (Grid_GetU (Net s) it); cbn [bind]; try reflexivity. destruct (KnotRemoval _ _ _ _ _ _) as [[[? ?] ?]| | | | |]; cbn [bind]; try reflexivity.
    rewrite Gu. destruct ((_ =? 0) || _); [reflexivity|]. cbv zeta. destruct (Grid_SetU _ _ _); cbn [bind]; try reflexivity. apply IH.
  Qed.
  Lemma getV_row j : 0 <= j < nv -> Grid_GetV (Net s) j = Ok (rowU j).
  Proof. apply (Grid_GetV_ok _ _ _ _ _ G). Qed.
  Lemma getU_row i : 0 <= i < nu -> Grid_GetU (Net s) i = Ok (rowV i).
  Proof. apply (Grid_GetU_ok _ _ _ _ _ G). Qed.
End Dirs.
Section SetSpecs.
  Context {A : Type}.
  Lemma setV_len (net : grid A) a b f r l net' : grid_is net a b f -> 0 <= r < b -> Grid_SetV net r l = Ok net' -> len l = a.
  Proof.
    intros Gn Hr E. destruct (Z.eq_dec (len l) a) as [|N]; [assumption|]. rewrite (Grid_SetV_assert _ _ _ _ _ _ Gn) in E by auto. discriminate.
  Qed.
  Lemma setU_len (net : grid A) a b f r l net' : grid_is net a b f -> 0 <= r < a -> Grid_SetU net r l = Ok net' -> len l = b.
  Proof.
    intros Gn Hr E. destruct (Z.eq_dec (len l) b) as [|N]; [assumption|]. rewrite (Grid_SetU_assert _ _ _ _ _ _ Gn) in E by auto. discriminate.
  Qed.
  Lemma Grid_make_is u v (x : A) g : Grid_make u v x = Ok g -> 0 <= u \/ 0 < v -> 0 <= v -> 0 <= u /\ grid_is g u v (fun _ _ => x).
  Proof.
    intros E Hu Hv. assert (0 <= u) as U0.
    { destruct Hu as [|Hu]; [assumption|]. unfold Grid_make, int_, fits_int in E. destruct (Z_lt_le_dec u 0) as [Hn|]; [|assumption].
      destruct (_ && _); cbn [bind] in E; [|discriminate]. unfold vmake in E. destruct (Z.ltb_spec (u * v) 0); [discriminate|]. nia. }
    split; [exact U0|]. assert (u * v <= INT_MAX) as F.
    { unfold Grid_make, int_, fits_int in E. destruct (Z.leb_spec (u * v) INT_MAX); [assumption|]. rewrite andb_false_r in E. discriminate. }
    destruct (Grid_make_ok u v x U0 Hv F) as [g' [E' G']]. rewrite E' in E. inversion E; subst. exact G'.
  Qed.
End SetSpecs.

(** ** All or nothing *)
Section Whole.
  Context {T : Type} `{NT : Num T}.
  Lemma freeze_is (net : grid (option (vec4 T))) a b f net' : grid_is net a b f -> grid_freeze net = Ok net' ->
    UCount net' = a /\ VCount net' = b /\ len (Values net') = a * b /\ grid_is net a b (fun i j => Some (znth dflt (Values net') (j * a + i))).
  Proof.
    intros [Gu [Gv [Hu [Hv [L C]]]]] E. unfold grid_freeze in E. destruct (freeze (Values net)) as [l| | | | |] eqn:Ef; cbn [bind] in E; try discriminate.
    inversion E; subst. cbn [UCount VCount Values]. apply freeze_inv in Ef. rewrite Ef, len_map in L.
    repeat split; auto. { rewrite Ef, len_map. exact L. } intros i j Hi Hj. rewrite Ef. pose proof (idx_range j i _ _ Hj Hi).
    rewrite nth_error_map. unfold znth. rewrite (nth_error_nth' l dflt) by (unfold len in L; lia). reflexivity.
  Qed.
  Lemma RemoveKnotU_inv (s s' : surface T) nu nv f u times tol t : grid_is (Net s) nu nv f -> 0 < nv ->
    Surface_RemoveKnotU s u times tol = Ok (s', t) ->
    (t = 0 /\ s' = s) \/
    (0 < t <= times /\ DegreeU s' = DegreeU s /\ DegreeV s' = DegreeV s /\ KnotsV s' = KnotsV s /\
     UCount (Net s') = nu - times /\ VCount (Net s') = nv /\ len (Values (Net s')) = (nu - times) * nv /\ times <= nu /\
     exists q, (forall j, 0 <= j < nv -> exists k, KnotRemoval (KnotsU s) (rowU nu f j) (DegreeU s) u times tol = Ok (t, k, q j) /\
         len (q j) = nu - times /\ len k = len (KnotsU s) - times /\ (j = nv - 1 -> KnotsU s' = k)) /\
       forall i j, 0 <= i < nu - times -> 0 <= j < nv -> znth dflt (Values (Net s')) (j * (nu - times) + i) = znth dflt (q j) i).
  Proof.
    intros G Nv E. unfold Surface_RemoveKnotU in E. pose proof G as [Gu [Gv [Hu [Hv _]]]]. rewrite Gu, Gv in E.
    destruct (grid_uninit (nu - times) nv) as [net0| | | | |] eqn:Em; cbn [bind] in E; try discriminate.
    unfold grid_uninit in Em. destruct (Grid_make_is _ _ _ _ Em ltac:(lia) Hv) as [Tn G0].
    destruct (removeU_rows s u times tol (Z.to_nat nv) 0 0 (KnotsU s) net0) as [[[[t1 k1] net1]|]| | | | |] eqn:Er; cbn [bind] in E; try discriminate;
      [|left; inversion E; auto].
    destruct (grid_freeze net1) as [net2| | | | |] eqn:Ef; cbn [bind] in E; try discriminate. inversion E; subst s' t1. clear E. right.
    rewrite (removeU_eq s nu nv f G) in Er.
    destruct (rows_inv (Grid_GetV (Net s)) Grid_SetV (DegreeU s) u times tol nv (nu - times) (rowU nu f)
       (fun net g => grid_is net (nu - times) nv (fun i j => g j i))) with (6 := Er) (f := fun _ _ : Z => @None (vec4 T)) as [_ R].
    - intros r Hr. apply (getV_row s nu nv f G). exact Hr.
    - intros net g r w Gn Hr. apply (Grid_SetV_ok net _ _ _ r w Gn Hr).
    - intros net g r l net' Gn Hr Es. apply (setV_len _ _ _ _ _ _ _ Gn Hr Es).
    - intros net g g' Ex Gn. apply (grid_is_eq _ _ _ _ _ Gn). intros; apply Ex; assumption.
    - exact G0.
    - lia.
    - lia.
    - destruct (R ltac:(lia)) as [Nz [_ [q [Q Gq]]]].
      destruct (freeze_is _ _ _ _ _ Gq Ef) as [F1 [F2 [F3 F4]]].
      destruct (Q 0 ltac:(lia)) as [k [Ek _]]. destruct (KnotRemoval_count _ _ _ _ _ _ _ _ _ Ek) as [C1 [_ C2]]. destruct (C2 Nz) as [C3 _].
      cbn [DegreeU DegreeV KnotsU KnotsV Net].
      split; [lia|]. do 3 (split; [reflexivity|]). split; [exact F1|]. split; [exact F2|]. split; [exact F3|]. split; [lia|].
      exists q. split.
      + intros j Hj. destruct (Q j Hj) as [kj [Ekj [Lq Kl]]]. exists kj. split; [exact Ekj|]. split; [exact Lq|].
        destruct (KnotRemoval_count _ _ _ _ _ _ _ _ _ Ekj) as [_ [_ D2]]. destruct (D2 Nz) as [_ [D3 _]]. split; [exact D3|exact Kl].
      + intros i j Hi Hj. pose proof (grid_is_ze _ _ _ _ Gq i j Hi Hj) as A. pose proof (grid_is_ze _ _ _ _ F4 i j Hi Hj) as B.
        cbv beta in A. rewrite B in A. destruct (Z.leb_spec 0 j); [|lia]. congruence.
  Qed.
  Lemma RemoveKnotV_inv (s s' : surface T) nu nv f u times tol t : grid_is (Net s) nu nv f -> 0 < nu ->
    Surface_RemoveKnotV s u times tol = Ok (s', t) ->
    (t = 0 /\ s' = s) \/
    (0 < t <= times /\ DegreeU s' = DegreeU s /\ DegreeV s' = DegreeV s /\ KnotsU s' = KnotsU s /\
     UCount (Net s') = nu /\ VCount (Net s') = nv - times /\ len (Values (Net s')) = nu * (nv - times) /\ times <= nv /\
     exists q, (forall i, 0 <= i < nu -> exists k, KnotRemoval (KnotsV s) (rowV nv f i) (DegreeV s) u times tol = Ok (t, k, q i) /\
         len (q i) = nv - times /\ len k = len (KnotsV s) - times /\ (i = nu - 1 -> KnotsV s' = k)) /\
       forall i j, 0 <= i < nu -> 0 <= j < nv - times -> znth dflt (Values (Net s')) (j * nu + i) = znth dflt (q i) j).
  Proof.
    intros G Nu E. unfold Surface_RemoveKnotV in E. pose proof G as [Gu [Gv [Hu [Hv _]]]]. rewrite Gu, Gv in E.
    destruct (grid_uninit nu (nv - times)) as [net0| | | | |] eqn:Em; cbn [bind] in E; try discriminate.
    assert (0 <= nv - times) as Tn.
    { unfold grid_uninit, Grid_make, int_, fits_int in Em. destruct (Z_lt_le_dec (nv - times) 0) as [Hn|]; [|assumption].
      destruct (_ && _); cbn [bind] in Em; [|discriminate]. unfold vmake in Em. destruct (Z.ltb_spec (nu * (nv - times)) 0); [discriminate|]. nia. }
    unfold grid_uninit in Em. destruct (Grid_make_is _ _ _ _ Em ltac:(lia) Tn) as [_ G0].
    destruct (removeV_rows s u times tol (Z.to_nat nu) 0 0 (KnotsV s) net0) as [[[[t1 k1] net1]|]| | | | |] eqn:Er; cbn [bind] in E; try discriminate;
      [|left; inversion E; auto].
    destruct (grid_freeze net1) as [net2| | | | |] eqn:Ef; cbn [bind] in E; try discriminate. inversion E; subst s' t1. clear E. right.
    rewrite (removeV_eq s nu nv f G) in Er.
    destruct (rows_inv (Grid_GetU (Net s)) Grid_SetU (DegreeV s) u times tol nu (nv - times) (rowV nv f)
       (fun net g => grid_is net nu (nv - times) g)) with (6 := Er) (f := fun _ _ : Z => @None (vec4 T)) as [_ R].
    - intros r Hr. apply (getU_row s nu nv f G). exact Hr.
    - intros net g r w Gn Hr. apply (Grid_SetU_ok net _ _ _ r w Gn Hr).
    - intros net g r l net' Gn Hr Es. apply (setU_len _ _ _ _ _ _ _ Gn Hr Es).
    - intros net g g' Ex Gn. apply (grid_is_eq _ _ _ _ _ Gn). intros; apply Ex; assumption.
    - exact G0.
    - lia.
    - lia.
    - destruct (R ltac:(lia)) as [Nz [_ [q [Q Gq]]]].
      destruct (freeze_is _ _ _ _ _ Gq Ef) as [F1 [F2 [F3 F4]]].
      destruct (Q 0 ltac:(lia)) as [k [Ek _]]. destruct (KnotRemoval_count _ _ _ _ _ _ _ _ _ Ek) as [C1 [_ C2]]. destruct (C2 Nz) as [C3 _].
      cbn [DegreeU DegreeV KnotsU KnotsV Net].
      split; [lia|]. do 3 (split; [reflexivity|]). split; [exact F1|]. split; [exact F2|]. split; [exact F3|]. split; [lia|].
      exists q. split.
      + intros j Hj. destruct (Q j Hj) as [kj [Ekj [Lq Kl]]]. exists kj. split; [exact Ekj|]. split; [exact Lq|].
        destruct (KnotRemoval_count _ _ _ _ _ _ _ _ _ Ekj) as [_ [_ D2]]. destruct (D2 Nz) as [_ [D3 _]]. split; [exact D3|exact Kl].
      + intros i j Hi Hj. pose proof (grid_is_ze _ _ _ _ Gq i j Hi Hj) as A. pose proof (grid_is_ze _ _ _ _ F4 i j Hi Hj) as B.
        cbv beta in A. rewrite B in A. destruct (Z.leb_spec 0 i); [|lia]. congruence.
  Qed.
  Lemma C51_U_lemma (s s' : surface T) nu nv f u times tol t : grid_is (Net s) nu nv f -> 0 < nv ->
    Surface_RemoveKnotU s u times tol = Ok (s', t) ->
    (t = 0 /\ s' = s) \/
    (0 < t <= times /\ DegreeU s' = DegreeU s /\ DegreeV s' = DegreeV s /\ KnotsV s' = KnotsV s /\
     len (KnotsU s') = len (KnotsU s) - times /\
     UCount (Net s') = nu - times /\ VCount (Net s') = nv /\ len (Values (Net s')) = (nu - times) * nv).
  Proof.
    intros G Nv E. destruct (RemoveKnotU_inv _ _ _ _ _ _ _ _ _ G Nv E) as [A|A]; [left; exact A|]. right.
    destruct A as [A [B [C [D [F [H [I [_ [q [Q _]]]]]]]]]]. destruct (Q (nv - 1) ltac:(lia)) as [k [_ [_ [Lk Kk]]]].
    rewrite Kk by lia. repeat split; try assumption; lia.
  Qed.
  Lemma C51_V_lemma (s s' : surface T) nu nv f u times tol t : grid_is (Net s) nu nv f -> 0 < nu ->
    Surface_RemoveKnotV s u times tol = Ok (s', t) ->
    (t = 0 /\ s' = s) \/
    (0 < t <= times /\ DegreeU s' = DegreeU s /\ DegreeV s' = DegreeV s /\ KnotsU s' = KnotsU s /\
     len (KnotsV s') = len (KnotsV s) - times /\
     UCount (Net s') = nu /\ VCount (Net s') = nv - times /\ len (Values (Net s')) = nu * (nv - times)).
  Proof.
    intros G Nv E. destruct (RemoveKnotV_inv _ _ _ _ _ _ _ _ _ G Nv E) as [A|A]; [left; exact A|]. right.
    destruct A as [A [B [C [D [F [H [I [_ [q [Q _]]]]]]]]]]. destruct (Q (nu - 1) ltac:(lia)) as [k [_ [_ [Lk Kk]]]].
    rewrite Kk by lia. repeat split; try assumption; lia.
  Qed.
End Whole.
