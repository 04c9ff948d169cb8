(** Partial derivatives of surfaces (C49). *)
From Coq Require Import Reals ZArith List Lra Lia Bool.
From Coquelicot Require Import Coquelicot.
From Verif Require Import Outcome Num ModelCore ModelBasis ModelCurve ModelSurface SpecCore SpecBasis SpecCurve SpecSurface SpecDeriv
  ThOutcome ThReal ThMath ThKnots ThGrid ThVec ThSum ThSpline ThBasis ThCurve ThSurface ThDeriv ThDers ThLeib ThDerivs.
Import ListNotations.
Open Scope Z_scope.

(** loops that visit every entry of a grid once *)
Definition seen_v (i j i' j' : Z) : bool := (j' <? j) || ((j' =? j) && (i' <? i)).
Definition seen_u (i j i' j' : Z) : bool := (i' <? i) || ((i' =? i) && (j' <? j)).
Lemma fill_seq_v {A} (g : grid A) nu nv f0 val (body : Z -> Z -> grid A -> outcome (grid A)) : grid_is g nu nv f0 -> 0 <= nu -> 0 <= nv ->
  (forall i j g', 0 <= i < nu -> 0 <= j < nv -> grid_is g' nu nv (fun i' j' => if seen_v i j i' j' then val i' j' else f0 i' j') ->
    exists g'', body i j g' = Ok g'' /\
      grid_is g'' nu nv (fun i' j' => if (i' =? i) && (j' =? j) then val i j else if seen_v i j i' j' then val i' j' else f0 i' j')) ->
  exists g', for_up 0 nv (fun j g => for_up 0 nu (fun i g => body i j g) g) g = Ok g' /\ grid_is g' nu nv val.
Proof.
  intros G Hu Hv Hb.
  destruct (for_up_inv (fun j g' => grid_is g' nu nv (fun i' j' => if seen_v 0 j i' j' then val i' j' else f0 i' j')) 0 nv
    (fun j g => for_up 0 nu (fun i g => body i j g) g) g) as [g' [E Q]].
  - assumption.
  - apply (grid_is_eq _ _ _ _ _ G). intros i j Hi Hj. unfold seen_v. destruct (Z.ltb_spec j 0); [lia|].
    destruct (Z.eqb_spec j 0); destruct (Z.ltb_spec i 0); try lia; reflexivity.
  - intros j g1 Hj G1.
    destruct (for_up_inv (fun i g' => grid_is g' nu nv (fun i' j' => if seen_v i j i' j' then val i' j' else f0 i' j')) 0 nu
      (fun i g => body i j g) g1) as [g2 [E2 Q2]].
    + assumption.
    + exact G1.
    + intros i g2 Hi G2. destruct (Hb i j g2 Hi Hj G2) as [g3 [E3 G3]]. exists g3. split; [exact E3|].
      apply (grid_is_eq _ _ _ _ _ G3). intros i' j' Hi' Hj'. unfold seen_v.
      destruct (Z.eqb_spec i' i) as [->|Ne], (Z.eqb_spec j' j) as [->|Ne']; simpl.
      * destruct (Z.ltb_spec j j); [lia|]. simpl. destruct (Z.ltb_spec i (i + 1)); [reflexivity|lia].
      * reflexivity.
      * destruct (Z.ltb_spec j j); [lia|]. simpl. destruct (Z.ltb_spec i' i), (Z.ltb_spec i' (i + 1)); try lia; reflexivity.
      * reflexivity.
    + exists g2. split; [exact E2|]. apply (grid_is_eq _ _ _ _ _ Q2). intros i' j' Hi' Hj'. unfold seen_v.
      destruct (Z.ltb_spec i' nu); [|lia]. destruct (Z.ltb_spec i' 0); [lia|]. rewrite andb_true_r, andb_false_r, orb_false_r.
      destruct (Z.ltb_spec j' j), (Z.eqb_spec j' j), (Z.ltb_spec j' (j + 1)); try lia; reflexivity.
  - exists g'. split; [exact E|]. apply (grid_is_eq _ _ _ _ _ Q). intros i' j' Hi' Hj'. unfold seen_v.
    destruct (Z.ltb_spec j' nv); [reflexivity|lia].
Qed.
Lemma fill_seq_u {A} (g : grid A) nu nv f0 val (body : Z -> Z -> grid A -> outcome (grid A)) : grid_is g nu nv f0 -> 0 <= nu -> 0 <= nv ->
  (forall i j g', 0 <= i < nu -> 0 <= j < nv -> grid_is g' nu nv (fun i' j' => if seen_u i j i' j' then val i' j' else f0 i' j') ->
    exists g'', body i j g' = Ok g'' /\
      grid_is g'' nu nv (fun i' j' => if (i' =? i) && (j' =? j) then val i j else if seen_u i j i' j' then val i' j' else f0 i' j')) ->
  exists g', for_up 0 nu (fun i g => for_up 0 nv (fun j g => body i j g) g) g = Ok g' /\ grid_is g' nu nv val.
Proof.
  intros G Hu Hv Hb.
  destruct (for_up_inv (fun i g' => grid_is g' nu nv (fun i' j' => if seen_u i 0 i' j' then val i' j' else f0 i' j')) 0 nu
    (fun i g => for_up 0 nv (fun j g => body i j g) g) g) as [g' [E Q]].
  - assumption.
  - apply (grid_is_eq _ _ _ _ _ G). intros i j Hi Hj. unfold seen_u. destruct (Z.ltb_spec i 0); [lia|].
    destruct (Z.eqb_spec i 0); destruct (Z.ltb_spec j 0); try lia; reflexivity.
  - intros i g1 Hi G1.
    destruct (for_up_inv (fun j g' => grid_is g' nu nv (fun i' j' => if seen_u i j i' j' then val i' j' else f0 i' j')) 0 nv
      (fun j g => body i j g) g1) as [g2 [E2 Q2]].
    + assumption.
    + exact G1.
    + intros j g2 Hj G2. destruct (Hb i j g2 Hi Hj G2) as [g3 [E3 G3]]. exists g3. split; [exact E3|].
      apply (grid_is_eq _ _ _ _ _ G3). intros i' j' Hi' Hj'. unfold seen_u.
      destruct (Z.eqb_spec i' i) as [->|Ne], (Z.eqb_spec j' j) as [->|Ne']; simpl.
      * destruct (Z.ltb_spec i i); [lia|]. simpl. destruct (Z.ltb_spec j (j + 1)); [reflexivity|lia].
      * destruct (Z.ltb_spec i i); [lia|]. simpl. destruct (Z.ltb_spec j' j), (Z.ltb_spec j' (j + 1)); try lia; reflexivity.
      * reflexivity.
      * reflexivity.
    + exists g2. split; [exact E2|]. apply (grid_is_eq _ _ _ _ _ Q2). intros i' j' Hi' Hj'. unfold seen_u.
      destruct (Z.ltb_spec j' nv); [|lia]. destruct (Z.ltb_spec j' 0); [lia|]. rewrite andb_true_r, andb_false_r, orb_false_r.
      destruct (Z.ltb_spec i' i), (Z.eqb_spec i' i), (Z.ltb_spec i' (i + 1)); try lia; reflexivity.
  - exists g'. split; [exact E|]. apply (grid_is_eq _ _ _ _ _ Q). intros i' j' Hi' Hj'. unfold seen_u.
    destruct (Z.ltb_spec i' nu); [reflexivity|lia].
Qed.

Definition hsd (s : surface R) (ju jv : Z) (f : vec4 R -> R) (k l : Z) (u v : R) : R :=
  piece (DegreeV s) (KnotsV s) jv l (fun j => piece (DegreeU s) (KnotsU s) ju k (fun i => f (ghp s i j)) u) v.
Definition hsd4 (s : surface R) ju jv k l u v : vec4 R :=
  Vec4 (hsd s ju jv x4 k l u v) (hsd s ju jv y4 k l u v) (hsd s ju jv z4 k l u v) (hsd s ju jv w4 k l u v).
Lemma hsd4_lin s ju jv k l u v f : lin f -> f (hsd4 s ju jv k l u v) = hsd s ju jv f k l u v.
Proof. intros [-> | [-> | [-> | ->]]]; reflexivity. Qed.

Lemma Surface_HomogeneousDerivative_ok s u v ou ov : wf_surface s -> (0 <= u <= 1)%R -> (0 <= v <= 1)%R ->
  0 <= ou -> 0 <= ov -> (ou + 1) * (ov + 1) <= INT_MAX ->
  exists ju jv h, DegreeU s <= ju <= len (KnotsU s) - DegreeU s - 2 /\ span_at (kf (KnotsU s)) ju u /\
    DegreeV s <= jv <= len (KnotsV s) - DegreeV s - 2 /\ span_at (kf (KnotsV s)) jv v /\
    KnotVector_FindSpanIndex (KnotsU s) (DegreeU s) u = Ok ju /\ KnotVector_FindSpanIndex (KnotsV s) (DegreeV s) v = Ok jv /\
    Surface_HomogeneousDerivative s u v ou ov = Ok h /\
    grid_is h (ou + 1) (ov + 1) (fun k l => hsd4 s ju jv k l u v).
Proof.
  intros W Hu Hv Hou Hov Fit. pose proof (ws_knotsU s W) as CU. pose proof (ws_knotsV s W) as CV.
  pose proof (cl_degree _ _ CU) as P0. pose proof (cl_degree _ _ CV) as Q0. pose proof (wf_grid s W) as G.
  pose proof (ws_countU s W) as NU. pose proof (ws_countV s W) as NV.
  destruct (EvaluateAll_ok _ _ u ou CU Hu Hou) as [ju [mu [E1 [Hju [Spu [Emu [Wmu Gmu]]]]]]].
  destruct (EvaluateAll_ok _ _ v ov CV Hv Hov) as [jv [mv [E2 [Hjv [Spv [Emv [Wmv Gmv]]]]]]].
  exists ju, jv. unfold Surface_HomogeneousDerivative. rewrite !unit_assert by assumption. cbn [assert_ bind].
  rewrite E1. cbn [bind]. rewrite E2. cbn [bind]. rewrite Emu. cbn [bind]. rewrite Emv. cbn [bind].
  destruct Wmu as [_ [Wu _]]. destruct Wmv as [_ [Wv _]]. rewrite Wu, Wv, !Z.eqb_refl. cbn [assert_ bind]. cbv zeta.
  destruct (Grid_make_ok (ou + 1) (ov + 1) (v4zero : vec4 R)) as [g0 [Eg G0]]; [lia|lia|exact Fit|]. rewrite Eg. cbn [bind].
  set (p := DegreeU s) in *. set (q := DegreeV s) in *.
  match goal with |- context [for_up 0 (ov + 1) (fun l g => for_up 0 (ou + 1) (fun k g => @?b l k g) g) g0] =>
    destruct (fill_seq_v g0 (ou + 1) (ov + 1) _ (fun k l => hsd4 s ju jv k l u v) (fun k l g => b l k g) G0) as [h [Eh Gh]] end.
  - lia.
  - lia.
  - intros k l g Hk Hl Gg. cbv beta.
    (* inner sums *)
    assert (forall j, 0 <= j < q + 1 -> exists r,
      for_up 0 (p + 1) (fun i tmp =>
         p0 <- Grid_Get (Net s) (ju - p + i) (jv - q + j) ;; b <- mget mu k i ;;
         Ok (v4add tmp (v4scale b (ToHomo p0)))) v4zero = Ok r /\
      forall f, lin f -> f r = piece p (KnotsU s) ju k (fun i => f (ghp s i (jv - q + j))) u) as Inner.
    { intros j Hjj.
      destruct (acc_loop (ju - p) (p + 1) (fun i => p0 <- Grid_Get (Net s) (ju - p + i) (jv - q + j) ;; b <- mget mu k i ;; Ok (b, ToHomo p0))
        (fun i => DBk (kf (KnotsU s)) ju (Z.to_nat p) i (Z.to_nat k) u) (fun i => ghp s i (jv - q + j))) as [r [Er Qr]].
      - lia.
      - intros i Hi. rewrite (Grid_Get_ok _ _ _ _ _ _ G) by lia. cbn [bind]. rewrite Gmu by lia. reflexivity.
      - exists r. split.
        + rewrite <- Er. apply for_up_ext. intros i t Hi. rewrite (Grid_Get_ok _ _ _ _ _ _ G) by lia. cbn [bind].
          rewrite Gmu by lia. reflexivity.
        + intros f Lf. rewrite Qr by assumption. apply piece_active; [exact CU|exact Hju|lia|reflexivity]. }
    match goal with |- context [for_up 0 (q + 1) ?b g] =>
      destruct (for_up_inv (fun j g' => exists a, grid_is g' (ou + 1) (ov + 1) (fun i' j' => if (i' =? k) && (j' =? l) then a else
          if seen_v k l i' j' then hsd4 s ju jv i' j' u v else v4zero) /\
        forall f, lin f -> f a = zsum (jv - q) (jv - q + j) (fun j => DBk (kf (KnotsV s)) jv (Z.to_nat q) j (Z.to_nat l) v *
            piece p (KnotsU s) ju k (fun i => f (ghp s i j)) u)%R) 0 (q + 1) b g) as [g' [Eg' [a [Ga Qa]]]] end.
    + lia.
    + exists v4zero. split.
      * apply (grid_is_eq _ _ _ _ _ Gg). intros i' j' Hi' Hj'. destruct (Z.eqb_spec i' k) as [->|Ne]; [destruct (Z.eqb_spec j' l) as [->|Ne]|]; simpl; try reflexivity.
        unfold seen_v. destruct (Z.ltb_spec l l); [lia|]. destruct (Z.ltb_spec k k); [lia|]. rewrite andb_false_r. reflexivity.
      * intros f Lf. rewrite zsum_empty by lia. apply lin_zero; assumption.
    + intros j g' Hj [a [Ga Qa]]. destruct (Inner j Hj) as [t [Et Qt]]. rewrite Et. cbn [bind].
      rewrite (Grid_Get_ok _ _ _ _ _ _ Ga) by lia. rewrite !Z.eqb_refl. cbn [andb bind]. rewrite Gmv by lia. cbn [bind].
      match goal with |- context [Grid_Set g' k l ?x] => destruct (Grid_Set_ok g' _ _ _ k l x Ga) as [g'' [Eg'' Gg'']] end; [lia|lia|].
      rewrite Eg''. exists g''. split; [reflexivity|]. eexists. split.
      * apply (grid_is_eq _ _ _ _ _ Gg''). intros i' j' Hi' Hj'. destruct ((i' =? k) && (j' =? l)); reflexivity.
      * intros f Lf. rewrite lin_add, lin_scale, Qa, Qt by assumption.
        replace (jv - q + (j + 1)) with (jv - q + j + 1) by lia. rewrite zsum_last' by lia. reflexivity.
    + exists g'. split; [exact Eg'|]. apply (grid_is_eq _ _ _ _ _ Ga). intros i' j' Hi' Hj'.
      destruct ((i' =? k) && (j' =? l)) eqn:Eb; [|reflexivity].
      apply lin_ext. intros f Lf. rewrite Qa by assumption. rewrite hsd4_lin by assumption. unfold hsd. fold p q.
      apply piece_active; [exact CV|exact Hjv|lia|reflexivity].
  - exists h. split; [exact Hju|]. split; [exact Spu|]. split; [exact Hjv|]. split; [exact Spv|]. split; [reflexivity|]. split; [reflexivity|].
    split; [exact Eh|exact Gh].
Qed.

Lemma bsum_off_split k l G : 0 <= k -> 0 <= l -> bsum k l (fun i j => off i j * G i j)%R =
  (zsum 1 (k + 1) (fun i => ch k i * G i 0%Z) + zsum 1 (l + 1) (fun j => ch l j * G 0%Z j) +
   zsum 1 (k + 1) (fun i => zsum 1 (l + 1) (fun j => ch k i * ch l j * G i j)))%R.
Proof.
  intros Hk Hl. unfold bsum. rewrite (zsum_first 0 (l + 1)) by lia. rewrite ch_0, Rmult_1_l. change (0 + 1) with 1.
  rewrite (zsum_first 0 (k + 1)) by lia. change (0 + 1) with 1. rewrite off_00.
  rewrite (zsum_ext 1 (k + 1) (fun i => ch k i * (off i 0 * G i 0%Z))%R (fun i => ch k i * G i 0%Z)%R)
    by (intros; rewrite off_ij by lia; ring).
  rewrite (zsum_ext 1 (l + 1) _ (fun j => ch l j * G 0%Z j + zsum 1 (k + 1) (fun i => ch k i * ch l j * G i j))%R).
  - rewrite zsum_add. rewrite (zsum_swap 1 (k + 1)). ring.
  - intros j Hj. rewrite zsum_first by lia. change (0 + 1) with 1. rewrite ch_0, off_ij by lia.
    rewrite (zsum_ext 1 (k + 1) _ (fun i => ch k i * G i j)%R) by (intros; rewrite off_ij by lia; ring).
    rewrite Rmult_plus_distr_l, <- zsum_scale. f_equal; [ring|]. apply zsum_ext. intros; ring.
Qed.

Definition sder (s : surface R) (ju jv : Z) (f : vec4 R -> R) (k l : Z) (u v : R) : R :=
  quo2 (hsd s ju jv f) (hsd s ju jv w4) k l u v.
Definition sder3 (s : surface R) ju jv k l u v : vec3 R :=
  Vec3 (sder s ju jv x4 k l u v) (sder s ju jv y4 k l u v) (sder s ju jv z4 k l u v).
Definition proj (f : vec4 R -> R) (g : vec3 R -> R) : Prop := f = x4 /\ g = x3 \/ f = y4 /\ g = y3 \/ f = z4 /\ g = z3.
Lemma sder3_proj s ju jv k l u v f g : proj f g -> g (sder3 s ju jv k l u v) = sder s ju jv f k l u v.
Proof. intros [[-> ->]|[[-> ->]|[-> ->]]]; reflexivity. Qed.
Lemma head3_proj f g h : proj f g -> g (head3 h) = f h.
Proof. intros [[-> ->]|[[-> ->]|[-> ->]]]; reflexivity. Qed.
Lemma sub_proj f g a b : proj f g -> g (v3sub a b) = (g a - g b)%R.
Proof. intros [[-> ->]|[[-> ->]|[-> ->]]]; reflexivity. Qed.
Lemma scale_proj f g a b : proj f g -> g (v3scale a b) = (a * g b)%R.
Proof. intros [[-> ->]|[[-> ->]|[-> ->]]]; reflexivity. Qed.
Lemma proj_lin f g : proj f g -> lin f.
Proof. unfold lin. intros [[-> ->]|[[-> ->]|[-> ->]]]; tauto. Qed.

Lemma hsd_w_pos s ju jv u v : wf_surface s ->
  DegreeU s <= ju <= len (KnotsU s) - DegreeU s - 2 -> (kf (KnotsU s) ju < kf (KnotsU s) (ju + 1)%Z)%R ->
  DegreeV s <= jv <= len (KnotsV s) - DegreeV s - 2 -> (kf (KnotsV s) jv < kf (KnotsV s) (jv + 1)%Z)%R ->
  (kf (KnotsU s) ju <= u <= kf (KnotsU s) (ju + 1)%Z)%R -> (kf (KnotsV s) jv <= v <= kf (KnotsV s) (jv + 1)%Z)%R ->
  (0 < hsd s ju jv w4 0 0 u v)%R.
Proof.
  intros W Hju Su Hjv Sv Hu Hv. apply piece_pos; [apply (ws_knotsV s W)|exact Sv|exact Hjv|exact Hv|]. intros j Hj.
  apply piece_pos; [apply (ws_knotsU s W)|exact Su|exact Hju|exact Hu|]. intros i Hi. apply gp_weight. apply (ws_weights s W).
Qed.

Lemma Surface_EvaluateAll_ok s u v ou ov : wf_surface s -> (0 <= u <= 1)%R -> (0 <= v <= 1)%R ->
  0 <= ou <= 29 -> 0 <= ov <= 29 -> binomials_fit ou ov ->
  exists ju jv res, DegreeU s <= ju <= len (KnotsU s) - DegreeU s - 2 /\ span_at (kf (KnotsU s)) ju u /\
    DegreeV s <= jv <= len (KnotsV s) - DegreeV s - 2 /\ span_at (kf (KnotsV s)) jv v /\
    KnotVector_FindSpanIndex (KnotsU s) (DegreeU s) u = Ok ju /\ KnotVector_FindSpanIndex (KnotsV s) (DegreeV s) v = Ok jv /\
    Surface_EvaluateAll s u v ou ov = Ok res /\
    grid_is res (ou + 1) (ov + 1) (fun k l => sder3 s ju jv k l u v).
Proof.
  intros W Hu Hv Hou Hov Fit.
  destruct (Surface_HomogeneousDerivative_ok s u v ou ov W Hu Hv ltac:(lia) ltac:(lia)) as [ju [jv [h [Hju [Su [Hjv [Sv [E1 [E2 [Eh Gh]]]]]]]]]];
    [unfold INT_MAX; nia|].
  exists ju, jv. unfold Surface_EvaluateAll. rewrite Eh. cbn [bind].
  pose proof (hsd_w_pos s ju jv u v W Hju (span_nonempty _ _ _ Su) Hjv (span_nonempty _ _ _ Sv) (span_bounds _ _ _ Su) (span_bounds _ _ _ Sv)) as Wp.
  destruct (Grid_make_ok (ou + 1) (ov + 1) (v3zero : vec3 R)) as [g0 [Eg G0]]; [lia|lia|unfold INT_MAX; nia|]. rewrite Eg. cbn [bind].
  rewrite (Grid_Get_ok _ _ _ _ _ _ Gh) by lia. cbn [bind]. cbv zeta.
  set (H := fun f k l => hsd s ju jv f k l u v). set (Q := fun f k l => sder s ju jv f k l u v).
  match goal with |- context [for_up 0 (ou + 1) (fun k g => for_up 0 (ov + 1) (fun l g => @?b k l g) g) g0] =>
    destruct (fill_seq_u g0 (ou + 1) (ov + 1) _ (fun k l => sder3 s ju jv k l u v) b G0) as [res [Er Gr]] end.
  - lia.
  - lia.
  - intros k l g Hk Hl Gg. cbv beta. rewrite (Grid_Get_ok _ _ _ _ _ _ Gh) by lia. cbn [bind].
    assert (forall k' l', 0 <= k' -> 0 <= l' -> (k' < k /\ l' <= l) \/ (k' = k /\ l' < l) -> Grid_Get g k' l' = Ok (sder3 s ju jv k' l' u v)) as Prev.
    { intros k' l' P1 P2 P3. rewrite (Grid_Get_ok _ _ _ _ _ _ Gg) by lia. unfold seen_u.
      destruct (Z.ltb_spec k' k); [reflexivity|]. destruct (Z.eqb_spec k' k); [|lia]. destruct (Z.ltb_spec l' l); [reflexivity|lia]. }
    match goal with |- context [for_up 1 (k + 1) ?b (head3 ?h0)] =>
      destruct (for_up_inv (fun i a => forall f g, proj f g ->
        g a = (H f k l - zsum 1 i (fun i => ch k i * (H w4 i 0%Z * Q f (k - i)%Z l)))%R) 1 (k + 1) b (head3 h0)) as [a1 [Ea1 Qa1]] end.
    + lia.
    + intros f g' Fg. rewrite zsum_empty by lia. rewrite (head3_proj f) by assumption. rewrite hsd4_lin by (eapply proj_lin; eassumption).
      unfold H. ring.
    + intros i a Hi Qa. rewrite (Grid_Get_ok _ _ _ _ _ _ Gh) by lia. cbn [bind].
      destruct (Binomial_29 k i ltac:(lia) ltac:(lia)) as [b [Eb Hb]]. rewrite Eb. cbn [bind]. rewrite Prev by lia. cbn [bind].
      eexists. split; [reflexivity|]. intros f g' Fg. rewrite zsum_last' by lia.
      rewrite (sub_proj f), (scale_proj f), (Qa f), (sder3_proj _ _ _ _ _ _ _ f), hsd4_lin by (try assumption; apply lin_w). norm_R. rewrite Hb.
      unfold H, Q. ring.
    + rewrite Ea1. cbn [bind].
      match goal with |- context [for_up 1 (l + 1) ?b a1] =>
        destruct (for_up_inv (fun j a => forall f g, proj f g ->
          g a = (H f k l - zsum 1 (k + 1) (fun i => ch k i * (H w4 i 0%Z * Q f (k - i)%Z l))
             - zsum 1 j (fun j => ch l j * (H w4 0%Z j * Q f k (l - j)%Z)))%R) 1 (l + 1) b a1) as [a2 [Ea2 Qa2]] end.
      * lia.
      * intros f g' Fg. rewrite (zsum_empty 1 1) by lia. rewrite (Qa1 f) by assumption. ring.
      * intros j a Hj Qa. rewrite (Grid_Get_ok _ _ _ _ _ _ Gh) by lia. cbn [bind].
        destruct (Binomial_29 l j ltac:(lia) ltac:(lia)) as [b [Eb Hb]]. rewrite Eb. cbn [bind]. rewrite Prev by lia. cbn [bind].
        eexists. split; [reflexivity|]. intros f g' Fg. rewrite (zsum_last' 1 j) by lia.
        rewrite (sub_proj f), (scale_proj f), (Qa f), (sder3_proj _ _ _ _ _ _ _ f), hsd4_lin by (try assumption; apply lin_w). norm_R. rewrite Hb.
        unfold H, Q. ring.
      * rewrite Ea2. cbn [bind].
        match goal with |- context [for_up 1 (k + 1) ?b a2] =>
          destruct (for_up_inv (fun i a => forall f g, proj f g ->
            g a = (H f k l - zsum 1 (k + 1) (fun i => ch k i * (H w4 i 0%Z * Q f (k - i)%Z l))
               - zsum 1 (l + 1) (fun j => ch l j * (H w4 0%Z j * Q f k (l - j)%Z))
               - zsum 1 i (fun i => zsum 1 (l + 1) (fun j => ch k i * ch l j * (H w4 i j * Q f (k - i)%Z (l - j)%Z))))%R) 1 (k + 1) b a2) as [a3 [Ea3 Qa3]] end.
        -- lia.
        -- intros f g' Fg. rewrite (zsum_empty 1 1) by lia. rewrite (Qa2 f) by assumption. ring.
        -- intros i a Hi Qa. destruct (Binomial_29 k i ltac:(lia) ltac:(lia)) as [bi [Ebi Hbi]]. rewrite Ebi. cbn [bind].
           match goal with |- context [for_up 1 (l + 1) ?b a] =>
             destruct (for_up_inv (fun j a' => forall f g, proj f g ->
               g a' = (g a - zsum 1 j (fun j => ch k i * ch l j * (H w4 i j * Q f (k - i)%Z (l - j)%Z)))%R) 1 (l + 1) b a) as [a4 [Ea4 Qa4]] end.
           ++ lia.
           ++ intros f g' Fg. rewrite zsum_empty by lia. ring.
           ++ intros j a' Hj Qa'. rewrite (Grid_Get_ok _ _ _ _ _ _ Gh) by lia. cbn [bind].
              destruct (Binomial_29 l j ltac:(lia) ltac:(lia)) as [bj [Ebj Hbj]]. rewrite Ebj. cbn [bind].
              assert (0 <= bi * bj <= INT_MAX) as Bb.
              { apply eq_IZR in Hbi, Hbj. rewrite Hbi, Hbj. split.
                - apply Z.mul_nonneg_nonneg; apply choose_nonneg.
                - apply Fit; lia. }
              unfold int_, fits_int. destruct (Z.leb_spec INT_MIN (bi * bj)); [|unfold INT_MIN, INT_MAX in *; lia].
              destruct (Z.leb_spec (bi * bj) INT_MAX); [|lia]. cbn [andb bind]. rewrite Prev by lia. cbn [bind].
              eexists. split; [reflexivity|]. intros f g' Fg. rewrite (zsum_last' 1 j) by lia.
              rewrite (sub_proj f), (scale_proj f), (Qa' f), (sder3_proj _ _ _ _ _ _ _ f), hsd4_lin by (try assumption; apply lin_w). norm_R.
              rewrite mult_IZR, Hbi, Hbj. unfold H, Q. ring.
           ++ rewrite Ea4. exists a4. split; [reflexivity|]. intros f g' Fg. rewrite (Qa4 f), (Qa f) by assumption.
              rewrite (zsum_last' 1 i) by lia. ring.
        -- rewrite Ea3. cbn [bind]. rewrite (hsd4_lin _ _ _ _ _ _ _ w4 lin_w). rewrite v3div_ok by lra. cbn [bind].
           match goal with |- context [Grid_Set g k l ?x] => destruct (Grid_Set_ok g _ _ _ k l x Gg) as [g2 [Eg2 Gg2]] end; [lia|lia|].
           rewrite Eg2. exists g2. split; [reflexivity|]. apply (grid_is_eq _ _ _ _ _ Gg2). intros i' j' Hi' Hj'.
           destruct ((i' =? k) && (j' =? l)); [|reflexivity].
           assert (forall f g, proj f g -> (g a3 / hsd s ju jv w4 0 0 u v = sder s ju jv f k l u v)%R) as Fin.
           { intros f g' Fg. rewrite (Qa3 f) by assumption. unfold sder, quo2. rewrite (quo_eq _ _ k l) by lia.
             rewrite (bsum_off_split k l (fun i j => hsd s ju jv w4 i j u v * quo (fun i j => hsd s ju jv f i j u v) (fun i j => hsd s ju jv w4 i j u v) (k - i) (l - j))%R) by lia.
             rewrite !Z.sub_0_r. unfold H, Q, sder, quo2. f_equal. ring. }
           unfold sder3. rewrite (Fin x4 x3), (Fin y4 y3), (Fin z4 z3) by (unfold proj; tauto). reflexivity.
  - exists res. split; [exact Hju|]. split; [exact Su|]. split; [exact Hjv|]. split; [exact Sv|]. split; [exact E1|]. split; [exact E2|].
    split; [exact Er|exact Gr].
Qed.

Lemma hsd_du s ju jv f k l u v : wf_surface s -> (kf (KnotsU s) ju < kf (KnotsU s) (ju + 1)%Z)%R -> 0 <= k ->
  is_derive (fun u => hsd s ju jv f k l u v) u (hsd s ju jv f (k + 1) l u v).
Proof.
  intros W Su Hk. unfold hsd, piece at 1 3.
  apply (zsum_derive 0 _ (fun j t => DBk (kf (KnotsV s)) jv (Z.to_nat (DegreeV s)) j (Z.to_nat l) v * piece (DegreeU s) (KnotsU s) ju k (fun i => f (ghp s i j)) t)%R
    (fun j t => DBk (kf (KnotsV s)) jv (Z.to_nat (DegreeV s)) j (Z.to_nat l) v * piece (DegreeU s) (KnotsU s) ju (k + 1) (fun i => f (ghp s i j)) t)%R).
  intros j Hj. apply dscal. apply piece_derive; [apply (ws_knotsU s W)|exact Su|exact Hk].
Qed.
Lemma hsd_dv s ju jv f k l u v : wf_surface s -> (kf (KnotsV s) jv < kf (KnotsV s) (jv + 1)%Z)%R -> 0 <= l ->
  is_derive (fun v => hsd s ju jv f k l u v) v (hsd s ju jv f k (l + 1) u v).
Proof. intros W Sv Hl. apply piece_derive; [apply (ws_knotsV s W)|exact Sv|exact Hl]. Qed.

Lemma hsd_00 s ju jv f u v : wf_surface s -> span_at (kf (KnotsU s)) ju u -> span_at (kf (KnotsV s)) jv v ->
  hsd s ju jv f 0 0 u v = hsurf s f u v.
Proof.
  intros W Su Sv. unfold hsd. rewrite piece_0 by (try apply (ws_knotsV s W); exact Sv). unfold hsurf. apply spl_ext. intros j Hj.
  apply piece_0; [apply (ws_knotsU s W)|exact Su].
Qed.
Lemma sder3_00 s ju jv u v : wf_surface s -> span_at (kf (KnotsU s)) ju u -> span_at (kf (KnotsV s)) jv v ->
  sder3 s ju jv 0 0 u v = surf_point s u v.
Proof.
  intros W Su Sv. rewrite surf_point_hsurf by assumption. unfold sder3, sder, quo2. rewrite !quo_00. rewrite !hsd_00 by assumption. reflexivity.
Qed.
Lemma sder_piece s ju jv f g k l u v : wf_surface s ->
  DegreeU s <= ju <= len (KnotsU s) - DegreeU s - 2 -> span_at (kf (KnotsU s)) ju u ->
  DegreeV s <= jv <= len (KnotsV s) - DegreeV s - 2 -> span_at (kf (KnotsV s)) jv v -> 0 <= k -> 0 <= l -> proj f g ->
  piece_partial (fun u v => g (surf_point s u v)) (kf (KnotsU s) ju) (kf (KnotsU s) (ju + 1)) (kf (KnotsV s) jv) (kf (KnotsV s) (jv + 1))
    (Z.to_nat k) (Z.to_nat l) u v (sder s ju jv f k l u v).
Proof.
  intros W Hju Su Hjv Sv Hk Hl Fg. exists (fun m n s' t => sder s ju jv f (Z.of_nat m) (Z.of_nat n) s' t). split; [|split].
  - intros a b Ha Hb. rewrite <- (sder3_00 s ju jv a b W ltac:(left; lra) ltac:(left; lra)). rewrite (sder3_proj _ _ _ _ _ _ _ f) by assumption. reflexivity.
  - intros m n a b Ha Hb. replace (Z.of_nat (S m)) with (Z.of_nat m + 1) by lia. replace (Z.of_nat (S n)) with (Z.of_nat n + 1) by lia.
    pose proof (hsd_w_pos s ju jv a b W Hju (span_nonempty _ _ _ Su) Hjv (span_nonempty _ _ _ Sv) Ha Hb) as Wp.
    split.
    + apply (quo2_du (hsd s ju jv f) (hsd s ju jv w4)); try lia; try lra.
      * intros. apply hsd_du; [assumption|apply (span_nonempty _ _ _ Su)|assumption].
      * intros. apply hsd_du; [assumption|apply (span_nonempty _ _ _ Su)|assumption].
    + apply (quo2_dv (hsd s ju jv f) (hsd s ju jv w4)); try lia; try lra.
      * intros. apply hsd_dv; [assumption|apply (span_nonempty _ _ _ Sv)|assumption].
      * intros. apply hsd_dv; [assumption|apply (span_nonempty _ _ _ Sv)|assumption].
  - rewrite !Z2Nat.id by lia. reflexivity.
Qed.
Lemma C49_lemma s u v ou ov : wf_surface s -> (0 <= u <= 1)%R -> (0 <= v <= 1)%R ->
  0 <= ou <= 29 -> 0 <= ov <= 29 -> binomials_fit ou ov ->
  exists ju jv res, in_span (KnotsU s) ju u /\ in_span (KnotsV s) jv v /\ Surface_EvaluateAll s u v ou ov = Ok res /\
    UCount res = ou + 1 /\ VCount res = ov + 1 /\ Grid_Get res 0 0 = Surface_Evaluate s u v /\
    forall k l, 0 <= k <= ou -> 0 <= l <= ov -> exists r, Grid_Get res k l = Ok r /\ Surface_EvaluateDerivative s u v k l = Ok r /\
      piece_partial3 (surf_point s) (at_ (KnotsU s) ju) (at_ (KnotsU s) (ju + 1)) (at_ (KnotsV s) jv) (at_ (KnotsV s) (jv + 1))
        (Z.to_nat k) (Z.to_nat l) u v r /\
      ((at_ (KnotsU s) ju < u < at_ (KnotsU s) (ju + 1))%R -> (at_ (KnotsV s) jv < v < at_ (KnotsV s) (jv + 1))%R ->
        is_partial3 (surf_point s) (Z.to_nat k) (Z.to_nat l) u v r).
Proof.
  intros W Hu Hv Hou Hov Fit.
  destruct (Surface_EvaluateAll_ok s u v ou ov W Hu Hv Hou Hov Fit) as [ju [jv [res [Hju [Su [Hjv [Sv [E1 [E2 [Er Gr]]]]]]]]]].
  pose proof (cl_degree _ _ (ws_knotsU s W)) as P0. pose proof (cl_degree _ _ (ws_knotsV s W)) as Q0.
  exists ju, jv, res. split; [apply span_at_in; [lia|exact Su]|]. split; [apply span_at_in; [lia|exact Sv]|]. split; [exact Er|].
  split; [apply Gr|]. split; [apply Gr|]. split.
  { rewrite (Grid_Get_ok _ _ _ _ _ _ Gr) by lia. rewrite sder3_00, Surface_Evaluate_ok by assumption. reflexivity. }
  intros k l Hk Hl. exists (sder3 s ju jv k l u v). split; [apply (Grid_Get_ok _ _ _ _ _ _ Gr); lia|]. split.
  { unfold Surface_EvaluateDerivative.
    assert (binomials_fit k l) as Fit' by (intros m n i j Hm Hn; apply Fit; lia).
    destruct (Surface_EvaluateAll_ok s u v k l W Hu Hv ltac:(lia) ltac:(lia) Fit') as [ju' [jv' [res' [_ [_ [_ [_ [E1' [E2' [Er' Gr']]]]]]]]]].
    rewrite Er'. cbn [bind]. assert (ju' = ju) by congruence. assert (jv' = jv) by congruence. subst.
    apply (Grid_Get_ok _ _ _ _ _ _ Gr'); lia. }
  rewrite <- !kf_at by lia.
  assert (piece_partial3 (surf_point s) (kf (KnotsU s) ju) (kf (KnotsU s) (ju + 1)) (kf (KnotsV s) jv) (kf (KnotsV s) (jv + 1))
        (Z.to_nat k) (Z.to_nat l) u v (sder3 s ju jv k l u v)) as Pp.
  { repeat split; cbn [sder3 x3 y3 z3].
    - apply (sder_piece s ju jv x4 x3); try assumption; try lia. unfold proj; tauto.
    - apply (sder_piece s ju jv y4 y3); try assumption; try lia. unfold proj; tauto.
    - apply (sder_piece s ju jv z4 z3); try assumption; try lia. unfold proj; tauto. }
  split; [exact Pp|]. apply piece_partial_interior3. exact Pp.
Qed.

(** the int restriction holds when the orders sum to at most 29 *)
Lemma choose_mono n k : choose n k <= choose (S n) k.
Proof.
  destruct k as [|k]; [rewrite !choose_0_r; lia|]. cbn [choose]. pose proof (choose_nonneg n k).
  destruct n; cbn [choose] in *; lia.
Qed.
Lemma choose_mul a : forall i b j, choose a i * choose b j <= choose (a + b) (i + j).
Proof.
  induction a as [|a IH]; intros i b j.
  - destruct i; [rewrite choose_0_r; simpl; lia|]. cbn [choose]. pose proof (choose_nonneg (0 + b) (S i + j)). lia.
  - destruct i as [|i].
    + rewrite choose_0_r. pose proof (IH O b j) as Q. rewrite choose_0_r in Q. pose proof (choose_mono (a + b) (0 + j)) as Q2. change (S a + b)%nat with (S (a + b)). rewrite Z.mul_1_l in *. lia.
    + change (choose (S a) (S i)) with (choose a i + choose a (S i)).
      change (choose (S a + b) (S i + j)) with (choose (a + b) (i + j) + choose (a + b) (S (i + j))).
      pose proof (IH i b j). pose proof (IH (S i) b j) as Q. change (S i + j)%nat with (S (i + j)) in Q. rewrite Z.mul_add_distr_r. lia.
Qed.
Lemma choose_29 n k : (n <= 29)%nat -> choose n k <= INT_MAX.
Proof.
  intros Hn. destruct (le_lt_dec n k) as [L|L].
  - destruct (Nat.eq_dec n k) as [->|Ne]; [|rewrite choose_zero by lia; unfold INT_MAX; lia].
    assert (choose k k = 1) as ->; [|unfold INT_MAX; lia]. clear. induction k as [|k IH]; [reflexivity|]. cbn [choose].
    rewrite IH, choose_zero by lia. reflexivity.
  - pose proof (binomial_fits_29 n n Hn ltac:(lia) k L) as Q. pose proof (choose_nonneg n k). nia.
Qed.
Lemma binomials_fit_29 a b : 0 <= a -> 0 <= b -> a + b <= 29 -> binomials_fit a b.
Proof.
  intros Ha Hb H m n i j Hm Hn Hi Hj. pose proof (choose_mul m i n j). pose proof (choose_29 (m + n) (i + j) ltac:(lia)). lia.
Qed.
