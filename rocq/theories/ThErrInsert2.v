(** Accuracy of knot insertion in binary64: the curve. *)
From Coq Require Import Reals ZArith List Lra Lia Psatz Floats.SpecFloat Permutation.
From Flocq Require Import Core.
From Verif Require Import Outcome Num ModelCore ModelBasis ModelCurve ModelSurface SpecCore SpecBasis SpecCurve SpecErr SpecErrIns ThOutcome ThReal ThB64 ThRound ThVec ThKnots ThSum ThSpline ThBasis ThCurve ThCurveWit ThInsert ThErr ThErrBasis ThErrSum ThErrCurve ThSafe ThSafe2 ThErrInsert.
Import ListNotations.
Open Scope R_scope.

(** no weight is more than [rho] times another *)
Definition weight_ratio (rho : R) (l : list (vec4 b64)) : Prop :=
  forall p q, In p l -> In q l -> val (w4 p) <= rho * val (w4 q).

(** ** The blending factor *)
Lemma alpha64 p l k u i : sound_knots p l -> inner64 u -> knot_span p (vals l) k (val u) -> (k - p + 1 <= i < k + 1)%Z ->
  exists ki kip al, vget l i = Ok ki /\ vget l (i + p) = Ok kip /\ ndiv (nsub u ki) (nsub kip ki) = Ok al /\
    pap 3 eta64 al (ins_alpha (kf (vals l)) p (val u) i) /\ 0 <= ins_alpha (kf (vals l)) p (val u) i <= 1.
Proof.
  intros [Fl Cl] [Fu Hu] [Hk Ku] Hi. pose proof (cl_degree _ _ Cl) as P0. rewrite len_vals in Hk. pose proof (clamped_mono _ _ Cl) as Mo.
  destruct (vget64 l i Fl ltac:(lia)) as [ki [E1 [F1 V1]]]. destruct (vget64 l (i + p) Fl ltac:(lia)) as [kip [E2 [F2 V2]]].
  destruct (ins_den (kf (vals l)) p k (val u) i Mo Ku ltac:(lia)) as [D A].
  assert (kf (vals l) i <= val u) as L1 by (pose proof (Mo i k ltac:(lia)); lra).
  assert (0 <= kf (vals l) i) as L0.
  { assert (kf (vals l) 0%Z = 0) as Z1. { rewrite kf_at by (rewrite len_vals; lia). apply (cl_zero _ _ Cl). lia. }
    rewrite <- Z1. apply Mo. lia. }
  assert (kf (vals l) (i + p) <= 1) as L2 by apply (clamped_le1 _ _ Cl).
  assert (bpow radix2 10 <= bpow radix2 1023) as B10 by (apply bpow_le; lia). change (bpow radix2 10) with 1024 in B10.
  pose proof (pap_sub u ki Fu F1 ltac:(lra) ltac:(lra)) as S1. pose proof (pap_sub kip ki F2 F1 ltac:(lra) ltac:(lra)) as S2. rewrite V1 in S1. rewrite V1, V2 in S2.
  destruct (pap_div 1 1 0 _ _ _ _ S1 S2 ltac:(lra) ltac:(lra) ltac:(lra)) as [al [E3 P3]].
  { pose proof (r_small 1 ltac:(lia)). pose proof (r_pow_ge1 1). fold (ins_alpha (kf (vals l)) p (val u) i) in *.
    replace (((val u - kf (vals l) i) * r64 ^ 1 + 0) * r64 ^ 1 / (kf (vals l) (i + p) - kf (vals l) i)) with (ins_alpha (kf (vals l)) p (val u) i * (r64 ^ 1 * r64 ^ 1)) by (unfold ins_alpha; field; lra).
    assert (r64 ^ 1 * r64 ^ 1 <= 11 / 10 * (11 / 10)) by (apply Rmult_le_compat; lra).
    assert (ins_alpha (kf (vals l)) p (val u) i * (r64 ^ 1 * r64 ^ 1) <= 1 * (11 / 10 * (11 / 10))) by (apply Rmult_le_compat; nra). lra. }
  exists ki, kip, al. split; [exact E1|]. split; [exact E2|]. split; [exact E3|]. split; [|exact A]. apply (pap_weak (1 + 1 + 1) (0 * r64 ^ (1 + 1) / (kf (vals l) (i + p) - kf (vals l) i) + eta64)); [lia| |exact P3].
  right. unfold Rdiv. ring.
Qed.

Lemma tame_ratio M rho l : Forall (tame M) l -> weight_ratio rho l -> l <> [] -> 1 <= rho.
Proof.
  intros T W N. destruct l as [|p l]; [congruence|]. inversion T; subst. pose proof (tame_w M p H1) as Tw. pose proof (bpow_gt_0 radix2 (-100)).
  specialize (W p p (or_introl eq_refl) (or_introl eq_refl)). nra.
Qed.
Lemma ins_eps_pos rho M : 0 <= rho -> 0 <= M -> 0 <= ins_eps rho M.
Proof.
  intros. unfold ins_eps. assert (0 < / 2 ^ 53) by (apply Rinv_0_lt_compat, pow_lt; lra). assert (0 < / 2 ^ 450) by (apply Rinv_0_lt_compat, pow_lt; lra).
  assert (0 <= 150 * rho / 2 ^ 53 * M) by (apply Rmult_le_pos; [|assumption]; unfold Rdiv; apply Rmult_le_pos; lra). lra.
Qed.
Lemma ins_eta_pos rho : 0 <= rho -> 0 <= ins_eta rho.
Proof. intros. unfold ins_eta, Rdiv. assert (0 < / 2 ^ 53) by (apply Rinv_0_lt_compat, pow_lt; lra). apply Rmult_le_pos; lra. Qed.
Lemma near_exact M eps eta p : tame M p -> 0 <= eps -> 0 <= eta -> near_point eps eta p (val4 p).
Proof.
  intros T E1 E2. pose proof (tame_w M p T) as Tw. pose proof (bpow_gt_0 radix2 (-100)). destruct T as [F1 [F2 [F3 [F4 _]]]].
  unfold near_point. cbn [x4 y4 z4 w4 val4]. rewrite !Rminus_eq_0, !Rabs_R0. repeat split; try assumption; try apply F1; try apply F2; try apply F3; try apply F4. apply Rmult_le_pos; lra.
Qed.
Lemma cp_val c i p : vget (ControlPoints c) i = Ok p -> cp (curve_val c) i = val4 p.
Proof.
  intros E. assert (vget (ControlPoints (curve_val c)) i = Ok (val4 p)) as E'. { unfold curve_val. cbn [ControlPoints]. rewrite vget_map, E. reflexivity. }
  apply (vget_inv (Vec4 0 0 0 1)) in E'. destruct E' as [_ E']. symmetry. exact E'.
Qed.
Lemma vget_in {A} (l : list A) i p : vget l i = Ok p -> In p l.
Proof. unfold vget. destruct (i <? 0)%Z; [discriminate|]. destruct (nth_error l (Z.to_nat i)) eqn:E; [|discriminate]. intros [= ->]. apply nth_error_In in E. exact E. Qed.

(** what an insertion in doubles leaves behind *)
Definition near_inserted (c c' : curve b64) (k : Z) (u : R) (eps eta : R) : Prop :=
  Degree c' = Degree c /\ ins_list (vals (Knots c)) (vals (Knots c')) k u /\ sound_curve c' /\ len (ControlPoints c') = (len (ControlPoints c) + 1)%Z /\
  forall i, (0 <= i < len (ControlPoints c'))%Z -> exists q, vget (ControlPoints c') i = Ok q /\
    near_point eps eta q (ins_pts (kf (vals (Knots c))) (Degree c) k u (cp (curve_val c)) i).

Lemma sound_kv p l u : sound_knots p l -> inner64 u ->
  exists l' k, KnotVector_InsertKnot l u 1 = Ok (l', k) /\ knot_span p (vals l) k (val u) /\ ins_list (vals l) (vals l') k (val u) /\ sound_knots p l'.
Proof.
  intros [Fl Cl] [Fu Hu]. destruct (sound_insert p l u (conj Fl Cl) (conj Fu Hu)) as [l' [k' [E' [_ [_ [_ [Sk' _]]]]]]].
  destruct (kv_insert p (vals l) (val u) Cl Hu) as [vl [k [E [_ [K I]]]]]. rewrite kv_InsertKnot_b64, E' in E by assumption. cbn [bind] in E. injection E as Ev ->. subst vl.
  exists l', k. auto.
Qed.

Section one.
  Variables (c : curve b64) (M rho : R) (u : b64).
  Hypothesis Sc : sound_curve c.
  Hypothesis Tc : Forall (tame M) (ControlPoints c).
  Hypothesis HM : 0 <= M <= bpow radix2 100.
  Hypothesis Wr : weight_ratio rho (ControlPoints c).
  Hypothesis Hr : rho <= 2 ^ 30.
  Hypothesis Hu : inner64 u.
  Let p := Degree c.
  Lemma one_blend k i al a : knot_span p (vals (Knots c)) k (val u) -> (k - p + 1 <= i < k + 1)%Z -> pap 3 eta64 al a -> 0 <= a <= 1 ->
    exists pi pim1 q, vget (ControlPoints c) i = Ok pi /\ vget (ControlPoints c) (i - 1) = Ok pim1 /\
      FromHomo (v4add (v4scale al (ToHomo pi)) (v4scale (nsub n1 al) (ToHomo pim1))) = Ok q /\
      near_point (ins_eps rho M) (ins_eta rho) q (blend a (cp (curve_val c) i) (cp (curve_val c) (i - 1))).
  Proof.
    intros [Hk _] Hi Pa A01. destruct Sc as [[_ Cl] Cn]. pose proof (cl_degree _ _ Cl) as P0. rewrite len_vals in Hk. fold p in Cn.
    destruct (vget_tame M (ControlPoints c) i Tc ltac:(lia)) as [pi [E1 T1]]. destruct (vget_tame M (ControlPoints c) (i - 1) Tc ltac:(lia)) as [pm [E2 T2]].
    assert (1 <= rho) as R1. { apply (tame_ratio M rho (ControlPoints c)); try assumption. intros Q. rewrite Q in E1. unfold vget in E1. destruct (i <? 0)%Z; [discriminate|]. destruct (Z.to_nat i); discriminate. }
    destruct (blend64 al a pi pm M rho Pa A01 T1 T2 HM (conj R1 Hr)) as [q [E3 N3]].
    - apply Wr; eapply vget_in; eassumption.
    - apply Wr; eapply vget_in; eassumption.
    - exists pi, pm, q. rewrite (cp_val _ _ _ E1), (cp_val _ _ _ E2). auto.
  Qed.
  Lemma one_pos : 0 <= ins_eps rho M /\ 0 <= ins_eta rho.
  Proof.
    destruct Sc as [[_ Cl] Cn]. pose proof (cl_degree _ _ Cl) as P0. pose proof (cl_len _ _ Cl) as L. rewrite len_vals in L.
    assert (1 <= rho) as R1. { apply (tame_ratio M rho (ControlPoints c)); try assumption. intros Q. rewrite Q in Cn. unfold len in *. cbn [length] in *. lia. }
    split; [apply ins_eps_pos; lra|apply ins_eta_pos; lra].
  Qed.
  Lemma Curve_InsertKnot_near : (1 <= p)%Z -> exists c' k, Curve_InsertKnot c u = Ok c' /\ knot_span p (vals (Knots c)) k (val u) /\
    near_inserted c c' k (val u) (ins_eps rho M) (ins_eta rho).
  Proof.
    intros P1. pose proof Sc as [Sk Cn]. destruct (sound_kv p (Knots c) u Sk Hu) as [l' [k [E [K [I Sk']]]]]. pose proof (cl_degree _ _ (proj2 Sk)) as P0. fold p in P0, Cn.
    pose proof K as [Hk _]. rewrite len_vals in Hk. destruct one_pos as [Pe Pn].
    unfold Curve_InsertKnot. fold p. rewrite E. cbn [bind].
    destruct (vinsert_spec (ControlPoints c) k v4zero) as [np [En [Ln [G1 [G2 G3]]]]]; [lia|].
    rewrite En. cbn [bind].
    destruct (for_up_inv (fun i l => len l = len np /\
        (forall q, (k - p + 1 <= q < i)%Z -> exists r, vget l q = Ok r /\ near_point (ins_eps rho M) (ins_eta rho) r (ins_pts (kf (vals (Knots c))) p k (val u) (cp (curve_val c)) q)) /\
        (forall q, ~ (k - p + 1 <= q < i)%Z -> vget l q = vget np q))
      (k - p + 1) (k + 1) (fun i new_points =>
          ki <- vget (Knots c) i ;;
          kip <- vget (Knots c) (i + p) ;;
          alpha <- ndiv (nsub u ki) (nsub kip ki) ;;
          pi <- vget (ControlPoints c) i ;;
          pim1 <- vget (ControlPoints c) (i - 1) ;;
          q <- FromHomo (v4add (v4scale alpha (ToHomo pi)) (v4scale (nsub n1 alpha) (ToHomo pim1))) ;;
          vset new_points i q)%outcome np) as [l2 [E2 [L2 [A2 B2]]]].
    - lia.
    - split; [reflexivity|]. split; intros; [lia|reflexivity].
    - intros i l Hi [L [A Bq]]. destruct (alpha64 p (Knots c) k u i Sk Hu K Hi) as [ki [kip [al [Ea [Eb [Ec [Pa A01]]]]]]].
      destruct (one_blend k i al _ K Hi Pa A01) as [pi [pm [q [Ed [Ee [Ef Nq]]]]]].
      rewrite Ea. cbn [bind]. rewrite Eb. cbn [bind]. rewrite Ec. cbn [bind]. rewrite Ed. cbn [bind]. rewrite Ee. cbn [bind]. rewrite Ef. cbn [bind].
      destruct (vset_spec l i q) as [l3 [E3 [L3 [S1 S2]]]]; [lia|].
      exists l3. split; [exact E3|]. split; [lia|]. split.
      + intros j Hj. destruct (Z.eq_dec j i) as [->|]; [|rewrite S2 by assumption; apply A; lia].
        exists q. split; [exact S1|]. unfold ins_pts. destruct (Z.leb_spec i (k - p)); [lia|]. destruct (Z.leb_spec i k); [exact Nq|lia].
      + intros j Hj. rewrite S2 by lia. apply Bq. lia.
    - rewrite E2. cbn [bind]. eexists _, k. split; [reflexivity|]. split; [exact K|].
      split; [reflexivity|]. split; [exact I|]. destruct I as [Il _]. rewrite !len_vals in Il. cbn [ControlPoints]. split; [split; [exact Sk'|cbn [ControlPoints Degree Knots]; fold p; lia]|]. split; [lia|]. intros i Hi. fold p.
      destruct (Z_le_gt_dec (k - p + 1) i) as [Q1|Q1]; [destruct (Z_lt_ge_dec i (k + 1)) as [Q2|Q2]|].
      + apply A2. lia.
      + rewrite B2 by lia. rewrite G3 by lia. destruct (vget_tame M (ControlPoints c) (i - 1) Tc ltac:(lia)) as [q [Eq Tq]]. exists q. split; [exact Eq|]. unfold ins_pts.
        destruct (Z.leb_spec i (k - p)); [lia|]. destruct (Z.leb_spec i k); [lia|]. rewrite (cp_val _ _ _ Eq). apply (near_exact M); assumption.
      + rewrite B2 by lia. rewrite G1 by lia. destruct (vget_tame M (ControlPoints c) i Tc ltac:(lia)) as [q [Eq Tq]]. exists q. split; [exact Eq|]. unfold ins_pts.
        destruct (Z.leb_spec i (k - p)); [|lia]. rewrite (cp_val _ _ _ Eq). apply (near_exact M); assumption.
  Qed.
  Lemma insert_one_near : exists c' k, insert_one p (Knots c, ControlPoints c) u = Ok (Knots c', ControlPoints c') /\ knot_span p (vals (Knots c)) k (val u) /\
    near_inserted c c' k (val u) (ins_eps rho M) (ins_eta rho).
  Proof.
    pose proof Sc as [Sk Cn]. pose proof Sk as [Fl Cl]. pose proof Hu as [Fu Hu']. destruct (span_find p (vals (Knots c)) (val u) Cl Hu') as [k [E K]].
    destruct (insert_knots p (vals (Knots c)) k (val u) Cl K) as [vl [Ei I]]. rewrite vinsert_vals in Ei.
    destruct (vinsert (Knots c) (k + 1) 1 u) as [l'| | | | |] eqn:V; try discriminate. cbn [bind] in Ei. injection Ei as Ev. subst vl.
    rewrite <- FindSpanIndex_b64 in E by assumption. pose proof (cl_degree _ _ Cl) as P0. fold p in P0, Cn.
    assert (sound_knots p l') as Sk'. { split; [exact (perm_finite _ _ _ Fl Fu (vinsert_perm _ _ _ _ V))|]. exact (ins_clamped _ _ _ _ _ Cl K Hu' I). }
    pose proof K as [Hk _]. rewrite len_vals in Hk. destruct one_pos as [Pe Pn].
    unfold insert_one. rewrite E. cbn [bind]. destruct (vget_tame M (ControlPoints c) k Tc ltac:(lia)) as [pk [Epk Tpk]]. rewrite Epk. cbn [bind].
    destruct (vinsert_spec (ControlPoints c) k pk) as [np [En [Ln [G1 [G2 G3]]]]]; [lia|].
    assert (forall q, (0 <= q <= k)%Z -> vget np q = vget (ControlPoints c) q) as Gl.
    { intros q Hq. destruct (Z.eq_dec q k) as [->|]; [rewrite G2; symmetry; exact Epk|]. apply G1. lia. }
    rewrite En. cbn [bind]. destruct (vget_tame M (ControlPoints c) (k - p) Tc ltac:(lia)) as [pf [Epf Tpf]]. rewrite Gl by lia. rewrite Epf. cbn [bind].
    destruct (for_up_inv (fun i (st : list (vec4 b64) * vec4 b64) => (exists q, vget (ControlPoints c) (i - 1) = Ok q /\ snd st = ToHomo q) /\ len (fst st) = len np /\
        (forall q, (k - p + 1 <= q < i)%Z -> exists r, vget (fst st) q = Ok r /\ near_point (ins_eps rho M) (ins_eta rho) r (ins_pts (kf (vals (Knots c))) p k (val u) (cp (curve_val c)) q)) /\
        (forall q, ~ (k - p + 1 <= q < i)%Z -> vget (fst st) q = vget np q))
      (k - p + 1) (k + 1) (fun i '(points, point_last) =>
          ki <- vget (Knots c) i ;;
          kip <- vget (Knots c) (i + p) ;;
          alpha <- ndiv (nsub u ki) (nsub kip ki) ;;
          pi <- vget points i ;;
          let point_i := ToHomo pi in
          point_new <- FromHomo (v4add (v4scale alpha point_i) (v4scale (nsub n1 alpha) point_last)) ;;
          points <- vset points i point_new ;;
          Ok (points, point_i))%outcome (np, ToHomo pf)) as [[l2 last2] [E2 [_ [L2 [A2 B2]]]]].
    - lia.
    - cbn [fst snd]. split; [exists pf; split; [rewrite <- Epf; f_equal; lia|reflexivity]|]. split; [reflexivity|]. split; intros; [lia|reflexivity].
    - intros i [l lst] Hi [[ql [Eql Es]] [L [A Bq]]]. cbn [fst snd] in *. subst lst. destruct (alpha64 p (Knots c) k u i Sk Hu K Hi) as [ki [kip [al [Ea [Eb [Ec [Pa A01]]]]]]].
      destruct (one_blend k i al _ K Hi Pa A01) as [pi [pm [q [Ed [Ee [Ef Nq]]]]]]. assert (pm = ql) as -> by congruence.
      rewrite Ea. cbn [bind]. rewrite Eb. cbn [bind]. rewrite Ec. cbn [bind]. rewrite Bq by lia. rewrite Gl by lia. rewrite Ed. cbn [bind]. cbv zeta. rewrite Ef. cbn [bind].
      destruct (vset_spec l i q) as [l3 [E3 [L3 [S1 S2]]]]; [lia|]. rewrite E3. cbn [bind]. eexists. split; [reflexivity|]. cbn [fst snd].
      split; [exists pi; split; [rewrite <- Ed; f_equal; lia|reflexivity]|]. split; [lia|]. split.
      + intros j Hj. destruct (Z.eq_dec j i) as [->|]; [|rewrite S2 by assumption; apply A; lia].
        exists q. split; [exact S1|]. unfold ins_pts. destruct (Z.leb_spec i (k - p)); [lia|]. destruct (Z.leb_spec i k); [exact Nq|lia].
      + intros j Hj. rewrite S2 by lia. apply Bq. lia.
    - cbn [fst snd] in *. rewrite E2. cbn [bind]. rewrite V. cbn [bind]. exists (Curve p l' l2), k. split; [reflexivity|]. split; [exact K|].
      split; [reflexivity|]. split; [exact I|]. destruct I as [Il _]. rewrite !len_vals in Il. cbn [ControlPoints]. split; [split; [exact Sk'|cbn [ControlPoints Degree Knots]; fold p; lia]|]. split; [lia|]. intros i Hi. fold p.
      destruct (Z_le_gt_dec (k - p + 1) i) as [Q1|Q1]; [destruct (Z_lt_ge_dec i (k + 1)) as [Q2|Q2]|].
      + apply A2. lia.
      + rewrite B2 by lia. rewrite G3 by lia. destruct (vget_tame M (ControlPoints c) (i - 1) Tc ltac:(lia)) as [q [Eq Tq]]. exists q. split; [exact Eq|]. unfold ins_pts.
        destruct (Z.leb_spec i (k - p)); [lia|]. destruct (Z.leb_spec i k); [lia|]. rewrite (cp_val _ _ _ Eq). apply (near_exact M); assumption.
      + rewrite B2 by lia. rewrite Gl by lia. destruct (vget_tame M (ControlPoints c) i Tc ltac:(lia)) as [q [Eq Tq]]. exists q. split; [exact Eq|]. unfold ins_pts.
        destruct (Z.leb_spec i (k - p)); [|lia]. rewrite (cp_val _ _ _ Eq). apply (near_exact M); assumption.
  Qed.
End one.
