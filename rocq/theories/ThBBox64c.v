(** GetBoundingBox on doubles: the statements of C98. *)
From Coq Require Import Reals QArith Qreals ZArith List Lra Lia Bool Permutation Floats.SpecFloat.
From Flocq Require Import Core Mult_error.
From Verif Require Import Outcome Num ModelCore ModelCurve SpecCore SpecBasis SpecCurve SpecBezier SpecErr SpecErrIns SpecBox64
  ThOutcome ThReal ThB64 ThDecide ThRound ThErr ThErrInsert3 ThErrInsert4 ThKnots ThVec ThBox ThBasis ThCurve ThBezier ThBBox ThBBox2 ThBBox4 ThBBoxWit ThCoreWit ThCurveWit ThSafe ThSafe2 ThExtract64 ThBBox64 ThBBox64b.
Import ListNotations.
Open Scope Z_scope.
Local Notation F := (FLT_exp (-1074) 53).

Lemma C98_safe_lemma (c : curve b64) fuel eps : sound_curve c -> 1 <= Degree c ->
  Curve_GetBoundingBox fuel c eps = OutOfFuel \/ exists box, Curve_GetBoundingBox fuel c eps = Ok box.
Proof.
  intros S P. destruct (extract64 c S P) as [d [_ [_ E]]]. unfold Curve_GetBoundingBox. rewrite E. cbn [bind].
  destruct (fold_safe one4 (Degree c) eps fuel ltac:(lia) (map (segment64 (Degree c) d) (zrange 0 ((len (ControlPoints d) - 1) / Degree c))) None) as [->|[r ->]].
  - apply Forall_forall. intros s Hs. apply in_map_iff in Hs. destruct Hs as [j [<- _]]. unfold segment64, window. cbn [ControlPoints]. rewrite len_map, len_zrange. lia.
  - left. reflexivity.
  - right. eexists. reflexivity.
Qed.

(** ** All segments together *)
Definition seg64 (fuel : nat) (p : Z) (eps : b64) (g : option (bbox b64)) (s : curve b64) := bbox_loop fuel p eps [ControlPoints s] g.
Lemma segs64 p eps segs : 0 <= p -> Forall (fun s => len (ControlPoints s) = p + 1 /\ exists m ls, splits one4 p eps m (ControlPoints s) ls /\ Z.of_nat m <= 2 ^ 52 - 1) segs ->
  exists lss, Forall2 (fun s ls => exists m, splits one4 p eps m (ControlPoints s) ls) segs lss /\
    forall fuel g, 2 ^ 52 - 1 <= Z.of_nat fuel -> foldM (seg64 fuel p eps) segs g = Ok (fold_left merge_box (map (ends one4) (concat lss)) g).
Proof.
  intros Hp. induction 1 as [|s segs [L [m [ls [Sp Hm]]]] Fs [lss [F2 H]]].
  - exists []. split; [constructor|]. reflexivity.
  - exists (ls :: lss). split; [constructor; [exists m; exact Sp|exact F2]|]. intros fuel g Hf. cbn [foldM concat]. unfold seg64 at 1.
    replace fuel with (m + (fuel - m))%nat at 1 by lia. rewrite (loop_splits one4 p eps m _ ls Hp L Sp).
    assert (forall k g, bbox_loop k p eps [] g = Ok (g : option (bbox b64))) as -> by (intros [|k] g'; reflexivity).
    cbn [bind]. rewrite H by exact Hf. rewrite map_app, fold_left_app. reflexivity.
Qed.
Lemma fold_more p eps segs : forall fuel g r k, foldM (seg64 fuel p eps) segs g = Ok r -> foldM (seg64 (fuel + k) p eps) segs g = Ok r.
Proof.
  induction segs as [|s segs IH]; intros fuel g r k E; cbn [foldM] in *; [exact E|].
  unfold seg64 at 1 in E. destruct (bbox_loop fuel p eps [ControlPoints s] g) as [g1| | | | |] eqn:E1; cbn [bind] in E; try discriminate.
  unfold seg64 at 1. rewrite (loop_more _ _ _ _ _ _ k E1). cbn [bind]. apply IH. exact E.
Qed.

(** ** A power of two above the control points *)
Lemma pow2_above X : (2 <= X)%R -> (X <= bpow radix2 900)%R -> exists B, half_ok B /\ (1 <= B)%R /\ (B <= bpow radix2 1000)%R /\ (X <= B)%R /\ (B <= 2 * X)%R.
Proof.
  intros H2 H9. set (k := mag radix2 X : Z). assert (bpow radix2 (k - 1) <= Rabs X < bpow radix2 k)%R as [K1 K2]. { unfold k. destruct (mag radix2 X) as [e He]. cbn. apply He. lra. }
  rewrite Rabs_right in K1, K2 by lra. assert (1 < k) as K. { apply (lt_bpow radix2). change (bpow radix2 1) with 2%R. lra. }
  assert (k <= 901). { assert (k - 1 <= 900); [|lia]. apply (le_bpow radix2). lra. }
  assert (bpow radix2 k = 2 * bpow radix2 (k - 1))%R as E. { replace k with (1 + (k - 1)) at 1 by lia. rewrite bpow_plus. reflexivity. }
  exists (bpow radix2 k). split; [|split; [|split; [|split]]].
  - split; [apply generic_format_bpow; unfold FLT_exp; lia|]. rewrite E. replace (2 * bpow radix2 (k - 1) / 2)%R with (bpow radix2 (k - 1)) by field. apply generic_format_bpow. unfold FLT_exp. lia.
  - change 1%R with (bpow radix2 0). apply bpow_le. lia.
  - apply bpow_le. lia.
  - lra.
  - lra.
Qed.
Lemma tame_inb X B q : (X <= B)%R -> tame X q -> inb B q.
Proof. intros H [F1 [F2 [F3 [_ [_ [X1 [X2 X3]]]]]]] h [->|[->| ->]]; (split; [assumption|eapply Rle_trans; eassumption]). Qed.

(** ** Merging boxes *)
Lemma fold_val bs : Forall finite_box bs -> forall g, match g with Some b => finite_box b | None => True end ->
  match fold_left merge_box bs g with Some b => finite_box b | None => True end /\
  option_map box_val (fold_left merge_box bs g) = fold_left merge_box (map box_val bs) (option_map box_val g).
Proof.
  induction 1 as [|b bs Fb Fs IH]; intros g Fg; [split; [exact Fg|reflexivity]|]. cbn [fold_left map]. destruct g as [g|]; cbn [merge_box option_map].
  - destruct (join_val g b Fg Fb) as [F1 V1]. destruct (IH (Some _) F1) as [F2 V2]. split; [exact F2|]. rewrite V2. cbn [option_map]. rewrite V1. reflexivity.
  - apply (IH (Some b)). exact Fb.
Qed.
Lemma ends_val P : Forall (fun q => finite3 (head3 q)) P -> P <> [] -> finite_box (ends one4 P) /\ box_val (ends one4 P) = BoundingBox_make (head3 (val4 (znth one4 P 0))) (head3 (val4 (znth one4 P (len P - 1)))).
Proof.
  intros HF Hne. assert (0 < len P) by (destruct P; [congruence|rewrite len_cons; pose proof (len_nonneg P); lia]). rewrite Forall_forall in HF.
  assert (finite3 (head3 (znth one4 P 0))) as Fa by (apply HF, znth_In; lia). assert (finite3 (head3 (znth one4 P (len P - 1)))) as Fb by (apply HF, znth_In; lia).
  destruct (make_val (head3 (znth one4 P 0)) (head3 (znth one4 P (len P - 1))) Fa Fb) as [F1 V1]. split; [exact F1|]. unfold ends. rewrite V1, !head_val. reflexivity.
Qed.
Lemma make_in a b : in_box a (BoundingBox_make a b) /\ in_box b (BoundingBox_make a b).
Proof.
  unfold in_box, BoundingBox_make. cbn [Min Max]. rewrite !axis_le. repeat split; intros g Hg; rewrite ?axis_min, ?axis_max by exact Hg; auto using Rmin_l, Rmin_r, Rmax_l, Rmax_r.
Qed.
Lemma make_least a b D : in_box a D -> in_box b D -> box_incl (BoundingBox_make a b) D.
Proof.
  intros [A1 A2] [B1 B2] q [Q1 Q2]. unfold BoundingBox_make in Q1, Q2. cbn [Min Max] in Q1, Q2. rewrite axis_le in A1, A2, B1, B2, Q1, Q2. split; apply axis_le; intros g Hg.
  - specialize (Q1 g Hg). rewrite axis_min in Q1 by exact Hg. eapply Rle_trans; [|exact Q1]. apply Rmin_glb; auto.
  - specialize (Q2 g Hg). rewrite axis_max in Q2 by exact Hg. eapply Rle_trans; [exact Q2|]. apply Rmax_lub; auto.
Qed.

(** ** The result *)
Definition box64 (g : option (bbox b64)) : bbox b64 := match g with Some g => g | None => BoundingBox_default end.
Section Main.
  Variables (c : curve b64) (M lo hi rho : R) (ts : list R) (n : Z) (eps : b64).
  Hypothesis (S : sound_curve c) (P : 1 <= Degree c) (Im : interior_multiplicity_le (Degree c) (vals (Knots c))) (Dt : distinct_knots (vals (Knots c)) ts).
  Hypothesis (En : n = Degree c * (len ts - 2) - (len (Knots c) - 2 * Degree c - 2)).
  Hypothesis (Tm : Forall (tame M) (ControlPoints c)) (M1 : (1 <= M)%R) (HM : (IZR (Degree c) ^ 2 * M <= 2 ^ 26)%R).
  Hypothesis (Wt : weights_in lo hi (ControlPoints c)) (Llo : (/ 2 ^ 99 <= lo)%R) (Lhi : (hi <= 2 ^ 99)%R) (Hr : (hi <= rho * lo)%R) (Hrr : (rho <= 2 ^ 29)%R) (Hn : (IZR n * rho <= 2 ^ 43)%R).
  Let p := Degree c.
  Lemma M_small : (0 <= M <= 2 ^ 26)%R.
  Proof. split; [lra|]. apply (Rle_trans _ (IZR (Degree c) ^ 2 * M)); [|exact HM]. assert (1 <= IZR (Degree c))%R by (apply IZR_le; exact P). rewrite <- (Rmult_1_l M) at 1. apply Rmult_le_compat_r; [lra|]. apply pow_R1_Rle. assumption. Qed.
  Lemma segments_tame : exists segs, Curve_ExtractBezier c = Ok segs /\ len segs = len ts - 1 /\ 2 <= len ts /\
    Forall (fun s => sound_curve s /\ len (ControlPoints s) = p + 1 /\ Forall (tame (2 * M + / 2 ^ 400)) (ControlPoints s)) segs.
  Proof.
    pose proof M_small as Ms. destruct (extract64 c S P) as [d [E1 [Sh E2]]]. destruct (added_ok c S) as [_ Ia].
    destruct (extract64_count c d ts S P Im Sh Dt) as [_ [L2 [_ [Lm La]]]].
    assert (INR (length (added c)) = IZR n) as EN by (rewrite INR_IZR_INZ, En, <- La; reflexivity).
    assert (2 ^ 26 <= 2 ^ 98)%R as Q by (apply Rle_pow; [lra|lia]).
    destruct (list_final c (added c) M lo hi rho S Tm ltac:(lra) Wt Llo Lhi Hr Hrr ltac:(rewrite EN; exact Hn) Ia) as [d' [Ed [Sd [Dd [Td _]]]]]. rewrite E1 in Ed. injection Ed as <-.
    eexists. split; [exact E2|]. rewrite Lm. split; [rewrite len_map, len_zrange; lia|]. split; [exact L2|]. apply Forall_forall. intros s Hs. apply in_map_iff in Hs. destruct Hs as [j [<- Hj]]. apply In_zrange in Hj.
    split; [apply segment64_sound; lia|]. split; [unfold segment64, window; cbn [ControlPoints]; rewrite len_map, len_zrange; unfold p; lia|].
    apply Forall_forall. intros q Hq. unfold segment64, window in Hq. cbn [ControlPoints] in Hq. apply in_map_iff in Hq. destruct Hq as [k [<- Hk]]. apply In_zrange in Hk.
    destruct Sd as [_ Cn]. rewrite Dd in Cn. destruct (extract64_count c d ts S P Im Sh Dt) as [_ [_ [Lk _]]]. rewrite Forall_forall in Td. apply Td. apply znth_In. nia.
  Qed.
  Lemma main64 : exists segs lss B, Curve_ExtractBezier c = Ok segs /\ len segs = len ts - 1 /\ 2 <= len ts /\ half_ok B /\ (1 <= B)%R /\ (B <= bpow radix2 1000)%R /\
    Forall (fun s => sound_curve s /\ len (ControlPoints s) = p + 1 /\ Forall (tame (2 * M + / 2 ^ 400)) (ControlPoints s) /\ Forall (inb B) (ControlPoints s)) segs /\
    Forall2 (fun s ls => exists m, splits one4 p eps m (ControlPoints s) ls) segs lss /\
    (forall fuel, 2 ^ 52 <= Z.of_nat fuel -> Curve_GetBoundingBox fuel c eps = Ok (box64 (fold_left merge_box (map (ends one4) (concat lss)) None))) /\
    (forall fuel box, Curve_GetBoundingBox fuel c eps = Ok box -> box = box64 (fold_left merge_box (map (ends one4) (concat lss)) None)).
  Proof.
    destruct segments_tame as [segs [E [Ls [L2 Fs]]]]. pose proof M_small as Ms.
    assert (0 < / 2 ^ 400)%R as T0 by (apply Rinv_0_lt_compat, pow_lt; lra). assert (/ 2 ^ 400 <= / 1000)%R as T1. { rewrite <- ThErrCurve.bpow_inv. apply ThErrInsert.tiny_small. lia. }
    assert (2 * M + / 2 ^ 400 <= bpow radix2 900)%R as X9. { apply (Rle_trans _ (bpow radix2 30)); [|apply bpow_le; lia]. change (bpow radix2 30) with 1073741824%R. lra. }
    destruct (pow2_above (2 * M + / 2 ^ 400) ltac:(lra) X9) as [B [HB [B1 [B2 [XB BX]]]]].
    assert (IZR p * IZR p * B <= 2 ^ 29)%R as HpB.
    { assert (B <= 5 * M)%R as B5 by lra. apply (Rle_trans _ (IZR p * IZR p * (5 * M))).
      - apply Rmult_le_compat_l; [|exact B5]. apply Rmult_le_pos; apply IZR_le; unfold p; lia.
      - unfold p. replace (IZR (Degree c) * IZR (Degree c) * (5 * M))%R with (5 * (IZR (Degree c) ^ 2 * M))%R by ring. lra. }
    assert (Forall (fun s => sound_curve s /\ len (ControlPoints s) = p + 1 /\ Forall (tame (2 * M + / 2 ^ 400)) (ControlPoints s) /\ Forall (inb B) (ControlPoints s)) segs) as Fs'.
    { eapply Forall_impl; [|exact Fs]. intros s [Q1 [Q2 Q3]]. split; [exact Q1|]. split; [exact Q2|]. split; [exact Q3|]. eapply Forall_impl; [|exact Q3]. intros q. apply tame_inb. exact XB. }
    assert (Forall (fun s => len (ControlPoints s) = p + 1 /\ exists m ls, splits one4 p eps m (ControlPoints s) ls /\ Z.of_nat m <= 2 ^ 52 - 1) segs) as Sp.
    { eapply Forall_impl; [|exact Fs']. intros s [_ [Q2 [_ Q4]]]. split; [exact Q2|]. apply (splits64 B HB B1 B2 p eps); assumption. }
    destruct (segs64 p eps segs ltac:(unfold p; lia) Sp) as [lss [F2 H]]. exists segs, lss, B. do 7 (split; [assumption|]). split; [exact F2|].
    unfold Curve_GetBoundingBox. rewrite E. cbn [bind]. fold p. split.
    - intros fuel Hf. pose proof (H fuel None ltac:(lia)) as H'. unfold seg64 in H'. rewrite H'. reflexivity.
    - intros fuel box Eb.
      destruct (foldM (fun global seg => bbox_loop fuel p eps [ControlPoints seg] global) segs None) as [g| | | | |] eqn:Ef; cbn [bind] in Eb; try discriminate.
      apply (fold_more p eps segs fuel None g (Z.to_nat (2 ^ 52))) in Ef. rewrite (H (fuel + Z.to_nat (2 ^ 52))%nat None) in Ef by lia. injection Ef as <-. injection Eb as <-. reflexivity.
  Qed.
  Lemma C98_stops_lemma : exists box, forall fuel, 2 ^ 52 <= Z.of_nat fuel -> Curve_GetBoundingBox fuel c eps = Ok box.
  Proof. destruct main64 as [segs [lss [B [_ [_ [_ [_ [_ [_ [_ [_ [H _]]]]]]]]]]]]. eexists. exact H. Qed.

  Lemma leaves_fin lss segs B : half_ok B -> (1 <= B)%R -> (B <= bpow radix2 1000)%R ->
    Forall (fun s => sound_curve s /\ len (ControlPoints s) = p + 1 /\ Forall (tame (2 * M + / 2 ^ 400)) (ControlPoints s) /\ Forall (inb B) (ControlPoints s)) segs ->
    Forall2 (fun s ls => exists m, splits one4 p eps m (ControlPoints s) ls) segs lss ->
    Forall (fun l => len l = p + 1 /\ Forall (inb B) l) (concat lss).
  Proof.
    intros HB B1 B2 Fs F2. induction F2 as [|s ls segs lss [m Sp] F2 IH]; [constructor|]. inversion_clear Fs as [|? ? [_ [Q2 [_ Q4]]] Fs']. cbn [concat]. apply Forall_app. split; [|apply IH; exact Fs'].
    apply (splits_forall one4 (inb B) p eps m (ControlPoints s) ls); [apply inb_mid; assumption|unfold p; lia|exact Q2|exact Q4|exact Sp].
  Qed.
  Lemma C98_box_lemma fuel box segs : Curve_GetBoundingBox fuel c eps = Ok box -> Curve_ExtractBezier c = Ok segs ->
    finite_box box /\ ordered (box_val box) /\
    (forall seg, In seg segs -> in_box (head3 (val4 (znth one4 (ControlPoints seg) 0))) (box_val box) /\ in_box (head3 (val4 (znth one4 (ControlPoints seg) p))) (box_val box)).
  Proof.
    intros Eb Es. destruct main64 as [segs' [lss [B [E [Ls [L2 [HB [B1 [B2 [Fs [F2 [_ H]]]]]]]]]]]]. rewrite E in Es. injection Es as ->. apply H in Eb. subst box.
    pose proof (leaves_fin lss segs B HB B1 B2 Fs F2) as Fl.
    assert (Forall finite_box (map (ends one4) (concat lss))) as Fb.
    { apply Forall_forall. intros b Hb. apply in_map_iff in Hb. destruct Hb as [l [<- Hl]]. rewrite Forall_forall in Fl. destruct (Fl l Hl) as [Q1 Q2]. apply ends_val; [eapply Forall_impl; [|exact Q2]; apply inb_fin|]. intros ->. cbn in Q1. unfold p in Q1. lia. }
    destruct (fold_val _ Fb None I) as [G1 G2]. cbn [option_map] in G2.
    assert (Forall ordered (map box_val (map (ends one4) (concat lss)))) as Fo.
    { apply Forall_forall. intros b Hb. apply in_map_iff in Hb. destruct Hb as [b' [<- Hb]]. apply in_map_iff in Hb. destruct Hb as [l [<- Hl]]. rewrite Forall_forall in Fl. destruct (Fl l Hl) as [Q1 Q2].
      destruct (ends_val l) as [_ ->]; [eapply Forall_impl; [|exact Q2]; apply inb_fin|intros ->; cbn in Q1; unfold p in Q1; lia|]. apply box_make_ordered. }
    assert (map box_val (map (ends one4) (concat lss)) <> [] \/ (None : option (bbox R)) <> None) as Hne.
    { left. destruct F2 as [|s ls segs lss [m Sp] F2]; [cbn in Ls; lia|]. inversion_clear Fs as [|? ? [_ [Q2 _]] _]. destruct (splits_ends one4 p eps m _ ls P Q2 Sp) as [[l [Hl _]] _]. cbn [concat]. intros X. apply map_eq_nil, map_eq_nil, app_eq_nil in X. destruct X as [X _]. rewrite X in Hl. destruct Hl. }
    destruct (merge_fold _ Fo None I Hne) as [G [EG [OG [_ [Ib _]]]]].
    rewrite EG in G2. destruct (fold_left merge_box (map (ends one4) (concat lss)) None) as [bx|] eqn:Ebx; [|discriminate]. cbn [option_map] in G2. injection G2 as G2. cbn [box64]. rewrite G2.
    split; [exact G1|]. split; [exact OG|]. intros seg Hs.
    assert (exists ls m, In ls lss /\ splits one4 p eps m (ControlPoints seg) ls) as [ls [m [Hls Sp]]].
    { clear - F2 Hs. induction F2 as [|s ls segs lss [m Sp] F2 IH]; [destruct Hs|]. destruct Hs as [->|Hs]; [exists ls, m; split; [left; reflexivity|exact Sp]|]. destruct (IH Hs) as [ls' [m' [Q1 Q2]]]. exists ls', m'. split; [right; exact Q1|exact Q2]. }
    rewrite Forall_forall in Fs. destruct (Fs seg Hs) as [_ [Q2 _]].
    assert (forall l, In l ls -> in_box (head3 (val4 (znth one4 l 0))) G /\ in_box (head3 (val4 (znth one4 l p))) G) as Hin.
    { intros l Hl. assert (In l (concat lss)) as Hc by (apply in_concat; exists ls; split; assumption). rewrite Forall_forall in Fl. destruct (Fl l Hc) as [X1 X2].
      destruct (ends_val l) as [_ Ev]; [eapply Forall_impl; [|exact X2]; apply inb_fin|intros ->; cbn in X1; unfold p in X1; lia|]. rewrite X1 in Ev. replace (p + 1 - 1) with p in Ev by lia.
      assert (box_incl (box_val (ends one4 l)) G) as Hi by (apply Ib; apply in_map_iff; exists (ends one4 l); split; [reflexivity|]; apply in_map_iff; exists l; split; [reflexivity|exact Hc]).
      rewrite Ev in Hi. split; apply Hi; apply make_in. }
    destruct (splits_ends one4 p eps m _ ls P Q2 Sp) as [[l [Hl [_ El]]] [r [Hr' [_ Er]]]]. split; [rewrite <- El; apply Hin; exact Hl|rewrite <- Er; apply Hin; exact Hr'].
  Qed.
  Lemma halvable_ok X : halvable X -> half_ok X.
  Proof.
    intros [x [Fx [<- Hx]]]. pose proof (val_format x Fx) as G. split; [exact G|]. destruct Hx as [E|L].
    - rewrite E. replace (0 / 2)%R with 0%R by lra. apply generic_format_0.
    - replace (val x / 2)%R with (val x * bpow radix2 (-1))%R by (change (bpow radix2 (-1)) with (/ 2)%R; reflexivity). apply mult_bpow_exact_FLT; [exact G|].
      rewrite <- ThErrCurve.bpow_inv in L. assert (val x <> 0%R) as N. { intros Z. rewrite Z, Rabs_R0 in L. pose proof (bpow_gt_0 radix2 (- Z.of_nat 1000)). lra. }
      assert (- Z.of_nat 1000 < mag radix2 (val x)) as K. { apply (lt_bpow radix2). destruct (mag radix2 (val x)) as [e He]. cbn [mag_val]. destruct (He N). lra. } lia.
  Qed.
  Lemma C98_hull_lemma fuel box segs D : Curve_GetBoundingBox fuel c eps = Ok box -> Curve_ExtractBezier c = Ok segs -> halvable_box D ->
    (forall seg q, In seg segs -> In q (ControlPoints seg) -> in_box (head3 (val4 q)) D) -> box_incl (box_val box) D.
  Proof.
    intros Eb Es HD Hq. destruct main64 as [segs' [lss [B [E [Ls [L2 [HB [B1 [B2 [Fs [F2 [_ H]]]]]]]]]]]]. rewrite E in Es. injection Es as ->. apply H in Eb. subst box.
    set (Q := fun q => inb B q /\ in_box (head3 (val4 q)) D).
    assert (forall a b, Q a -> Q b -> Q (mid_ a b)) as HQ.
    { intros a b [Ia [Da Da']] [Ib [Db Db']]. split; [apply inb_mid; assumption|]. rewrite axis_le in Da, Da', Db, Db'.
      split; apply axis_le; intros g Hg; destruct (axis_of g Hg) as [h [Hh Eg]]; specialize (Da g Hg); specialize (Da' g Hg); specialize (Db g Hg); specialize (Db' g Hg); rewrite Eg in *; rewrite mid_coord by exact Hh;
        destruct (Ia h Hh) as [Fa Va]; destruct (Ib h Hh) as [Fb Vb]; [apply midc_ge|apply midc_le]; try assumption; try lra; apply halvable_ok; apply (HD g Hg). }
    assert (Forall (fun l => len l = p + 1 /\ Forall Q l) (concat lss)) as Fl.
    { clear H. assert (forall seg, In seg segs -> Forall Q (ControlPoints seg)) as HS.
      { intros seg Hs. rewrite Forall_forall in Fs. destruct (Fs seg Hs) as [_ [_ [_ X]]]. rewrite Forall_forall in X |- *. intros q Hin. split; [apply X; exact Hin|apply (Hq seg); assumption]. }
      clear - F2 Fs HS HQ P. induction F2 as [|s ls segs lss [m Sp] F2 IH]; [constructor|]. inversion_clear Fs as [|? ? [_ [Q2 _]] Fs']. cbn [concat]. apply Forall_app. split; [|apply IH; [exact Fs'|intros seg Hs; apply HS; right; exact Hs]].
      apply (splits_forall one4 Q p eps m (ControlPoints s) ls HQ); [unfold p; lia|exact Q2|apply HS; left; reflexivity|exact Sp]. }
    assert (Forall (fun b => finite_box b /\ box_incl (box_val b) D /\ ordered (box_val b)) (map (ends one4) (concat lss))) as Fb.
    { apply Forall_forall. intros b Hb. apply in_map_iff in Hb. destruct Hb as [l [<- Hl]]. rewrite Forall_forall in Fl. destruct (Fl l Hl) as [X1 X2].
      destruct (ends_val l) as [Y1 Y2]; [eapply Forall_impl; [|exact X2]; intros q [Xq _]; eapply inb_fin; exact Xq|intros ->; cbn in X1; unfold p in X1; lia|].
      split; [exact Y1|]. rewrite Y2. split; [|apply box_make_ordered]. rewrite Forall_forall in X2. apply make_least; apply X2; apply znth_In; unfold p in *; lia. }
    assert (Forall finite_box (map (ends one4) (concat lss))) as Fb3 by (eapply Forall_impl; [|exact Fb]; intros b Xb; apply Xb).
    destruct (fold_val _ Fb3 None I) as [_ G2]. cbn [option_map] in G2.
    assert (Forall ordered (map box_val (map (ends one4) (concat lss)))) as Fo. { apply Forall_forall. intros b Hb. apply in_map_iff in Hb. destruct Hb as [b' [<- Hb]]. rewrite Forall_forall in Fb. apply (Fb b' Hb). }
    assert (map box_val (map (ends one4) (concat lss)) <> [] \/ (None : option (bbox R)) <> None) as Hne.
    { left. clear - F2 Fs Ls L2 P. destruct F2 as [|s ls segs lss [m Sp] F2]; [cbn in Ls; lia|]. inversion_clear Fs as [|? ? [_ [Q2 _]] _]. destruct (splits_ends one4 p eps m _ ls P Q2 Sp) as [[l [Hl _]] _]. cbn [concat]. intros X. apply map_eq_nil, map_eq_nil, app_eq_nil in X. destruct X as [X _]. rewrite X in Hl. destruct Hl. }
    destruct (merge_fold _ Fo None I Hne) as [G [EG [_ [_ [_ Hl]]]]]. rewrite EG in G2. destruct (fold_left merge_box (map (ends one4) (concat lss)) None) as [bx|] eqn:Ebx; [|discriminate]. cbn [option_map] in G2. injection G2 as G2. cbn [box64]. rewrite G2.
    apply Hl; [exact I|]. intros b Hb. apply in_map_iff in Hb. destruct Hb as [b' [<- Hb]]. rewrite Forall_forall in Fb. apply (Fb b' Hb).
  Qed.
  Lemma cp_val64 s i : point3 (cp (curve_val s) i) = head3 (val4 (znth one4 (ControlPoints s) i)).
  Proof. rewrite (map_znth val4 one4). assert (val4 one4 = Vec4 0 0 0 1)%R as -> by (unfold one4, val4; cbn [x4 y4 z4 w4]; rewrite val_dz, val_done; reflexivity). reflexivity. Qed.
  Lemma enlarge e a b bx : in_box a bx -> within3 e a b -> in_box_enlarged e bx b.
  Proof.
    intros [[A1 [A2 A3]] [B1 [B2 B3]]] [W1 [W2 W3]]. apply ThBBox.Rabs_le_inv in W1, W2, W3. unfold in_box_enlarged, above_box. repeat split; lra.
  Qed.
  Lemma C98_knots_lemma fuel box t : Curve_GetBoundingBox fuel c eps = Ok box -> In t (vals (Knots c)) ->
    in_box_enlarged (1200 * IZR n * rho / 2 ^ 53 * M + / 2 ^ 390) (box_val box) (curve_point (curve_val c) t).
  Proof.
    intros Eb Ht. pose proof M_small as Ms. assert (2 ^ 26 <= 2 ^ 98)%R as Q by (apply Rle_pow; [lra|lia]).
    destruct segments_tame as [segs [E [Ls [L2 Fs]]]]. destruct (C98_box_lemma fuel box segs Eb E) as [_ [_ Hin]].
    destruct (C97_segments_lemma c M lo hi rho ts n S P Im Dt En Tm ltac:(lra) Wt Llo Lhi Hr Hrr Hn) as [segs' [E' [_ W]]]. rewrite E in E'. injection E' as <-.
    assert (forall j s, 0 <= j < len segs -> s = 0%R \/ s = 1%R -> in_box_enlarged (1200 * IZR n * rho / 2 ^ 53 * M + / 2 ^ 390) (box_val box) (curve_point (curve_val c) (at_ ts j + (at_ ts (j + 1) - at_ ts j) * s))) as K.
    { intros j s Hj Hs. destruct (vget_ex segs j Hj) as [seg Es]. destruct (W j seg Es) as [W' _]. pose proof (ThBBox5.vget_In _ _ _ Es) as Is. rewrite Forall_forall in Fs. destruct (Fs seg Is) as [Q1 [Q2 Q3]]. pose proof (tame_wf _ _ Q1 Q3) as Wf.
      assert (0 <= s <= 1)%R as Hs' by (destruct Hs; subst; lra). apply (enlarge _ (curve_point (curve_val seg) s)); [|apply W'; exact Hs'].
      destruct (Hin seg Is) as [I0 I1]. destruct Hs as [->| ->].
      - rewrite (curve_point_start _ Wf). rewrite cp_val64. exact I0.
      - rewrite (curve_point_end _ Wf). unfold curve_val at 2. cbn [ControlPoints]. rewrite len_map, Q2. replace (p + 1 - 1) with p by lia. rewrite cp_val64. exact I1. }
    destruct Dt as [_ Dm]. apply Dm in Ht. apply (In_znth 0%R) in Ht. destruct Ht as [i [Hi <-]]. rewrite <- at_znth. destruct (Z.eq_dec i (len ts - 1)) as [->|Ni].
    - pose proof (K (len ts - 2) 1%R ltac:(lia) (or_intror eq_refl)) as X. replace (len ts - 2 + 1) with (len ts - 1) in X by lia. replace (at_ ts (len ts - 2) + (at_ ts (len ts - 1) - at_ ts (len ts - 2)) * 1)%R with (at_ ts (len ts - 1)) in X by ring. exact X.
    - pose proof (K i 0%R ltac:(lia) (or_introl eq_refl)) as X. rewrite Rmult_0_r, Rplus_0_r in X. exact X.
  Qed.
End Main.
Lemma C98_contents_lemma : forall (c : curve b64) M lo hi rho ts n eps, sound_curve c -> 1 <= Degree c -> interior_multiplicity_le (Degree c) (vals (Knots c)) -> distinct_knots (vals (Knots c)) ts ->
  n = Degree c * (len ts - 2) - (len (Knots c) - 2 * Degree c - 2) ->
  Forall (tame M) (ControlPoints c) -> (1 <= M)%R -> (IZR (Degree c) ^ 2 * M <= 2 ^ 26)%R ->
  weights_in lo hi (ControlPoints c) -> (/ 2 ^ 99 <= lo)%R -> (hi <= 2 ^ 99)%R -> (hi <= rho * lo)%R -> (rho <= 2 ^ 29)%R -> (IZR n * rho <= 2 ^ 43)%R ->
  forall fuel box segs, Curve_GetBoundingBox fuel c eps = Ok box -> Curve_ExtractBezier c = Ok segs ->
  finite_box box /\ ordered (box_val box) /\
  (forall seg a, In seg segs -> vget (ControlPoints seg) 0 = Ok a \/ vget (ControlPoints seg) (Degree c) = Ok a -> in_box (val3 (head3 a)) (box_val box)) /\
  (forall t, In t (vals (Knots c)) -> in_box_enlarged (1200 * IZR n * rho / 2 ^ 53 * M + / 2 ^ 390) (box_val box) (curve_point (curve_val c) t)).
Proof.
  intros c M lo hi rho ts n eps S P Im Dt En Tm M1 HM Wt Llo Lhi Hr Hrr Hn fuel box segs Eb Es.
  destruct (C98_box_lemma c M lo hi rho ts n eps S P Im Dt En Tm M1 HM Wt Llo Lhi Hr Hrr Hn fuel box segs Eb Es) as [F1 [O1 H]]. split; [exact F1|]. split; [exact O1|]. split.
  - intros seg a Hs Ha. rewrite head_val. destruct (H seg Hs) as [H0 H1]. destruct Ha as [Ha|Ha]; apply (vget_inv one4) in Ha; destruct Ha as [_ ->]; assumption.
  - intros t. apply (C98_knots_lemma c M lo hi rho ts n eps S P Im Dt En Tm M1 HM Wt Llo Lhi Hr Hrr Hn fuel box t Eb).
Qed.
