(** Knot removal: round trip with insertion, exactness, counting, witnesses. *)
From Coq Require Import Reals ZArith List Lra Lia Bool Permutation SpecFloat.
From Verif Require Import Outcome Num ModelCore ModelAlgo ModelCurve SpecCore SpecBasis SpecCurve
  ThOutcome ThReal ThKnots ThVec ThSum ThSpline ThBasis ThCurve ThInsert ThRemove ThRemove2 ThRemove3 ThB64 ThCoreWit ThCurveWit.
Import ListNotations.
Open Scope Z_scope.

(** ** C35 *)
Inductive ins_seq (u : R) (c : curve R) : nat -> curve R -> Prop :=
| seq_0 : ins_seq u c 0 c
| seq_S n d e k : ins_seq u c n d -> knot_span (Degree d) (Knots d) k u -> inserted d e k u -> ins_seq u c (S n) e.
Lemma ins_seq_wf u c n d : wf_curve c -> (0 < u < 1)%R -> ins_seq u c n d -> wf_curve d /\ Degree d = Degree c.
Proof.
  intros W Hu H. induction H as [|n d e k _ [IW ID] K I]; [auto|]. split; [apply (inserted_wf d e k u); assumption|].
  destruct I as [D _]. congruence.
Qed.
Lemma insert_seq c u : wf_curve c -> (0 < u < 1)%R -> forall n,
  exists d, foldM (insert_one (Degree c)) (repeat u n) (Knots c, ControlPoints c) = Ok (Knots d, ControlPoints d) /\ ins_seq u c n d.
Proof.
  intros W Hu. induction n as [|n IH].
  - exists c. split; [reflexivity|constructor].
  - destruct IH as [d [E Sq]]. destruct (ins_seq_wf u c n d W Hu Sq) as [Wd Dd].
    destruct (insert_one_ok d u Wd Hu) as [e [k [E' [K I]]]]. exists e. split; [|econstructor; eassumption].
    replace (repeat u (S n)) with (repeat u n ++ [u]) by apply repeat_snoc. rewrite foldM_app, E. cbn [bind foldM].
    rewrite <- Dd, E'. reflexivity.
Qed.
Lemma times_seq c u n : wf_curve c -> (0 < u < 1)%R -> 0 <= n ->
  exists d, Curve_InsertKnot_times c u n = Ok d /\ ins_seq u c (Z.to_nat n) d.
Proof.
  intros W Hu Hn. destruct (insert_seq c u W Hu (Z.to_nat n)) as [d [E Sq]]. exists d. split; [|exact Sq].
  unfold Curve_InsertKnot_times. rewrite vmake_ok by exact Hn. cbn [bind]. unfold Curve_InsertKnot_list. rewrite E. cbn [bind].
  destruct (ins_seq_wf u c _ d W Hu Sq) as [_ Dd]. rewrite <- Dd, curve_eta. reflexivity.
Qed.
Lemma hp_low c i : i < 0 -> hp c i = hp c 0.
Proof. intros H. unfold hp, cp. do 2 f_equal. lia. Qed.
Lemma hp_high c i : len (ControlPoints c) <= i -> hp c i = (Vec4 0 0 0 1)%R.
Proof. intros H. unfold hp, cp. change (nth (Z.to_nat i) ?l ?d) with (znth d l i). rewrite znth_default by exact H. unfold ToHomo. simpl. norm_R. f_equal; ring. Qed.

Section Chain.
  Variables (e : curve R) (u : R) (r : Z).
  Notation L := (Knots e).
  Notation p := (Degree e).
  Let s := count u L.
  Hypothesis We : wf_curve e.
  Hypothesis Hu : (0 < u < 1)%R.
  Hypothesis K : knot_span p L r u.
  Hypothesis Sp1 : s <= p + 1.
  Let n := len (ControlPoints e) - 1.
  Let LK : len L = n + p + 2. Proof. unfold n. rewrite (wf_count e We). lia. Qed.
  Let C : clamped p L. Proof. apply (wf_knots e We). Qed.

  Lemma del_span t : 0 <= t <= s -> knot_span p (del L r t) (r - t) u.
  Proof.
    intros Ht. destruct (count_span p L r u C K Hu) as [A [B _]]. fold s in A, B. pose proof K as [Kr Ku].
    split; [rewrite (dl_len L p n u r C LK Hu K Sp1) by exact Ht; lia|].
    rewrite !(dl_kf L p n u r C LK Hu K Sp1) by exact Ht.
    destruct (Z.leb_spec (r - t) (r - t)); [|lia]. destruct (Z.leb_spec (r - t + 1) (r - t)); [lia|]. split.
    - pose proof (clamped_mono p L C (r - t) r ltac:(lia)). lra.
    - replace (r - t + 1 + t) with (r + 1) by lia. apply Ku.
  Qed.
  Lemma seq_step t d d' k : 0 <= t < s -> wf_curve d' -> Degree d' = p -> knot_span p (Knots d') k u -> inserted d' d k u ->
    Knots d = del L r t -> Knots d' = del L r (t + 1) /\ one L p u r s t (hp d) (hp d').
  Proof.
    intros Ht W' D' K' I Ed. pose proof I as [Dd [Il [Lc G]]].
    destruct (count_span p L r u C K Hu) as [A [B [Kmid Klow]]]. fold s in A, B, Kmid, Klow. pose proof K as [Kr Ku].
    pose proof (cl_degree p L C) as P0.
    assert (wf_curve d) as Wd by (apply (inserted_wf d' d k u); try assumption; rewrite D'; exact K').
    pose proof (dl_ins L p n u r C LK Hu K Sp1 t Ht) as Dl.
    assert (k = r - t - 1) as Ek.
    { assert (knot_span p (Knots d) (k + 1) u) as K1.
      { destruct K' as [K1 K2]. destruct Il as [Ll Gl]. split; [lia|]. rewrite !Gl. unfold ins_knots.
        destruct (Z.leb_spec (k + 1) k); [lia|]. rewrite Z.eqb_refl. destruct (Z.leb_spec (k + 1 + 1) k); [lia|].
        destruct (Z.eqb_spec (k + 1 + 1) (k + 1)); [lia|]. replace (k + 1 + 1 - 1) with (k + 1) by lia. lra. }
      pose proof (del_span t ltac:(lia)) as K2. rewrite <- Ed in K2.
      pose proof (span_unique p (Knots d) _ _ u ltac:(rewrite <- D', <- Dd; apply (wf_knots d Wd)) K1 K2). lia. }
    assert (Knots d' = del L r (t + 1)) as Ek'.
    { destruct Il as [L1 G1], Dl as [L2 G2]. rewrite Ed in L1, G1. apply kf_ext; [lia|]. intros i.
      destruct (Z_le_gt_dec i k) as [Hi|Hi].
      - specialize (G1 i). specialize (G2 i). unfold ins_knots in G1, G2. rewrite Ek in G1, Hi.
        destruct (Z.leb_spec i (r - t - 1)); [congruence|lia].
      - specialize (G1 (i + 1)). specialize (G2 (i + 1)). unfold ins_knots in G1, G2. rewrite Ek in G1, Hi.
        destruct (Z.leb_spec (i + 1) (r - t - 1)); [lia|]. destruct (Z.eqb_spec (i + 1) (r - t - 1 + 1)); [lia|].
        replace (i + 1 - 1) with i in * by lia. congruence. }
    split; [exact Ek'|]. subst k.
    assert (forall i, kf (Knots d') i = if i <=? r - (t + 1) then kf L i else kf L (i + (t + 1))) as Kd.
    { intros i. rewrite Ek'. apply (dl_kf L p n u r C LK Hu K Sp1). lia. }
    pose proof (wf_count d' W') as Cn'. assert (len (Knots d') = len L - (t + 1)) as Ln' by (rewrite Ek'; apply (dl_len L p n u r C LK Hu K Sp1); lia).
    rewrite D' in *.
    assert (forall i, 0 <= i < len (ControlPoints d) -> r - t - 1 - p < i <= r - t - 1 ->
      hp d i = v4add (v4scale (ins_alpha (kf (Knots d')) p u i) (hp d' i)) (v4scale (1 - ins_alpha (kf (Knots d')) p u i)%R (hp d' (i - 1)))) as Bl.
    { intros i Hi Hk. unfold hp at 1. rewrite G by exact Hi. unfold ins_pts.
      destruct (Z.leb_spec i (r - t - 1 - p)); [lia|]. destruct (Z.leb_spec i (r - t - 1)); [|lia].
      unfold blend. rewrite ToHomo_fromh; [reflexivity|].
      assert (0 < w4 (blend_h (ins_alpha (kf (Knots d')) p u i) (cp d' i) (cp d' (i - 1))))%R; [|lra].
      apply blend_w; try (apply cp_weight; apply (wf_weights d' W')).
      apply (ins_den _ p (r - t - 1) u i); [|apply K'|lia]. apply (clamped_mono p). rewrite <- D'. apply (wf_knots d' W'). }
    split; [|split].
    - intros i Hi. assert (forall i, 0 <= i -> i < r - p - t -> hp d i = hp d' i) as Q.
      { intros q Q0 Q1. unfold hp. rewrite G by lia. unfold ins_pts. destruct (Z.leb_spec q (r - t - 1 - p)); [reflexivity|lia]. }
      destruct (Z_lt_le_dec i 0); [rewrite !(hp_low _ i) by lia; apply Q; lia|apply Q; lia].
    - intros i Hi. rewrite Bl by lia. assert (ins_alpha (kf (Knots d')) p u i = al L p u t i) as ->; [|reflexivity].
      unfold ins_alpha, al. rewrite !Kd. destruct (Z.leb_spec i (r - (t + 1))); [|lia]. destruct (Z.leb_spec (i + p) (r - (t + 1))); [lia|].
      replace (i + p + (t + 1)) with (i + (p + 1) + t) by lia. reflexivity.
    - intros i Hi. destruct (Z_lt_le_dec i (len (ControlPoints d))) as [Hl|Hl]; [|rewrite !hp_high by lia; reflexivity].
      destruct (Z_le_gt_dec i (r - t - 1)) as [Hk|Hk].
      + rewrite Bl by lia. assert (ins_alpha (kf (Knots d')) p u i = 0%R) as ->.
        { unfold ins_alpha. rewrite Kd. destruct (Z.leb_spec i (r - (t + 1))); [|lia]. rewrite Kmid by lia. unfold Rdiv. ring. }
        apply lin_ext. intros f Lf. rewrite lin_add, !lin_scale by assumption. ring.
      + unfold hp. rewrite G by lia. unfold ins_pts. destruct (Z.leb_spec i (r - t - 1 - p)); [lia|]. destruct (Z.leb_spec i (r - t - 1)); [lia|reflexivity].
  Qed.
  Lemma seq_chain c m : wf_curve c -> Degree c = p -> forall d t, ins_seq u c m d -> 0 <= t -> t + Z.of_nat m <= s -> Knots d = del L r t ->
    Knots c = del L r (t + Z.of_nat m) /\ chain L p u r s m t (hp d) (hp c).
  Proof.
    intros Wc Dc. induction m as [|m IH]; intros d t Sq T0 Ts Ed; inversion Sq; subst.
    - replace (t + Z.of_nat 0) with t by lia. split; [exact Ed|constructor].
    - destruct (ins_seq_wf u c m d0 Wc Hu H0) as [W0 D0].
      assert (Degree d0 = p) as Dp by congruence.
      destruct (seq_step t d d0 k) as [E1 O]; try assumption; try lia; [rewrite <- Dp; assumption|].
      destruct (IH d0 (t + 1) H0 ltac:(lia) ltac:(lia) E1) as [E2 Ch].
      replace (t + Z.of_nat (S m)) with (t + 1 + Z.of_nat m) by lia. split; [exact E2|]. econstructor; eassumption.
  Qed.
End Chain.

Lemma ins_seq_count u c n d : wf_curve c -> (0 < u < 1)%R -> ins_seq u c n d ->
  Permutation (Knots d) (repeat u n ++ Knots c) /\ len (ControlPoints d) = len (ControlPoints c) + Z.of_nat n.
Proof.
  intros W Hu H. induction H as [|n d e k Sq [IP IL] K I].
  - split; [reflexivity|lia].
  - destruct (ins_seq_wf u c n d W Hu Sq) as [Wd _]. destruct (inserted_refines d e k u Wd K Hu I) as [_ [_ [Pe [Le _]]]].
    split.
    + rewrite Pe. cbn [app repeat]. apply perm_skip. exact IP.
    + rewrite Le, IL. change (len [u]) with 1. lia.
Qed.
Lemma count_perm v l l' : Permutation l l' -> count v l = count v l'.
Proof. intros H. unfold count. f_equal. apply (proj1 (Permutation_count_occ Req_EM_T l l')). exact H. Qed.
Lemma asserts_ok u times : (0 < u < 1)%R -> 1 <= times -> (ngtb u n0 && nltb u n1 = true) /\ (0 <? times) = true.
Proof.
  intros Hu Ht. norm_R. split; [|apply Z.ltb_lt; lia]. apply andb_true_iff. rewrite !Rltb_true. lra.
Qed.
Lemma remove_seq c d u n tol : wf_curve c -> (0 < u < 1)%R -> separated u (Knots c) -> 1 <= n ->
  count u (Knots c) + n <= Degree c + 1 -> n <= Degree c + count u (Knots c) -> (0 <= tol)%R ->
  ins_seq u c (Z.to_nat n) d -> Curve_RemoveKnot d u n tol = Ok (c, n).
Proof.
  intros W Hu Sep Hn Hm H2 Ht Sq. destruct (ins_seq_wf u c _ d W Hu Sq) as [Wd Dd].
  destruct (ins_seq_count u c _ d W Hu Sq) as [Pm Ln]. pose proof (wf_knots d Wd) as Cd. pose proof (wf_count d Wd) as Cn.
  assert (count u (Knots d) = count u (Knots c) + n) as Cu.
  { rewrite (count_perm u _ _ Pm), count_app, count_repeat. destruct (Req_EM_T u u); [lia|tauto]. }
  assert (separated u (Knots d)) as Sd.
  { intros v Hv. apply (Permutation_in v Pm) in Hv. apply in_app_or in Hv. destruct Hv as [Hv|Hv]; [left; apply (repeat_spec _ _ _ Hv)|apply Sep; exact Hv]. }
  destruct (span_find _ _ u Cd Hu) as [r [Er K]].
  assert (0 <= count u (Knots c)) by (unfold count; lia).
  destruct (seq_chain d u r Wd Hu K ltac:(lia) c (Z.to_nat n) W (eq_sym Dd) d 0 Sq ltac:(lia) ltac:(lia)) as [Ek Ch].
  { symmetry. apply del_0. }
  replace (0 + Z.of_nat (Z.to_nat n)) with n in Ek by lia.
  unfold Curve_RemoveKnot. destruct (asserts_ok u n Hu Hn) as [-> ->]. cbn [assert_ bind].
  rewrite (Removal_complete (Knots d) (Degree d) (len (ControlPoints d) - 1) u r Cd ltac:(lia) Hu K Sd ltac:(lia) (ControlPoints d) ltac:(lia)
     n tol (hp c)); try assumption; try lia.
  - cbn [bind]. rewrite <- Ek. f_equal. f_equal. destruct c as [dc kc pc]. simpl in *. f_equal; [exact Dd|].
    apply list_cp_ext.
    + pose proof (len_nonneg pc). rewrite len_map, len_zrange. lia.
    + rewrite len_map, len_zrange. intros i Hi. change (nth (Z.to_nat i) ?l ?d0) with (znth d0 l i).
      rewrite (znth_map _ 0) by (rewrite len_zrange; lia). rewrite znth_zrange by lia. replace (0 + i) with i by lia.
      unfold hp, cp. simpl. apply fromh_ToHomo.
      pose proof (cp_weight (Curve dc kc pc) i (wf_weights _ W)) as Q. unfold cp in Q. simpl in Q. unfold znth. lra.
  - apply (wf_weights d Wd).
  - intros i Hi. unfold hp. cbn [w4 ToHomo]. pose proof (cp_weight c i (wf_weights c W)). simpl. lra.
Qed.
Lemma C35_times_lemma c u n tol : wf_curve c -> (0 < u < 1)%R -> separated u (Knots c) -> 1 <= n ->
  count u (Knots c) + n <= Degree c + 1 -> n <= Degree c + count u (Knots c) -> (0 <= tol)%R ->
  exists c', Curve_InsertKnot_times c u n = Ok c' /\ Curve_RemoveKnot c' u n tol = Ok (c, n).
Proof.
  intros. destruct (times_seq c u n) as [d [E Sq]]; try assumption; try lia. exists d. split; [exact E|].
  apply remove_seq; assumption.
Qed.
Lemma C35_lemma c u tol : wf_curve c -> 1 <= Degree c -> (0 < u < 1)%R -> separated u (Knots c) ->
  count u (Knots c) <= Degree c -> (0 <= tol)%R ->
  exists c', Curve_InsertKnot c u = Ok c' /\ Curve_RemoveKnot c' u 1 tol = Ok (c, 1).
Proof.
  intros W D1 Hu Sep Hm Ht. destruct (Curve_InsertKnot_ok c u W D1 Hu) as [d [k [E [K I]]]]. exists d. split; [exact E|].
  assert (0 <= count u (Knots c)) by (unfold count; lia).
  apply remove_seq; try assumption; try lia. change (Z.to_nat 1) with 1%nat. econstructor; [constructor|exact K|exact I].
Qed.

(** ** C38 *)
Lemma C38_lemma c u times c' : wf_curve c -> (0 < u < 1)%R -> separated u (Knots c) ->
  1 <= times <= count u (Knots c) -> count u (Knots c) <= Degree c + 1 -> 2 * times <= Degree c + count u (Knots c) ->
  Curve_RemoveKnot c u times 0%R = Ok (c', times) ->
  Degree c' = Degree c /\ clamped (Degree c') (Knots c') /\ len (ControlPoints c') = len (Knots c') - Degree c' - 1 /\
  Permutation (Knots c) (repeat u (Z.to_nat times) ++ Knots c') /\
  forall x, Curve_Evaluate c' x = Curve_Evaluate c x.
Proof.
  intros W Hu Sep Ht Hm H2 E. pose proof (wf_knots c W) as C. pose proof (wf_count c W) as Cn.
  destruct (span_find _ _ u C Hu) as [r [Er K]]. set (n := len (ControlPoints c) - 1).
  assert (len (Knots c) = n + Degree c + 2) as LK by (unfold n; lia).
  unfold Curve_RemoveKnot in E. destruct (asserts_ok u times Hu ltac:(lia)) as [A1 A2]. rewrite A1, A2 in E. cbn [assert_ bind] in E.
  destruct (KnotRemoval (Knots c) (ControlPoints c) (Degree c) u times 0%R) as [[[t k'] q']| | | | |] eqn:Ek; cbn [bind] in E; try discriminate.
  inversion E; subst c' t. clear E.
  destruct (Removal_sound (Knots c) (Degree c) n u r C LK Hu K Sep Hm (ControlPoints c) ltac:(unfold n; lia) times k' q' Ht H2 Ek) as [-> [P' [Ch [-> Wn]]]].
  assert (0 <= times <= count u (Knots c)) as Ht' by lia.
  pose proof (dl_clamped _ _ n u r C LK Hu K Hm times Ht') as C'.
  pose proof (dl_len _ _ n u r C LK Hu K Hm times Ht') as L'.
  set (c' := Curve (Degree c) (del (Knots c) r times) (map (fun i => fromh (P' i)) (zrange 0 (n + 1 - times)))).
  change (Degree c' = Degree c /\ clamped (Degree c') (Knots c') /\ len (ControlPoints c') = len (Knots c') - Degree c' - 1 /\
    Permutation (Knots c) (repeat u (Z.to_nat times) ++ Knots c') /\ forall x, Curve_Evaluate c' x = Curve_Evaluate c x).
  assert (len (ControlPoints c') = len (Knots c') - Degree c' - 1) as Cn'.
  { unfold c'. cbn [Degree Knots ControlPoints]. rewrite len_map, len_zrange, L'. pose proof (cl_len _ _ C'). lia. }
  split; [reflexivity|]. split; [exact C'|]. split; [exact Cn'|].
  split; [apply (dl_perm _ _ n u r C LK Hu K Hm times Ht')|]. intros x.
  destruct (Rle_dec 0 x) as [Hx0|Hx0]; [destruct (Rle_dec x 1) as [Hx1|Hx1]|]; [|rewrite !Curve_Evaluate_outside by lra; reflexivity..].
  assert (0 <= x <= 1)%R as Hx by lra.
  assert (forall f, lin f -> hsum c' f x = hsum c f x) as Hs.
  { intros f Lf. pose proof (chain_sum (Knots c) (Degree c) n u r C LK Hu K Hm f x Lf Hx (Z.to_nat times) 0 _ P' ltac:(lia) ltac:(lia) Ch) as Q.
    replace (0 + Z.of_nat (Z.to_nat times)) with times in Q by lia. rewrite del_0 in Q.
    unfold hsum. rewrite Cn', Cn. etransitivity; [|symmetry; exact Q]. apply zsum_ext. intros i Hi. unfold basis_fun. f_equal. f_equal.
    unfold c' in Hi. cbn [Degree Knots] in Hi.
    unfold hp, cp, c'. cbn [ControlPoints]. change (nth (Z.to_nat i) ?l ?d0) with (znth d0 l i).
    assert (0 <= i < n + 1 - times) as Hi' by lia.
    rewrite (znth_map _ 0) by (rewrite len_zrange; lia). rewrite znth_zrange by lia. replace (0 + i) with i by lia.
    rewrite ToHomo_fromh by (apply Wn; lia). reflexivity. }
  assert (curve_den c' x = curve_den c x) as Dn by (rewrite !den_hom; apply Hs; apply lin_w).
  rewrite (Curve_Evaluate_ok c x W Hx), (Curve_Evaluate_gen c' x); try assumption.
  - f_equal. rewrite !curve_point_hsum. rewrite !Hs by (unfold lin; auto). reflexivity.
  - rewrite Dn. pose proof (curve_den_pos c x W Hx). lra.
Qed.

(** ** C36, C37: for every number type *)
Section Counting.
  Context {T : Type} `{NT : Num T}.
  Lemma while_partial {S} (Q : S -> Prop) fuel cond (body : S -> outcome S) : forall s s',
    (forall s s', Q s -> body s = Ok s' -> Q s') -> Q s -> while_ fuel cond body s = Ok s' -> Q s'.
  Proof.
    induction fuel as [|fuel IH]; intros s s' Hb Hq E; cbn [while_] in E.
    - destruct (cond s) as [[]| | | | |]; cbn [bind] in E; try discriminate. inversion E; subst. exact Hq.
    - destruct (cond s) as [[]| | | | |]; cbn [bind] in E; try discriminate; [|inversion E; subst; exact Hq].
      destruct (body s) as [s1| | | | |] eqn:Eb; cbn [bind] in E; try discriminate. apply (IH s1); try assumption. apply (Hb s); assumption.
  Qed.
  Lemma vset_len {A} (l : list A) i x l' : vset l i x = Ok l' -> len l' = len l.
  Proof. intros E. destruct (vset_inv _ _ _ _ E) as [_ ->]. apply len_update. Qed.
  Lemma removal_copy_len (temp : list (option (vec4 T))) off t i0 j0 pts i j pts' :
    removal_copy temp off t (i0, j0, pts) = Ok (i, j, pts') -> len pts' = len pts.
  Proof.
    unfold removal_copy. intros E.
    apply (while_partial (fun st : Z * Z * list (vec4 T) => len (snd st) = len pts)) in E; [exact E| |reflexivity].
    intros [[a b] q] [[a' b'] q'] Q Eb. cbn [snd] in *.
    repeat match type of Eb with bind ?m _ = _ => destruct m eqn:?; cbn [bind] in Eb; try discriminate end.
    inversion Eb; subst. repeat match goal with H : vset _ _ _ = Ok _ |- _ => apply vset_len in H end. congruence.
  Qed.
  Lemma removal_loop_count N : forall (knots : list T) order u tol t first last pts temp t' pts',
    removal_loop N knots order u tol t first last pts temp = Ok (t', pts') ->
    t <= t' <= t + Z.of_nat N /\ len pts' = len pts /\ (t' = t -> pts' = pts).
  Proof.
    induction N as [|N IH]; intros knots order u tol t first last pts temp t' pts' E; cbn [removal_loop] in E.
    - inversion E; subst. repeat split; lia.
    - cbv zeta in E.
      repeat match type of E with
      | bind ?m _ = _ => destruct m eqn:?; cbn [bind] in E; try discriminate
      | (let '(_, _) := ?q in _) = _ => destruct q
      | (if ngtb ?a ?b then _ else _) = _ => destruct (ngtb a b) end.
      all: try (inversion E; subst; repeat split; lia).
      apply IH in E. destruct E as [A [B _]]. match goal with H : removal_copy _ _ _ _ = Ok _ |- _ => apply removal_copy_len in H end.
      repeat split; try lia.
  Qed.
  Lemma KnotRemoval_count (knots : list T) points degree u times tol t k' q' :
    KnotRemoval knots points degree u times tol = Ok (t, k', q') -> 0 <= t /\
    (t = 0 -> k' = knots /\ q' = map ToHomo points) /\
    (t <> 0 -> t <= times /\ len k' = len knots - times /\ len q' = len points - times).
  Proof.
    intros Ek.
    unfold KnotRemoval in Ek. cbv zeta in Ek.
    destruct (KnotVector_FindSpanIndex knots degree u) as [r| | | | |]; cbn [bind] in Ek; try discriminate.
    destruct (CalcTOL (map ToHomo points) tol) as [tl| | | | |]; cbn [bind] in Ek; try discriminate.
    destruct (uninit (vec4 T) (2 * degree + 1)) as [tmp| | | | |]; cbn [bind] in Ek; try discriminate.
    match type of Ek with bind ?m _ = _ => destruct m as [[t2 pts]| | | | |] eqn:El; cbn [bind] in Ek; try discriminate end.
    apply removal_loop_count in El. destruct El as [B [Lp P0]]. rewrite len_map in Lp.
    destruct (Z.eqb_spec t2 0) as [Z0|Z0].
    - inversion Ek; subst. split; [lia|]. split; [|lia]. intros _. auto.
    - destruct (for_up 1 t2 _ _) as [[i j]| | | | |]; cbn [bind] in Ek; try discriminate.
      match type of Ek with bind ?m _ = _ => destruct m as [[p2 j2]| | | | |] eqn:E2; cbn [bind] in Ek; try discriminate end.
      assert (len p2 = len pts) as L2.
      { destruct (Z_le_gt_dec (i + 1) (len (map ToHomo points) - 1 + 1)) as [Le|Gt].
        - apply (for_up_inv_partial (fun _ (st : list (vec4 T) * Z) => len (fst st) = len pts)) in E2; [exact E2|exact Le|reflexivity|].
          intros k [q1 j1] [q2 j2'] _ Q Eb. cbn [fst] in *. destruct (vget q1 k); cbn [bind] in Eb; try discriminate.
          destruct (vset q1 j1 a) as [q3| | | | |] eqn:Ev; cbn [bind] in Eb; try discriminate. inversion Eb; subst. apply vset_len in Ev. congruence.
        - rewrite for_up_empty in E2 by lia. inversion E2. reflexivity. }
      destruct (vresize p2 (len p2 - times) v4zero) as [p3| | | | |] eqn:E3; cbn [bind] in Ek; try discriminate.
      assert (len p3 = len p2 - times) as L3.
      { unfold vresize in E3. destruct (Z.ltb_spec (len p2 - times) 0); [discriminate|]. inversion E3. rewrite len_app, len_firstn, len_repeat. lia. }
      match type of Ek with bind ?m _ = _ => destruct m as [k2| | | | |] eqn:E4; cbn [bind] in Ek; try discriminate end.
      assert (len k2 = len knots) as L4.
      { match type of E4 with for_up ?lo ?hi _ _ = _ => destruct (Z_le_gt_dec lo hi) as [Le|Gt] end.
        - apply (for_up_inv_partial (fun _ (l : list T) => len l = len knots)) in E4; [exact E4|exact Le|reflexivity|].
          intros k l1 l2 _ Q Eb. destruct (vget l1 k); cbn [bind] in Eb; try discriminate. apply vset_len in Eb. congruence.
        - rewrite for_up_empty in E4 by lia. inversion E4. reflexivity. }
      destruct (vresize k2 (len k2 - times) n0) as [k3| | | | |] eqn:E5; cbn [bind] in Ek; try discriminate.
      assert (len k3 = len k2 - times) as L5.
      { unfold vresize in E5. destruct (Z.ltb_spec (len k2 - times) 0); [discriminate|]. inversion E5. rewrite len_app, len_firstn, len_repeat. lia. }
      destruct (mapM FromHomo p3) as [p4| | | | |] eqn:E6; cbn [bind] in Ek; try discriminate. inversion Ek; subst.
      assert (forall l l' : list (vec4 T), mapM FromHomo l = Ok l' -> len l' = len l) as ML.
      { induction l as [|h l IH]; intros l' Em; simpl in Em; [inversion Em; reflexivity|].
        destruct (FromHomo h); cbn [bind] in Em; try discriminate. destruct (mapM FromHomo l) as [m| | | | |]; cbn [bind] in Em; try discriminate.
        inversion Em; subst. rewrite !len_cons. rewrite (IH m eq_refl). reflexivity. }
      apply ML in E6. split; [lia|]. split; [lia|]. intros _. lia.
  Qed.
  Lemma RemoveKnot_count (c : curve T) u times tol c' t : Curve_RemoveKnot c u times tol = Ok (c', t) ->
    Degree c' = Degree c /\ 0 <= t <= times /\
    (t = 0 -> Knots c' = Knots c /\ ControlPoints c' = map ToHomo (ControlPoints c)) /\
    (t <> 0 -> len (Knots c') = len (Knots c) - times /\ len (ControlPoints c') = len (ControlPoints c) - times).
  Proof.
    unfold Curve_RemoveKnot. intros E. destruct (ngtb u n0 && nltb u n1); cbn [assert_ bind] in E; [|discriminate].
    destruct (Z.ltb_spec 0 times) as [Tp|]; cbn [assert_ bind] in E; [|discriminate].
    destruct (KnotRemoval (Knots c) (ControlPoints c) (Degree c) u times tol) as [[[t1 k'] q']| | | | |] eqn:Ek; cbn [bind] in E; try discriminate.
    inversion E; subst c' t1. clear E. cbn [Degree Knots ControlPoints]. split; [reflexivity|].
    apply KnotRemoval_count in Ek. destruct Ek as [A [B D]]. split; [|split; [exact B|intros N; apply D; exact N]].
    split; [exact A|]. destruct (Z.eq_dec t 0); [lia|]. apply D; assumption.
  Qed.
End Counting.
Lemma C36_lemma c u times tol c' : Curve_RemoveKnot c u times tol = Ok (c', 0) ->
  Degree c' = Degree c /\ Knots c' = Knots c /\ ControlPoints c' = map ToHomo (ControlPoints c) /\
  (Forall (fun q => w4 q = 1%R) (ControlPoints c) -> c' = c).
Proof.
  intros E. apply RemoveKnot_count in E. destruct E as [D [_ [Z0 _]]]. destruct (Z0 eq_refl) as [Ek Ep].
  repeat split; try assumption. intros F. destruct c as [d k q], c' as [d' k' q']. simpl in *. subst. f_equal.
  clear Z0. induction F as [|h q W _ IH]; [reflexivity|]. simpl. rewrite IH. f_equal. destruct h as [x y z w]. simpl in *. subst w.
  unfold ToHomo. simpl. norm_R. f_equal; ring.
Qed.

(** ** C39 *)
Lemma C39_lemma c u tol r : wf_curve c -> 2 <= Degree c -> (0 < u < 1)%R -> (forall v, In v (Knots c) -> (1 / 1000000 <= Rabs (v - u))%R) ->
  in_span (Knots c) r u -> Degree c + 1 <= r <= len (Knots c) - Degree c - 3 ->
  (exists c' t, Curve_RemoveKnot c u 1 tol = Ok (c', t) /\ 0 <= t <= 1) \/ Curve_RemoveKnot c u 1 tol = NotFinite.
Proof.
  intros W D2 Hu Sep Sr Hr. pose proof (wf_knots c W) as C. pose proof (wf_count c W) as Cn.
  set (p := Degree c) in *. set (n := len (ControlPoints c) - 1). assert (len (Knots c) = n + p + 2) as LK by (unfold n; lia).
  assert (forall v, In v (Knots c) -> v <> u) as Ne.
  { intros v Hv ->. specialize (Sep u Hv). replace (u - u)%R with 0%R in Sep by ring. rewrite Rabs_R0 in Sep. lra. }
  assert (knot_span p (Knots c) r u) as K.
  { split; [lia|]. pose proof (in_span_span_at (Knots c) r u ltac:(lia) Sr) as [Q|Q]; [exact Q|lra]. }
  assert (count u (Knots c) = 0) as C0 by (apply count_none; exact Ne).
  destruct (count_span p (Knots c) r u C K Hu) as [_ [_ [_ Klow]]]. rewrite C0 in Klow.
  assert (forall k, r < k -> (u < kf (Knots c) k)%R) as Khigh.
  { intros k Hk. pose proof (clamped_mono p _ C (r + 1) k ltac:(lia)). destruct K as [_ Q]. lra. }
  unfold Curve_RemoveKnot. destruct (asserts_ok u 1 Hu ltac:(lia)) as [-> ->]. cbn [assert_ bind]. fold p.
  unfold KnotRemoval. cbv zeta.
  assert (KnotVector_GetMultiplicity (Knots c) u = 0) as ->.
  { rewrite GetMultiplicity_R, filter_near_count; [exact C0|]. intros v Hv. right. apply Sep. exact Hv. }
  destruct (span_find p _ u C Hu) as [r' [Er K']]. rewrite (span_unique p _ r' r u C K' K) in Er. rewrite Er. cbn [bind].
  destruct (CalcTOL_ok (map ToHomo (ControlPoints c)) tol) as [tl [-> _]]. cbn [bind]. rewrite uninit_ok by lia. cbn [bind].
  change (Z.to_nat 1) with 1%nat.
  destruct (attempt_t (Knots c) p n u r 0 LK ltac:(lia) Klow Khigh 0 tl 0 (hp c) (map ToHomo (ControlPoints c)) (repeat None (Z.to_nat (2 * p + 1))))
    as [pts' [temp' [A1 [A2 [A3 _]]]]].
  { unfold room. lia. }
  { assert (forall k, 0 <= k <= n -> vget (map ToHomo (ControlPoints c)) k = Ok (hp c k)) as G.
    { intros k Hk. unfold hp. apply vget_map_ok. apply vget_cp. unfold n in Hk. lia. }
    split; [rewrite len_map; unfold n; lia|]. split; intros k Hk.
    - apply G. revert Hk. unfold Lb. Z.to_euclidean_division_equations. lia.
    - replace (k - 0) with k by lia. apply G. revert Hk. unfold Rb. Z.to_euclidean_division_equations. lia. }
  { rewrite len_repeat. lia. }
  replace (r - p - 0) with (r - p) in A3 by lia. replace (r - 0 + 0) with (r - 0) in A3 by lia. rewrite A3.
  destruct (ngtb _ tl).
  - cbn [bind]. destruct (Z.eqb_spec 0 0); [|lia]. cbn [bind]. left. do 2 eexists. split; [reflexivity|lia].
  - cbn [removal_loop bind]. change (0 + 1) with 1. destruct (Z.eqb_spec 1 0); [lia|]. rewrite for_up_empty by lia. cbn [bind].
    rewrite len_map. fold n. set (J := Z.quot (2 * r - 0 - p) 2). assert (0 <= J <= n) as HJ by (unfold J; Z.to_euclidean_division_equations; lia).
    match goal with |- context [for_up (J + 1) (n + 1) ?b ?s0] =>
      destruct (for_up_inv (fun k (st : list (vec4 R) * Z) => snd st = k - 1 /\ len (fst st) = n + 1) (J + 1) (n + 1) b s0) as [[p2 j2] [E2 [_ L2]]] end; [lia|cbn [fst snd]; lia| |].
    { intros k [ps j] Hk [Q1 Q2]. cbn [fst snd] in *. destruct (vget_ex ps k ltac:(lia)) as [a Ea]. rewrite Ea. cbn [bind].
      rewrite vset_ok by lia. cbn [bind]. eexists. split; [reflexivity|]. cbn [fst snd]. rewrite len_update. lia. }
    rewrite E2. cbn [bind]. cbn [fst] in L2. assert (exists p3, vresize p2 (len p2 - 1) v4zero = Ok p3) as [p3 E5].
    { unfold vresize. destruct (Z.ltb_spec (len p2 - 1) 0); [lia|]. eexists. reflexivity. }
    rewrite E5. cbn [bind].
    destruct (knots_loop (Knots c) p n r ltac:(lia) LK ltac:(lia) 1 ltac:(lia)) as [k' [E3 E4]]. rewrite E3. cbn [bind]. norm_R. rewrite E4. cbn [bind].
    match goal with |- context [mapM FromHomo ?l] => generalize l end. intros l.
    assert ((exists l', mapM FromHomo l = Ok l') \/ mapM FromHomo l = NotFinite) as [[l' ->]| ->].
    { induction l as [|h l IH]; [left; eexists; reflexivity|]. simpl. destruct (Req_EM_T (w4 h) 0) as [Z0|Z0].
      - right. assert (FromHomo h = NotFinite) as ->; [|reflexivity]. unfold FromHomo, v3div. norm_R. rewrite Z0. unfold Rdivo. destruct (Req_EM_T 0 0); [reflexivity|tauto].
      - rewrite FromHomo_ok by exact Z0. cbn [bind]. destruct IH as [[l' ->]| ->]; cbn [bind]; [left; eexists; reflexivity|right; reflexivity]. }
    + cbn [bind]. left. do 2 eexists. split; [reflexivity|lia].
    + right. reflexivity.
Qed.

(** ** Witnesses *)
From Verif Require Import ThDecide.
From Coq Require Import QArith.
Open Scope Z_scope.
Definition corner64 : curve b64 :=
  Curve 1 [dz; dz; dhalf; done_; done_] [pt 0 0 0 1; pt 1 1 0 2; pt 2 0 0 1].
Lemma C36_refuted_lemma : exists (c : curve b64) u c' x, wf_curve (curve_val c) /\ (0 < val u < 1)%R /\ In (val u) (vals (Knots c)) /\
  Curve_RemoveKnot c u 1 dz = Ok (c', 0) /\ c' <> c /\ Curve_Evaluate c' x <> Curve_Evaluate c x.
Proof.
  exists corner64, dhalf. eexists. exists dhalf. split; [apply wf64_ok; vm_compute; reflexivity|].
  split; [apply innerb_ok; vm_compute; reflexivity|]. split; [right; right; left; reflexivity|].
  split; [vm_compute; reflexivity|]. split; [discriminate|]. vm_compute. intros H. discriminate.
Qed.
Definition hat64 : curve b64 :=
  Curve 2 [dz; dz; dz; dhalf; dhalf; done_; done_; done_] [pt 0 0 0 1; pt 1 2 0 1; pt 2 2 0 1; pt 3 2 0 1; pt 5 0 0 1].
Lemma C37_refuted_lemma : exists (c : curve b64) u times c' t, wf_curve (curve_val c) /\ (0 < val u < 1)%R /\
  Curve_RemoveKnot c u times dz = Ok (c', t) /\ 0 < t < times /\
  len (Knots c') <> len (Knots c) - t /\ len (ControlPoints c') <> len (ControlPoints c) - t.
Proof.
  exists hat64, dhalf, 2. do 2 eexists. split; [apply wf64_ok; vm_compute; reflexivity|].
  split; [apply innerb_ok; vm_compute; reflexivity|]. split; [vm_compute; reflexivity|]. split; [lia|]. split; vm_compute; discriminate.
Qed.
Definition negative64 : curve b64 :=
  Curve 2 [dz; dz; dz; dhalf; done_; done_; done_] [pt 0 0 0 1; pt (-1) (-2) 0 (1#4); pt 3 (-2) 0 (1#4); pt 2 0 0 1].
Lemma C38_refuted_lemma : exists (c : curve b64) u c', wf_curve (curve_val c) /\ (0 < val u < 1)%R /\
  Curve_RemoveKnot c u 1 dz = Ok (c', 1) /\ ~ positive_weights (ControlPoints (curve_val c')).
Proof.
  exists negative64, dhalf. eexists. split; [apply wf64_ok; vm_compute; reflexivity|].
  split; [apply innerb_ok; vm_compute; reflexivity|]. split; [vm_compute; reflexivity|]. apply not_weights. vm_compute. reflexivity.
Qed.
Definition bezier64 : curve b64 := Curve 2 [dz; dz; dz; done_; done_; done_] [pt 0 0 0 1; pt 1 2 0 1; pt 2 0 0 1].
Definition wavy64 : curve b64 :=
  Curve 2 [dz; dz; dz; dq (1#8); dq (1#2); dq (1#2); dq (5#8); done_; done_; done_]
    [pt 0 0 0 1; pt 8 16 0 1; pt 24 24 0 1; pt 36 28 0 1; pt 48 64 0 1; pt 64 0 0 1; pt 80 0 0 1].
Lemma C39_refuted_lemma :
  (exists (c : curve b64) u, wf_curve (curve_val c) /\ (0 < val u < 1)%R /\ ~ In (val u) (vals (Knots c)) /\
     Curve_RemoveKnot c u 1 dz = Undefined OutOfBounds) /\
  (exists (c : curve b64) u c' x, wf_curve (curve_val c) /\ (0 < val u < 1)%R /\ ~ In (val u) (vals (Knots c)) /\
     Curve_RemoveKnot c u 1 dz = Ok (c', 1) /\ Curve_Evaluate c' x <> Curve_Evaluate c x).
Proof.
  split.
  - exists bezier64, dhalf. split; [apply wf64_ok; vm_compute; reflexivity|].
    split; [apply innerb_ok; vm_compute; reflexivity|]. split; [apply absentb_ok; vm_compute; reflexivity|]. vm_compute. reflexivity.
  - exists wavy64, (dq (1#4)). eexists. exists (dq (1#4)). split; [apply wf64_ok; vm_compute; reflexivity|].
    split; [apply innerb_ok; vm_compute; reflexivity|]. split; [apply absentb_ok; vm_compute; reflexivity|].
    split; [vm_compute; reflexivity|]. vm_compute. intros H. discriminate.
Qed.
Lemma C35_refuted_lemma :
  (exists (c c' : curve b64) u, wf_curve (curve_val c) /\ (0 < val u < 1)%R /\ Degree c = 0 /\
     Curve_InsertKnot_times c u 1 = Ok c' /\ Curve_RemoveKnot c' u 1 dz = Undefined OutOfBounds) /\
  (exists (c c' : curve b64) u, wf_curve (curve_val c) /\ (0 < val u < 1)%R /\ count (val u) (Knots (curve_val c)) = Degree c + 2 /\
     Curve_InsertKnot c u = Ok c' /\ Curve_RemoveKnot c' u 1 dz = Undefined OutOfBounds).
Proof.
  split.
  - exists point64. eexists. exists dhalf. split; [exact point64_wf|].
    split; [apply innerb_ok; vm_compute; reflexivity|]. split; [reflexivity|]. split; [vm_compute; reflexivity|]. vm_compute. reflexivity.
  - exists (Curve 1 [dz; dz; dhalf; dhalf; dhalf; done_; done_] [pt 0 0 0 1; pt 1 1 0 1; pt 2 2 0 1; pt 3 0 0 1; pt 4 0 0 1]).
    eexists. exists dhalf. split; [apply wf64_ok; vm_compute; reflexivity|].
    split; [apply innerb_ok; vm_compute; reflexivity|]. split.
    { unfold curve_val, vals, count. cbn [Knots Degree map]. rewrite val_dz, val_done, val_dhalf. cbn [count_occ].
      repeat match goal with |- context [Req_EM_T ?a ?b] => destruct (Req_EM_T a b); [try lra|try lra] end. reflexivity. }
    split; [vm_compute; reflexivity|]. vm_compute. reflexivity.
Qed.

Lemma separated_ex u l : (forall v, In v l -> v = u \/ v <= u - 1 / 1000000 \/ u + 1 / 1000000 <= v)%R -> separated u l.
Proof.
  intros H v Hv. destruct (H v Hv) as [E|[E|E]]; [left; exact E|right..]; unfold Rabs; destruct (Rcase_abs (v - u)); lra.
Qed.
Lemma C35_times_ex_lemma : wf_curve curve_ex /\ (0 < 1/4 < 1)%R /\ separated (1/4) (Knots curve_ex) /\ 1 <= 2 /\
  count (1/4) (Knots curve_ex) + 2 <= Degree curve_ex + 1 /\ 2 <= Degree curve_ex + count (1/4) (Knots curve_ex) /\ (0 <= 0)%R.
Proof.
  assert (count (1/4) (Knots curve_ex) = 0) as ->.
  { apply count_none. simpl. intros v H. repeat destruct H as [<-|H]; try contradiction; lra. }
  split; [exact curve_ex_wf|]. split; [lra|]. split.
  - apply separated_ex. simpl. intros v H. repeat destruct H as [<-|H]; try contradiction; lra.
  - cbn [Degree curve_ex]. repeat split; try lia; lra.
Qed.
Lemma C38_ex_lemma : exists c c', wf_curve c /\ (0 < 1/4 < 1)%R /\ separated (1/4) (Knots c) /\
  1 <= 1 <= count (1/4) (Knots c) /\ count (1/4) (Knots c) <= Degree c + 1 /\ 2 * 1 <= Degree c + count (1/4) (Knots c) /\
  Curve_RemoveKnot c (1/4)%R 1 0%R = Ok (c', 1).
Proof.
  destruct C35_times_ex_lemma as [W [Hu [Sep _]]].
  assert (count (1/4) (Knots curve_ex) = 0) as C0.
  { apply count_none. simpl. intros v H. repeat destruct H as [<-|H]; try contradiction; lra. }
  destruct (C35_lemma curve_ex (1/4)%R 0%R W ltac:(cbn [Degree curve_ex]; lia) Hu Sep ltac:(rewrite C0; cbn [Degree curve_ex]; lia) ltac:(lra)) as [c [E Er]].
  destruct (Curve_InsertKnot_ok curve_ex (1/4)%R W ltac:(cbn [Degree curve_ex]; lia) Hu) as [d [k [E' [K I]]]].
  rewrite E in E'. inversion E'; subst d. destruct (inserted_refines curve_ex c k _ W K Hu I) as [Wc [Dc [Pm _]]].
  exists c, curve_ex. split; [exact Wc|]. split; [exact Hu|]. rewrite (count_perm _ _ _ Pm), count_app, C0.
  assert (count (1/4) [1/4]%R = 1) as ->. { unfold count. simpl. destruct (Req_EM_T (1/4) (1/4)); [reflexivity|tauto]. }
  rewrite Dc. cbn [Degree curve_ex]. split.
  - intros v Hv. apply (Permutation_in v Pm) in Hv. destruct Hv as [<-|Hv]; [left; reflexivity|]. apply Sep. exact Hv.
  - repeat split; try lia. exact Er.
Qed.
Definition curve_ex39 : curve R :=
  Curve 2 [0; 0; 0; 1/4; 3/4; 1; 1; 1]%R [Vec4 0 0 0 1; Vec4 1 0 0 2; Vec4 1 1 0 1; Vec4 2 1 0 (1/2); Vec4 2 2 1 1]%R.
Lemma curve_ex39_wf : wf_curve curve_ex39.
Proof.
  constructor; cbn [Degree Knots ControlPoints curve_ex39].
  - constructor; try (unfold len; simpl; lia).
    + nondec.
    + intros i Hi. assert (i = 0 \/ i = 1 \/ i = 2) as [-> | [-> | ->]] by lia; reflexivity.
    + unfold at_. simpl. lra.
    + unfold at_. simpl. lra.
    + change (len [0; 0; 0; 1/4; 3/4; 1; 1; 1]%R) with 8. intros i Hi. assert (i = 5 \/ i = 6 \/ i = 7) as [-> | [-> | ->]] by lia; reflexivity.
  - reflexivity.
  - unfold positive_weights. repeat (apply Forall_cons; [simpl; lra|]). apply Forall_nil.
Qed.
Lemma C39_ex_lemma : wf_curve curve_ex39 /\ 2 <= Degree curve_ex39 /\ (0 < 1/2 < 1)%R /\
  (forall v, In v (Knots curve_ex39) -> (1 / 1000000 <= Rabs (v - 1/2))%R) /\ in_span (Knots curve_ex39) 3 (1/2) /\
  Degree curve_ex39 + 1 <= 3 <= len (Knots curve_ex39) - Degree curve_ex39 - 3.
Proof.
  split; [exact curve_ex39_wf|]. split; [cbn; lia|]. split; [lra|]. split; [|split].
  - simpl. intros v H. repeat destruct H as [<-|H]; try contradiction; unfold Rabs; destruct Rcase_abs; lra.
  - left. unfold at_. simpl. lra.
  - unfold len. simpl. lia.
Qed.
