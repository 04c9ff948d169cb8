(** Knot removal: the loop of attempts, the compaction and the whole call. *)
From Coq Require Import Reals ZArith List Lra Lia Bool Permutation.
From Verif Require Import Outcome Num ModelCore ModelAlgo ModelCurve SpecCore SpecBasis SpecCurve
  ThOutcome ThReal ThKnots ThVec ThSum ThSpline ThBasis ThCurve ThInsert ThRemove.
Import ListNotations.
Open Scope Z_scope.

(** ** Position of the occurrences of [u] *)
Lemma count_prefix u l k : nondecreasing l -> 0 <= k <= len l -> (forall i, 0 <= i < k -> (at_ l i <= u)%R) ->
  let c := count u (firstn (Z.to_nat k) l) in
  0 <= c <= k /\ (forall j, k - c <= j < k -> at_ l j = u) /\ (forall j, 0 <= j < k - c -> (at_ l j < u)%R).
Proof.
  intros Nd Hk. assert (0 <= k) as K0 by lia. revert Hk. pattern k. apply natlike_ind; [| |exact K0]; clear k K0.
  - intros _ _. cbn. repeat split; try lia; intros; lia.
  - intros k K0 IH Hk Le. destruct (IH ltac:(lia)) as [B [E1 E2]]; [intros; apply Le; lia|]. clear IH.
    set (c := count u (firstn (Z.to_nat k) l)) in *.
    assert (firstn (Z.to_nat (Z.succ k)) l = firstn (Z.to_nat k) l ++ [at_ l k]) as Ef.
    { replace (Z.to_nat (Z.succ k)) with (S (Z.to_nat k)) by lia. unfold at_.
      assert (Z.to_nat k < length l)%nat as Lt by (unfold len in Hk; lia). revert Lt. generalize (Z.to_nat k). clear.
      induction l as [|a l IH]; intros n Ln; simpl in Ln; [lia|]. destruct n; [reflexivity|]. simpl. f_equal. apply IH. lia. }
    cbv zeta. rewrite Ef, count_app. fold c.
    destruct (Req_EM_T (at_ l k) u) as [Eu|Ne].
    + assert (count u [at_ l k] = 1) as ->. { unfold count. simpl. destruct (Req_EM_T (at_ l k) u); [reflexivity|contradiction]. }
      split; [lia|]. split; intros j Hj; [|apply E2; lia]. destruct (Z.eq_dec j k) as [->|]; [exact Eu|apply E1; lia].
    + assert (count u [at_ l k] = 0) as ->. { unfold count. simpl. destruct (Req_EM_T (at_ l k) u); [contradiction|reflexivity]. }
      assert (at_ l k < u)%R as Lt by (specialize (Le k ltac:(lia)); lra).
      assert (c = 0) as C0.
      { destruct (Z.eq_dec c 0); [assumption|]. exfalso. pose proof (E1 (k - 1) ltac:(lia)) as Q.
        pose proof (Nd (k - 1) k ltac:(lia) ltac:(lia)). lra. }
      rewrite C0 in *. split; [lia|]. split; intros j Hj; [lia|]. destruct (Z.eq_dec j k) as [->|]; [exact Lt|apply E2; lia].
Qed.
Lemma count_none u l : (forall v, In v l -> v <> u) -> count u l = 0.
Proof.
  intros H. unfold count. induction l as [|a l IH]; [reflexivity|]. simpl.
  destruct (Req_EM_T a u) as [E|_]; [exfalso; apply (H a); [left; reflexivity|exact E]|].
  apply IH. intros v Hv. apply H. right. exact Hv.
Qed.
Lemma count_span p l r u : clamped p l -> knot_span p l r u -> (0 < u < 1)%R ->
  let s := count u l in 0 <= s /\ p <= r - s /\ (forall k, r - s < k <= r -> kf l k = u) /\ (forall k, k <= r - s -> (kf l k < u)%R).
Proof.
  intros C K Hu. pose proof K as [Hr Ku]. pose proof (cl_degree p l C). pose proof (cl_len p l C).
  pose proof (clamped_mono p l C) as M.
  assert (forall i, 0 <= i < len l -> kf l i = at_ l i) as KA by (intros; apply kf_at; lia).
  destruct (count_prefix u l (r + 1) (cl_sorted p l C)) as [B [E1 E2]]; [lia| |].
  { intros i Hi. rewrite <- KA by lia. pose proof (M i r ltac:(lia)). lra. }
  assert (count u l = count u (firstn (Z.to_nat (r + 1)) l)) as Es.
  { rewrite <- (firstn_skipn (Z.to_nat (r + 1)) l) at 1. rewrite count_app. rewrite (count_none u (skipn _ l)); [lia|].
    intros v Hv. destruct (In_znth 0%R _ _ Hv) as [i [Hi Ei]]. rewrite len_skipn in Hi.
    rewrite znth_skipn in Ei by lia. rewrite <- at_znth in Ei. rewrite <- KA in Ei by lia.
    pose proof (M (r + 1) (r + 1 + i) ltac:(lia)). lra. }
  cbv zeta. rewrite Es. set (s := count u (firstn (Z.to_nat (r + 1)) l)) in *.
  assert (p <= r - s) as Ps.
  { destruct (Z_le_gt_dec p (r - s)); [assumption|]. exfalso. pose proof (E1 p ltac:(lia)) as Q.
    rewrite (cl_zero p l C) in Q by lia. lra. }
  split; [lia|]. split; [exact Ps|]. split.
  - intros k Hk. rewrite KA by lia. apply E1. lia.
  - intros k Hk. assert (kf l (r - s) < u)%R by (rewrite KA by lia; apply E2; lia).
    pose proof (M k (r - s) Hk). lra.
Qed.

(** ** The loop of attempts *)
Section Loop.
  Variables (knots : list R) (p n : Z) (u : R) (r s : Z).
  Notation U := (kf knots).
  Hypothesis P0 : 0 <= p.
  Hypothesis LK : len knots = n + p + 2.
  Hypothesis R1 : p <= r <= n.
  Hypothesis S0 : 0 <= s <= p + 1.
  Hypothesis S1 : p <= r - s.
  Hypothesis Klow : forall k, k <= r - s -> (U k < u)%R.
  Hypothesis Khigh : forall k, r < k -> (u < U k)%R.

  Definition Lb (t : Z) : Z := r - t - p + (p - s + t) / 2.
  Definition Rb (t : Z) : Z := r - s + t - (p - s + t) / 2.
  (** [pts] holds the sequence [P] with a gap of [t] *)
  Definition rep (t : Z) (P : Z -> vec4 R) (pts : list (vec4 R)) : Prop :=
    len pts = n + 1 /\ (forall k, 0 <= k <= Lb t -> vget pts k = Ok (P k)) /\
    (forall k, Rb t <= k <= n -> vget pts k = Ok (P (k - t))).
  Definition one (t : Z) (P Q : Z -> vec4 R) : Prop := insrel (al knots p u t) (r - p - t) (r - s) P Q.
  Inductive chain : nat -> Z -> (Z -> vec4 R) -> (Z -> vec4 R) -> Prop :=
  | chain_0 t P : chain 0 t P P
  | chain_S N t P Q P' : one t P Q -> chain N (t + 1) Q P' -> chain (S N) t P P'.
  Definition room (t : Z) : Prop := 0 <= t /\ 1 <= r - p - t /\ r - s + t + 1 <= n /\ 2 * (t + 1) <= p + s.

  Lemma attempt_t N' tol t P pts temp : room t -> rep t P pts -> len temp = 2 * p + 1 ->
    exists pts' temp', len temp' = 2 * p + 1 /\ len pts' = n + 1 /\
      removal_loop (S N') knots (p + 1) u tol t (r - p - t) (r - s + t) pts temp =
        (if ngtb (v4norm (gap_vec (al knots p u t) (r - p - t) (r - s) P)) tol then Ok (t, pts)
         else removal_loop N' knots (p + 1) u tol (t + 1) (r - p - (t + 1)) (r - s + (t + 1)) pts' temp') /\
      (gap_vec (al knots p u t) (r - p - t) (r - s) P = v4zero ->
        rep (t + 1) (sol (al knots p u t) (r - p - t) (r - s) P) pts').
  Proof.
    intros [T0 [F1 [L1 Tm]]] [Lp [PL PR]] Lt.
    assert (forall i, r - p - t <= i <= r - s -> (U i < u < U (i + (p + 1) + t)%Z)%R) as Kn.
    { intros i Hi. split; [apply Klow; lia|apply Khigh; lia]. }
    destruct (attempt knots p n u t (r - p - t) (r - s)) with (P := P) (points := pts) (L := Lb t) (Rt := Rb t) (N' := N') (tol := tol) (temp := temp)
      as [pts' [temp' [A1 [A2 [A3 A4]]]]]; try assumption; try lia.
    - unfold Lb. Z.to_euclidean_division_equations. lia.
    - unfold Rb, rounds. Z.to_euclidean_division_equations. lia.
    - exists pts', temp'. split; [exact A1|]. split; [exact A2|]. split.
      + rewrite A3. destruct (ngtb _ tol); [reflexivity|]. f_equal; lia.
      + intros G. destruct (A4 G) as [B1 B2]. split; [exact A2|]. split.
        * intros k Hk. apply B1. revert Hk. unfold Lb, rounds. Z.to_euclidean_division_equations. lia.
        * intros k Hk. apply B2. revert Hk. unfold Rb, rounds. Z.to_euclidean_division_equations. lia.
  Qed.
  Lemma one_fl t : 0 <= t -> r - p - t - 1 <= r - s. Proof. lia. Qed.
  Lemma one_01 t : 0 <= t -> forall i, r - p - t <= i <= r - s -> (0 < al knots p u t i < 1)%R.
  Proof.
    intros T0 i Hi. apply (al_01 knots p u t (r - p - t) (r - s)); try lia.
    intros j Hj. split; [apply Klow; lia|apply Khigh; lia].
  Qed.
  Definition rooms (t : Z) (N : nat) : Prop := 0 <= t /\ forall k, t <= k < t + Z.of_nat N -> room k.
  Lemma rep_ext t P Q pts : (forall k, P k = Q k) -> rep t P pts -> rep t Q pts.
  Proof.
    intros E [A [B D]]. split; [exact A|]. split; intros k Hk; rewrite <- E; auto.
  Qed.
  Lemma chain_ext N : forall t P P' Q, (forall k, P k = Q k) -> chain N t P P' -> exists Q', chain N t Q Q' /\ forall k, P' k = Q' k.
  Proof.
    induction N as [|N IH]; intros t P P' Q E H; inversion H; subst.
    - exists Q. split; [constructor|exact E].
    - exists P'. split; [|reflexivity]. econstructor; [|eassumption].
      destruct H1 as [A [B D]]. split; [|split]; intros; rewrite <- E; auto.
  Qed.
  Lemma loop_sound N : forall t P pts temp pts', rooms t N -> rep t P pts -> len temp = 2 * p + 1 ->
    removal_loop N knots (p + 1) u 0%R t (r - p - t) (r - s + t) pts temp = Ok (t + Z.of_nat N, pts') ->
    exists P', chain N t P P' /\ rep (t + Z.of_nat N) P' pts'.
  Proof.
    induction N as [|N IH]; intros t P pts temp pts' [T0 Rm] Rp Lt E.
    - replace (t + Z.of_nat 0) with t in * by lia. cbn [removal_loop] in E. inversion E; subst. exists P. split; [constructor|]. exact Rp.
    - destruct (attempt_t N 0%R t P pts temp) as [p1 [t1 [A1 [A2 [A3 A4]]]]]; try assumption; [apply Rm; lia|].
      rewrite A3 in E. norm_R. destruct (Rltb 0 (v4norm (gap_vec (al knots p u t) (r - p - t) (r - s) P))) eqn:G.
      + inversion E. lia.
      + apply Rltb_false in G. assert (gap_vec (al knots p u t) (r - p - t) (r - s) P = v4zero) as G0 by (apply v4norm_0; lra).
        specialize (A4 G0). replace (t + Z.of_nat (S N)) with (t + 1 + Z.of_nat N) in * by lia.
        destruct (IH (t + 1) (sol (al knots p u t) (r - p - t) (r - s) P) p1 t1 pts') as [P' [Ch Rp']]; try assumption.
        { split; [lia|]. intros k Hk. apply Rm. lia. }
        exists P'. split; [|exact Rp']. econstructor; [|exact Ch].
        apply gap_sound; [apply one_01; exact T0|apply one_fl; exact T0|exact G0].
  Qed.
  Lemma loop_complete N tol : (0 <= tol)%R -> forall t P P' pts temp, rooms t N -> rep t P pts -> len temp = 2 * p + 1 ->
    chain N t P P' ->
    exists pts', removal_loop N knots (p + 1) u tol t (r - p - t) (r - s + t) pts temp = Ok (t + Z.of_nat N, pts') /\
      rep (t + Z.of_nat N) P' pts'.
  Proof.
    intros Tol. induction N as [|N IH]; intros t P P' pts temp [T0 Rm] Rp Lt Ch; inversion Ch; subst.
    - exists pts. replace (t + Z.of_nat 0) with t by lia. split; [reflexivity|exact Rp].
    - destruct (attempt_t N tol t P pts temp) as [p1 [t1 [A1 [A2 [A3 A4]]]]]; try assumption; [apply Rm; lia|].
      assert (gap_vec (al knots p u t) (r - p - t) (r - s) P = v4zero) as G0.
      { eapply gap_complete; [apply one_01; exact T0|apply one_fl; exact T0|eassumption]. }
      specialize (A4 G0). rewrite G0 in A3. rewrite A3. norm_R. rewrite v4norm_zero.
      assert (Rltb tol 0 = false) as -> by (apply Rltb_false; lra).
      replace (t + Z.of_nat (S N)) with (t + 1 + Z.of_nat N) in * by lia.
      apply (IH (t + 1) Q); try assumption.
      + split; [lia|]. intros k Hk. apply Rm. lia.
      + eapply rep_ext; [|exact A4]. intros k. apply sol_unique; [apply one_01; exact T0|apply one_fl; exact T0|assumption].
  Qed.

  (** ** Compaction (lines 101-120) *)
  Lemma ij_loop J T : 1 <= T ->
    for_up 1 T (fun k '(i, j) =>
          Ok (i + (if Z.rem k 2 =? 1 then 1 else 0), j - (if Z.rem k 2 =? 1 then 0 else 1))) (J, J) = Ok (J + T / 2, J - (T - 1) / 2).
  Proof using.
    clear. intros HT.
    match goal with |- for_up _ _ ?b _ = _ =>
      destruct (for_up_inv (fun k (st : Z * Z) => st = (J + k / 2, J - (k - 1) / 2)) 1 T b (J, J)) as [st [E Q]] end; try lia.
    - f_equal; [change (1 / 2) with 0|change ((1 - 1) / 2) with 0]; lia.
    - intros k st Hk ->. eexists. split; [reflexivity|].
      destruct (Z.eqb_spec (Z.rem k 2) 1) as [O|O]; f_equal; revert O; Z.to_euclidean_division_equations; lia.
    - rewrite E, Q. reflexivity.
  Qed.
  Lemma pts_loop T P pts : 1 <= T -> T <= s -> 2 * T <= p + s -> rep T P pts ->
    let J := Z.quot (2 * r - s - p) 2 in
    exists pts' j', for_up (J + T / 2 + 1) (n + 1) (fun k '(points, j) =>
          q <- vget points k ;;
          points <- vset points j q ;;
          Ok (points, j + 1)) (pts, J - (T - 1) / 2) = Ok (pts', j') /\ len pts' = n + 1 /\
      forall q, 0 <= q < n + 1 - T -> vget pts' q = Ok (P q).
  Proof.
    intros HT Ts T2 [Lp [PL PR]] J.
    assert (J = (2 * r - s - p) / 2) as EJ by (unfold J; Z.to_euclidean_division_equations; lia).
    assert (J + T / 2 + 1 - (J - (T - 1) / 2) = T) as D by (Z.to_euclidean_division_equations; lia).
    assert (J - (T - 1) / 2 - 1 <= Lb T) as BL by (rewrite EJ; unfold Lb; Z.to_euclidean_division_equations; lia).
    assert (Rb T <= J + T / 2 + 1) as BR by (rewrite EJ; unfold Rb; Z.to_euclidean_division_equations; lia).
    assert (0 <= J - (T - 1) / 2) as B0 by (rewrite EJ; Z.to_euclidean_division_equations; lia).
    assert (J + T / 2 + 1 <= n + 1) as B1 by (rewrite EJ; Z.to_euclidean_division_equations; lia).
    set (k0 := J + T / 2 + 1) in *. set (j0 := J - (T - 1) / 2) in *.
    match goal with |- exists _ _, for_up _ _ ?b _ = _ /\ _ =>
      destruct (for_up_inv (fun k (st : list (vec4 R) * Z) => snd st = k - T /\ len (fst st) = n + 1 /\
        (forall q, 0 <= q < k - T -> vget (fst st) q = Ok (P q)) /\ (forall q, k <= q <= n -> vget (fst st) q = Ok (P (q - T)))) k0 (n + 1) b (pts, j0)) as [[pts' j'] [E Q]] end; try lia.
    - cbn [fst snd]. split; [lia|]. split; [exact Lp|]. split; intros q Hq; [apply PL; lia|apply PR; lia].
    - intros k [ps j] Hk [Q1 [Q2 [Q3 Q4]]]. cbn [fst snd] in *. subst j. rewrite Q4 by lia. cbn [bind].
      destruct (vset_spec ps (k - T) (P (k - T))) as [ps' [Es [Ls [G1 G2]]]]; [lia|]. rewrite Es. cbn [bind].
      eexists. split; [reflexivity|]. cbn [fst snd]. split; [lia|]. split; [lia|]. split; intros q Hq.
      + destruct (Z.eq_dec q (k - T)) as [->|]; [exact G1|]. rewrite G2 by lia. apply Q3. lia.
      + rewrite G2 by lia. apply Q4. lia.
    - exists pts', j'. split; [exact E|]. cbn [fst snd] in Q. destruct Q as [_ [Q2 [Q3 _]]]. split; [exact Q2|].
      intros q Hq. apply Q3. lia.
  Qed.
  Definition del (T : Z) : list R := firstn (Z.to_nat (r + 1 - T)) knots ++ skipn (Z.to_nat (r + 1)) knots.
  Lemma del_len T : 0 <= T <= r + 1 -> len (del T) = len knots - T.
  Proof. intros H. unfold del. rewrite len_app, len_firstn, len_skipn. lia. Qed.
  Lemma del_kf T i : 0 <= T <= r -> kf (del T) i = if i <=? r - T then U i else U (i + T).
  Proof.
    intros H. assert (forall l, kf l i = znth 1%R l i) as Kz by reflexivity. unfold del.
    destruct (Z_lt_le_dec i 0) as [Ni|Ni].
    - destruct (Z.leb_spec i (r - T)); [|lia].
      assert (forall l, kf l i = kf l 0) as K0 by (intros l; unfold kf; f_equal; lia). rewrite !K0.
      change (kf ?l 0) with (znth 1%R l 0). change (U 0) with (znth 1%R knots 0). rewrite znth_app1 by (rewrite ?len_firstn; lia).
      apply znth_firstn. lia.
    - rewrite Kz, znth_app by lia. rewrite len_firstn.
      replace (Z.min (Z.max (r + 1 - T) 0) (len knots)) with (r + 1 - T) by lia.
      destruct (Z.ltb_spec i (r + 1 - T)), (Z.leb_spec i (r - T)); try lia.
      + apply znth_firstn. lia.
      + rewrite znth_skipn by lia. change (U (i + T)) with (znth 1%R knots (i + T)). f_equal. lia.
  Qed.
  Lemma knots_loop T : 1 <= T <= r ->
    exists k', for_up (r + 1) (n + p + 1 + 1) (fun k knots => x <- vget knots k ;; vset knots (k - T) x) knots = Ok k' /\
      vresize k' (len k' - T) 0%R = Ok (del T).
  Proof.
    intros HT.
    match goal with |- exists _, for_up _ _ ?b _ = _ /\ _ =>
      destruct (for_up_inv (fun k (l : list R) => len l = len knots /\ (forall q, 0 <= q < k - T -> vget l q = vget (del T) q) /\
         (forall q, k <= q -> vget l q = vget knots q)) (r + 1) (n + p + 1 + 1) b knots) as [k' [E [Q1 [Q2 Q3]]]] end; try lia.
    - split; [reflexivity|]. split; [|reflexivity]. intros q Hq. unfold del. rewrite vget_app1 by (rewrite len_firstn; lia).
      rewrite vget_firstn by lia. reflexivity.
    - intros k l Hk [Q1 [Q2 Q3]]. destruct (vget_ex knots k ltac:(lia)) as [x Ex]. rewrite Q3 by lia. rewrite Ex. cbn [bind].
      destruct (vset_spec l (k - T) x) as [l' [Es [Ls [G1 G2]]]]; [lia|]. exists l'. split; [exact Es|]. split; [lia|]. split; intros q Hq.
      + destruct (Z.eq_dec q (k - T)) as [->|]; [|rewrite G2 by lia; apply Q2; lia]. rewrite G1, <- Ex. unfold del.
        rewrite vget_app2 by (rewrite len_firstn; lia). rewrite len_firstn, vget_skipn by lia. f_equal. lia.
      + rewrite G2 by lia. apply Q3. lia.
    - exists k'. split; [exact E|]. unfold vresize. destruct (Z.ltb_spec (len k' - T) 0); [lia|]. f_equal.
      replace (Z.to_nat (len k' - T - len k')) with O by lia. cbn [repeat]. rewrite app_nil_r.
      apply vget_ext; [rewrite len_firstn, del_len by lia; lia|]. rewrite len_firstn. intros q Hq. rewrite vget_firstn by lia. apply Q2. lia.
  Qed.
End Loop.
