(** Knot vectors over the reals: Uniform, FindSpan, Reverse. *)
From Coq Require Import Reals Qreals Lra ZArith Lia Bool List Permutation.
From Verif Require Import Outcome Num ModelCore SpecCore ThOutcome ThReal ThKnots.
Import ListNotations.
Open Scope Z_scope.

(** ** C04 *)
Definition uniform_list (p k : Z) : list R :=
  map (uniform_knot p k) (zrange 0 (k + 2 * (p + 1))).

Lemma len_uniform p k : 0 <= p -> 0 <= k -> len (uniform_list p k) = k + 2 * (p + 1).
Proof. intros. unfold uniform_list. rewrite len_map, len_zrange. lia. Qed.
Lemma at_uniform p k i : 0 <= i < k + 2 * (p + 1) -> at_ (uniform_list p k) i = uniform_knot p k i.
Proof.
  intros. unfold uniform_list. to_znth. rewrite znth_map with (d := 0).
  - rewrite znth_zrange by lia. f_equal; lia.
  - rewrite len_zrange; lia.
Qed.
Lemma uniform_knot_bounds p k i : 0 <= p -> 0 <= k -> (0 <= uniform_knot p k i <= 1)%R.
Proof.
  intros. unfold uniform_knot. destruct (Z.leb_spec i p); [lra|].
  destruct (Z.leb_spec i (p + k)); [|lra].
  assert (0 < IZR (k + 1))%R by (apply IZR_lt; lia).
  assert (0 <= IZR (i - p))%R by (apply IZR_le; lia).
  assert (IZR (i - p) <= IZR (k + 1))%R by (apply IZR_le; lia).
  split.
  - apply Rmult_le_pos; [assumption|]. left. apply Rinv_0_lt_compat; assumption.
  - apply Rmult_le_reg_r with (IZR (k + 1)); [assumption|]. unfold Rdiv.
    rewrite Rmult_assoc, Rinv_l by lra. lra.
Qed.
Lemma uniform_knot_mono p k i j : 0 <= p -> 0 <= k -> i <= j ->
  (uniform_knot p k i <= uniform_knot p k j)%R.
Proof.
  intros. pose proof (uniform_knot_bounds p k i) as Bi. pose proof (uniform_knot_bounds p k j) as Bj.
  specialize (Bi H H0). specialize (Bj H H0).
  destruct (Z.leb_spec i p).
  - unfold uniform_knot at 1. destruct (Z.leb_spec i p); [|lia]. lra.
  - destruct (Z.leb_spec j (p + k)).
    + unfold uniform_knot. destruct (Z.leb_spec i p); [lia|]. destruct (Z.leb_spec i (p + k)); [|lia].
      destruct (Z.leb_spec j p); [lia|]. destruct (Z.leb_spec j (p + k)); [|lia].
      apply Rmult_le_compat_r; [|apply IZR_le; lia].
      left. apply Rinv_0_lt_compat. apply IZR_lt; lia.
    + unfold uniform_knot at 2. destruct (Z.leb_spec j p); [lia|]. destruct (Z.leb_spec j (p + k)); [lia|]. lra.
Qed.

Lemma uniform_clamped p k : 0 <= p -> 0 <= k -> clamped p (uniform_list p k).
Proof.
  intros Hp Hk. constructor; rewrite ?len_uniform by lia; try lia.
  - intros i j Hij Hj. rewrite len_uniform in Hj by lia. rewrite !at_uniform by lia. apply uniform_knot_mono; lia.
  - intros i Hi. rewrite at_uniform by lia. unfold uniform_knot. destruct (Z.leb_spec i p); [auto|lia].
  - rewrite at_uniform by lia. unfold uniform_knot. destruct (Z.leb_spec (p + 1) p); [lia|].
    destruct (Z.leb_spec (p + 1) (p + k)); [|lra].
    replace (p + 1 - p) with 1 by lia. apply Rmult_lt_0_compat; [lra|]. apply Rinv_0_lt_compat, IZR_lt; lia.
  - rewrite at_uniform by lia. replace (k + 2 * (p + 1) - p - 2) with (p + k) by lia.
    unfold uniform_knot. destruct (Z.leb_spec (p + k) p); [lra|].
    destruct (Z.leb_spec (p + k) (p + k)); [|lia].
    assert (0 < IZR (k + 1))%R by (apply IZR_lt; lia).
    apply Rmult_lt_reg_r with (IZR (k + 1)); [assumption|]. unfold Rdiv. rewrite Rmult_assoc, Rinv_l by lra.
    rewrite Rmult_1_r, Rmult_1_l. apply IZR_lt; lia.
  - intros i Hi. rewrite at_uniform by lia. unfold uniform_knot. destruct (Z.leb_spec i p); [lia|].
    destruct (Z.leb_spec i (p + k)); [lia|]. reflexivity.
Qed.

Lemma clamped_acceptable p l : clamped p l -> acceptable l.
Proof.
  intros C. destruct C as [Cp CL CS C0 CF CE C1].
  repeat split; auto.
  - intros ->. rewrite len_nil in CL. lia.
  - rewrite C0 by lia. lra.
  - apply C1; lia.
Qed.

Lemma Uniform_R p n : 0 <= p -> 2 * (p + 1) <= n ->
  KnotVector_Uniform p n = Ok (uniform_list p (n - 2 * (p + 1))).
Proof.
  intros Hp Hn. unfold KnotVector_Uniform. norm_R.
  destruct (Z.leb_spec 0 (n - (p + 1) * 2)); [|lia]. simpl.
  destruct (Z.ltb_spec n 0); [lia|]. simpl.
  set (k := n - 2 * (p + 1)).
  assert (0 < IZR (k + 1))%R by (apply IZR_lt; lia).
  replace (n - (p + 1) * 2) with k by lia.
  rewrite Rdivo_ok by lra. simpl.
  rewrite (tabulate_ok _ _ _ (fun i => IZR i * (1 / IZR (k + 1)))%R) by reflexivity. simpl.
  match goal with |- KnotVector_make ?x = _ => assert (x = uniform_list p k) as E end.
  { apply znth_ext with 0%R.
    - rewrite !len_app, !len_repeat, len_map, len_zrange, len_uniform by lia. lia.
    - rewrite !len_app, !len_repeat, len_map, len_zrange. intros i Hi.
      of_znth. rewrite at_uniform by lia. to_znth. unfold uniform_knot.
      destruct (Z.leb_spec i p).
      { rewrite znth_app1 by (rewrite ?len_repeat; lia). rewrite znth_repeat by lia. reflexivity. }
      rewrite znth_app2 by (rewrite len_repeat; lia). rewrite len_repeat.
      destruct (Z.leb_spec i (p + k)).
      + rewrite znth_app1 by (rewrite ?len_map, ?len_zrange; lia).
        rewrite znth_map with (d := 0) by (rewrite len_zrange; lia).
        rewrite znth_zrange by lia. replace (1 + (i - Z.max (p + 1) 0)) with (i - p) by lia.
        unfold Rdiv. ring.
      + rewrite znth_app2 by (rewrite len_map, len_zrange; lia). rewrite len_map, len_zrange.
        rewrite znth_repeat by lia. reflexivity. }
  rewrite E. apply KnotVector_make_ok. eapply clamped_acceptable. apply uniform_clamped; lia.
Qed.
Lemma Uniform_assert p n : n < 2 * (p + 1) -> @KnotVector_Uniform R _ p n = AssertFail.
Proof.
  intros. unfold KnotVector_Uniform. destruct (Z.leb_spec 0 (n - (p + 1) * 2)); [lia|]. reflexivity.
Qed.

Lemma clamped_degree p l : clamped p l -> KnotVector_DetectDegree l = Ok p.
Proof.
  intros C. destruct C as [Cp CL CS C0 CF CE C1].
  unfold KnotVector_DetectDegree. rewrite degree_loop_R.
  rewrite (leading_spec 0 l (p + 1)); try lia.
  - destruct (Z.eqb_spec (p + 1) (len l)); [lia|]. f_equal; lia.
  - intros; apply C0; lia.
  - intros; lra.
Qed.
Lemma clamped_valid p l : clamped p l -> 4 <= len l -> KnotVector_IsValid l = true.
Proof.
  intros C H4. destruct C as [Cp CL CS C0 CF CE C1]. apply IsValid_R.
  repeat split; auto. apply C0; lia. apply C1; lia.
Qed.

Lemma at_gaps l : forall i, 0 <= i < len l - 1 -> at_ (gaps l) i = (at_ l (i + 1) - at_ l i)%R.
Proof.
  induction l as [|a l IH]; intros i Hi; [lens|].
  destruct l as [|b l]; [lens|].
  change (gaps (a :: b :: l)) with ((b - a)%R :: gaps (b :: l)).
  destruct (Z.eq_dec i 0) as [->|]; [reflexivity|].
  rewrite (at_cons (b - a)), (at_cons a _ i), (at_cons a _ (i + 1)) by lia.
  rewrite IH by (rewrite !len_cons in *; lia). f_equal; f_equal; lia.
Qed.
Lemma len_gaps l : len (gaps l) = Z.max 0 (len l - 1).
Proof.
  induction l as [|a l IH]; [reflexivity|]. destruct l as [|b l]; [reflexivity|].
  change (gaps (a :: b :: l)) with ((b - a)%R :: gaps (b :: l)). rewrite len_cons, IH, !len_cons.
  pose proof (len_nonneg l). lia.
Qed.
Lemma first_nonzero_const g l : Forall (fun d => d = 0%R \/ d = g) l ->
  first_nonzero l = 0%R /\ Forall (fun d => d = 0%R) l \/ first_nonzero l = g.
Proof.
  induction 1 as [|d l Hd Fa IH]; [left; split; [reflexivity|constructor]|].
  simpl. destruct (Req_EM_T d 0).
  - destruct IH as [[E A]|E]; [left; split; [assumption|constructor; auto]|auto].
  - right. destruct Hd; [contradiction|assumption].
Qed.
Lemma uniform_IsUniform p k : 0 <= p -> 0 <= k -> KnotVector_IsUniform (uniform_list p k) = true.
Proof.
  intros Hp Hk. apply IsUniform_R.
  assert (0 < IZR (k + 1))%R as K by (apply IZR_lt; lia).
  assert (Forall (fun d => d = 0%R \/ d = (1 / IZR (k + 1))%R) (gaps (uniform_list p k))) as G.
  { apply Forall_forall. intros d Hd. apply (In_znth 0%R) in Hd. destruct Hd as [i [Hi Ei]]. of_znth.
    rewrite len_gaps, len_uniform in Hi by lia. subst d.
    rewrite at_gaps by (rewrite len_uniform by lia; lia). rewrite !at_uniform by lia.
    unfold uniform_knot.
    destruct (Z.leb_spec i p); [destruct (Z.leb_spec (i + 1) p); [left; lra|]|destruct (Z.leb_spec (i + 1) p); [lia|]].
    - destruct (Z.leb_spec (i + 1) (p + k)).
      + right. replace (i + 1 - p) with 1 by lia. lra.
      + right. assert (k = 0) by lia. subst k. change (0 + 1) with 1. lra.
    - destruct (Z.leb_spec (i + 1) (p + k)); destruct (Z.leb_spec i (p + k)); try lia.
      + right. replace (i + 1 - p) with (i - p + 1) by lia. rewrite plus_IZR. field. lra.
      + right. replace (i - p) with (k + 1 - 1) by lia. rewrite (minus_IZR (k + 1) 1). field. lra.
      + left; lra. }
  destruct (first_nonzero_const _ _ G) as [[E A]|E]; rewrite E.
  - eapply Forall_impl; [|apply A]. simpl; auto.
  - eapply Forall_impl; [|apply G]. intros d [D|D]; [auto|right]. unfold close. subst d.
    replace (1 / IZR (k + 1) - 1 / IZR (k + 1))%R with 0%R by ring. rewrite Rabs_R0. lra.
Qed.

(** ** C09 *)
Lemma increasing_at ps : increasing ps -> forall i j, 0 <= i < j -> j < len ps ->
  (fst (znth (0%R, 0%Z) ps i) < fst (znth (0%R, 0%Z) ps j))%R.
Proof.
  induction ps as [|a ps IH]; intros Inc i j Hij Hj; [lens|].
  rewrite len_cons in Hj. rewrite (znth_cons _ _ _ j) by lia. destruct (Z.eq_dec i 0) as [->|].
  - rewrite znth_0. apply increasing_lt with ps; [assumption|]. apply znth_In. lia.
  - rewrite znth_cons by lia. apply IH; [eapply increasing_tail; eauto|lia|lia].
Qed.
Definition kp0 : knotpair R := KnotPair 0 0%R 0.
Lemma pairs_first l : l <> [] -> fst (znth (0%R, 0%Z) (pairs_of l) 0) = at_ l 0.
Proof.
  destruct l as [|a l]; [congruence|]. intros _. unfold pairs_of, KnotVector_GetKnotPairs.
  destruct (pairs_loop_head l 1 a 1) as [k [r ->]]. reflexivity.
Qed.
Lemma pairs_last l : l <> [] -> 
  fst (znth (0%R, 0%Z) (pairs_of l) (len (pairs_of l) - 1)) = at_ l (len l - 1).
Proof.
  intros N. assert (pairs_of l <> []) as N'.
  { intros E. apply N. rewrite <- (pairs_expand l), E. reflexivity. }
  rewrite znth_last by assumption. destruct (exists_last N') as [ps [[v m] E]].
  pose proof (pairs_expand l) as X. pose proof (pairs_mult l) as M. rewrite E in *. rewrite last_last. simpl.
  unfold expand in X. rewrite flat_map_app in X. simpl in X. rewrite app_nil_r in X. 
  apply Forall_app in M. destruct M as [_ M]. inversion M as [|? ? Hm _]; subst. simpl in Hm.
  to_znth. rewrite len_app, len_repeat, znth_app2 by lia. rewrite znth_repeat by lia. reflexivity.
Qed.

Lemma findspan_loop_R (pairs : list (knotpair R)) u : forall n i, Z.of_nat n = i + 1 -> i + 1 < len pairs ->
  (kp_Value (znth kp0 pairs 0) <= u)%R ->
  (1 <= n)%nat ->
  exists j, findspan_loop pairs u n i = Ok (KnotSpan j (znth kp0 pairs j) (znth kp0 pairs (j + 1))) /\
    0 <= j <= i /\ (kp_Value (znth kp0 pairs j) <= u)%R /\
    (j < i -> (u < kp_Value (znth kp0 pairs (j + 1)))%R).
Proof.
  induction n; intros i Hn Hi H0 L; [lia|].
  simpl findspan_loop. rewrite (vget_ok kp0) by lia. cbn [bind]. norm_R.
  destruct (Rleb_spec (kp_Value (znth kp0 pairs i)) u) as [Le|Gt].
  - rewrite (vget_ok kp0) by lia. simpl. exists i. repeat split; auto; lia.
  - destruct n as [|n].
    + assert (i = 0) by lia. subst i. contradiction.
    + destruct (IHn (i - 1)) as [j [E [Hj [A B]]]]; auto; try lia.
      exists j. rewrite E. repeat split; auto; try lia. intros Hlt.
      destruct (Z.eq_dec j (i - 1)).
      * subst j. replace (i - 1 + 1) with i by lia. lra.
      * apply B. lia.
Qed.

Lemma FindSpan_R l u : nondecreasing l -> at_ l 0 = 0%R -> at_ l (len l - 1) = 1%R -> (0 <= u <= 1)%R ->
  let ps := KnotVector_GetKnotPairs l in
  2 <= len ps ->
  exists j, KnotVector_FindSpan l u = Ok (KnotSpan j (znth kp0 ps j) (znth kp0 ps (j + 1))) /\
    0 <= j < len ps - 1 /\ (kp_Value (znth kp0 ps j) <= u)%R /\
    ((u < kp_Value (znth kp0 ps (j + 1)))%R \/
     (j + 1 = len ps - 1 /\ u = kp_Value (znth kp0 ps (j + 1)))).
Proof.
  intros S E0 E1 Hu ps L2.
  assert (l <> []) as N by (intros ->; unfold ps in L2; simpl in L2; rewrite len_nil in L2; lia).
  assert (forall i, 0 <= i < len ps -> fst (znth (0%R, 0%Z) (pairs_of l) i) = kp_Value (znth kp0 ps i)) as V.
  { intros i Hi. unfold pairs_of. rewrite znth_map with (d := kp0) by assumption. reflexivity. }
  assert (len (pairs_of l) = len ps) as LP by (unfold pairs_of; apply len_map).
  unfold KnotVector_FindSpan. norm_R.
  assert (Rleb 0 u && Rleb u 1 = true) as ->.
  { apply andb_true_intro. rewrite !Rleb_true. tauto. }
  cbn [assert_ bind]. fold ps. destruct (Z.leb_spec 2 (len ps)); [|lia]. cbn [assert_ bind].
  destruct (findspan_loop_R ps u (length ps - 1) (len ps - 2)) as [j [E [Hj [A B]]]].
  - unfold len in *. lia.
  - lia.
  - rewrite <- V by lia. rewrite pairs_first by assumption. lra.
  - unfold len in *; lia.
  - exists j. split; [exact E|]. split; [lia|]. split; [exact A|].
    destruct (Z.eq_dec j (len ps - 2)) as [->|]; [|left; apply B; lia].
    replace (len ps - 2 + 1) with (len ps - 1) by lia.
    assert (kp_Value (znth kp0 ps (len ps - 1)) = 1%R) as ->.
    { rewrite <- V by lia. rewrite <- LP. rewrite pairs_last by assumption. assumption. }
    destruct (Rlt_dec u 1); [left; lra|right; split; [lia|lra]].
Qed.

(** ** C13 *)
Lemma len_Reverse (l : list R) : len (KnotVector_Reverse l) = len l.
Proof. unfold KnotVector_Reverse. rewrite len_map, len_rev. reflexivity. Qed.
Lemma at_Reverse l i : 0 <= i < len l -> at_ (KnotVector_Reverse l) i = (1 - at_ l (len l - 1 - i))%R.
Proof.
  intros. unfold KnotVector_Reverse. to_znth. rewrite znth_map with (d := 0%R) by (rewrite len_rev; lia).
  rewrite znth_rev by lia. reflexivity.
Qed.
Lemma Reverse_involutive (l : list R) : KnotVector_Reverse (KnotVector_Reverse l) = l.
Proof.
  apply znth_ext with 0%R; [rewrite !len_Reverse; reflexivity|].
  rewrite !len_Reverse. intros i Hi. of_znth.
  rewrite !at_Reverse by (rewrite ?len_Reverse; lia). rewrite !len_Reverse.
  replace (len l - 1 - (len l - 1 - i)) with i by lia. ring.
Qed.
Lemma Reverse_nondecreasing l : nondecreasing l -> nondecreasing (KnotVector_Reverse l).
Proof.
  intros S i j Hij Hj. rewrite len_Reverse in Hj. rewrite !at_Reverse by lia.
  specialize (S (len l - 1 - j) (len l - 1 - i)). 
  assert (at_ l (len l - 1 - j) <= at_ l (len l - 1 - i))%R by (apply S; lia). lra.
Qed.
Lemma Reverse_valid (l : list R) : KnotVector_IsValid l = true -> KnotVector_IsValid (KnotVector_Reverse l) = true.
Proof.
  rewrite !IsValid_R, len_Reverse. intros [L [E0 [E1 S]]].
  rewrite !at_Reverse by lia. replace (len l - 1 - (len l - 1)) with 0 by lia.
  replace (len l - 1 - 0) with (len l - 1) by lia.
  repeat split; auto; try lra. apply Reverse_nondecreasing; assumption.
Qed.
Lemma Reverse_clamped p l : clamped p l -> clamped p (KnotVector_Reverse l).
Proof.
  intros C. destruct C as [Cp CL CS C0 CF CE C1].
  constructor; rewrite ?len_Reverse; auto.
  - apply Reverse_nondecreasing; auto.
  - intros i Hi. rewrite at_Reverse by lia. rewrite C1 by lia. ring.
  - rewrite at_Reverse by lia. replace (len l - 1 - (p + 1)) with (len l - p - 2) by lia. lra.
  - rewrite at_Reverse by lia. replace (len l - 1 - (len l - p - 2)) with (p + 1) by lia. lra.
  - intros i Hi. rewrite at_Reverse by lia. rewrite C0 by lia. ring.
Qed.
