(** Witnesses and combined statements used by PropCore.v. *)
From Coq Require Import Reals Qreals Lra ZArith Lia Bool List Permutation Floats.SpecFloat.
From Flocq Require Import IEEE754.BinarySingleNaN.
From Verif Require Import Outcome Num ModelCore SpecCore ThOutcome ThReal ThKnots ThKnots2 ThMath ThGrid ThBox ThB64.
Import ListNotations.
Open Scope Z_scope.

(** ** doubles used in witnesses *)
Definition dz : b64 := S754_zero false.
Definition dhalf : b64 := S754_finite false 4503599627370496 (-53).
Definition done_ : b64 := S754_finite false 4503599627370496 (-52).
(** the double nearest to 0.1 *)
Definition dtenth : b64 := S754_finite false 7205759403792794 (-56).

(** ** C01 *)
Lemma C01_lemma : forall l : list R,
  (acceptable l -> KnotVector_make l = Ok l) /\
  (~ acceptable l -> KnotVector_make l = Throw InvalidArgument).
Proof. intros l. split; [apply KnotVector_make_ok|apply KnotVector_make_throw]. Qed.

Lemma C01_b64_lemma : forall l : list b64, Forall double l -> Forall not_nan l ->
  (all_finite l /\ acceptable (vals l) -> KnotVector_make l = Ok l) /\
  (~ (all_finite l /\ acceptable (vals l)) -> KnotVector_make l = Throw InvalidArgument).
Proof.
  intros l D N. unfold KnotVector_make. split.
  - intros [F A]. rewrite ValidateKnots_b64 by assumption. apply ValidateKnots_R in A. rewrite A. reflexivity.
  - intros H. destruct (ValidateKnots l) eqn:E; [|reflexivity]. exfalso. apply H.
    assert (all_finite l) as F.
    { destruct l as [|a l]; [constructor|]. eapply validate_loop_finite; eauto. apply finite_0. }
    split; auto. apply ValidateKnots_R. rewrite <- ValidateKnots_b64 by assumption. assumption.
Qed.
Lemma C01_nan_lemma : exists l : list b64, In S754_nan l /\ KnotVector_make l = Ok l.
Proof. exists [dz; S754_nan; done_]. split; [right; left; reflexivity|vm_compute; reflexivity]. Qed.

Ltac nondec :=
  match goal with
  | |- nondecreasing [] => apply nondecreasing_nil
  | |- nondecreasing (_ :: _) => apply nondecreasing_cons; split; [nondec|intros N; unfold at_; simpl; first [lra|congruence]]
  end.
Lemma acceptable_ex : acceptable [0; 0; 1/2; 1; 1]%R.
Proof.
  split; [congruence|]. split; [nondec|]. unfold at_; simpl; lra.
Qed.

(** ** C02 *)
Lemma C02_pairs_lemma : forall l : list R, nondecreasing l ->
  let ps := map pair_of (KnotVector_GetKnotPairs l) in
  expand ps = l /\ increasing ps /\
  (forall v m, In (v, m) ps -> 1 <= m /\ m = count v l) /\
  (forall v, In v l -> exists m, In (v, m) ps) /\
  fold_right Z.add 0 (map snd ps) = len l.
Proof.
  intros l S ps. change ps with (pairs_of l).
  split; [apply pairs_expand|]. split; [apply pairs_increasing; auto|]. split; [|split].
  - intros v m H. pose proof (pairs_mult l) as M. rewrite Forall_forall in M. split; [apply (M _ H)|].
    symmetry. apply (count_pairs l S _ H).
  - apply In_pairs.
  - rewrite <- (pairs_expand l) at 2. symmetry. apply len_expand. apply pairs_mult.
Qed.
Lemma C02_make_lemma : forall ks : list (knotpair R),
  (acceptable (expand (map pair_of ks)) -> KnotVector_of_pairs ks = Ok (expand (map pair_of ks))) /\
  (~ acceptable (expand (map pair_of ks)) -> KnotVector_of_pairs ks = Throw InvalidArgument).
Proof. intros ks. rewrite of_pairs_R. apply C01_lemma. Qed.
Lemma C02_roundtrip_lemma :
  (forall l l' : list R, KnotVector_make l = Ok l' -> KnotVector_of_pairs (KnotVector_GetKnotPairs l') = Ok l') /\
  (forall (ks : list (knotpair R)) l, Forall (fun k => 1 <= kp_Multiplicity k) ks ->
     increasing (map pair_of ks) -> KnotVector_of_pairs ks = Ok l ->
     map pair_of (KnotVector_GetKnotPairs l) = map pair_of ks).
Proof.
  split.
  - intros l l' E. rewrite of_pairs_R. change (map pair_of (KnotVector_GetKnotPairs l')) with (pairs_of l').
    rewrite pairs_expand. unfold KnotVector_make in *. destruct (ValidateKnots l) eqn:V; [|discriminate].
    inversion E; subst. rewrite V. reflexivity.
  - intros ks l F I E. rewrite of_pairs_R in E. unfold KnotVector_make in E.
    destruct (ValidateKnots _); [|discriminate]. inversion E; subst.
    change (pairs_of (expand (map pair_of ks)) = map pair_of ks). apply expand_pairs; auto.
    apply Forall_map. exact F.
Qed.

(** ** C03 *)
Lemma C03_refuted_lemma : exists (l : list b64) k, KnotVector_make l = Ok l /\
  In k (KnotVector_GetKnotPairs l) /\ nth_error l (Z.to_nat (kp_Index k)) <> Some (kp_Value k).
Proof.
  exists [dz; dz; done_; done_], (KnotPair 2 dz 2). split; [vm_compute; reflexivity|].
  split; [left; vm_compute; reflexivity|]. vm_compute. discriminate.
Qed.
Lemma C03_refuted_R_lemma : exists (l : list R) k, KnotVector_make l = Ok l /\
  In k (KnotVector_GetKnotPairs l) /\ nth_error l (Z.to_nat (kp_Index k)) <> Some (kp_Value k).
Proof.
  exists [0; 0; 1; 1]%R, (KnotPair 2 0%R 2). split; [|split].
  - apply KnotVector_make_ok. apply ValidateKnots_R. unfold ValidateKnots. simpl.
    norm_R. unfold nneb. norm_R. bool_R; simpl; try lra; reflexivity.
  - simpl. unfold nneb. norm_R. bool_R; simpl; try lra; auto.
  - simpl. intros E. inversion E. lra.
Qed.

(** ** C04 *)
Lemma C04_lemma : forall p n, 0 <= p -> 2 * (p + 1) <= n ->
  exists l : list R, KnotVector_Uniform p n = Ok l /\ len l = n /\
    (forall i, 0 <= i < n -> at_ l i = uniform_knot p (n - 2 * (p + 1)) i) /\
    clamped p l /\ (4 <= n -> KnotVector_IsValid l = true) /\ KnotVector_IsUniform l = true /\
    KnotVector_DetectDegree l = Ok p.
Proof.
  intros p n Hp Hn. exists (uniform_list p (n - 2 * (p + 1))).
  pose proof (uniform_clamped p (n - 2 * (p + 1)) Hp ltac:(lia)) as C.
  pose proof (len_uniform p (n - 2 * (p + 1)) Hp ltac:(lia)) as L.
  split; [apply Uniform_R; lia|]. split; [lia|]. split; [intros; apply at_uniform; lia|]. split; [exact C|].
  split; [intros; apply clamped_valid with p; auto; lia|]. split; [apply uniform_IsUniform; lia|].
  apply clamped_degree; assumption.
Qed.

(** ** C06 *)
(** the documented meaning: equal end multiplicities, greater than one *)
Definition clamped_meaning (l : list R) : Prop := count 0 l = count 1 l /\ 1 < count 0 l.
Lemma C06_refuted_lemma :
  (exists p n (l : list b64), 1 <= p /\ KnotVector_Uniform p n = Ok l /\ KnotVector_IsValid l = true /\ KnotVector_IsClamped l = false) /\
  (exists l : list R, KnotVector_IsValid l = true /\ clamped_meaning l /\ KnotVector_IsClamped l = false) /\
  (exists l : list R, KnotVector_IsValid l = true /\ ~ clamped_meaning l /\ KnotVector_IsClamped l = true).
Proof.
  split; [|split].
  - exists 1, 4, [dz; dz; done_; done_]. vm_compute. repeat split; discriminate.
  - exists [0; 0; 1; 1]%R. split; [|split].
    + apply IsValid_R. repeat split; try (vm_compute; congruence).
      nondec.
    + unfold clamped_meaning, count. simpl. repeat destruct Req_EM_T; try lra; lia.
    + destruct (KnotVector_IsClamped [0; 0; 1; 1]%R) eqn:E; auto. apply IsClamped_R in E.
      simpl in E. repeat destruct Req_EM_T; try lra; vm_compute in E; discriminate.
  - exists [0; 0; 1/2; 1]%R. split; [|split].
    + apply IsValid_R. repeat split; try (vm_compute; congruence).
      nondec.
    + unfold clamped_meaning, count. simpl. repeat destruct Req_EM_T; try lra; lia.
    + apply IsClamped_R. simpl. repeat destruct Req_EM_T; try lra; vm_compute; reflexivity.
Qed.

(** ** C08 *)
Lemma C08_lemma : forall p (l : list R) u, clamped p l ->
  ((0 <= u <= 1)%R -> exists i, KnotVector_FindSpanIndex l p u = Ok i /\ p <= i <= len l - p - 2 /\ in_span l i u /\
     forall j, 0 <= j < len l - 1 -> in_span l j u -> j = i) /\
  (~ (0 <= u <= 1)%R -> KnotVector_FindSpanIndex l p u = AssertFail).
Proof.
  intros p l u C. split; [|apply FindSpanIndex_assert].
  intros Hu. destruct (FindSpanIndex_R p l u C Hu) as [i [E [Hi Sp]]]. exists i. repeat split; auto; try lia.
  intros j Hj Sj. destruct C as [Cp CL CS C0 CF CE C1]. eapply in_span_unique; eauto; try lia. apply C1; lia.
Qed.
Lemma C08_b64_lemma : forall p (l : list b64) u, all_finite l -> clamped p (vals l) -> double u ->
  (finite64 u -> (0 <= val u <= 1)%R ->
     exists i, KnotVector_FindSpanIndex l p u = Ok i /\ p <= i <= len l - p - 2 /\ in_span (vals l) i (val u)) /\
  (~ (finite64 u /\ (0 <= val u <= 1)%R) -> KnotVector_FindSpanIndex l p u = AssertFail).
Proof.
  intros p l u F C D. split.
  - intros Fu Hu. rewrite FindSpanIndex_b64 by assumption.
    destruct (FindSpanIndex_R p _ _ C Hu) as [i [E [Hi Sp]]]. rewrite len_vals in Hi. eauto.
  - intros H. destruct (is_finite_SF u) eqn:E.
    + assert (finite64 u) as Fu by (split; assumption). rewrite FindSpanIndex_b64 by assumption.
      apply FindSpanIndex_assert. tauto.
    + apply FindSpanIndex_nonfinite; assumption.
Qed.

(** ** C09 *)
Lemma C09_lemma : forall (l : list R) u, nondecreasing l -> at_ l 0 = 0%R -> at_ l (len l - 1) = 1%R ->
  (0 <= u <= 1)%R ->
  let ps := KnotVector_GetKnotPairs l in
  exists j L R_, KnotVector_FindSpan l u = Ok (KnotSpan j L R_) /\ 0 <= j /\
    nth_error ps (Z.to_nat j) = Some L /\ nth_error ps (Z.to_nat (j + 1)) = Some R_ /\
    (kp_Value L <= u)%R /\
    ((u < kp_Value R_)%R \/ (j + 2 = len ps /\ u = kp_Value R_)).
Proof.
  intros l u S E0 E1 Hu ps. 
  assert (2 <= len ps) as L2.
  { assert (l <> []) as N by (intros ->; unfold at_ in *; simpl in *; lra).
    pose proof (pairs_first l N) as F. pose proof (pairs_last l N) as La.
    assert (len (pairs_of l) = len ps) as LP by apply len_map. rewrite LP in La.
    pose proof (len_nonneg ps). destruct (Z_lt_ge_dec (len ps) 2); [|lia]. exfalso.
    assert (len ps = 0 \/ len ps = 1) as [Z0|Z1] by lia.
    - rewrite <- LP in Z0. apply len_zero_nil in Z0. apply N. rewrite <- (pairs_expand l), Z0. reflexivity.
    - rewrite Z1 in La. replace (1 - 1) with 0 in La by lia. rewrite F in La. lra. }
  destruct (FindSpan_R l u S E0 E1 Hu L2) as [j [E [Hj [A B]]]]. fold ps in E, Hj, A, B.
  exists j, (znth kp0 ps j), (znth kp0 ps (j + 1)).
  split; [exact E|]. split; [lia|].
  split; [apply nth_error_nth'; unfold len in *; lia|]. split; [apply nth_error_nth'; unfold len in *; lia|].
  split; [exact A|]. destruct B as [B|[B1 B2]]; [left; assumption|right; split; [lia|assumption]].
Qed.
Lemma C09_assert_lemma : forall (l : list R) u, ~ (0 <= u <= 1)%R -> KnotVector_FindSpan l u = AssertFail.
Proof.
  intros l u H. unfold KnotVector_FindSpan. norm_R.
  assert (Rleb 0 u && Rleb u 1 = false) as ->; [|reflexivity].
  apply andb_false_iff. rewrite !Rleb_false. destruct (Rle_dec 0 u); [right|left]; lra.
Qed.

(** ** C10 *)
Lemma C10_lemma : forall l : list R,
  (Forall (fun a => a = 0%R) l -> KnotVector_DetectDegree l = Throw OutOfRange) /\
  (~ Forall (fun a => a = 0%R) l -> KnotVector_DetectDegree l = Ok (leading 0 l - 1)) /\
  (forall p, clamped p l -> KnotVector_DetectDegree l = Ok p).
Proof.
  intros l. split; [|split].
  - intros H. unfold KnotVector_DetectDegree. rewrite degree_loop_R. apply leading_all in H. rewrite H, Z.eqb_refl. reflexivity.
  - intros H. unfold KnotVector_DetectDegree. rewrite degree_loop_R.
    destruct (Z.eqb_spec (leading 0 l) (len l)) as [E|E]; [apply leading_all in E; contradiction|]. reflexivity.
  - intros p. apply clamped_degree.
Qed.

(** ** C11 *)
Lemma C11_lemma : forall (l : list R) u,
  KnotVector_GetMultiplicity l u = len (filter (near u) l) /\
  ((forall v, In v l -> v = u \/ (1 / 1000000 <= Rabs (v - u))%R) -> KnotVector_GetMultiplicity l u = count u l).
Proof.
  intros l u. rewrite GetMultiplicity_R. split; [reflexivity|]. apply filter_near_count.
Qed.

(** ** C12 *)
Lemma permutation_inserted (l : list R) v i n :
  Permutation (firstn i l ++ repeat v n ++ skipn i l) (repeat v n ++ l).
Proof. apply inserted_permutation. Qed.
Lemma C12_lemma : forall (l : list R) v times, unit_knots l -> 0 <= times ->
  ((0 < v < 1)%R -> exists l' i, KnotVector_InsertKnot l v times = Ok (l', i) /\
     0 <= i < len l - 1 /\ (at_ l i <= v < at_ l (i + 1))%R /\
     unit_knots l' /\ Permutation l' (repeat v (Z.to_nat times) ++ l)) /\
  (~ (0 < v < 1)%R -> KnotVector_InsertKnot l v times = AssertFail).
Proof.
  intros l v times [S [L2 [E0 E1]]] Ht. split; [|apply kv_InsertKnot_assert].
  intros Hv. destruct (kv_InsertKnot_R l v times S Hv Ht E0 E1 ltac:(lia)) as [l' [i [E [Hi [Sp [El S']]]]]].
  exists l', i. split; [exact E|]. split; [lia|]. split; [exact Sp|]. split.
  - assert (len l' = len l + times) as L' by (rewrite El; apply len_inserted; lia).
    split; [exact S'|]. split; [lia|]. rewrite L', El. to_znth. rewrite !znth_inserted by lia. split.
    + destruct (Z.ltb_spec 0 (i + 1)); [assumption|lia].
    + destruct (Z.ltb_spec (len l + times - 1) (i + 1)); [lia|].
      destruct (Z.ltb_spec (len l + times - 1) (i + 1 + times)); [lia|].
      rewrite <- E1. f_equal. lia.
  - rewrite El. apply permutation_inserted.
Qed.
Lemma C12_b64_lemma : forall (l : list b64) v times, all_finite l -> unit_knots (vals l) -> 0 <= times -> double v ->
  (finite64 v -> (0 < val v < 1)%R -> exists l' i, KnotVector_InsertKnot l v times = Ok (l', i) /\
     0 <= i < len l - 1 /\ (at_ (vals l) i <= val v < at_ (vals l) (i + 1))%R /\
     unit_knots (vals l') /\ Permutation l' (repeat v (Z.to_nat times) ++ l)) /\
  (~ (finite64 v /\ (0 < val v < 1)%R) -> KnotVector_InsertKnot l v times = AssertFail).
Proof.
  intros l v times F U Ht D. split.
  - intros Fv Hv. destruct (C12_lemma _ (val v) times U Ht) as [H _]. destruct (H Hv) as [l' [i [E [Hi [Sp [U' P]]]]]].
    rewrite kv_InsertKnot_b64 in E by assumption.
    destruct (KnotVector_InsertKnot l v times) as [[l1 i1]| | | | |] eqn:E1; cbn [bind] in E; try discriminate.
    inversion E; subst. exists l1, i. rewrite len_vals in Hi. repeat split; auto; try lia; try apply U'; try apply Sp.
    unfold KnotVector_InsertKnot in E1. bindinv E1. bindinv E1. bindinv E1. inversion E1; subst.
    match goal with V : vinsert _ _ _ _ = Ok _ |- _ => apply vinsert_inv in V; destruct V as [_ [_ ->]] end. apply inserted_permutation.
  - intros H. destruct (is_finite_SF v) eqn:Ef.
    + assert (finite64 v) as Fv by (split; assumption).
      assert (KnotVector_InsertKnot (vals l) (val v) times = AssertFail) as A by (apply kv_InsertKnot_assert; tauto).
      rewrite kv_InsertKnot_b64 in A by assumption.
      destruct (KnotVector_InsertKnot l v times) as [[l1 i1]| | | | |]; cbn [bind] in A; congruence.
    + apply kv_InsertKnot_nonfinite; assumption.
Qed.

(** ** C13 *)
Lemma C13_lemma : forall l : list R,
  let l' := KnotVector_Reverse l in
  len l' = len l /\
  (forall i, 0 <= i < len l -> at_ l' i = (1 - at_ l (len l - 1 - i))%R) /\
  (KnotVector_IsValid l = true -> KnotVector_IsValid l' = true) /\
  (forall p, clamped p l -> clamped p l') /\ KnotVector_Reverse l' = l.
Proof.
  intros l l'. split; [apply len_Reverse|]. split; [intros; apply at_Reverse; assumption|]. split; [apply Reverse_valid|].
  split; [intros p; apply Reverse_clamped|]. apply Reverse_involutive.
Qed.
Lemma C13_b64_refuted_lemma : exists l : list b64, KnotVector_make l = Ok l /\
  KnotVector_Reverse (KnotVector_Reverse l) <> l.
Proof. exists [dz; dtenth; done_]. split; [vm_compute; reflexivity|]. vm_compute. intros H. discriminate. Qed.

(** ** C19 *)
Lemma C19_lemma : forall n k : nat,
  ((k <= n)%nat -> Z.of_nat n <= INT_MAX -> binomial_fits n k -> Binomial (Z.of_nat n) (Z.of_nat k) = Ok (choose n k)) /\
  ((n < k)%nat -> Binomial (Z.of_nat n) (Z.of_nat k) = Ok 0 /\ choose n k = 0) /\
  ((n <= 29)%nat -> Binomial (Z.of_nat n) (Z.of_nat k) = Ok (choose n k)).
Proof.
  intros n k. split; [apply Binomial_ok|]. split.
  - intros H. split; [apply Binomial_gt; lia|apply choose_zero; assumption].
  - intros H. destruct (le_lt_dec k n).
    + apply Binomial_ok; auto; [unfold INT_MAX; lia|]. apply binomial_fits_29; auto.
    + rewrite choose_zero by assumption. apply Binomial_gt. lia.
Qed.
Lemma C19_refuted_lemma :
  (exists n k, 0 <= n /\ k < 0 /\ Binomial n k = Ok 1) /\
  (exists n k, 0 <= k <= n /\ Binomial n k = Undefined IntOverflow).
Proof.
  split; [exists 3, (-1)|exists 30, 16]; repeat split; try lia; vm_compute; reflexivity.
Qed.

(** ** C20 *)
Lemma C20_refuted_lemma : exists (g : grid Z) u v, grid_is g 2 2 (fun i j => 10 * j + i) /\
  u < 0 /\ Grid_Get g u v = Ok 1.
Proof.
  exists (Grid 2 2 [0; 1; 10; 11]), (-1), 1. split; [|split; [lia|reflexivity]].
  repeat split; try (simpl; lia); try reflexivity.
  intros i j Hi Hj. assert (i = 0 \/ i = 1) as [-> | ->] by lia; assert (j = 0 \/ j = 1) as [-> | ->] by lia; reflexivity.
Qed.
Lemma C20_setget_lemma : forall A (g : grid A) u v f, grid_is g u v f ->
  (forall i l, 0 <= i < u -> Grid_GetU g i = Ok l -> Grid_SetU g i l = Ok g) /\
  (forall j l, 0 <= j < v -> Grid_GetV g j = Ok l -> Grid_SetV g j l = Ok g).
Proof.
  intros A g u v f G. split.
  - intros i l Hi E. rewrite (Grid_GetU_ok g u v f i G Hi) in E. inversion E; subst.
    destruct (Grid_SetU_ok g u v f i (f i) G Hi) as [g' [E' G']]. rewrite E'. f_equal.
    eapply grid_is_unique; [exact G'|]. eapply grid_is_eq; [exact G|]. intros i' j' _ _. simpl.
    destruct (Z.eqb_spec i' i); subst; reflexivity.
  - intros j l Hj E. rewrite (Grid_GetV_ok g u v f j G Hj) in E. inversion E; subst.
    destruct (Grid_SetV_ok g u v f j (fun i => f i j) G Hj) as [g' [E' G']]. rewrite E'. f_equal.
    eapply grid_is_unique; [exact G'|]. eapply grid_is_eq; [exact G|]. intros i' j' _ _. simpl.
    destruct (Z.eqb_spec j' j); subst; reflexivity.
Qed.

(** ** C23 *)
(** grids reachable through the API: constructed, modified by Set*/Insert* *)
Inductive reachable {A} : grid A -> Prop :=
| reach_make u v x g : 0 <= u -> 0 <= v -> Grid_make u v x = Ok g -> reachable g
| reach_set g g' u v x : reachable g -> 0 <= u -> 0 <= v -> Grid_Set g u v x = Ok g' -> reachable g'
| reach_setU g g' u l : reachable g -> 0 <= u -> Grid_SetU g u l = Ok g' -> reachable g'
| reach_setV g g' v l : reachable g -> 0 <= v -> Grid_SetV g v l = Ok g' -> reachable g'
| reach_insU jk g g' u x : reachable g -> Grid_InsertU jk g u x = Ok g' -> reachable g'
| reach_insV g g' v x : reachable g -> Grid_InsertV g v x = Ok g' -> reachable g'.
Definition sized {A} (g : grid A) : Prop := 0 <= UCount g /\ 0 <= VCount g /\ len (Values g) = UCount g * VCount g.
Lemma sized_is {A} (d : A) (g : grid A) : sized g ->
  grid_is g (UCount g) (VCount g) (fun i j => znth d (Values g) (j * UCount g + i)).
Proof. destruct g as [u v l]. intros [H1 [H2 H3]]. simpl in *. apply grid_is_ex; auto. Qed.
Lemma is_sized {A} (g : grid A) u v f : grid_is g u v f -> sized g.
Proof. intros [<- [<- [Hu [Hv [L _]]]]]. repeat split; auto. Qed.
Lemma loop_len {A B} (body : Z -> list A -> outcome (list A)) lo hi (l l' : list A) (b : B) :
  (forall i s s', body i s = Ok s' -> len s' = len s) -> for_up lo hi body l = Ok l' -> len l' = len l.
Proof.
  intros H E. destruct (Z_le_gt_dec lo hi).
  - apply (for_up_inv_partial (fun _ s => len s = len l) lo hi body l l'); auto.
    intros i s s' _ P Eb. rewrite <- P. eapply H; eauto.
  - rewrite for_up_empty in E by lia. inversion E; reflexivity.
Qed.
Lemma reachable_sized {A} (g : grid A) : reachable g -> sized g.
Proof.
  induction 1 as [u v x g Hu Hv E|g g' u v x R IH Hu Hv E|g g' u l R IH Hu E|g g' v l R IH Hv E|jk g g' u x R IH E|g g' v x R IH E].
  - unfold Grid_make in E. bindinv E. bindinv E. inversion E; subst.
    unfold int_ in E0. destruct (fits_int (u * v)); [|discriminate]. inversion E0; subst.
    rewrite vmake_ok in E1 by nia. inversion E1; subst. unfold sized; simpl. rewrite len_repeat. nia.
  - unfold Grid_Set in E. bindinv E. bindinv E. inversion E; subst. apply vset_inv in E1. destruct E1 as [_ ->].
    destruct IH as [H1 [H2 H3]]. unfold sized; simpl. rewrite len_update. auto.
  - unfold Grid_SetU in E. bindinv E. bindinv E. bindinv E. inversion E; subst.
    destruct IH as [H1 [H2 H3]]. unfold sized; simpl. repeat split; auto. rewrite <- H3.
    eapply (loop_len _ _ _ _ _ tt); [|exact E2]. intros i s s' Eb. bindinv Eb. apply vset_inv in Eb. destruct Eb as [_ ->].
    apply len_update.
  - unfold Grid_SetV in E. bindinv E. bindinv E. bindinv E. inversion E; subst.
    destruct IH as [H1 [H2 H3]]. unfold sized; simpl. repeat split; auto. rewrite <- H3.
    eapply (loop_len _ _ _ _ _ tt); [|exact E2]. intros i s s' Eb. bindinv Eb. apply vset_inv in Eb. destruct Eb as [_ ->].
    apply len_update.
  - pose proof (sized_is x g IH) as G. destruct (Z_lt_ge_dec u 0) as [Lt|Ge].
    { rewrite (Grid_InsertU_assert _ _ _ _ _ _ _ G) in E by lia. discriminate. }
    destruct (Z_lt_ge_dec u (UCount g)) as [Lt'|Ge'].
    + destruct (Grid_InsertU_ok jk g _ _ _ u x G) as [g1 [E1 G1]]; [lia|]. rewrite E1 in E. inversion E; subst.
      eapply is_sized; eauto.
    + rewrite (Grid_InsertU_assert _ _ _ _ _ _ _ G) in E by lia. discriminate.
  - pose proof (sized_is x g IH) as G. destruct (Z_lt_ge_dec v 0) as [Lt|Ge].
    { rewrite (Grid_InsertV_assert _ _ _ _ _ _ G) in E by lia. discriminate. }
    destruct (Z_lt_ge_dec v (VCount g)) as [Lt'|Ge'].
    + destruct (Grid_InsertV_ok g _ _ _ v x G) as [g1 [E1 G1]]; [lia|]. rewrite E1 in E. inversion E; subst.
      eapply is_sized; eauto.
    + rewrite (Grid_InsertV_assert _ _ _ _ _ _ G) in E by lia. discriminate.
Qed.
Lemma C23_lemma : forall A (g : grid A), reachable g -> len (Values g) <= INT_MAX ->
  Grid_Count g = Ok (len (Values g)).
Proof.
  intros A g R F. apply reachable_sized in R. destruct R as [H1 [H2 H3]].
  unfold Grid_Count, int_, fits_int. rewrite <- H3. pose proof (len_nonneg (Values g)).
  destruct (Z.leb_spec INT_MIN (len (Values g))); [|unfold INT_MIN in *; lia].
  destruct (Z.leb_spec (len (Values g)) INT_MAX); [|lia]. reflexivity.
Qed.
Lemma C23_refuted_lemma : exists g : grid Z, g = Grid_default /\ Grid_Count g = Ok 1 /\ len (Values g) = 0.
Proof. exists Grid_default. repeat split. Qed.

(** ** C25 *)
Lemma C25_refuted_lemma : exists (b : bbox R) p q, ordered b /\ in_box q b /\
  ~ in_box q (BoundingBox_ExpandToInclude b p).
Proof.
  exists (BBox (Vec3 0 0 0) (Vec3 2 2 2))%R, (Vec3 1 1 1)%R, (Vec3 2 2 2)%R.
  rewrite box_expand_point. unfold ordered, in_box, le3. simpl. repeat split; try lra.
Qed.

Lemma count_ge (l : list R) v : (forall x, In x l -> (v < x)%R) -> count v l = 0.
Proof.
  intros H. unfold count. replace (count_occ Req_EM_T l v) with 0%nat; [reflexivity|].
  symmetry. apply count_occ_not_In. intros I. apply H in I. lra.
Qed.
Lemma leading_count (l : list R) v : nondecreasing l -> (forall x, In x l -> (v <= x)%R) -> leading v l = count v l.
Proof.
  induction l as [|a l IH]; intros S G; [reflexivity|].
  assert (forall x, In x l -> (a <= x)%R) as F.
  { intros x I. destruct (In_znth 0%R (a :: l) x (or_intror I)) as [i [Hi E]].
    specialize (S 0 i ltac:(lia) ltac:(lia)). change (at_ (a :: l) 0) with a in S.
    destruct (Z.eq_dec i 0) as [->|]; [change (znth 0%R (a :: l) 0) with a in E; lra|].
    rewrite at_cons in S by lia. rewrite znth_cons in E by lia.
    change (at_ l (i - 1)) with (znth 0%R l (i - 1)) in S. lra. }
  apply nondecreasing_cons in S. destruct S as [S F0].
  simpl leading. unfold count. simpl count_occ. destruct (Req_EM_T a v) as [->|N].
  - rewrite IH by (auto; intros; apply G; right; auto). unfold count. lia.
  - symmetry. apply count_ge. intros x I. pose proof (F x I). pose proof (G a (or_introl eq_refl)). lra.
Qed.
Lemma leading_map l : leading 1 l = leading 0 (map (fun x => 1 - x)%R l).
Proof.
  induction l as [|a l IH]; [reflexivity|]. simpl. rewrite IH.
  destruct (Req_EM_T a 1), (Req_EM_T (1 - a) 0); auto; lra.
Qed.
Lemma count_map_1 l : count 0 (map (fun x => 1 - x)%R l) = count 1 l.
Proof.
  unfold count. f_equal. induction l as [|a l IH]; [reflexivity|]. simpl. rewrite IH.
  destruct (Req_EM_T a 1), (Req_EM_T (1 - a) 0); auto; lra.
Qed.
Lemma count_rev v l : count v (rev l) = count v l.
Proof. unfold count. f_equal. apply Permutation_count_occ. apply Permutation_sym, Permutation_rev. Qed.
Lemma bounds_valid (l : list R) : nondecreasing l -> at_ l 0 = 0%R -> at_ l (len l - 1) = 1%R ->
  forall x, In x l -> (0 <= x <= 1)%R.
Proof.
  intros S E0 E1 x I. destruct (In_znth 0%R l x I) as [i [Hi E]].
  pose proof (S 0 i ltac:(lia) ltac:(lia)). pose proof (S i (len l - 1) ltac:(lia) ltac:(lia)).
  change (at_ l i) with (znth 0%R l i) in *. lra.
Qed.
Lemma C06_lemma : forall l : list R, KnotVector_IsValid l = true ->
  (KnotVector_IsClamped l = true <-> count 0 l + count 1 l = len l - 1).
Proof.
  intros l V. apply IsValid_R in V. destruct V as [L [E0 [E1 S]]].
  rewrite IsClamped_R. rewrite leading_map.
  pose proof (bounds_valid l S E0 E1) as B.
  rewrite (leading_count l 0) by (auto; intros; apply B; auto).
  rewrite (leading_count _ 0).
  - rewrite count_map_1, count_rev. reflexivity.
  - apply (Reverse_nondecreasing l S).
  - intros x I. apply in_map_iff in I. destruct I as [y [<- I]]. apply in_rev in I. apply B in I. lra.
Qed.

(** examples *)
Lemma clamped_ex : clamped 2 [0; 0; 0; 1/3; 1/2; 1/2; 1; 1; 1]%R.
Proof.
  constructor; try (unfold len; simpl; lia).
  - nondec.
  - intros i Hi. assert (i = 0 \/ i = 1 \/ i = 2) as [-> | [-> | ->]] by lia; reflexivity.
  - unfold at_; simpl; lra.
  - unfold at_; simpl; lra.
  - intros i Hi. unfold len in Hi; simpl in Hi. assert (i = 6 \/ i = 7 \/ i = 8) as [-> | [-> | ->]] by lia; reflexivity.
Qed.
Lemma finite_dz : finite64 dz. Proof. split; reflexivity. Qed.
Lemma finite_dhalf : finite64 dhalf. Proof. split; reflexivity. Qed.
Lemma finite_done : finite64 done_. Proof. split; reflexivity. Qed.
Lemma val_dhalf : val dhalf = (1 / 2)%R.
Proof.
  unfold val, dhalf, SF2R, Defs.F2R. cbn [Defs.Fnum Defs.Fexp cond_Zopp].
  unfold Raux.bpow. simpl Zaux.radix_val. change (Z.pow_pos 2 53) with 9007199254740992. lra.
Qed.
Lemma vals_ex : vals [dz; dz; dhalf; done_; done_] = [0; 0; 1/2; 1; 1]%R.
Proof.
  unfold vals. cbn [map]. rewrite val_dhalf.
  change (val dz) with (val (n0 : b64)). change (val done_) with (val (n1 : b64)). rewrite val_0, val_1. reflexivity.
Qed.
Lemma clamped_ex64 : clamped 1 (vals [dz; dz; dhalf; done_; done_]).
Proof.
  rewrite vals_ex. constructor; try (unfold len; simpl; lia).
  - nondec.
  - intros i Hi. assert (i = 0 \/ i = 1) as [-> | ->] by lia; reflexivity.
  - unfold at_; simpl; lra.
  - unfold at_; simpl; lra.
  - intros i Hi. unfold len in Hi; simpl in Hi. assert (i = 3 \/ i = 4) as [-> | ->] by lia; reflexivity.
Qed.
Lemma all_finite_ex : all_finite [dz; dz; dhalf; done_; done_].
Proof. repeat constructor. Qed.
Lemma unit_ex : unit_knots [0; 0; 1/2; 1; 1]%R.
Proof. split; [nondec|]. split; [unfold len; simpl; lia|]. split; reflexivity. Qed.
