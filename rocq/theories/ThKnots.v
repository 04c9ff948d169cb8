(** Knot vectors over the reals. *)
From Coq Require Import Reals Qreals Lra ZArith Lia Bool List Permutation Sorted.
From Verif Require Import Outcome Num ModelCore SpecCore ThOutcome ThReal.
Import ListNotations.
Open Scope Z_scope.

#[global] Arguments Approx {T H} : simpl never.

Lemma at_znth l i : at_ l i = znth 0%R l i.
Proof. reflexivity. Qed.
Ltac to_znth := change at_ with (@znth R 0%R) in *.
Ltac of_znth := change (@znth R 0%R) with at_ in *.
Lemma at_cons a l i : 0 < i -> at_ (a :: l) i = at_ l (i - 1).
Proof. intros. rewrite !at_znth. apply znth_cons. assumption. Qed.
Lemma at_cons0 a l : at_ (a :: l) 0 = a.
Proof. reflexivity. Qed.

(** ** Sortedness *)
Lemma nondecreasing_nil : nondecreasing [].
Proof. intros i j H L. change (len (@nil R)) with 0 in L. lia. Qed.
Lemma nondecreasing_cons a l :
  nondecreasing (a :: l) <-> nondecreasing l /\ (l <> [] -> (a <= at_ l 0)%R).
Proof.
  split.
  - intros H. split.
    + intros i j Hij Hj. specialize (H (i + 1) (j + 1)).
      rewrite (at_cons a l (i + 1)), (at_cons a l (j + 1)) in H by lia.
      replace (i + 1 - 1) with i in H by lia. replace (j + 1 - 1) with j in H by lia.
      apply H; [lia|rewrite len_cons; lia].
    + intros N. specialize (H 0 1). rewrite (at_cons a l 1), at_cons0 in H by lia. apply H; [lia|].
      rewrite len_cons. destruct l; [congruence|]. rewrite len_cons. pose proof (len_nonneg l). lia.
  - intros [S F] i j Hij Hj. rewrite len_cons in Hj.
    assert (l <> [] -> (a <= at_ l 0)%R) as F' by exact F.
    destruct (Z.eq_dec i 0) as [->|].
    + destruct (Z.eq_dec j 0) as [->|]; [lra|]. rewrite at_cons0, at_cons by lia.
      assert (l <> []) by (intros ->; change (len (@nil R)) with 0 in Hj; lia).
      specialize (F' H). specialize (S 0 (j - 1)). assert (0 <= 0 <= j - 1) by lia.
      assert (j - 1 < len l) by lia. specialize (S H0 H1). lra.
    + rewrite (at_cons a l i), (at_cons a l j) by lia. apply S; lia.
Qed.

Lemma nondecreasing_app l l' :
  nondecreasing l -> nondecreasing l' ->
  (forall x y, In x l -> In y l' -> (x <= y)%R) -> nondecreasing (l ++ l').
Proof.
  intros S S' H i j Hij Hj. rewrite len_app in Hj. to_znth. rewrite !znth_app by lia. of_znth.
  destruct (Z.ltb_spec i (len l)), (Z.ltb_spec j (len l)); try lia.
  - apply S; lia.
  - to_znth. apply H; apply znth_In; lia.
  - apply S'; lia.
Qed.
Lemma nondecreasing_repeat a n : nondecreasing (repeat a n).
Proof.
  rewrite <- (Nat2Z.id n). intros i j Hij Hj. rewrite len_repeat in Hj.
  to_znth. rewrite !znth_repeat by lia. lra.
Qed.

(** ** C01 *)
Lemma validate_loop_R l : forall v,
  validate_loop v l = true <->
  nondecreasing l /\ (l <> [] -> (v <= at_ l 0)%R) /\ (match l with [] => v | _ => at_ l (len l - 1) end = 1%R).
Proof.
  induction l as [|a l IH]; intros v; simpl validate_loop; norm_R.
  - rewrite negb_involutive, Reqb_true. pose proof nondecreasing_nil. tauto.
  - destruct (Rltb_spec a v) as [L|L].
    + split; [discriminate|]. intros [_ [H _]]. assert (v <= at_ (a :: l) 0)%R by (apply H; discriminate).
      unfold at_ in H0; simpl in H0. lra.
    + rewrite IH, nondecreasing_cons. change (at_ (a :: l) 0) with a.
      assert (match l with [] => a | _ => at_ l (len l - 1) end = at_ (a :: l) (len (a :: l) - 1)) as E.
      { destruct l; [reflexivity|]. rewrite !len_cons. symmetry. rewrite at_cons.
        - f_equal. lia.
        - pose proof (len_nonneg l). lia. }
      rewrite E. split; intros [A B]; intuition; lra.
Qed.

Lemma ValidateKnots_R l : ValidateKnots l = true <-> acceptable l.
Proof.
  destruct l as [|a l].
  - simpl. split; [discriminate|]. intros [H _]; congruence.
  - unfold ValidateKnots, acceptable. rewrite validate_loop_R. norm_R.
    split; intros; intuition; try congruence.
    + apply H. discriminate.
Qed.

Lemma KnotVector_make_ok l : acceptable l -> KnotVector_make l = Ok l.
Proof. intros H. unfold KnotVector_make. apply ValidateKnots_R in H. rewrite H. reflexivity. Qed.
Lemma KnotVector_make_throw l : ~ acceptable l -> KnotVector_make l = Throw InvalidArgument.
Proof.
  intros H. unfold KnotVector_make. destruct (ValidateKnots l) eqn:E; [|reflexivity].
  apply ValidateKnots_R in E. contradiction.
Qed.

(** ** C02 *)
Definition pairs_of (l : list R) : list (R * Z) := map pair_of (KnotVector_GetKnotPairs l).

Lemma repeat_snoc {A} (a : A) n : repeat a n ++ [a] = a :: repeat a n.
Proof. symmetry. apply repeat_cons. Qed.

Lemma pairs_loop_expand rest : forall i v m, 0 <= m ->
  expand (map pair_of (pairs_loop i v m rest)) = repeat v (Z.to_nat m) ++ rest.
Proof.
  induction rest as [|a rest IH]; intros i v m Hm; simpl pairs_loop.
  - simpl. unfold expand. simpl. rewrite !app_nil_r. reflexivity.
  - norm_R. destruct (Reqb_spec a v) as [->|N]; simpl.
    + rewrite IH by lia. replace (Z.to_nat (m + 1)) with (S (Z.to_nat m)) by lia. simpl.
      change (v :: rest) with ([v] ++ rest). rewrite app_assoc, repeat_snoc. reflexivity.
    + unfold expand; simpl. fold (expand (map pair_of (pairs_loop (i + 1) a 1 rest))).
      rewrite IH by lia. simpl. reflexivity.
Qed.
Lemma pairs_loop_mult rest : forall i v m, 1 <= m ->
  Forall (fun p => 1 <= snd p) (map pair_of (pairs_loop i v m rest)).
Proof.
  induction rest as [|a rest IH]; intros i v m Hm; simpl pairs_loop.
  - repeat constructor. simpl. lia.
  - norm_R. destruct (Reqb_spec a v); simpl.
    + apply IH; lia.
    + constructor; [simpl; lia|]. apply IH; lia.
Qed.
Lemma pairs_loop_head rest : forall i v m,
  exists k r, map pair_of (pairs_loop i v m rest) = (v, k) :: r.
Proof.
  induction rest as [|a rest IH]; intros i v m; simpl pairs_loop.
  - simpl. eexists _, _. reflexivity.
  - norm_R. destruct (Reqb_spec a v); simpl.
    + apply IH.
    + eexists _, _. reflexivity.
Qed.
Lemma pairs_loop_increasing rest : forall i v m,
  nondecreasing (v :: rest) -> increasing (map pair_of (pairs_loop i v m rest)).
Proof.
  induction rest as [|a rest IH]; intros i v m S; simpl pairs_loop.
  - simpl. auto.
  - apply nondecreasing_cons in S. destruct S as [S F].
    assert (v <= a)%R as L by (apply F; discriminate).
    norm_R. destruct (Reqb_spec a v) as [->|N]; simpl negb; cbv iota.
    + apply IH; assumption.
    + simpl map. destruct (pairs_loop_head rest (i + 1) a 1) as [k [r E]].
      specialize (IH (i + 1) a 1 S). rewrite E in *. simpl. split; [simpl; lra|assumption].
Qed.

Lemma pairs_expand l : expand (pairs_of l) = l.
Proof.
  destruct l as [|a l]; [reflexivity|]. unfold pairs_of, KnotVector_GetKnotPairs.
  rewrite pairs_loop_expand by lia. reflexivity.
Qed.
Lemma pairs_mult l : Forall (fun p => 1 <= snd p) (pairs_of l).
Proof.
  destruct l as [|a l]; [constructor|]. apply pairs_loop_mult. lia.
Qed.
Lemma pairs_increasing l : nondecreasing l -> increasing (pairs_of l).
Proof.
  destruct l as [|a l]; [simpl; auto|]. apply pairs_loop_increasing.
Qed.

Lemma expand_of_pairs ps :
  expand (map pair_of ps)
  = flat_map (fun k => repeat (kp_Value k) (Z.to_nat (kp_Multiplicity k))) ps.
Proof. induction ps; simpl; auto. unfold expand in *. simpl. rewrite IHps. reflexivity. Qed.

Lemma of_pairs_R ps :
  KnotVector_of_pairs ps = KnotVector_make (expand (map pair_of ps)).
Proof. unfold KnotVector_of_pairs, KnotVector_make. rewrite expand_of_pairs. reflexivity. Qed.

(** the runs of a strictly increasing expansion are recovered *)
Lemma pairs_loop_run (v : R) n : forall i m rest,
  pairs_loop i v m (repeat v n ++ rest) = pairs_loop (i + Z.of_nat n) v (m + Z.of_nat n) rest.
Proof.
  induction n; intros i m rest; simpl repeat; simpl app.
  - replace (i + Z.of_nat 0) with i by lia. replace (m + Z.of_nat 0) with m by lia. reflexivity.
  - simpl pairs_loop. norm_R. destruct (Reqb_spec v v); [|congruence]. simpl.
    rewrite IHn. f_equal; lia.
Qed.
Lemma expand_pairs_loop ps : forall i v m, 1 <= m ->
  Forall (fun p => 1 <= snd p) ps -> increasing ((v, m) :: ps) ->
  map pair_of (pairs_loop i v m (expand ps)) = (v, m) :: ps.
Proof.
  induction ps as [|[w k] ps IH]; intros i v m Hm Fa Inc.
  - simpl. reflexivity.
  - inversion Fa as [|x y Hk Fa']; subst. simpl in Hk. destruct Inc as [Lt Inc]. simpl in Lt.
    unfold expand. simpl. fold (expand ps).
    replace (Z.to_nat k) with (S (Z.to_nat (k - 1))) by lia. simpl.
    norm_R. destruct (Reqb_spec w v); [lra|]. simpl negb. cbv iota. simpl map.
    rewrite pairs_loop_run. replace (1 + Z.of_nat (Z.to_nat (k - 1))) with k by lia.
    rewrite IH by (auto; lia). reflexivity.
Qed.
Lemma expand_pairs ps : Forall (fun p => 1 <= snd p) ps -> increasing ps ->
  pairs_of (expand ps) = ps.
Proof.
  destruct ps as [|[v m] ps]; [reflexivity|]. intros Fa Inc.
  inversion Fa as [|x y Hk Fa']; subst. simpl in Hk.
  unfold pairs_of. unfold expand. simpl. fold (expand ps).
  replace (Z.to_nat m) with (S (Z.to_nat (m - 1))) by lia. simpl.
  rewrite pairs_loop_run. replace (1 + Z.of_nat (Z.to_nat (m - 1))) with m by lia.
  apply expand_pairs_loop; auto.
Qed.

Lemma count_app v l l' : count v (l ++ l') = count v l + count v l'.
Proof. unfold count. rewrite count_occ_app. lia. Qed.
Lemma count_repeat v w n : count v (repeat w n) = if Req_EM_T w v then Z.of_nat n else 0.
Proof.
  unfold count. induction n; simpl.
  - destruct (Req_EM_T w v); reflexivity.
  - destruct (Req_EM_T w v); [rewrite Nat2Z.inj_succ, IHn; lia|assumption].
Qed.
Lemma increasing_tail a ps : increasing (a :: ps) -> increasing ps.
Proof. destruct ps; simpl; tauto. Qed.
Lemma increasing_lt a ps : increasing (a :: ps) -> forall b, In b ps -> (fst a < fst b)%R.
Proof.
  revert a; induction ps as [|c ps IH]; intros a H b Hb; [destruct Hb|].
  destruct H as [L H]. destruct Hb as [->|Hb]; [assumption|].
  specialize (IH _ H _ Hb). lra.
Qed.
Lemma count_expand_notin v ps : (forall p, In p ps -> fst p <> v) -> count v (expand ps) = 0.
Proof.
  induction ps as [|a ps IH]; intros H; [reflexivity|].
  unfold expand. simpl. fold (expand ps). rewrite count_app, count_repeat, IH by (intros; apply H; right; auto).
  destruct (Req_EM_T (fst a) v); [|lia]. exfalso. apply (H a); [left; auto|assumption].
Qed.
Lemma count_expand ps : Forall (fun p => 1 <= snd p) ps -> increasing ps ->
  forall p, In p ps -> count (fst p) (expand ps) = snd p.
Proof.
  induction ps as [|a ps IH]; intros Fa Inc p Hp; [destruct Hp|].
  inversion Fa; subst. pose proof (increasing_lt _ _ Inc) as Lt. apply increasing_tail in Inc.
  unfold expand. simpl. fold (expand ps). rewrite count_app, count_repeat.
  destruct Hp as [->|Hp].
  - destruct (Req_EM_T (fst p) (fst p)); [|congruence]. rewrite count_expand_notin; [lia|].
    intros q Hq E. apply Lt in Hq. lra.
  - specialize (IH H2 Inc _ Hp). destruct (Req_EM_T (fst a) (fst p)); [|lia].
    apply Lt in Hp. lra.
Qed.
Lemma count_pairs l : nondecreasing l -> forall p, In p (pairs_of l) -> count (fst p) l = snd p.
Proof.
  intros S p Hp. rewrite <- (pairs_expand l) at 1. apply count_expand; auto.
  - apply pairs_mult.
  - apply pairs_increasing; assumption.
Qed.
Lemma len_expand ps : Forall (fun p => 1 <= snd p) ps ->
  len (expand ps) = fold_right Z.add 0 (map snd ps).
Proof.
  induction 1 as [|p ps Hp Fa IH]; [reflexivity|].
  unfold expand; simpl. fold (expand ps). rewrite len_app, IH, len_repeat. lia.
Qed.
Lemma In_pairs l v : In v l -> exists m, In (v, m) (pairs_of l).
Proof.
  intros H. rewrite <- (pairs_expand l) in H. unfold expand in H. apply in_flat_map in H.
  destruct H as [[w m] [H1 H2]]. apply repeat_spec in H2. simpl in H2. subst. eauto.
Qed.

(** ** C03: what Index is *)
Lemma pairs_loop_index rest : forall i v m,
  map kp_Index (pairs_loop i v m rest)
  = indices_from (i - m) (map pair_of (pairs_loop i v m rest)).
Proof.
  induction rest as [|a rest IH]; intros i v m; simpl pairs_loop; [reflexivity|].
  norm_R. destruct (Reqb_spec a v); simpl negb; cbv iota.
  - rewrite IH. f_equal. lia.
  - simpl map. rewrite IH. destruct (pairs_loop_head rest (i + 1) a 1) as [k [r E]]. rewrite E.
    simpl. replace (i - m + m) with i by lia. replace (i + 1 - 1) with i by lia. reflexivity.
Qed.
Lemma pairs_index l :
  map kp_Index (KnotVector_GetKnotPairs l) = indices_from 0 (pairs_of l).
Proof. destruct l as [|a l]; [reflexivity|]. apply pairs_loop_index. Qed.

(** ** C05 *)
Lemma nondecreasing_loop_R l : forall v, nondecreasing_loop v l = true <-> nondecreasing (v :: l).
Proof.
  induction l as [|a l IH]; intros v; simpl nondecreasing_loop.
  - split; [|auto]. intros _. apply nondecreasing_cons. split; [apply nondecreasing_nil|congruence].
  - norm_R. rewrite nondecreasing_cons. change (at_ (a :: l) 0) with a.
    destruct (Rltb_spec a v).
    + split; [discriminate|]. intros [_ H]. assert (v <= a)%R by (apply H; discriminate). lra.
    + rewrite IH. split; [intros; split; auto; intros; lra|tauto].
Qed.
Lemma IsValid_R l : KnotVector_IsValid l = true <->
  4 <= len l /\ at_ l 0 = 0%R /\ at_ l (len l - 1) = 1%R /\ nondecreasing l.
Proof.
  unfold KnotVector_IsValid. destruct (Z.ltb_spec (len l) 4) as [L|L].
  - split; [discriminate|]. intros [H _]; lia.
  - destruct l as [|a l]; [change (len (@nil R)) with 0 in L; lia|].
    assert (last (a :: l) a = at_ (a :: l) (len (a :: l) - 1)) as E.
    { to_znth. rewrite znth_indep with (d' := a) by (pose proof (len_nonneg l); rewrite len_cons; lia).
      symmetry. apply znth_last. discriminate. }
    rewrite E. change (at_ (a :: l) 0) with a. norm_R.
    destruct (Reqb_spec a 0); cbn [negb]; [|split; [intros; discriminate|tauto]].
    destruct (Reqb_spec (at_ (a :: l) (len (a :: l) - 1)) 1); cbn [negb]; [|split; [intros; discriminate|tauto]].
    rewrite nondecreasing_loop_R. tauto.
Qed.

(** ** C06 *)
Lemma scan_up_R v l : forall i, scan_up v i l = i + leading v l.
Proof.
  induction l as [|a l IH]; intros i; simpl; [lia|]. norm_R. unfold Reqb.
  destruct (Req_EM_T a v); simpl; [rewrite IH; lia|lia].
Qed.
Lemma scan_down_R v l : forall i, scan_down v i l = i - leading v l.
Proof.
  induction l as [|a l IH]; intros i; simpl; [lia|]. norm_R. unfold Reqb.
  destruct (Req_EM_T a v); simpl; [rewrite IH; lia|lia].
Qed.
Lemma IsClamped_R l : KnotVector_IsClamped l = true <->
  leading 0 l + leading 1 (rev l) = len l - 1.
Proof.
  unfold KnotVector_IsClamped. norm_R. rewrite scan_up_R, scan_down_R, Z.eqb_eq. lia.
Qed.

(** ** C07 *)
Lemma Approx_R a b : Approx a b lit_1e_6 = true <-> close a b.
Proof.
  unfold Approx, close. norm_R. rewrite Rabs_if, Rltb_true, lit_1e_6_R. tauto.
Qed.
Lemma uniform_loop_R rest : forall interval prev,
  uniform_loop interval prev rest = true <->
  let g := if Req_EM_T interval 0 then first_nonzero (gaps (prev :: rest)) else interval in
  Forall (fun d => d = 0%R \/ close d g) (gaps (prev :: rest)).
Proof.
  induction rest as [|a rest IH]; intros interval prev.
  - simpl. split; auto.
  - change (uniform_loop interval prev (a :: rest)) with
      (if Reqb interval 0 then uniform_loop (a - prev)%R a rest
       else if negb (Approx (a - prev)%R interval lit_1e_6) && negb (Reqb (a - prev) 0) then false
       else uniform_loop interval a rest).
    unfold Reqb at 1. destruct (Req_EM_T interval 0) as [E|N].
    + rewrite IH. cbv zeta. change (gaps (prev :: a :: rest)) with ((a - prev)%R :: gaps (a :: rest)).
      change (first_nonzero ((a - prev)%R :: gaps (a :: rest))) with
        (if Req_EM_T (a - prev) 0 then first_nonzero (gaps (a :: rest)) else (a - prev)%R).
      destruct (Req_EM_T (a - prev) 0).
      * split; intros H; [constructor; auto|inversion H; auto].
      * split; intros H; [constructor; auto|inversion H; auto].
        right. unfold close. replace (a - prev - (a - prev))%R with 0%R by ring. rewrite Rabs_R0. lra.
    + destruct (negb (Approx (a - prev)%R interval lit_1e_6) && negb (Reqb (a - prev) 0)) eqn:B.
      * split; [intros; discriminate|]. intros H. inversion H as [|x y Hd _]; subst.
        apply andb_prop in B. destruct B as [B1 B2]. rewrite negb_true_iff in B1, B2.
        apply Reqb_false in B2. destruct Hd as [Hd|Hd]; [contradiction|].
        apply Approx_R in Hd. congruence.
      * rewrite IH. cbv zeta. destruct (Req_EM_T interval 0); [contradiction|].
        change (gaps (prev :: a :: rest)) with ((a - prev)%R :: gaps (a :: rest)).
        split; intros H; [constructor; auto|inversion H; auto].
        apply andb_false_iff in B. rewrite !negb_false_iff in B. destruct B as [B|B].
        -- right. apply Approx_R; assumption.
        -- left. apply Reqb_true; assumption.
Qed.
Lemma IsUniform_R l : KnotVector_IsUniform l = true <->
  Forall (fun d => d = 0%R \/ close d (first_nonzero (gaps l))) (gaps l).
Proof.
  destruct l as [|a l].
  - simpl. split; auto.
  - unfold KnotVector_IsUniform. rewrite uniform_loop_R. norm_R. cbv zeta.
    destruct (Req_EM_T 0 0); [tauto|congruence].
Qed.

(** ** C10 *)
Lemma degree_loop_R l : forall i,
  degree_loop i l = if leading 0 l =? len l then Throw OutOfRange else Ok (i + leading 0 l - 1).
Proof.
  induction l as [|a l IH]; intros i; [reflexivity|].
  simpl degree_loop. norm_R. unfold Reqb. simpl leading. rewrite len_cons. pose proof (len_nonneg l).
  destruct (Req_EM_T a 0); simpl.
  - rewrite IH. destruct (Z.eqb_spec (leading 0 l) (len l)), (Z.eqb_spec (1 + leading 0 l) (len l + 1)); try lia; auto.
    f_equal; lia.
  - destruct (Z.eqb_spec 0 (len l + 1)); [lia|]. f_equal; lia.
Qed.
Lemma leading_le v l : 0 <= leading v l <= len l.
Proof.
  induction l as [|a l IH]; simpl; [change (len (@nil R)) with 0; lia|].
  rewrite len_cons. destruct (Req_EM_T a v); lia.
Qed.
Lemma leading_spec v l : forall k, 0 <= k <= len l ->
  (forall i, 0 <= i < k -> at_ l i = v) -> (k < len l -> at_ l k <> v) -> leading v l = k.
Proof.
  induction l as [|a l IH]; intros k Hk Pre Stop.
  - change (len (@nil R)) with 0 in Hk. simpl. lia.
  - rewrite len_cons in Hk, Stop. simpl. destruct (Req_EM_T a v) as [->|N].
    + destruct (Z.eq_dec k 0) as [->|].
      * exfalso. apply Stop; [pose proof (len_nonneg l); lia|]. reflexivity.
      * rewrite (IH (k - 1)); [lia|lia| |].
        -- intros i Hi. specialize (Pre (i + 1)). rewrite at_cons in Pre by lia.
           replace (i + 1 - 1) with i in Pre by lia. apply Pre; lia.
        -- intros L. rewrite at_cons in Stop by lia. apply Stop; lia.
    + destruct (Z.eq_dec k 0); [lia|]. exfalso. apply N. specialize (Pre 0).
      change (at_ (a :: l) 0) with a in Pre. apply Pre; lia.
Qed.
Lemma leading_inv v l : (forall i, 0 <= i < leading v l -> at_ l i = v) /\
  (leading v l < len l -> at_ l (leading v l) <> v).
Proof.
  induction l as [|a l [IH1 IH2]]; simpl leading.
  - change (len (@nil R)) with 0. split; intros; lia.
  - rewrite len_cons. pose proof (leading_le v l). destruct (Req_EM_T a v) as [->|N].
    + split.
      * intros i Hi. destruct (Z.eq_dec i 0) as [->|]; [reflexivity|].
        rewrite at_cons by lia. apply IH1; lia.
      * intros L. rewrite at_cons by lia.
        replace (1 + leading v l - 1) with (leading v l) by lia. apply IH2; lia.
    + split; [intros; lia|]. intros _. exact N.
Qed.
Lemma leading_all v l : leading v l = len l <-> Forall (fun a => a = v) l.
Proof.
  induction l as [|a l IH]; simpl leading.
  - split; [constructor|reflexivity].
  - rewrite len_cons. pose proof (leading_le v l). destruct (Req_EM_T a v).
    + split; intros H'.
      * constructor; [assumption|]. apply IH. lia.
      * inversion H'; subst. apply IH in H3. lia.
    + split; intros H'; [lia|]. inversion H'; contradiction.
Qed.

(** ** C11 *)
Lemma GetMultiplicity_R l u : KnotVector_GetMultiplicity l u = len (filter (near u) l).
Proof.
  unfold KnotVector_GetMultiplicity.
  assert (forall k, fold_left (fun result val => if Approx val u lit_1e_6 then result + 1 else result) l k
                    = k + len (filter (near u) l)) as H.
  { induction l as [|a l IH]; intros k; simpl; [change (len (@nil R)) with 0; lia|].
    assert (Approx a u lit_1e_6 = near u a) as E.
    { unfold near. pose proof (Approx_R a u) as A. unfold close in A.
      destruct (Rlt_dec (Rabs (a - u)) (1 / 1000000)).
      - apply A; assumption.
      - destruct (Approx a u lit_1e_6); auto. exfalso. apply n, A; reflexivity. }
    rewrite E, IH. destruct (near u a); [rewrite len_cons; lia|lia]. }
  rewrite H. lia.
Qed.
Lemma filter_near_count l u :
  (forall v, In v l -> v = u \/ (1 / 1000000 <= Rabs (v - u))%R) -> len (filter (near u) l) = count u l.
Proof.
  induction l as [|a l IH]; intros H; [reflexivity|].
  simpl filter. unfold count. simpl count_occ. unfold near at 1.
  assert (len (filter (near u) l) = count u l) as E by (apply IH; intros; apply H; right; auto).
  unfold count in E. destruct (H a (or_introl eq_refl)) as [->|F].
  - destruct (Req_EM_T u u); [|congruence]. replace (u - u)%R with 0%R by ring. rewrite Rabs_R0.
    destruct (Rlt_dec 0 (1 / 1000000)); [|lra]. rewrite len_cons, E. lia.
  - destruct (Rlt_dec (Rabs (a - u)) (1 / 1000000)); [lra|].
    destruct (Req_EM_T a u) as [->|]; [|assumption].
    replace (u - u)%R with 0%R in F by ring. rewrite Rabs_R0 in F. lra.
Qed.

(** ** upper_bound, C08, C12 *)
Lemma upper_bound_R l u : nondecreasing l ->
  exists k, upper_bound l u = Ok k /\ 0 <= k <= len l /\
    (forall i, 0 <= i < k -> (at_ l i <= u)%R) /\ (forall i, k <= i < len l -> (u < at_ l i)%R).
Proof.
  induction l as [|a l IH]; intros S.
  - exists 0. change (len (@nil R)) with 0. repeat split; try lia; intros; lia.
  - pose proof S as S0. apply nondecreasing_cons in S. destruct S as [S F]. simpl upper_bound. norm_R.
    rewrite len_cons. pose proof (len_nonneg l).
    destruct (Rltb_spec u a) as [L|L].
    + assert (forallb (fun e' => Rltb u e') l = true) as E.
      { apply forallb_forall. intros x Hx. apply Rltb_true.
        destruct (In_znth 0%R _ _ Hx) as [i [Hi Ei]]. of_znth.
        specialize (S0 0 (i + 1)). rewrite at_cons0, (at_cons a l (i + 1)) in S0 by lia.
        replace (i + 1 - 1) with i in S0 by lia. rewrite len_cons in S0.
        assert (a <= at_ l i)%R by (apply S0; lia). lra. }
      rewrite E. exists 0. repeat split; try lia; [].
      intros i Hi. specialize (S0 0 i). change (at_ (a :: l) 0) with a in S0. rewrite len_cons in S0.
      assert (a <= at_ (a :: l) i)%R by (apply S0; lia). lra.
    + destruct (IH S) as [k [E [Hk [B A]]]]. rewrite E. simpl. exists (k + 1).
      repeat split; try lia.
      * intros i Hi. destruct (Z.eq_dec i 0) as [->|]; [change (at_ (a :: l) 0) with a; lra|].
        rewrite at_cons by lia. apply B; lia.
      * intros i Hi. rewrite at_cons by lia. apply A; lia.
Qed.

Lemma FindSpanIndex_R p l u : clamped p l -> (0 <= u <= 1)%R ->
  exists i, KnotVector_FindSpanIndex l p u = Ok i /\ p <= i <= len l - p - 2 /\ in_span l i u.
Proof.
  intros C Hu. destruct C as [Cp CL CS C0 CF CE C1].
  unfold KnotVector_FindSpanIndex. norm_R.
  assert (Rleb 0 u && Rleb u 1 = true) as E.
  { apply andb_true_intro. rewrite !Rleb_true. tauto. }
  rewrite E. simpl.
  destruct (Z.leb_spec 0 (len l - p - 2)); [|lia]. simpl.
  destruct (Z.leb_spec p (len l - p - 2)); [|lia]. simpl.
  rewrite (vget_ok 0%R) by lia. simpl. of_znth.
  rewrite (C1 (len l - 1)) by lia.
  destruct (Reqb_spec u 1) as [->|N1].
  - exists (len l - p - 2). split; [reflexivity|]. split; [lia|]. right.
    replace (len l - p - 2 + 1) with (len l - p - 1) by lia. rewrite (C1 (len l - p - 1)) by lia. auto.
  - rewrite (vget_ok 0%R) by lia. simpl. of_znth. rewrite (C0 0) by lia.
    destruct (Reqb_spec u 0) as [->|N0].
    + exists p. split; [reflexivity|]. split; [lia|]. left. rewrite (C0 p) by lia. lra.
    + destruct (upper_bound_R l u CS) as [k [E' [Hk [B A]]]]. rewrite E'. simpl.
      exists (k - 1). split; [reflexivity|].
      assert (p + 1 <= k).
      { destruct (Z_lt_ge_dec k (p + 1)); [|lia]. specialize (A k).
        rewrite (C0 k) in A by lia. assert (u < 0)%R by (apply A; lia). lra. }
      assert (k <= len l - p - 1).
      { destruct (Z_lt_ge_dec (len l - p - 1) k); [|lia]. specialize (B (len l - p - 1)).
        rewrite C1 in B by lia. assert (1 <= u)%R by (apply B; lia). lra. }
      split; [lia|]. left. replace (k - 1 + 1) with k by lia. split; [apply B; lia|apply A; lia].
Qed.
Lemma in_span_unique l i j u : nondecreasing l -> 0 <= i < len l - 1 -> 0 <= j < len l - 1 ->
  at_ l (len l - 1) = 1%R ->
  in_span l i u -> in_span l j u -> i = j.
Proof.
  intros S Hi Hj E1.
  assert (forall a b, 0 <= a < len l - 1 -> 0 <= b < len l - 1 -> a < b ->
            in_span l a u -> in_span l b u -> False) as G.
  { intros a b Ha Hb Hab [Ia|Ia] [Ib|Ib].
    - assert (at_ l (a + 1) <= at_ l b)%R by (apply S; lia). lra.
    - assert (at_ l (a + 1) <= at_ l b)%R by (apply S; lia). lra.
    - assert (at_ l (b + 1) <= at_ l (len l - 1))%R by (apply S; lia). lra.
    - assert (at_ l (a + 1) <= at_ l b)%R by (apply S; lia). lra. }
  intros Ii Ij. destruct (Z.lt_trichotomy i j) as [L|[E|L]]; auto; exfalso; eauto.
Qed.
Lemma FindSpanIndex_assert l p u : ~ (0 <= u <= 1)%R -> KnotVector_FindSpanIndex l p u = AssertFail.
Proof.
  intros H. unfold KnotVector_FindSpanIndex. norm_R.
  assert (Rleb 0 u && Rleb u 1 = false) as ->; [|reflexivity].
  apply andb_false_iff. rewrite !Rleb_false. destruct (Rle_dec 0 u); [right|left]; lra.
Qed.

Lemma kv_InsertKnot_R l v times : nondecreasing l -> (0 < v < 1)%R -> 0 <= times ->
  at_ l 0 = 0%R -> at_ l (len l - 1) = 1%R -> 1 <= len l ->
  exists l' i, KnotVector_InsertKnot l v times = Ok (l', i) /\
    0 <= i < len l - 1 /\ (at_ l i <= v < at_ l (i + 1))%R /\
    l' = firstn (Z.to_nat (i + 1)) l ++ repeat v (Z.to_nat times) ++ skipn (Z.to_nat (i + 1)) l /\
    nondecreasing l'.
Proof.
  intros S Hv Ht E0 E1 HL. unfold KnotVector_InsertKnot. norm_R.
  assert (Rltb 0 v && Rltb v 1 = true) as ->.
  { apply andb_true_intro. rewrite !Rltb_true. tauto. }
  simpl. destruct (upper_bound_R l v S) as [k [E [Hk [B A]]]]. rewrite E. simpl.
  assert (1 <= k).
  { destruct (Z_lt_ge_dec k 1); [|lia]. assert (v < at_ l 0)%R by (apply A; lia). lra. }
  assert (k <= len l - 1).
  { destruct (Z_lt_ge_dec (len l - 1) k); [|lia]. assert (at_ l (len l - 1) <= v)%R by (apply B; lia). lra. }
  rewrite vinsert_ok by lia. simpl. eexists _, (k - 1). split; [reflexivity|].
  replace (k - 1 + 1) with k by lia. split; [lia|]. split; [split; [apply B|apply A]; lia|]. split; [reflexivity|].
  intros i j Hij Hj. rewrite len_inserted in Hj by lia.
  to_znth. rewrite !znth_inserted by lia. of_znth.
  destruct (Z.ltb_spec i k), (Z.ltb_spec j k), (Z.ltb_spec i (k + times)), (Z.ltb_spec j (k + times));
    try lia; try lra; try (apply S; lia); try (apply B; lia).
  - left. apply A; lia.
Qed.
Lemma kv_InsertKnot_assert l v times : ~ (0 < v < 1)%R -> KnotVector_InsertKnot l v times = AssertFail.
Proof.
  intros H. unfold KnotVector_InsertKnot. norm_R.
  assert (Rltb 0 v && Rltb v 1 = false) as ->; [|reflexivity].
  apply andb_false_iff. rewrite !Rltb_false. destruct (Rlt_dec 0 v); [right|left]; lra.
Qed.
