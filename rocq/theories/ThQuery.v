(** The knot-vector queries on doubles (C112). *)
From Coq Require Import Reals QArith Qreals ZArith List Lra Lia Bool Permutation Floats.SpecFloat.
From Flocq Require Import Core BinarySingleNaN.
From Verif Require Import Outcome Num ModelCore SpecCore SpecQuery
  ThOutcome ThReal ThB64 ThKnots ThKnots2 ThVec ThCoreWit ThErr ThRound ThDecide ThBezier2 ThErrCurve ThExtract64 ThBBox64.
Import ListNotations.
Open Scope Z_scope.
Open Scope outcome_scope.

(** ** Queries that only compare *)
Lemma scan_up64 v : finite64 v -> forall l i, all_finite l -> scan_up v i l = scan_up (val v) i (vals l).
Proof. intros Fv. induction l as [|a l IH]; intros i F; [reflexivity|]. inversion F; subst. cbn [scan_up vals map]. rewrite nneb_val by assumption. destruct (nneb (val a) (val v)); [reflexivity|]. apply IH. assumption. Qed.
Lemma scan_down64 v : finite64 v -> forall l i, all_finite l -> scan_down v i l = scan_down (val v) i (vals l).
Proof. intros Fv. induction l as [|a l IH]; intros i F; [reflexivity|]. inversion F; subst. cbn [scan_down vals map]. rewrite nneb_val by assumption. destruct (nneb (val a) (val v)); [reflexivity|]. apply IH. assumption. Qed.
Lemma IsClamped64 l : all_finite l -> KnotVector_IsClamped l = KnotVector_IsClamped (vals l).
Proof.
  intros F. unfold KnotVector_IsClamped. rewrite scan_up64 by (try assumption; apply finite_0). rewrite scan_down64; [|apply finite_1|apply Forall_rev; exact F].
  rewrite val_0, val_1, len_vals. unfold vals. rewrite map_rev. reflexivity.
Qed.
Lemma DetectDegree64 l : all_finite l -> KnotVector_DetectDegree l = KnotVector_DetectDegree (vals l).
Proof.
  unfold KnotVector_DetectDegree. generalize 0. induction l as [|a l IH]; intros i F; [reflexivity|]. inversion F; subst. cbn [degree_loop vals map].
  rewrite nneb_val by (try assumption; apply finite_0). rewrite val_0. change (n0 : R) with 0%R. destruct (nneb (val a) 0%R); [reflexivity|]. apply IH. assumption.
Qed.
Lemma pairs_full_loop : forall rest i a m, all_finite rest -> finite64 a -> map pair_val (pairs_loop i a m rest) = pairs_loop i (val a) m (vals rest).
Proof.
  induction rest as [|x rest IH]; intros i a m F Fa; cbn [pairs_loop vals map]; [reflexivity|]. inversion F as [|? ? Fx Fr]; subst. rewrite nneb_val by assumption.
  destruct (nneb (val x) (val a)); cbn [map]; rewrite IH by assumption; reflexivity.
Qed.
Lemma GetKnotPairs64 l : all_finite l -> map pair_val (KnotVector_GetKnotPairs l) = KnotVector_GetKnotPairs (vals l).
Proof. intros F. destruct l as [|a l]; [reflexivity|]. inversion F; subst. cbn [KnotVector_GetKnotPairs vals map]. apply pairs_full_loop; assumption. Qed.
Lemma vals_expand64 ks : vals (expand64 ks) = expand (map coded ks).
Proof.
  induction ks as [|k ks IH]; [reflexivity|]. unfold expand64, vals in *. cbn [flat_map map expand]. rewrite map_app, IH, map_repeat_R. reflexivity.
Qed.

Lemma pairs_lemma : forall l : list b64, all_finite l -> nondecreasing (vals l) ->
  let ks := KnotVector_GetKnotPairs l in let ps := map coded ks in
  vals (expand64 ks) = vals l /\ increasing ps /\ Forall (fun k => In (kp_Value k) l) ks /\
  (forall v m, In (v, m) ps -> 1 <= m /\ m = count v (vals l)) /\
  (forall v, In v l -> exists m, In (val v, m) ps) /\
  map kp_Index ks = indices_from 0 ps.
Proof.
  intros l F S ks ps. pose proof (GetKnotPairs64 l F) as E. fold ks in E. assert (ps = map pair_of (KnotVector_GetKnotPairs (vals l))) as Ep.
  { rewrite <- E, map_map. reflexivity. }
  destruct (C02_pairs_lemma (vals l) S) as [A [B [C [D _]]]]. rewrite <- Ep in *. split; [rewrite vals_expand64; exact A|]. split; [exact B|]. split.
  { subst ks. clear. destruct l as [|a l]; [constructor|]. cbn [KnotVector_GetKnotPairs].
    assert (forall rest i x m, In x (a :: l) -> (forall y, In y rest -> In y (a :: l)) -> Forall (fun k => In (kp_Value k) (a :: l)) (pairs_loop i x m rest)) as G.
    { induction rest as [|y rest IH]; intros i x m Hx Hr; cbn [pairs_loop]; [constructor; [exact Hx|constructor]|].
      destruct (nneb y x); [constructor; [exact Hx|]|]; apply IH; try assumption; intros; apply Hr; cbn; auto. }
    apply G; [left; reflexivity|intros; right; assumption]. }
  split; [exact C|]. split; [intros v Hv; apply D; apply in_map; exact Hv|]. rewrite Ep. change (map pair_of (KnotVector_GetKnotPairs (vals l))) with (pairs_of (vals l)). rewrite <- pairs_index, <- E, map_map. reflexivity.
Qed.
Lemma of_pairs_lemma : forall ks : list (knotpair b64), Forall (fun k => finite64 (kp_Value k)) ks ->
  (acceptable (expand (map coded ks)) -> KnotVector_of_pairs ks = Ok (expand64 ks)) /\
  (~ acceptable (expand (map coded ks)) -> KnotVector_of_pairs ks = Throw InvalidArgument).
Proof.
  intros ks F. assert (all_finite (expand64 ks)) as Fe.
  { unfold expand64, all_finite. apply Forall_forall. intros x Hx. apply in_flat_map in Hx as [k [Hk Hx]]. apply repeat_spec in Hx. subst. rewrite Forall_forall in F. apply F. exact Hk. }
  unfold KnotVector_of_pairs. fold (expand64 ks). rewrite ValidateKnots_b64, vals_expand64 by exact Fe. destruct (C01_lemma (expand (map coded ks))) as [A B]. unfold KnotVector_make in A, B.
  split; intros H; [specialize (A H)|specialize (B H)]; destruct (ValidateKnots (expand (map coded ks))); try discriminate; reflexivity.
Qed.

Definition span_val (s : knotspan b64) : knotspan R := KnotSpan (ks_Index s) (pair_val (ks_Left s)) (pair_val (ks_Right s)).

Lemma val_m1 : val (nofZ (-1) : b64) = (-1)%R.
Proof. change (nofZ (-1) : b64) with (S754_finite true 4503599627370496 (-52)). unfold val, SF2R, F2R. cbn [Fnum Fexp cond_Zopp Z.opp]. change (bpow radix2 (-52)) with (/ IZR (Zpower_pos 2 52))%R. change (Zpower_pos 2 52) with 4503599627370496. rewrite opp_IZR. lra. Qed.
Lemma findspan64 l u : all_finite l -> finite64 u ->
  (s <- KnotVector_FindSpan l u ;; Ok (span_val s)) = KnotVector_FindSpan (vals l) (val u).
Proof.
  intros F Fu. unfold KnotVector_FindSpan. cbv zeta. rewrite <- (GetKnotPairs64 l F).
  assert (ngeb u n0 && nleb u n1 = ngeb (val u) n0 && nleb (val u) n1) as ->.
  { change (SFleb (n0 : b64) u && SFleb u (n1 : b64) = Rleb 0 (val u) && Rleb (val u) 1). rewrite !SFleb_val by first [assumption|apply finite_0|apply finite_1]. rewrite val_0, val_1. reflexivity. }
  destruct (ngeb (val u) n0 && nleb (val u) n1); [|reflexivity]. cbn [assert_ bind]. rewrite len_map, map_length.
  destruct (2 <=? len (KnotVector_GetKnotPairs l)); [|reflexivity]. cbn [assert_ bind].
  destruct (pairs64 l F) as [_ Fk]. revert Fk. generalize (KnotVector_GetKnotPairs l) as ks. intros ks Fk. generalize (length ks - 1)%nat as n. generalize (len ks - 2) as i. clear F.
  intros i n. revert i. induction n as [|n IH]; intros i; cbn [findspan_loop bind].
  - unfold span_val, pair_val, KnotPair_default. cbn [ks_Index ks_Left ks_Right kp_Index kp_Value kp_Multiplicity]. rewrite val_m1. reflexivity.
  - rewrite !vget_map. destruct (vget ks i) as [k| | | | |] eqn:E; cbn [bind]; try reflexivity.
    assert (finite64 (kp_Value k)) as Fv. { unfold vget in E. destruct (i <? 0); [discriminate|]. destruct (nth_error ks (Z.to_nat i)) eqn:En; [|discriminate]. injection E as <-. apply nth_error_In in En. rewrite Forall_forall in Fk. apply Fk. exact En. }
    cbn [pair_val kp_Value]. change (nleb (kp_Value k) u) with (SFleb (kp_Value k) u). rewrite SFleb_val by assumption. change (Rleb (val (kp_Value k)) (val u)) with (nleb (val (kp_Value k)) (val u)).
    destruct (nleb (val (kp_Value k)) (val u)); [|apply IH]. destruct (vget ks (i + 1)); reflexivity.
Qed.
Lemma findspan_lemma : forall (l : list b64) u, all_finite l -> SpecCore.unit_knots (vals l) -> double u ->
  (finite64 u -> (0 <= val u <= 1)%R ->
     exists j L R_, KnotVector_FindSpan l u = Ok (KnotSpan j L R_) /\ 0 <= j /\
       nth_error (KnotVector_GetKnotPairs l) (Z.to_nat j) = Some L /\ nth_error (KnotVector_GetKnotPairs l) (Z.to_nat (j + 1)) = Some R_ /\
       (val (kp_Value L) <= val u)%R /\
       ((val u < val (kp_Value R_))%R \/ (j + 2 = len (KnotVector_GetKnotPairs l) /\ val u = val (kp_Value R_)))) /\
  (~ (finite64 u /\ (0 <= val u <= 1)%R) -> KnotVector_FindSpan l u = AssertFail).
Proof.
  intros l u F [S [_ [Z0 Z1]]] D. split.
  - intros Fu Hu. destruct (C09_lemma (vals l) (val u) S Z0 Z1 Hu) as [j [L [R_ [E [Hj [NL [NR [H1 H2]]]]]]]]. rewrite <- (findspan64 l u F Fu) in E.
    destruct (KnotVector_FindSpan l u) as [[j' L' R']| | | | |] eqn:Es; try discriminate. cbn [bind span_val ks_Index ks_Left ks_Right] in E. injection E as E1 E2 E3. subst j.
    assert (nth_error (KnotVector_GetKnotPairs l) (Z.to_nat j') = Some L' /\ nth_error (KnotVector_GetKnotPairs l) (Z.to_nat (j' + 1)) = Some R') as [N1 N2].
    { clear - Es Hj. unfold KnotVector_FindSpan in Es. destruct (ngeb u n0 && nleb u n1); [|discriminate]. cbn [assert_ bind] in Es. destruct (2 <=? len (KnotVector_GetKnotPairs l)); [|discriminate]. cbn [assert_ bind] in Es.
      revert Es. generalize (KnotVector_GetKnotPairs l) as ks. intros ks. generalize (length ks - 1)%nat as n. generalize (len ks - 2) as i. intros i n. revert i.
      induction n as [|n IH]; intros i; cbn [findspan_loop]; [intros E; injection E; lia|]. destruct (vget ks i) as [k| | | | |] eqn:E; cbn [bind]; try discriminate.
      destruct (nleb (kp_Value k) u); [|apply IH]. destruct (vget ks (i + 1)) as [k'| | | | |] eqn:E'; cbn [bind]; try discriminate. intros Q. injection Q as -> -> ->.
      unfold vget in E, E'. destruct (j' <? 0); [discriminate|]. destruct (j' + 1 <? 0); [discriminate|]. destruct (nth_error ks (Z.to_nat j')); [|discriminate]. destruct (nth_error ks (Z.to_nat (j' + 1))); [|discriminate]. split; congruence. }
    exists j', L', R'. split; [reflexivity|]. split; [exact Hj|]. split; [exact N1|]. split; [exact N2|]. rewrite <- E2 in H1. rewrite <- E3 in H2. cbn [pair_val kp_Value] in H1, H2.
    split; [exact H1|]. rewrite <- (GetKnotPairs64 l F), len_map in H2. exact H2.
  - intros N. destruct (is_finite_SF u) eqn:Fi.
    + assert (finite64 u) as Fu by (split; assumption). assert (~ (0 <= val u <= 1)%R) as Nu by tauto. pose proof (C09_assert_lemma (vals l) (val u) Nu) as E. rewrite <- (findspan64 l u F Fu) in E.
      destruct (KnotVector_FindSpan l u); try discriminate. reflexivity.
    + unfold KnotVector_FindSpan. destruct u as [s|s| |s m e]; try discriminate; [destruct s; reflexivity|reflexivity].
Qed.
Lemma clamped_lemma : forall l : list b64, all_finite l -> KnotVector_IsValid l = true ->
  (KnotVector_IsClamped l = true <-> count 0 (vals l) + count 1 (vals l) = len l - 1).
Proof. intros l F V. rewrite (IsValid_b64 l F) in V. rewrite (IsClamped64 l F), <- (len_vals l). apply C06_lemma. exact V. Qed.
Lemma degree_lemma : forall l : list b64, all_finite l ->
  (Forall (fun a => a = 0%R) (vals l) -> KnotVector_DetectDegree l = Throw OutOfRange) /\
  (~ Forall (fun a => a = 0%R) (vals l) -> KnotVector_DetectDegree l = Ok (leading 0 (vals l) - 1)) /\
  (forall p, clamped p (vals l) -> KnotVector_DetectDegree l = Ok p).
Proof. intros l F. rewrite (DetectDegree64 l F). apply C10_lemma. Qed.

(** ** Queries that subtract *)
Definition e64 : R := val (lit_1e_6 : b64).
Lemma val_lit6 : e64 = (4722366482869645 / 4722366482869645213696)%R.
Proof. unfold e64. change (lit_1e_6 : b64) with (S754_finite false 4722366482869645 (-72)). unfold val, SF2R, F2R. cbn [Fnum Fexp cond_Zopp]. change (bpow radix2 (-72)) with (/ IZR (Zpower_pos 2 72))%R. change (Zpower_pos 2 72) with 4722366482869645213696. reflexivity. Qed.
Definition p64 : b64 := S754_finite false 4722366482869644 (-72).
Lemma val_p64 : val p64 = (4722366482869644 / 4722366482869645213696)%R.
Proof. unfold p64, val, SF2R, F2R. cbn [Fnum Fexp cond_Zopp]. change (bpow radix2 (-72)) with (/ IZR (Zpower_pos 2 72))%R. change (Zpower_pos 2 72) with 4722366482869645213696. reflexivity. Qed.
Lemma fin_p64 : finite64 p64. Proof. split; reflexivity. Qed.
Lemma sub_huge (a b : b64) : finite64 a -> finite64 b -> ~ no_overflow (val a - val b) -> exists s, nsub a b = S754_infinity s.
Proof.
  intros [Da Fa] [Db Fb] No. destruct (to_B a Da) as [x <-]. destruct (to_B b Db) as [y <-]. rewrite B_finite in Fa, Fb. change (nsub (B2SF x) (B2SF y)) with (SFsub 53 1024 (B2SF x) (B2SF y)).
  rewrite sub_equiv. rewrite !B_val in No. pose proof (Bminus_correct 53 1024 prec53 emax1024 mode_NE x y Fa Fb) as C. change (SpecFloat.fexp 53 1024) with (FLT_exp (-1074) 53) in C. change (round_mode mode_NE) with ZnearestE in C.
  rewrite Rlt_bool_false in C by (apply Rnot_lt_le; exact No). destruct C as [C _]. exists (Bsign x). rewrite C. reflexivity.
Qed.
Lemma Approx_far (a b : b64) : finite64 a -> finite64 b -> (e64 <= Rabs (val a - val b))%R -> Approx a b lit_1e_6 = false.
Proof.
  intros Fa Fb H. unfold Approx. destruct (Rlt_dec (Rabs (rnd64 (val a - val b))) (bpow radix2 1024)) as [No|No].
  - destruct (sub_round a b Fa Fb No) as [Fs Vs]. destruct (nabs_val _ Fs) as [Fn Vn]. destruct lit6 as [Fl _].
    change (nltb (nabs (nsub a b)) lit_1e_6) with (SFltb (nabs (nsub a b)) (lit_1e_6 : b64)). rewrite SFltb_val by assumption. rewrite Vn, Vs. apply Rltb_false. fold e64.
    unfold Rabs in H. destruct (Rcase_abs (val a - val b)).
    + assert (val a - val b <= - e64)%R as H' by lra. apply rnd64_le in H'. rewrite (rnd64_id (- e64)) in H' by (apply generic_format_opp, val_format; exact Fl). rewrite val_lit6 in *. unfold Rabs. destruct Rcase_abs; lra.
    + apply rnd64_le in H. rewrite (rnd64_id e64) in H by (apply val_format; exact Fl). rewrite val_lit6 in *. unfold Rabs. destruct Rcase_abs; lra.
  - destruct (sub_huge a b Fa Fb No) as [s ->]. destruct s; reflexivity.
Qed.
Lemma Approx_close (a b : b64) : finite64 a -> finite64 b -> (Rabs (val a - val b) <= val p64)%R -> Approx a b lit_1e_6 = true.
Proof.
  intros Fa Fb H. assert (no_overflow (val a - val b)) as No.
  { apply Rabs_le_inv in H. apply (bounded_no_overflow (- val p64) (val p64)); [apply generic_format_opp| | | |exact H]; try (apply val_format; exact fin_p64); rewrite ?Rabs_Ropp; apply val_lt_emax; exact fin_p64. }
  unfold Approx. destruct (sub_round a b Fa Fb No) as [Fs Vs]. destruct (nabs_val _ Fs) as [Fn Vn]. destruct lit6 as [Fl _].
  change (nltb (nabs (nsub a b)) lit_1e_6) with (SFltb (nabs (nsub a b)) (lit_1e_6 : b64)). rewrite SFltb_val by assumption. rewrite Vn, Vs. apply Rltb_true. fold e64.
  apply Rabs_le_inv in H. destruct H as [H1 H2]. apply rnd64_le in H1, H2. rewrite (rnd64_id (val p64)) in H2 by (apply val_format; exact fin_p64). rewrite (rnd64_id (- val p64)) in H1 by (apply generic_format_opp, val_format; exact fin_p64).
  rewrite val_p64, val_lit6 in *. unfold Rabs. destruct Rcase_abs; lra.
Qed.
Lemma Approx_wild (a b : b64) : is_finite_SF a = false \/ is_finite_SF b = false -> Approx a b lit_1e_6 = false.
Proof.
  unfold Approx. intros [H|H].
  - destruct a; try discriminate; destruct b; repeat match goal with x : bool |- _ => destruct x end; reflexivity.
  - destruct b; try discriminate; destruct a; repeat match goal with x : bool |- _ => destruct x end; reflexivity.
Qed.
Lemma mult_filter (l : list b64) u : KnotVector_GetMultiplicity l u = len (filter (fun v => Approx v u lit_1e_6) l).
Proof.
  unfold KnotVector_GetMultiplicity. assert (forall l i, fold_left (fun result v => if Approx v u lit_1e_6 then result + 1 else result) l i = i + len (filter (fun v => Approx v u lit_1e_6) l)) as G.
  { clear. induction l as [|a l IH]; intros i; cbn [fold_left filter]; [cbn; lia|]. rewrite IH. destruct (Approx a u lit_1e_6); unfold len; cbn [length]; lia. }
  rewrite G. lia.
Qed.
Lemma filter_le {A} (f g : A -> bool) l : (forall x, In x l -> f x = true -> g x = true) -> len (filter f l) <= len (filter g l).
Proof.
  induction l as [|a l IH]; intros H; [cbn; lia|]. cbn [filter]. assert (len (filter f l) <= len (filter g l)) by (apply IH; intros; apply H; [right|]; assumption).
  pose proof (H a (or_introl eq_refl)). destruct (f a), (g a); unfold len in *; cbn [length]; try lia; discriminate (H1 eq_refl).
Qed.
Lemma multiplicity_lemma : forall (l : list b64) u, Forall double l -> double u ->
  (finite64 u -> how_many (at_most (999999999999999 / 1000000000000000000000)) l (val u) <= KnotVector_GetMultiplicity l u <= how_many (below (1 / 1000000)) l (val u)) /\
  (finite64 u -> all_finite l -> (forall v, In v l -> val v = val u \/ (1 / 1000000 <= Rabs (val v - val u))%R) -> KnotVector_GetMultiplicity l u = count (val u) (vals l)) /\
  (is_finite_SF u = false -> KnotVector_GetMultiplicity l u = 0).
Proof.
  intros l u Dl Du. rewrite mult_filter. assert (finite64 u -> how_many (at_most (999999999999999 / 1000000000000000000000)) l (val u) <= len (filter (fun v => Approx v u lit_1e_6) l) <= how_many (below (1 / 1000000)) l (val u)) as B.
  { intros Fu. rewrite Forall_forall in Dl. unfold how_many. split; apply filter_le; intros v Hv.
    - intros H. apply andb_prop in H as [Fv H]. unfold at_most in H. destruct Rle_dec as [H'|]; [|discriminate]. apply Approx_close; [split; auto|exact Fu|]. eapply Rle_trans; [exact H'|]. rewrite val_p64. lra.
    - intros H. destruct (is_finite_SF v) eqn:Fv; [|rewrite Approx_wild in H by (left; exact Fv); discriminate]. cbn [andb]. unfold below. destruct Rlt_dec as [|N]; [reflexivity|].
      rewrite Approx_far in H; [discriminate|split; auto|exact Fu|]. rewrite val_lit6. lra. }
  split; [exact B|]. split.
  - intros Fu Fl Sep. assert (forall t, (0 <= t)%R -> (t <= 1 / 1000000)%R -> forall f, (forall v, In v l -> f v = true <-> val v = val u) -> len (filter f l) = count (val u) (vals l)) as G.
    { intros t _ _ f. clear. induction l as [|a l IH]; intros H; [reflexivity|]. cbn [filter vals map]. unfold count in *. cbn [count_occ]. specialize (IH (fun v Hv => H v (or_intror Hv))). fold (vals l) in *.
      pose proof (H a (or_introl eq_refl)) as Ha. destruct (Req_EM_T (val a) (val u)) as [E|N].
      - destruct (f a); [|destruct Ha as [_ Ha]; specialize (Ha E); discriminate]. unfold len in *. cbn [length]. lia.
      - destruct (f a); [destruct Ha as [Ha _]; specialize (Ha eq_refl); contradiction|exact IH]. }
    apply (G 0%R); try lra. intros v Hv. unfold all_finite in Fl. rewrite Forall_forall in Fl. split.
    + intros H. destruct (Sep v Hv) as [E|Far]; [exact E|]. rewrite Approx_far in H; [discriminate|apply Fl; exact Hv|exact Fu|]. rewrite val_lit6. lra.
    + intros E. apply Approx_close; [apply Fl; exact Hv|exact Fu|]. rewrite E. replace (val u - val u)%R with 0%R by ring. rewrite Rabs_R0, val_p64. lra.
  - intros N. assert (filter (fun v => Approx v u lit_1e_6) l = []) as ->; [|reflexivity]. clear - N. induction l as [|a l IH]; [reflexivity|]. cbn [filter]. rewrite Approx_wild by (right; exact N). exact IH.
Qed.

(** ** Equal spacing *)
Definition in01 (a : b64) : Prop := finite64 a /\ (0 <= val a <= 1)%R.
Definition tracks (a : b64) (x : R) : Prop := finite64 a /\ (Rabs (val a - x) <= 4 / 10000000000000000)%R /\ (val a = 0 <-> x = 0)%R.
Lemma gap64 a b : in01 a -> in01 b -> tracks (nsub a b) (val a - val b).
Proof.
  intros [Fa Ha] [Fb Hb]. assert (Rabs (val a - val b) <= 1)%R as B by (apply Rabs_le; lra).
  assert (1 <= bpow radix2 1023)%R as P by (change 1%R with (bpow radix2 0); apply bpow_le; lia).
  destruct (sub_exact a b Fa Fb ltac:(lra)) as [Fs [rho [Fr E]]]. assert (val (nsub a b) = (val a - val b) * rho)%R as Ev. { pose proof (Rabs_pos (val (nsub a b) - (val a - val b) * rho)). assert (Rabs (val (nsub a b) - (val a - val b) * rho) = 0)%R as Z by lra. destruct (Req_dec (val (nsub a b) - (val a - val b) * rho) 0) as [|N]; [lra|]. apply Rabs_no_R0 in N. contradiction. }
  pose proof (fac_pos _ _ Fr) as Pr. assert (u64 = / 9007199254740992)%R as Eu. { unfold u64. change (bpow radix2 (-53)) with (/ IZR (Zpower_pos 2 53))%R. change (Zpower_pos 2 53) with 9007199254740992. reflexivity. }
  pose proof (fac_abs 1 rho Fr) as A. cbn [INR] in A. rewrite Eu in A. specialize (A ltac:(lra)). split; [exact Fs|]. split.
  - rewrite Ev. replace ((val a - val b) * rho - (val a - val b))%R with ((val a - val b) * (rho - 1))%R by ring. rewrite Rabs_mult. pose proof (Rabs_pos (rho - 1)). pose proof (Rabs_pos (val a - val b)). nra.
  - rewrite Ev. split; intros H; [|rewrite H; ring]. apply Rmult_integral in H. destruct H; lra.
Qed.
(** the gap the loop compares with *)
Definition refgap (g0 : R) (ds : list R) : R := if Req_EM_T g0 0 then first_nonzero ds else g0.
Lemma eqb0 a x : tracks a x -> neqb a n0 = if Req_EM_T x 0 then true else false.
Proof.
  intros [Fa [_ I]]. change (SFeqb a (n0 : b64) = if Req_EM_T x 0 then true else false). rewrite SFeqb_val by (try assumption; apply finite_0). rewrite val_0.
  destruct (Req_EM_T x 0) as [E|N]; [apply Reqb_true; tauto|apply Reqb_false; tauto].
Qed.
Lemma loop_true : forall rest prev interval g0, in01 prev -> Forall in01 rest -> tracks interval g0 ->
  Forall (fun d => d = 0%R \/ (Rabs (d - refgap g0 (gaps (val prev :: vals rest))) <= 999999999 / 1000000000000000)%R) (gaps (val prev :: vals rest)) -> uniform_loop interval prev rest = true.
Proof.
  induction rest as [|a rest IH]; intros prev interval g0 Hp Hr Ti HG; [reflexivity|]. inversion Hr as [|? ? Ha Hr']; subst. cbn [uniform_loop vals map] in *. cbv zeta.
  change (gaps (val prev :: val a :: map val rest)) with ((val a - val prev)%R :: gaps (val a :: vals rest)) in HG. inversion HG as [|? ? H1 H2]; subst. pose proof (gap64 a prev Ha Hp) as Tg.
  rewrite (eqb0 _ _ Ti). destruct (Req_EM_T g0 0) as [Z|N].
  - apply (IH a _ _ Ha Hr' Tg). unfold refgap in *. destruct (Req_EM_T g0 0); [|contradiction]. cbn [first_nonzero] in *. destruct (Req_EM_T (val a - val prev) 0); exact H2.
  - assert (refgap g0 ((val a - val prev)%R :: gaps (val a :: vals rest)) = g0 /\ refgap g0 (gaps (val a :: vals rest)) = g0) as [R1 R2] by (unfold refgap; destruct (Req_EM_T g0 0); [contradiction|split; reflexivity]).
    rewrite R1 in *. assert (negb (Approx (nsub a prev) interval lit_1e_6) && nneb (nsub a prev) n0 = false) as ->.
    { destruct H1 as [Z|C].
      - unfold nneb. rewrite (eqb0 _ _ Tg). destruct (Req_EM_T (val a - val prev) 0); [|contradiction]. apply andb_false_r.
      - rewrite Approx_close; [reflexivity|apply Tg|apply Ti|]. destruct Tg as [_ [B1 _]], Ti as [_ [B2 _]]. rewrite val_p64. apply Rabs_le_inv in B1, B2, C. apply Rabs_le. lra. }
    apply (IH a interval g0 Ha Hr' Ti). rewrite R2. exact H2.
Qed.
Lemma loop_false : forall rest prev interval g0, in01 prev -> Forall in01 rest -> tracks interval g0 ->
  Exists (fun d => d <> 0%R /\ (1000000001 / 1000000000000000 <= Rabs (d - refgap g0 (gaps (val prev :: vals rest))))%R) (gaps (val prev :: vals rest)) -> uniform_loop interval prev rest = false.
Proof.
  induction rest as [|a rest IH]; intros prev interval g0 Hp Hr Ti HG; [cbn in HG; inversion HG|]. inversion Hr as [|? ? Ha Hr']; subst. cbn [uniform_loop vals map] in *. cbv zeta.
  change (gaps (val prev :: val a :: map val rest)) with ((val a - val prev)%R :: gaps (val a :: vals rest)) in HG. pose proof (gap64 a prev Ha Hp) as Tg.
  rewrite (eqb0 _ _ Ti). destruct (Req_EM_T g0 0) as [Z|N].
  - apply (IH a _ _ Ha Hr' Tg). unfold refgap in *. destruct (Req_EM_T g0 0); [|contradiction]. cbn [first_nonzero] in *. destruct (Req_EM_T (val a - val prev) 0) as [Z'|N'].
    + inversion HG as [? ? [H1 _]|? ? H2]; subst; [contradiction|exact H2].
    + inversion HG as [? ? [_ H1]|? ? H2]; subst; [|exact H2]. replace (val a - val prev - (val a - val prev))%R with 0%R in H1 by ring. rewrite Rabs_R0 in H1. lra.
  - assert (refgap g0 ((val a - val prev)%R :: gaps (val a :: vals rest)) = g0 /\ refgap g0 (gaps (val a :: vals rest)) = g0) as [R1 R2] by (unfold refgap; destruct (Req_EM_T g0 0); [contradiction|split; reflexivity]).
    rewrite R1 in *. inversion HG as [? ? [H0 H1]|? ? H2]; subst.
    + rewrite Approx_far; [|apply Tg|apply Ti|]. 
      * unfold nneb. rewrite (eqb0 _ _ Tg). destruct (Req_EM_T (val a - val prev) 0); [contradiction|]. reflexivity.
      * destruct Tg as [_ [B1 _]], Ti as [_ [B2 _]]. rewrite val_lit6. apply Rabs_le_inv in B1, B2. unfold Rabs in H1 |- *. destruct Rcase_abs in H1; destruct Rcase_abs; lra.
    + destruct (negb _ && _); [reflexivity|]. apply (IH a interval g0 Ha Hr' Ti). rewrite R2. exact H2.
Qed.
Lemma uniform_lemma : forall l : list b64, all_finite l -> Forall (fun a => 0 <= a <= 1)%R (vals l) ->
  (spaced_within (999999999 / 1000000000000000) (vals l) -> KnotVector_IsUniform l = true) /\
  ((exists d, In d (gaps (vals l)) /\ d <> 0%R /\ (1000000001 / 1000000000000000 <= Rabs (d - first_nonzero (gaps (vals l))))%R) -> KnotVector_IsUniform l = false).
Proof.
  intros l F H. assert (Forall in01 l) as I. { unfold vals in H. rewrite Forall_map in H. unfold all_finite in F. rewrite Forall_forall in *. intros x Hx. split; auto. }
  destruct l as [|k l]; [split; [reflexivity|intros [d [[] _]]]|]. inversion I as [|? ? Ik Il]; subst. assert (tracks n0 0) as T0. { split; [apply finite_0|]. rewrite val_0. split; [rewrite Rminus_0_r, Rabs_R0; lra|tauto]. }
  assert (forall ds, refgap 0 ds = first_nonzero ds) as Rg by (intros ds; unfold refgap; destruct (Req_EM_T 0 0); [reflexivity|contradiction]).
  cbn [KnotVector_IsUniform vals map]. split.
  - intros Sp. apply (loop_true l k _ 0%R Ik Il T0). rewrite Rg. exact Sp.
  - intros [d [Hd [N B]]]. apply (loop_false l k _ 0%R Ik Il T0). rewrite Rg. apply Exists_exists. exists d. auto.
Qed.
