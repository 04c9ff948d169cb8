(** Bezier extraction on doubles (C96, C97). *)
From Coq Require Import Reals QArith Qreals ZArith List Lra Lia Bool Permutation Floats.SpecFloat.
From Flocq Require Import Core.
From Verif Require Import Outcome Num ModelCore ModelCurve SpecCore SpecBasis SpecCurve SpecBezier SpecErr SpecErrIns
  ThOutcome ThReal ThB64 ThKnots ThKnots2 ThVec ThSum ThSpline ThBasis ThCurve ThCoreWit ThInsert ThCurveWit ThBezier ThBezier2 ThSafe ThSafe2 ThErr ThRound ThErrBasis ThErrSum ThErrCurve ThErrInsert ThErrInsert2 ThErrInsert3 ThErrInsert4.
Import ListNotations.
Open Scope Z_scope.
Open Scope outcome_scope.

(** ** The refinement is a list of insertions, in any arithmetic *)
Section Any.
  Context {T : Type} {NT : Num T}.
  Definition extra_of (p : Z) (ks : list (knotpair T)) : list T :=
    flat_map (fun k => if nleb (kp_Value k) n0 || ngeb (kp_Value k) n1 then [] else repeat (kp_Value k) (Z.to_nat (p - kp_Multiplicity k))) ks.
  Lemma insert_list_app (c : curve T) us vs : Curve_InsertKnot_list c (us ++ vs) = (d <- Curve_InsertKnot_list c us ;; Curve_InsertKnot_list d vs).
  Proof.
    unfold Curve_InsertKnot_list. rewrite foldM_app. destruct (foldM (insert_one (Degree c)) us (Knots c, ControlPoints c)) as [[k q]| | | | |]; reflexivity.
  Qed.
  Lemma insert_list_nil (c : curve T) : Curve_InsertKnot_list c [] = Ok c.
  Proof. destruct c. reflexivity. Qed.
  Lemma insert_list_degree (c d : curve T) us : Curve_InsertKnot_list c us = Ok d -> Degree d = Degree c.
  Proof. unfold Curve_InsertKnot_list. destruct (foldM _ _ _) as [[k q]| | | | |]; cbn [bind]; try discriminate. intros E. inversion E. reflexivity. Qed.
  Lemma refine_is_list p ks : forall c, Degree c = p -> foldM (extract_refine p) ks c = Curve_InsertKnot_list c (extra_of p ks).
  Proof.
    induction ks as [|k ks IH]; intros c D; [symmetry; apply insert_list_nil|]. cbn [foldM extra_of flat_map]. fold (extra_of p ks). rewrite insert_list_app.
    assert (extract_refine p c k = Curve_InsertKnot_list c (if nleb (kp_Value k) n0 || ngeb (kp_Value k) n1 then [] else repeat (kp_Value k) (Z.to_nat (p - kp_Multiplicity k)))) as ->.
    { unfold extract_refine. cbv zeta. destruct (nleb _ _ || _); [rewrite insert_list_nil; reflexivity|]. destruct (Z.leb_spec p (kp_Multiplicity k)).
      - replace (Z.to_nat (p - kp_Multiplicity k)) with 0%nat by lia. symmetry. apply insert_list_nil.
      - unfold Curve_InsertKnot_times, vmake. destruct (Z.ltb_spec (p - kp_Multiplicity k) 0); [lia|]. reflexivity. }
    destruct (Curve_InsertKnot_list c _) as [d| | | | |] eqn:E; cbn [bind]; try reflexivity. apply IH. rewrite (insert_list_degree _ _ _ E). exact D.
  Qed.
  (** segment [j] of the refined control points [ctrl] *)
  Definition window (d0 : vec4 T) (p : Z) (ks : list T) (ctrl : list (vec4 T)) (j : Z) : curve T :=
    Curve p ks (map (fun k => znth d0 ctrl (j * p + k)) (zrange 0 (p + 1))).
  Lemma cut_windows d0 p ks (ctrl : list (vec4 T)) : 1 <= p -> KnotVector_Uniform p (2 * p + 2) = Ok ks -> forall fuel j, 0 <= j -> len ctrl - j * p <= Z.of_nat fuel -> 0 < len ctrl ->
    extract_cut fuel p ctrl (j * p) = Ok (map (window d0 p ks ctrl) (zrange j ((len ctrl - 1) / p))).
  Proof.
    intros Hp Hk. induction fuel as [|fuel IH]; intros j Hj Hf L0; cbn [extract_cut]; pose proof (Z.div_mod (len ctrl - 1) p ltac:(lia)) as DM; pose proof (Z.mod_pos_bound (len ctrl - 1) p ltac:(lia)) as MB; set (m := (len ctrl - 1) / p) in *.
    - rewrite zrange_empty by nia. destruct (Z.leb_spec 0 (j * p + p)); [|nia]. destruct (Z.ltb_spec (j * p + p) (len ctrl)); [nia|reflexivity].
    - destruct (Z.leb_spec 0 (j * p + p)); [|nia]. cbn [andb]. destruct (Z.ltb_spec (j * p + p) (len ctrl)).
      + assert (j < m) by nia. rewrite Hk. cbn [bind]. rewrite (tabulate_ok 0 (p + 1) _ (fun k => znth d0 ctrl (j * p + k))) by (intros i Hi; apply vget_ok; nia).
        cbn [bind]. replace (j * p + p) with ((j + 1) * p) by lia. rewrite IH by lia. cbn [bind]. fold m. rewrite (zrange_first j) by lia. reflexivity.
      + assert (m <= j) by nia. rewrite zrange_empty by lia. reflexivity.
  Qed.
End Any.

(** ** Doubles *)
Definition unit64 (p : Z) : list b64 := repeat dz (Z.to_nat (p + 1)) ++ repeat done_ (Z.to_nat (p + 1)).
Definition one4 : vec4 b64 := Vec4 dz dz dz done_.
Lemma vals_unit64 p : vals (unit64 p) = unit_knots p.
Proof. unfold unit64, unit_knots, vals. rewrite map_app, !map_repeat_R, val_dz, val_done. reflexivity. Qed.
Lemma fin_dz : finite64 dz. Proof. split; reflexivity. Qed.
Lemma fin_done : finite64 done_. Proof. split; reflexivity. Qed.
Lemma finite_unit64 p : all_finite (unit64 p).
Proof. unfold unit64, all_finite. apply Forall_app. split; apply Forall_forall; intros x Hx; apply repeat_spec in Hx; subst; [exact fin_dz|exact fin_done]. Qed.
Lemma sound_unit64 p : 0 <= p -> sound_knots p (unit64 p).
Proof. intros P. split; [apply finite_unit64|]. rewrite vals_unit64. apply uniform_unit. exact P. Qed.
Lemma validate_ones n : validate_loop (done_ : b64) (repeat done_ n) = true.
Proof. induction n as [|n IH]; [reflexivity|]. cbn [repeat validate_loop]. change (nltb (done_ : b64) (done_ : b64)) with false. exact IH. Qed.
Lemma validate_zeros n m : validate_loop (dz : b64) (repeat dz n ++ repeat done_ (S m)) = true.
Proof.
  induction n as [|n IH].
  - cbn [repeat app validate_loop]. change (nltb (done_ : b64) (dz : b64)) with false. apply validate_ones.
  - cbn [repeat app validate_loop]. change (nltb (dz : b64) (dz : b64)) with false. exact IH.
Qed.
Lemma uniform_unit64 p : 0 <= p -> KnotVector_Uniform p (2 * p + 2) = Ok (unit64 p).
Proof.
  intros P. unfold KnotVector_Uniform. cbv zeta. replace (2 * p + 2 - (p + 1) * 2) with 0 by lia. cbn [Z.leb Z.compare assert_ bind]. destruct (Z.ltb_spec (2 * p + 2) 0); [lia|]. cbn [bind].
  cbn [ndiv Num_b64 bind]. rewrite (tabulate_ok 1 (0 + 1) _ (fun i => nmul (nofZ i) (SFdiv 53 1024 n1 (nofZ (0 + 1)))))  by (intros; reflexivity). cbn [bind]. rewrite zrange_empty by lia. cbn [map app].
  unfold KnotVector_make. assert (ValidateKnots (unit64 p) = true) as V.
  { unfold unit64. replace (Z.to_nat (p + 1)) with (S (Z.to_nat p)) by lia. exact (validate_zeros (S (Z.to_nat p)) (Z.to_nat p)). }
  match goal with |- context [ValidateKnots ?l] => change l with (unit64 p) end. rewrite V. reflexivity.
Qed.

Definition pair64 (k : knotpair b64) : R * Z := (val (kp_Value k), kp_Multiplicity k).
Lemma nneb_val (x y : b64) : finite64 x -> finite64 y -> nneb x y = nneb (val x) (val y).
Proof. intros Fx Fy. unfold nneb. cbn [neqb Num_b64 Num_R]. rewrite SFeqb_val by assumption. reflexivity. Qed.
Lemma pairs_loop64 : forall rest i i' a m, all_finite rest -> finite64 a ->
  map pair64 (pairs_loop i a m rest) = map pair_of (pairs_loop i' (val a) m (vals rest)) /\ Forall (fun k => finite64 (kp_Value k)) (pairs_loop i a m rest).
Proof.
  induction rest as [|x rest IH]; intros i i' a m F Fa; cbn [pairs_loop vals map].
  - split; [reflexivity|]. constructor; [exact Fa|constructor].
  - inversion F as [|? ? Fx Fr]; subst. rewrite nneb_val by assumption. destruct (nneb (val x) (val a)).
    + destruct (IH (i + 1) (i' + 1) x 1 Fr Fx) as [A B]. cbn [map]. split; [f_equal; exact A|constructor; assumption].
    + apply (IH (i + 1) (i' + 1) a (m + 1) Fr Fa).
Qed.
Lemma pairs64 l : all_finite l -> map pair64 (KnotVector_GetKnotPairs l) = pairs_of (vals l) /\ Forall (fun k => finite64 (kp_Value k)) (KnotVector_GetKnotPairs l).
Proof.
  intros F. destruct l as [|a l]; [split; [reflexivity|constructor]|]. inversion F; subst. unfold pairs_of, KnotVector_GetKnotPairs. cbn [vals map]. apply pairs_loop64; assumption.
Qed.
Lemma extra64 p ks : Forall (fun k => finite64 (kp_Value k)) ks -> vals (extra_of p ks) = extra p (map pair64 ks) /\ Forall inner64 (extra_of p ks).
Proof.
  induction 1 as [|k ks Fk Fks [IH1 IH2]]; [split; [reflexivity|constructor]|]. cbn [extra_of flat_map map extra]. fold (extra_of p ks). fold (extra p (map pair64 ks)). cbn [pair64 fst snd].
  assert (nleb (kp_Value k) n0 || ngeb (kp_Value k) n1 = negb (Rltb 0 (val (kp_Value k)) && Rltb (val (kp_Value k)) 1)) as ->.
  { change (SFleb (kp_Value k) dz || SFleb done_ (kp_Value k) = negb (Rltb 0 (val (kp_Value k)) && Rltb (val (kp_Value k)) 1)). rewrite !SFleb_val by first [assumption|exact fin_dz|exact fin_done]. rewrite val_dz, val_done.
    destruct (Rleb_spec (val (kp_Value k)) 0), (Rleb_spec 1 (val (kp_Value k))), (Rltb_spec 0 (val (kp_Value k))), (Rltb_spec (val (kp_Value k)) 1); try lra; reflexivity. }
  destruct (Rltb_spec 0 (val (kp_Value k))) as [H0|]; [destruct (Rltb_spec (val (kp_Value k)) 1) as [H1|]|]; cbn [andb negb app]; try (split; assumption). split.
  - unfold vals in *. rewrite map_app, map_repeat_R, IH1. reflexivity.
  - apply Forall_app. split; [|exact IH2]. apply Forall_forall. intros x Hx. apply repeat_spec in Hx. subst. split; [exact Fk|lra].
Qed.

Definition added (c : curve b64) : list b64 := extra_of (Degree c) (KnotVector_GetKnotPairs (Knots c)).
Lemma added_ok c : sound_curve c -> vals (added c) = extra (Degree c) (pairs_of (vals (Knots c))) /\ Forall inner64 (added c).
Proof.
  intros [[F _] _]. destruct (pairs64 _ F) as [A B]. destruct (extra64 (Degree c) _ B) as [C D]. unfold added. rewrite <- A. auto.
Qed.
Definition segment64 (p : Z) (d : curve b64) : Z -> curve b64 := window one4 p (unit64 p) (ControlPoints d).
Lemma segment64_sound p d j : 0 <= p -> sound_curve (segment64 p d j) /\ Degree (segment64 p d j) = p /\ Knots (segment64 p d j) = unit64 p.
Proof.
  intros P. split; [|split; reflexivity]. split; [apply sound_unit64; exact P|]. unfold segment64, window. cbn [ControlPoints Knots Degree]. rewrite len_map, len_zrange, <- len_vals, vals_unit64, len_unit by lia. lia.
Qed.
Lemma extract64 c : sound_curve c -> 1 <= Degree c -> exists d, Curve_InsertKnot_list c (added c) = Ok d /\ shape_of c d (added c) /\
  Curve_ExtractBezier c = Ok (map (segment64 (Degree c) d) (zrange 0 ((len (ControlPoints d) - 1) / Degree c))).
Proof.
  intros S P. destruct (added_ok c S) as [_ I]. destruct (Curve_InsertKnot_list64 c (added c) S I) as [d [E Sh]]. exists d. split; [exact E|]. split; [exact Sh|].
  unfold Curve_ExtractBezier. rewrite refine_is_list by reflexivity. fold (added c). rewrite E. cbn [bind]. pose proof Sh as [Sd [Dd [_ Ld]]]. rewrite Dd.
  assert (0 < len (ControlPoints d)) as L0. { destruct Sd as [[_ Cl] Cn]. pose proof (cl_len _ _ Cl) as Q. rewrite len_vals in Q. pose proof (cl_degree _ _ Cl). lia. }
  change 0 with (0 * Degree c) at 1. apply cut_windows; [exact P|apply uniform_unit64; lia|lia| |exact L0]. unfold len. lia.
Qed.
(** a curve of reals over the same knots *)
Lemma refined_vals c d : sound_curve c -> 1 <= Degree c -> interior_multiplicity_le (Degree c) (vals (Knots c)) -> shape_of c d (added c) ->
  vals (Knots d) = 0%R :: const_runs (Degree c) (breaks (vals (Knots c))) ++ [1%R].
Proof.
  intros S P Im [[[_ Cd] _] [Dd [Pd _]]]. pose proof S as [[Fk Ck] Cn]. pose proof (cl_degree _ _ Ck) as P0. pose proof (cl_len _ _ Ck) as Lk. rewrite len_vals in Lk.
  set (cr := Curve (Degree c) (vals (Knots c)) (repeat (Vec4 0 0 0 1)%R (Z.to_nat (len (ControlPoints c))))).
  assert (wf_curve cr) as W.
  { constructor; cbn [cr Degree Knots ControlPoints]; [exact Ck| |].
    - rewrite len_repeat, len_vals. pose proof (len_nonneg (ControlPoints c)). lia.
    - apply Forall_forall. intros x Hx. apply repeat_spec in Hx. subst. cbn [w4]. lra. }
  destruct (refine_ok (Degree cr) (KnotVector_GetKnotPairs (Knots cr)) cr W eq_refl) as [dr [_ Rf]]. fold (pairs_of (Knots cr)) in Rf.
  pose proof (refined_knots cr dr W P Im Rf) as Kd. cbn [cr Degree Knots] in Kd. rewrite <- Kd. destruct Rf as [Wd [_ [Pr _]]]. cbn [cr Degree Knots] in Pr.
  apply sorted_perm; [rewrite <- Dd in *; apply (cl_sorted _ _ Cd)|apply (cl_sorted _ _ (wf_knots _ Wd))|]. rewrite Pr.
  destruct (added_ok c S) as [<- _]. unfold vals. rewrite <- map_app. apply Permutation_map. exact Pd.
Qed.
Lemma distinct_unique : forall a b, (forall i j, 0 <= i < j -> j < len a -> (at_ a i < at_ a j)%R) -> (forall i j, 0 <= i < j -> j < len b -> (at_ b i < at_ b j)%R) ->
  (forall t, In t a <-> In t b) -> a = b.
Proof.
  assert (forall l, (forall i j, 0 <= i < j -> j < len l -> (at_ l i < at_ l j)%R) -> nondecreasing l /\ NoDup l) as H.
  { intros l Hl. split.
    - intros i j Hij Hj. destruct (Z.eq_dec i j) as [->|]; [lra|]. left. apply Hl; lia.
    - apply (NoDup_nth l 0%R). intros i j Hi Hj E. destruct (Nat.lt_trichotomy i j) as [Q|[Q|Q]]; [|exact Q|]; exfalso.
      + pose proof (Hl (Z.of_nat i) (Z.of_nat j) ltac:(lia) ltac:(unfold len; lia)) as L. unfold at_ in L. rewrite !Nat2Z.id in L. lra.
      + pose proof (Hl (Z.of_nat j) (Z.of_nat i) ltac:(lia) ltac:(unfold len; lia)) as L. unfold at_ in L. rewrite !Nat2Z.id in L. lra. }
  intros a b Ha Hb Hi. destruct (H a Ha) as [Sa Na]. destruct (H b Hb) as [Sb Nb]. apply sorted_perm; [assumption|assumption|]. apply NoDup_Permutation; assumption.
Qed.
Lemma extract64_count c d ts : sound_curve c -> 1 <= Degree c -> interior_multiplicity_le (Degree c) (vals (Knots c)) -> shape_of c d (added c) -> distinct_knots (vals (Knots c)) ts ->
  ts = breaks (vals (Knots c)) /\ 2 <= len ts /\ len (Knots d) = Degree c * len ts + 2 /\ (len (ControlPoints d) - 1) / Degree c = len ts - 1 /\
  len (added c) = Degree c * (len ts - 2) - (len (Knots c) - 2 * Degree c - 2).
Proof.
  intros S P Im Sh Dt. pose proof (refined_vals c d S P Im Sh) as Kd. destruct (breaks_facts (Degree c) _ (proj2 (proj1 S))) as [Dk [L2 _]].
  assert (ts = breaks (vals (Knots c))) as -> by (apply distinct_unique; [apply Dt|apply Dk|]; intros t; rewrite (proj2 Dt t); symmetry; apply Dk).
  split; [reflexivity|]. split; [exact L2|]. set (ts := breaks (vals (Knots c))) in *.
  assert (len (Knots d) = Degree c * len ts + 2) as Lk by (rewrite <- len_vals, Kd, len_cons, len_app, len_const_runs by lia; change (len [1%R]) with 1; lia).
  split; [exact Lk|]. destruct Sh as [[_ Cn] [Dd [Pd Lp]]]. rewrite Dd in Cn. split.
  - replace (len (ControlPoints d) - 1) with ((len ts - 1) * Degree c) by lia. apply Z.div_mul. lia.
  - apply Permutation_length in Pd. rewrite app_length in Pd. unfold len in *. lia.
Qed.

Lemma C96_segments_lemma c : sound_curve c -> 1 <= Degree c ->
  exists segs, Curve_ExtractBezier c = Ok segs /\
    (forall seg, In seg segs -> sound_curve seg /\ Degree seg = Degree c /\ Knots seg = repeat dz (Z.to_nat (Degree c + 1)) ++ repeat done_ (Z.to_nat (Degree c + 1))) /\
    (interior_multiplicity_le (Degree c) (vals (Knots c)) -> forall ts, distinct_knots (vals (Knots c)) ts -> len segs = len ts - 1).
Proof.
  intros S P. destruct (extract64 c S P) as [d [_ [Sh E]]]. eexists. split; [exact E|]. split.
  - intros seg Hs. apply in_map_iff in Hs. destruct Hs as [j [<- _]]. apply segment64_sound. lia.
  - intros Im ts Dt. destruct (extract64_count c d ts S P Im Sh Dt) as [_ [L2 [_ [-> _]]]]. rewrite len_map, len_zrange. lia.
Qed.
Lemma C96_windows_lemma c segs ts : sound_curve c -> 1 <= Degree c -> interior_multiplicity_le (Degree c) (vals (Knots c)) -> distinct_knots (vals (Knots c)) ts ->
  Curve_ExtractBezier c = Ok segs ->
  exists us d, Curve_InsertKnot_list c us = Ok d /\ Forall inner64 us /\ len (Knots d) = Degree c * len ts + 2 /\
    (forall i, 0 <= i < Degree c * len ts -> at_ (vals (Knots d)) (i + 1) = at_ ts (i / Degree c)) /\
    forall j seg k, vget segs j = Ok seg -> 0 <= k <= Degree c -> vget (ControlPoints seg) k = vget (ControlPoints d) (j * Degree c + k).
Proof.
  intros S P Im Dt E. destruct (extract64 c S P) as [d [E1 [Sh E2]]]. rewrite E2 in E. inversion E; subst segs. clear E. destruct (added_ok c S) as [_ Ia].
  destruct (extract64_count c d ts S P Im Sh Dt) as [Eb [L2 [Lk [Lm _]]]]. pose proof (refined_vals c d S P Im Sh) as Kd. rewrite <- Eb in Kd.
  exists (added c), d. split; [exact E1|]. split; [exact Ia|]. split; [exact Lk|]. split.
  - intros i Hi. rewrite Kd, at_cons by lia. replace (i + 1 - 1) with i by lia. rewrite at_znth, znth_app by lia. rewrite len_const_runs by lia. destruct (Z.ltb_spec i (Degree c * len ts)); [|lia].
    rewrite <- at_znth. apply at_const_runs; lia.
  - intros j seg k Hj Hk. pose proof (vget_range _ _ _ Hj) as Rj. rewrite len_map, len_zrange, Lm in Rj. rewrite Lm in Hj. rewrite vget_zrange_map in Hj by lia. injection Hj as <-. rewrite Z.add_0_l.
    unfold segment64, window. cbn [ControlPoints]. rewrite vget_zrange_map by lia. rewrite Z.add_0_l. symmetry. apply vget_ok. destruct Sh as [[_ Cn] [Dd _]]. rewrite Dd in Cn. nia.
Qed.

(** ** Accuracy *)
Lemma map_znth {A B} (f : A -> B) d l i : f (znth d l i) = znth (f d) (map f l) i.
Proof. unfold znth. symmetry. apply map_nth. Qed.
Lemma segment64_val p d j : curve_val (segment64 p d j) = segment p (curve_val d) j.
Proof.
  unfold curve_val, segment64, window, segment. cbn [Degree Knots ControlPoints]. rewrite vals_unit64. f_equal. rewrite map_map. apply map_ext. intros k. unfold cp. cbn [ControlPoints]. rewrite map_znth.
  unfold one4, val4. cbn [x4 y4 z4 w4]. rewrite val_dz, val_done. reflexivity.
Qed.
Lemma apart_unit64 p : 0 <= p -> apart (unit64 p).
Proof.
  intros Hp i Hi Hl. rewrite vals_unit64. unfold unit_knots. intros L.
  assert (forall k, 0 <= k -> at_ (repeat 0%R (Z.to_nat (p + 1)) ++ repeat 1%R (Z.to_nat (p + 1))) k = 0%R \/ at_ (repeat 0%R (Z.to_nat (p + 1)) ++ repeat 1%R (Z.to_nat (p + 1))) k = 1%R) as H.
  { intros k Hk. unfold at_. destruct (Nat.lt_ge_cases (Z.to_nat k) (Z.to_nat (p + 1))).
    - rewrite app_nth1 by (rewrite repeat_length; lia). left. apply nth_repeat.
    - rewrite app_nth2 by (rewrite repeat_length; lia). rewrite repeat_length. destruct (Nat.lt_ge_cases (Z.to_nat k - Z.to_nat (p + 1)) (Z.to_nat (p + 1))) as [Q|Q].
      + right. rewrite (nth_indep _ 0%R 1%R) by (rewrite repeat_length; exact Q). apply nth_repeat.
      + left. apply nth_overflow. rewrite repeat_length. exact Q. }
  assert (/ 2 ^ 900 <= 1)%R as B. { rewrite <- Rinv_1. apply Rinv_le; [lra|]. apply pow_R1_Rle. lra. }
  destruct (H i Hi) as [Q|Q], (H (i + 1) ltac:(lia)) as [Q'|Q']; rewrite Q, Q' in L |- *; lra.
Qed.
Lemma C97_segments_lemma c M lo hi rho ts n : sound_curve c -> 1 <= Degree c -> interior_multiplicity_le (Degree c) (vals (Knots c)) -> distinct_knots (vals (Knots c)) ts ->
  n = Degree c * (len ts - 2) - (len (Knots c) - 2 * Degree c - 2) ->
  Forall (tame M) (ControlPoints c) -> (0 <= M <= 2 ^ 98)%R -> weights_in lo hi (ControlPoints c) -> (/ 2 ^ 99 <= lo)%R -> (hi <= 2 ^ 99)%R -> (hi <= rho * lo)%R -> (rho <= 2 ^ 29)%R -> (IZR n * rho <= 2 ^ 43)%R ->
  exists segs, Curve_ExtractBezier c = Ok segs /\ len segs = len ts - 1 /\ forall j seg, vget segs j = Ok seg ->
    (forall s, (0 <= s <= 1)%R -> within3 (1200 * IZR n * rho / 2 ^ 53 * M + / 2 ^ 390) (curve_point (curve_val seg) s) (curve_point (curve_val c) (at_ ts j + (at_ ts (j + 1) - at_ ts j) * s))) /\
    (Degree c <= 50 -> forall x, finite64 x -> (0 <= val x <= 1)%R -> exists q, Curve_Evaluate seg x = Ok q /\
       near3 ((1200 * IZR n * rho + 90 * (IZR (Degree c) + 1)) / 2 ^ 53 * M + / 2 ^ 380) q (curve_point (curve_val c) (at_ ts j + (at_ ts (j + 1) - at_ ts j) * val x))).
Proof.
  intros S P Im Dt En Tm HM Wt L Hh Hr Hrr Hn. destruct (extract64 c S P) as [d [E1 [Sh E2]]]. destruct (added_ok c S) as [_ Ia].
  destruct (extract64_count c d ts S P Im Sh Dt) as [Eb [L2 [Lk [Lm La]]]]. pose proof (refined_vals c d S P Im Sh) as Kd. rewrite <- Eb in Kd.
  assert (INR (length (added c)) = IZR n) as EN by (rewrite INR_IZR_INZ, En, <- La; reflexivity).
  destruct (list_final c (added c) M lo hi rho S Tm HM Wt L Hh Hr Hrr ltac:(rewrite EN; exact Hn) Ia) as [d' [Ed [Sd [Dd [Td W]]]]]. rewrite E1 in Ed. injection Ed as <-. rewrite EN in W.
  eexists. split; [exact E2|]. rewrite Lm. split; [rewrite len_map, len_zrange; lia|]. intros j seg Hj. pose proof (vget_range _ _ _ Hj) as Rj. rewrite len_map, len_zrange in Rj.
  rewrite vget_zrange_map in Hj by lia. injection Hj as <-. rewrite Z.add_0_l in *.
  destruct (breaks_facts (Degree c) _ (proj2 (proj1 S))) as [_ [_ [F0 F1]]]. rewrite <- Eb in F0, F1. destruct Dt as [Inc _].
  assert (at_ ts j < at_ ts (j + 1)%Z)%R as Hab by (apply Inc; lia).
  assert (0 <= at_ ts j)%R as H0 by (rewrite <- F0; destruct (Z.eq_dec j 0) as [->|]; [lra|left; apply Inc; lia]).
  assert (at_ ts (j + 1)%Z <= 1)%R as H1 by (rewrite <- F1; destruct (Z.eq_dec (j + 1) (len ts - 1)) as [->|]; [lra|left; apply Inc; lia]).
  pose proof (tame_wf _ _ Sd Td) as Wd.
  assert (forall s, (0 <= s <= 1)%R -> curve_point (curve_val (segment64 (Degree c) d j)) s = curve_point (curve_val d) (at_ ts j + (at_ ts (j + 1) - at_ ts j) * s)) as Sg.
  { intros s Hs. rewrite segment64_val, !curve_point_hsum. rewrite !(segment_hsum (curve_val d) (Degree c) P Wd Dd ts Kd Inc F1) by (try lia; exact Hs). reflexivity. }
  assert (forall s, (0 <= s <= 1)%R -> within3 (1200 * IZR n * rho / 2 ^ 53 * M + / 2 ^ 390) (curve_point (curve_val (segment64 (Degree c) d j)) s) (curve_point (curve_val c) (at_ ts j + (at_ ts (j + 1) - at_ ts j) * s))) as Wi.
  { intros s Hs. rewrite Sg by exact Hs. apply W. nra. }
  split; [exact Wi|]. intros H50 x Fx Hx. destruct (segment64_sound (Degree c) d j ltac:(lia)) as [[[Fs Cs] Ns] [Ds Ks]].
  assert (0 < / 2 ^ 400)%R as T0 by (apply Rinv_0_lt_compat, pow_lt; lra). assert (/ 2 ^ 400 <= / 1000)%R as T1. { rewrite <- bpow_inv. apply tiny_small. lia. }
  assert (Forall (tame (2 * M + / 2 ^ 400)) (ControlPoints (segment64 (Degree c) d j))) as Ts.
  { apply Forall_forall. intros q Hq. unfold segment64, window in Hq. cbn [ControlPoints] in Hq. apply in_map_iff in Hq. destruct Hq as [k [<- Hk]]. apply In_zrange in Hk.
    destruct Sd as [_ Cn]. rewrite Dd in Cn. rewrite Forall_forall in Td. apply Td. apply znth_In. nia. }
  destruct (Curve64_ok (segment64 (Degree c) d j) (2 * M + / 2 ^ 400) x Cs Fs ltac:(rewrite Ks; apply apart_unit64; lia) ltac:(lia) Ns Ts ltac:(rewrite bpow_100; lra) Fx Hx) as [q [E N]].
  exists q. split; [exact E|]. rewrite Ds in N. pose proof (Wi (val x) Hx) as [W1 [W2 W3]]. destruct N as [N1 [N2 [N3 [B1 [B2 B3]]]]].
  set (e := (1200 * IZR n * rho / 2 ^ 53 * M + / 2 ^ 390)%R) in *. set (f := (45 * (IZR (Degree c) + 1) / 2 ^ 53 * (2 * M + / 2 ^ 400) + / 2 ^ 450)%R) in *.
  assert (f + e <= (1200 * IZR n * rho + 90 * (IZR (Degree c) + 1)) / 2 ^ 53 * M + / 2 ^ 380)%R as Hfe.
  { unfold e, f. assert (0 <= IZR (Degree c) <= 50)%R as Dr by (split; apply IZR_le; lia).
    set (v := (/ 2 ^ 53)%R). assert (0 < v <= / 1000000)%R as V0. { split; [apply Rinv_0_lt_compat, pow_lt; lra|]. unfold v. lra. }
    set (t := (/ 2 ^ 400)%R) in *. unfold Rdiv. fold v.
    assert (/ 2 ^ 390 = 1024 * t)%R as -> by (unfold t; replace 400%nat with (390 + 10)%nat by reflexivity; rewrite pow_add; field; split; apply pow_nonzero; lra).
    assert (/ 2 ^ 380 = 1048576 * t)%R as -> by (unfold t; replace 400%nat with (380 + 20)%nat by reflexivity; rewrite pow_add; field; split; apply pow_nonzero; lra).
    assert (/ 2 ^ 450 <= t)%R as Q. { unfold t. apply Rinv_le; [apply pow_lt; lra|]. apply Rle_pow; [lra|lia]. }
    assert (45 * (IZR (Degree c) + 1) * v * t <= t)%R. { rewrite <- (Rmult_1_l t) at 2. apply Rmult_le_compat_r; [lra|]. nra. }
    lra. }
  assert (forall a b r, Rabs (a - b) <= f -> Rabs (b - r) <= e -> Rabs (a - r) <= (1200 * IZR n * rho + 90 * (IZR (Degree c) + 1)) / 2 ^ 53 * M + / 2 ^ 380)%R as G.
  { intros a b r A1 A2. apply (Rle_trans _ (f + e)); [|exact Hfe]. replace (a - r)%R with ((a - b) + (b - r))%R by ring. eapply Rle_trans; [apply Rabs_triang|]. lra. }
  split; [exact N1|]. split; [exact N2|]. split; [exact N3|]. split; [|split]; eapply G; eassumption.
Qed.
