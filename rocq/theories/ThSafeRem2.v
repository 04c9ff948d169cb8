(** Memory safety in binary64 of knot removal from curves. *)
From Coq Require Import Reals ZArith List Lia Lra Bool Permutation SpecFloat.
From Flocq Require Import Core IEEE754.BinarySingleNaN.
From Verif Require Import Outcome Num ModelCore ModelCurve ModelAlgo SpecCore SpecBasis SpecCurve SpecErr
  ThOutcome ThReal ThVec ThB64 ThRound ThErr ThDecide ThKnots ThCoreWit ThBasis ThInsert ThSafe ThSafe2 ThRemove2 ThRemove3 ThRemoveWit ThSafeRem.
Import ListNotations.
Open Scope Z_scope.

(** ** Approx on doubles *)
Lemma opp_val (x : b64) : finite64 x -> finite64 (nopp x) /\ val (nopp x) = (- val x)%R.
Proof.
  intros [D Fx]. unfold finite64. change (nopp x) with (SFopp x). destruct x as [s|s| |s m e]; try discriminate; (split; [split; [exact D|reflexivity]|]).
  - cbn. lra.
  - destruct s; unfold val, SF2R, SFopp; cbn [negb cond_Zopp]; rewrite <- F2R_Zopp; cbn; reflexivity.
Qed.
Lemma abs_val (x : b64) : finite64 x -> finite64 (nabs x) /\ val (nabs x) = Rabs (val x).
Proof.
  intros F. unfold nabs. change (nltb x n0) with (SFltb x (n0 : b64)). rewrite (SFltb_val x (n0 : b64) F finite_0), val_0.
  unfold Rltb. destruct (Rlt_dec (val x) 0) as [L|L].
  - destruct (opp_val x F) as [A B]. split; [exact A|]. rewrite B, Rabs_left by exact L. reflexivity.
  - split; [exact F|]. rewrite Rabs_pos_eq by lra. reflexivity.
Qed.
Lemma lit_val : finite64 (lit_1e_6 : b64) /\ (0 < val (lit_1e_6 : b64) <= 1 / 1000000)%R.
Proof.
  split; [split; vm_compute; reflexivity|]. replace (lit_1e_6 : b64) with (S754_finite false 4722366482869645 (-72)) by (vm_compute; reflexivity).
  unfold val, SF2R, F2R. cbn [Defs.Fnum Defs.Fexp cond_Zopp]. change (bpow radix2 (-72)) with (/ IZR 4722366482869645213696)%R. lra.
Qed.
Lemma Approx_far (a b : b64) : finite64 a -> finite64 b -> (1 / 1000000 <= Rabs (val a - val b) <= 1)%R -> Approx a b lit_1e_6 = false.
Proof.
  intros Fa Fb H. assert (1 <= bpow radix2 1023)%R as B1 by (change 1%R with (bpow radix2 0); apply bpow_le; discriminate).
  assert (Rabs (val a - val b) <= bpow radix2 1023)%R as B2 by lra.
  destruct (sub_round a b Fa Fb (rnd64_big _ B2)) as [Fd Ed]. destruct (abs_val _ Fd) as [Fn En]. destruct lit_val as [Fl Bl].
  unfold Approx. change (nltb (nabs (nsub a b)) (lit_1e_6 : b64)) with (SFltb (nabs (nsub a b)) lit_1e_6). rewrite SFltb_val by assumption. apply Rltb_false. rewrite En, Ed.
  unfold rnd64. rewrite <- round_NE_abs by apply validF. apply Rle_not_lt. change (val (lit_1e_6 : b64) <= rnd64 (Rabs (val a - val b)))%R.
  rewrite <- (rnd64_id (val (lit_1e_6 : b64))) by (apply val_format; exact Fl). apply rnd64_le. lra.
Qed.
Lemma Approx_same (a b : b64) : finite64 a -> finite64 b -> val a = val b -> Approx a b lit_1e_6 = true.
Proof.
  intros Fa Fb H. assert (1 <= bpow radix2 1023)%R as B1 by (change 1%R with (bpow radix2 0); apply bpow_le; discriminate).
  destruct (sub_round a b Fa Fb) as [Fd Ed]. { apply rnd64_big. replace (val a - val b)%R with 0%R by lra. rewrite Rabs_R0. lra. }
  destruct (abs_val _ Fd) as [Fn En]. destruct lit_val as [Fl Bl].
  unfold Approx. change (nltb (nabs (nsub a b)) (lit_1e_6 : b64)) with (SFltb (nabs (nsub a b)) lit_1e_6). rewrite SFltb_val by assumption. apply Rltb_true. rewrite En, Ed.
  replace (val a - val b)%R with 0%R by lra. rewrite rnd64_id by apply generic_format_0. rewrite Rabs_R0. apply Bl.
Qed.
Lemma Multiplicity64 (l : list b64) u : all_finite l -> Forall (fun x => (0 <= val x <= 1)%R) l -> finite64 u -> (0 <= val u <= 1)%R -> separated (val u) (vals l) ->
  KnotVector_GetMultiplicity l u = count (val u) (vals l).
Proof.
  intros Fl Rl Fu Hu Sep. unfold KnotVector_GetMultiplicity.
  assert (forall k, fold_left (fun result v => if Approx v u lit_1e_6 then result + 1 else result) l k = k + count (val u) (vals l)) as H; [|rewrite H; lia].
  induction l as [|a l IH]; intros k; [unfold count; cbn; lia|]. cbn [fold_left vals map]. fold (vals l). inversion Fl; inversion Rl; subst.
  rewrite IH; try assumption; [|intros v Hv; apply Sep; right; exact Hv]. unfold count. cbn [count_occ].
  destruct (Req_EM_T (val a) (val u)) as [E|E].
  - rewrite Approx_same by assumption. lia.
  - rewrite Approx_far; try assumption; [lia|]. destruct (Sep (val a)) as [Q|Q]; [left; reflexivity|contradiction|]. split; [exact Q|]. apply Rabs_le. lra.
Qed.

(** ** Curves *)
Lemma in_firstn {A} n : forall (l : list A) x, In x (firstn n l) -> In x l.
Proof. intros l x Hx. rewrite <- (firstn_skipn n l). apply in_or_app. left. exact Hx. Qed.
Lemma in_skipn {A} n : forall (l : list A) x, In x (skipn n l) -> In x l.
Proof. intros l x Hx. rewrite <- (firstn_skipn n l). apply in_or_app. right. exact Hx. Qed.
Lemma sound_unit p l : sound_knots p l -> Forall (fun x => (0 <= val x <= 1)%R) l.
Proof.
  intros [Fl C]. pose proof (cl_len _ _ C) as CL. pose proof (cl_degree _ _ C). apply Forall_forall. intros x Hx. apply (In_nth _ _ dz) in Hx. destruct Hx as [k [Hk Ek]].
  assert (val x = at_ (vals l) (Z.of_nat k)) as ->. { rewrite at_vals. unfold zn, znth. rewrite Nat2Z.id, Ek. reflexivity. }
  assert (Z.of_nat k < len (vals l)) as Hl by (rewrite len_vals; unfold len; lia). split.
  - rewrite <- (cl_zero _ _ C 0) by lia. apply (cl_sorted _ _ C); lia.
  - rewrite <- (cl_one _ _ C (len (vals l) - 1)) by lia. apply (cl_sorted _ _ C); lia.
Qed.
Lemma span64 p (l : list b64) u r : sound_knots p l -> inner64 u -> in_span (vals l) r (val u) -> 0 <= r < len l - 1 ->
  KnotVector_FindSpanIndex l p u = Ok r /\ knot_span p (vals l) r (val u).
Proof.
  intros [Fl C] [Fu Hu] Sp Hr. destruct (span_find p (vals l) (val u) C Hu) as [r' [E K]]. rewrite FindSpanIndex_b64 by assumption.
  assert (r' = r) as ->; [|auto]. pose proof (in_span_span_at (vals l) r (val u) ltac:(rewrite len_vals; lia) Sp) as [Q|Q]; [|lra].
  pose proof (clamped_mono _ _ C) as M. destruct K as [H1 K1]. destruct (Z.lt_trichotomy r r') as [L|[L|L]]; [|exact (eq_sym L)|].
  - pose proof (M (r + 1)%Z r' ltac:(lia)). lra.
  - pose proof (M (r' + 1)%Z r ltac:(lia)). lra.
Qed.
Lemma remove_asserts (u : b64) : inner64 u -> ngtb u n0 && nltb u n1 = true.
Proof.
  intros [Fu Hu]. unfold ngtb. change (SFltb (n0 : b64) u && SFltb u (n1 : b64) = true). rewrite (SFltb_val _ _ finite_0 Fu), (SFltb_val _ _ Fu finite_1), val_0, val_1.
  apply andb_true_intro. split; apply Rltb_true; lra.
Qed.
Lemma C94_safe_lemma (c : curve b64) u r times tol : sound_curve c -> inner64 u -> separated (val u) (vals (Knots c)) -> 0 <= r < len (Knots c) - 1 -> in_span (vals (Knots c)) r (val u) ->
  1 <= times -> count (val u) (vals (Knots c)) <= Degree c + 2 -> Degree c + times <= r ->
  r - count (val u) (vals (Knots c)) + times <= len (ControlPoints c) - 1 -> 2 * times <= Degree c + count (val u) (vals (Knots c)) ->
  exists c' t, Curve_RemoveKnot c u times tol = Ok (c', t) /\ 0 <= t <= times /\ Degree c' = Degree c /\
    (t = 0 -> Knots c' = Knots c /\ len (ControlPoints c') = len (ControlPoints c)) /\
    (t <> 0 -> Knots c' = firstn (Z.to_nat (r + 1 - times)) (Knots c) ++ skipn (Z.to_nat (r + 1)) (Knots c) /\ len (ControlPoints c') = len (ControlPoints c) - times).
Proof.
  intros [Sk Cn] Iu Sep Hr Sp T1 S2 C1 C2 C3. pose proof Sk as [Fl C]. pose proof Iu as [Fu Hu]. destruct (span64 _ _ _ _ Sk Iu Sp Hr) as [Er [Kr _]]. rewrite len_vals in Kr.
  pose proof (cl_degree _ _ C) as P0. assert (0 <= count (val u) (vals (Knots c))) as S0 by (unfold count; lia).
  destruct (runs_KnotRemoval total_b64 (Knots c) (Degree c) (len (ControlPoints c) - 1) r (count (val u) (vals (Knots c))) u P0 ltac:(lia) ltac:(lia) ltac:(lia) times tol (ControlPoints c)) as [[[t k'] q'] [Ek Q]];
    try lia; [|exact Er|].
  { apply Multiplicity64; try assumption; [apply (sound_unit _ _ Sk)|lra]. }
  destruct Q as [Qt Qk]. assert (Curve_RemoveKnot c u times tol = Ok (Curve (Degree c) k' q', t)) as E.
  { unfold Curve_RemoveKnot. rewrite remove_asserts by exact Iu. destruct (Z.ltb_spec 0 times); [|lia]. cbn [assert_ bind]. rewrite Ek. reflexivity. }
  eexists _, t. split; [exact E|]. pose proof (RemoveKnot_count _ _ _ _ _ _ E) as [_ [_ [Z0 Z1]]]. cbn [Degree Knots ControlPoints] in *. split; [lia|]. split; [reflexivity|]. split.
  - intros T0. destruct (Z0 T0) as [Z2 ->]. rewrite len_map. auto.
  - intros T0. split; [apply Qk; exact T0|apply Z1; exact T0].
Qed.
Lemma C94_out_lemma (c : curve b64) u r times tol : sound_curve c -> inner64 u -> separated (val u) (vals (Knots c)) -> 0 <= r < len (Knots c) - 1 -> in_span (vals (Knots c)) r (val u) ->
  1 <= times -> ~ (count (val u) (vals (Knots c)) <= Degree c + 2 /\ Degree c + 1 <= r /\
  r - count (val u) (vals (Knots c)) + 1 <= len (ControlPoints c) - 1 /\ 2 <= Degree c + count (val u) (vals (Knots c))) ->
  Curve_RemoveKnot c u times tol = Undefined OutOfBounds.
Proof.
  intros [Sk Cn] Iu Sep Hr Sp T1 Nc. pose proof Sk as [Fl C]. pose proof Iu as [Fu Hu]. destruct (span64 _ _ _ _ Sk Iu Sp Hr) as [Er [Kr _]]. rewrite len_vals in Kr.
  pose proof (cl_degree _ _ C) as P0. assert (0 <= count (val u) (vals (Knots c))) as S0 by (unfold count; lia).
  unfold Curve_RemoveKnot. rewrite remove_asserts by exact Iu. destruct (Z.ltb_spec 0 times); [|lia]. cbn [assert_ bind].
  rewrite (KnotRemoval_out total_b64 _ _ (len (ControlPoints c) - 1) r (count (val u) (vals (Knots c)))); try lia; try exact Er; [reflexivity|].
  apply Multiplicity64; try assumption; [apply (sound_unit _ _ Sk)|lra].
Qed.
Lemma C94_knot_lemma (c : curve b64) u times tol : sound_curve c -> inner64 u -> separated (val u) (vals (Knots c)) ->
  1 <= times <= count (val u) (vals (Knots c)) -> count (val u) (vals (Knots c)) <= Degree c + 1 -> 2 * times <= Degree c + count (val u) (vals (Knots c)) ->
  exists c' t, Curve_RemoveKnot c u times tol = Ok (c', t) /\ 0 <= t <= times /\ Degree c' = Degree c /\ sound_curve c' /\
    (t = 0 -> Knots c' = Knots c) /\
    (t <> 0 -> Permutation (vals (Knots c)) (repeat (val u) (Z.to_nat times) ++ vals (Knots c'))).
Proof.
  intros Sc Iu Sep T1 S2 C3. pose proof Sc as [Sk Cn]. pose proof Sk as [Fl C]. pose proof Iu as [Fu Hu]. set (s := count (val u) (vals (Knots c))) in *.
  destruct (clamped_span _ _ (val u) C ltac:(lra)) as [r [_ [Hr Sr]]]. rewrite len_vals in Hr. pose proof (cl_degree _ _ C) as P0.
  assert (knot_span (Degree c) (vals (Knots c)) r (val u)) as K. { split; [rewrite len_vals; lia|]. destruct Sr as [Q|Q]; [exact Q|lra]. }
  assert (in_span (vals (Knots c)) r (val u)) as Si. { left. rewrite <- !kf_at by (rewrite len_vals; lia). apply K. }
  pose proof (count_span _ _ _ _ C K Hu) as [S0 [S1 _]]. cbv zeta in *. fold s in S0, S1.
  destruct (C94_safe_lemma c u r times tol Sc Iu Sep ltac:(lia) Si) as [c' [t [E [Ht [Ed [Z0 Z1]]]]]]; fold s; try lia.
  exists c', t. split; [exact E|]. split; [exact Ht|]. split; [exact Ed|]. assert (len (vals (Knots c)) = len (ControlPoints c) - 1 + Degree c + 2) as LK by (rewrite len_vals; lia).
  destruct (Z.eq_dec t 0) as [T0|T0].
  - destruct (Z0 T0) as [Ek Ep]. split; [|split; [auto|contradiction]]. unfold sound_curve. rewrite Ed, Ek, Ep. exact Sc.
  - destruct (Z1 T0) as [Ek Ep]. assert (vals (Knots c') = del (vals (Knots c)) r times) as Ev.
    { rewrite Ek. unfold del, vals. rewrite map_app, firstn_map, skipn_map. reflexivity. }
    split; [|split; [contradiction|intros _; rewrite Ev; apply (dl_perm _ _ _ _ _ C LK Hu K S2); fold s; lia]].
    unfold sound_curve, sound_knots. rewrite Ed, Ev. split; [split|].
    + rewrite Ek. apply Forall_app. split; apply Forall_forall; intros x Hx; eapply Forall_forall; try exact Fl; [apply in_firstn in Hx|apply in_skipn in Hx]; exact Hx.
    + apply (dl_clamped _ _ _ _ _ C LK Hu K S2). fold s. lia.
    + rewrite Ep, <- len_vals, Ev. rewrite (dl_len _ _ _ _ _ C LK Hu K S2) by (fold s; lia). rewrite len_vals. lia.
Qed.
