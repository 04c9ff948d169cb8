(** The searches in binary64 (C44, C45, C54). *)
From Coq Require Import List ZArith Lia Bool Reals Lra.
From Coq Require Import Floats.SpecFloat.
From Flocq Require Import Core IEEE754.BinarySingleNaN.
From Verif Require Import Outcome Num ModelCore ModelBasis ModelCurve ModelSurface SpecSearch ThReal ThOutcome ThB64 ThRound.
Import ListNotations.
Open Scope Z_scope.

(** ** Facts that hold for any arithmetic *)
Section AnyNum.
  Context {T : Type} `{Num T}.

  Lemma eval_unit c (u : T) p : Curve_Evaluate c u = Ok p -> in_unit u.
  Proof.
    unfold Curve_Evaluate. intros E. bindinv E. apply assert_Ok in E0. apply andb_prop in E0. destruct E0 as [A B].
    split; assumption.
  Qed.
  Lemma seval_unit s (u v : T) p : Surface_Evaluate s u v = Ok p -> in_unit u /\ in_unit v.
  Proof.
    unfold Surface_Evaluate. intros E. bindinv E. apply assert_Ok in E0. apply andb_prop in E0. destruct E0 as [A B].
    bindinv E. apply assert_Ok in E0. apply andb_prop in E0. destruct E0 as [A' B'].
    repeat split; assumption.
  Qed.

  (** Whatever the loop returns has been evaluated, or is the start value. *)
  Lemma search_loop_any (D : T -> Prop) Rn fi ls eps mx fuel : (forall u g, fi u = Ok g -> D u) ->
    forall count u res H v, D u -> search_loop Rn fi ls eps mx fuel count u res H = Ok v -> D v.
  Proof.
    intros HD. induction fuel as [|fuel IH]; intros count u res Hk v Hu; cbn [search_loop];
      (destruct (nltb res eps); [congruence|]); (destruct (nleb mx _); [congruence|]); [discriminate|].
    intros E. bindinv E. bindinv E. apply bind_Ok in E. destruct E as [g' [Eg' E]].
    match type of E with (let '(_, _) := ?X in _) = _ => destruct X as [H' y'] end.
    bindinv E. bindinv E. apply IH in E; [exact E|]. apply (HD _ _ Eg').
  Qed.
  Lemma search_loop2_any (D : T * T -> Prop) Rn Ki eps mx fuel : (forall u g, Ki u = Ok g -> D u) ->
    forall count u res H v, D u -> search_loop2 Rn Ki eps mx fuel count u res H = Ok v -> D v.
  Proof.
    intros HD. induction fuel as [|fuel IH]; intros count u res Hk v Hu; cbn [search_loop2];
      (destruct (nltb res eps); [congruence|]); (destruct (nleb mx _); [congruence|]); [discriminate|].
    intros E. bindinv E. bindinv E. apply bind_Ok in E. destruct E as [g' [Eg' E]].
    match type of E with (let '(_, _) := ?X in _) = _ => destruct X as [H' y'] end.
    bindinv E. bindinv E. apply IH in E; [exact E|]. apply (HD _ _ Eg').
  Qed.

  (** Fuel [n] is enough as soon as the bound is reached at count [n]. *)
  Lemma search_loop_enough Rn fi ls eps mx fuel : forall count u res H fuel', (fuel <= fuel')%nat ->
    nleb mx (nofZ (count + Z.of_nat fuel)) = true ->
    search_loop Rn fi ls eps mx fuel' count u res H = search_loop Rn fi ls eps mx fuel count u res H.
  Proof.
    induction fuel as [|fuel IH]; intros count u res Hk fuel' Hl Hm.
    - rewrite Z.add_0_r in Hm. destruct fuel'; [reflexivity|]. cbn [search_loop]. rewrite Hm. reflexivity.
    - destruct fuel' as [|fuel']; [lia|]. cbn [search_loop].
      destruct (nltb res eps); [reflexivity|]. destruct (nleb mx (nofZ count)); [reflexivity|].
      destruct (fi u); try reflexivity. cbn [bind]. destruct (line_search _ _ _ _ _ _ _); try reflexivity. cbn [bind].
      destruct (fi a0); try reflexivity. cbn [bind].
      match goal with |- (let '(_, _) := ?X in _) = _ => destruct X as [H' y'] end.
      destruct (ndiv n1 y'); try reflexivity. cbn [bind]. destruct (Rn a0); try reflexivity. cbn [bind].
      apply IH; [lia|]. rewrite <- Hm. f_equal. f_equal. lia.
  Qed.
  Lemma search_loop2_enough Rn Ki eps mx fuel : forall count u res H fuel', (fuel <= fuel')%nat ->
    nleb mx (nofZ (count + Z.of_nat fuel)) = true ->
    search_loop2 Rn Ki eps mx fuel' count u res H = search_loop2 Rn Ki eps mx fuel count u res H.
  Proof.
    induction fuel as [|fuel IH]; intros count u res Hk fuel' Hl Hm.
    - rewrite Z.add_0_r in Hm. destruct fuel'; [reflexivity|]. cbn [search_loop2]. rewrite Hm. reflexivity.
    - destruct fuel' as [|fuel']; [lia|]. cbn [search_loop2].
      destruct (nltb res eps); [reflexivity|]. destruct (nleb mx (nofZ count)); [reflexivity|].
      destruct (Ki u); try reflexivity. cbn [bind]. destruct (line_search2 _ _ _ _ _ _ _); try reflexivity. cbn [bind].
      destruct (Ki a0); try reflexivity. cbn [bind].
      match goal with |- (let '(_, _) := ?X in _) = _ => destruct X as [H' y'] end.
      destruct (ndiv n1 y'); try reflexivity. cbn [bind]. destruct (Rn a0); try reflexivity. cbn [bind].
      apply IH; [lia|]. rewrite <- Hm. f_equal. f_equal. lia.
  Qed.
  Lemma bisect_enough Rn eps go fuel : forall count (low high : T) fuel', (fuel <= fuel')%nat ->
    go (count + Z.of_nat fuel) = false ->
    bisect_loop Rn eps go fuel' count low high = bisect_loop Rn eps go fuel count low high.
  Proof.
    induction fuel as [|fuel IH]; intros count low high fuel' Hl Hm.
    - rewrite Z.add_0_r in Hm. destruct fuel'; [reflexivity|]. cbn [bisect_loop]. rewrite Hm. reflexivity.
    - destruct fuel' as [|fuel']; [lia|]. cbn [bisect_loop]. destruct (negb (go count)); [reflexivity|].
      assert (Hm' : go (count + 1 + Z.of_nat fuel) = false) by (rewrite <- Hm; f_equal; lia).
      destruct (ndiv _ _); try reflexivity. cbn [bind]. destruct (Rn a); try reflexivity. cbn [bind]. cbn zeta.
      destruct (Rn (if nltb (nsub a eps) low then _ else _)); try reflexivity. cbn [bind].
      destruct (Rn (if ngtb (nadd a eps) high then _ else _)); try reflexivity. cbn [bind].
      destruct (nltb _ _); [apply IH; [lia|assumption]|]. destruct (nltb _ _); [apply IH; [lia|assumption]|].
      destruct (_ || _); [reflexivity|]. apply IH; [lia|assumption].
  Qed.
End AnyNum.

Lemma C44_b64_lemma (c : curve b64) P init eps mx : in_unit init ->
  (forall n u, Curve_SearchParameter n c P init eps mx = Ok u -> in_unit u) /\
  (forall n n', (n <= n')%nat -> nleb mx (nofZ (Z.of_nat n)) = true ->
     Curve_SearchParameter n' c P init eps mx = Curve_SearchParameter n c P init eps mx).
Proof.
  intros Hi. split.
  - intros n u. unfold Curve_SearchParameter. cbn zeta. apply search_loop_any; [|exact Hi].
    intros x g E. bindinv E. bindinv E0. apply eval_unit in E1. exact E1.
  - intros n n' Hl Hm. unfold Curve_SearchParameter. cbn zeta. apply search_loop_enough; assumption.
Qed.

Lemma C54_b64_lemma (s : surface b64) P eps mx :
  (forall n a b u v, Surface_SearchParameter n s P a b eps mx = Ok (u, v) -> in_unit u /\ in_unit v) /\
  (forall n a b n', (n <= n')%nat -> nleb mx (nofZ (Z.of_nat n)) = true ->
     Surface_SearchParameter n' s P a b eps mx = Surface_SearchParameter n s P a b eps mx) /\
  (forall d k init, 0 <= d <= 1 -> in_unit k -> in_unit init ->
     (forall n u v, Surface_SearchParameterOn n s P d k init eps mx = Ok (u, v) ->
        in_unit u /\ in_unit v /\ (d = 0 -> u = k) /\ (d = 1 -> v = k)) /\
     (forall n n', (n <= n')%nat -> nleb mx (nofZ (Z.of_nat n)) = true ->
        Surface_SearchParameterOn n' s P d k init eps mx = Surface_SearchParameterOn n s P d k init eps mx)).
Proof.
  split; [|split].
  - intros n a b u v. unfold Surface_SearchParameter. intros E. apply bind_Ok in E. destruct E as [[] [Ea E]]. apply assert_Ok in Ea.
    apply bind_Ok in E. destruct E as [[] [Eb E]]. apply assert_Ok in Eb.
    apply andb_prop in Ea, Eb. cbn zeta in E.
    change (u, v) with (u, v) in E. cut ((fun uv => in_unit (fst uv) /\ in_unit (snd uv)) (u, v)); [tauto|].
    revert E. apply search_loop2_any.
    + intros x g E. bindinv E. bindinv E0. apply seval_unit in E1. exact E1.
    + cbn. unfold in_unit. tauto.
  - intros n a b n' Hl Hm. unfold Surface_SearchParameter. destruct (assert_ _); try reflexivity. cbn [bind].
    destruct (assert_ _); try reflexivity. cbn [bind]. cbn zeta. apply search_loop2_enough; assumption.
  - intros d k init Hd Hk Hi. split.
    + intros n u v. unfold Surface_SearchParameterOn. cbn zeta. intros E. apply bind_Ok in E. destruct E as [x [Ex E]].
      apply (search_loop_any in_unit) in Ex; [|intros y g Ey|exact Hi].
      * assert (d = 0 \/ d = 1) as [-> | ->] by lia; injection E as <- <-; (split; [assumption|]); (split; [assumption|]);
          split; intros; solve [reflexivity|discriminate].
      * assert (d = 0 \/ d = 1) as [-> | ->] by lia; cbn in Ey; apply bind_Ok in Ey; destruct Ey as [r [Er _]];
          apply bind_Ok in Er; destruct Er as [q [Eq _]]; apply seval_unit in Eq; tauto.
    + intros n n' Hl Hm. unfold Surface_SearchParameterOn. cbn zeta. now rewrite (search_loop_enough _ _ _ _ _ n 0 _ _ _ n').
Qed.

(** ** Bisection *)
Lemma two_b64 : finite64 (nofZ 2 : b64) /\ val (nofZ 2) = 2%R.
Proof.
  split; [split; reflexivity|]. change (nofZ 2 : b64) with (S754_finite false 4503599627370496 (-51)).
  unfold val, SF2R, Defs.F2R. cbn [Defs.Fnum Defs.Fexp cond_Zopp]. change (bpow radix2 (-51)) with (/ IZR (2 ^ 51))%R.
  change 4503599627370496 with (2 * 2 ^ 51). rewrite mult_IZR. field. apply not_0_IZR. discriminate.
Qed.
Lemma two_lt_emax : (2 < bpow radix2 1024)%R.
Proof. change 2%R with (bpow radix2 1). apply bpow_lt. lia. Qed.
Lemma midpoint_b64 low high : finite64 low -> finite64 high -> (0 <= val low <= val high)%R -> (val high <= 1)%R ->
  exists m, ndiv (nadd low high) (nofZ 2) = Ok m /\ finite64 m /\ (val low <= val m <= val high)%R.
Proof.
  intros Fl Fh Hl Hh. pose proof two_lt_emax as E2. destruct two_b64 as [F2 V2].
  destruct (add_round low high Fl Fh) as [Fs Vs].
  { apply bounded_no_overflow with (a := 0%R) (b := 2%R);
      [apply generic_format_0|apply int_format; lia|rewrite Rabs_R0; lra|rewrite Rabs_right; lra|lra]. }
  assert (B : (2 * val low <= val (nadd low high) <= 2 * val high)%R).
  { rewrite Vs. rewrite <- (rnd64_id (2 * val low)) at 1 by (apply double_format, val_format, Fl).
    rewrite <- (rnd64_id (2 * val high)) by (apply double_format, val_format, Fh). split; apply rnd64_le; lra. }
  destruct (div_round (nadd low high) (nofZ 2) Fs F2) as [m [Em [Fm Vm]]].
  { rewrite V2. lra. }
  { rewrite V2. apply bounded_no_overflow with (a := val low) (b := val high);
      [apply val_format, Fl|apply val_format, Fh|apply val_lt_emax, Fl|apply val_lt_emax, Fh|lra]. }
  exists m. split; [exact Em|]. split; [exact Fm|]. rewrite Vm, V2.
  rewrite <- (rnd64_id (val low)) at 1 by (apply val_format, Fl).
  rewrite <- (rnd64_id (val high)) by (apply val_format, Fh). split; apply rnd64_le; lra.
Qed.

Lemma left_b64 low m eps : finite64 low -> finite64 m -> finite64 eps -> (0 <= val low <= val m)%R -> (0 <= val eps)%R ->
  let l := if nltb (nsub m eps) low then low else nsub m eps in finite64 l /\ (val low <= val l <= val m)%R.
Proof.
  intros Fl Fm Fe Hl He. cbn zeta.
  destruct (sub_round m eps Fm Fe) as [Fs Vs].
  { apply bounded_no_overflow with (a := (- val eps)%R) (b := val m).
    - apply generic_format_opp, val_format, Fe.
    - apply val_format, Fm.
    - rewrite Rabs_Ropp. apply val_lt_emax, Fe.
    - apply val_lt_emax, Fm.
    - lra. }
  assert (B : (val (nsub m eps) <= val m)%R).
  { rewrite Vs. rewrite <- (rnd64_id (val m)) at 2 by (apply val_format, Fm). apply rnd64_le. lra. }
  change (nltb (nsub m eps) low) with (SFltb (nsub m eps) low). rewrite SFltb_val by assumption.
  destruct (Rltb_spec (val (nsub m eps)) (val low)); split; try assumption; lra.
Qed.
Lemma add_nonneg x y : finite64 x -> finite64 y -> (0 <= val x)%R -> (0 <= val y)%R ->
  (finite64 (nadd x y) /\ val (nadd x y) = rnd64 (val x + val y)) \/ nadd x y = S754_infinity false.
Proof.
  intros [Dx Fx] [Dy Fy] Hx Hy. destruct (Rlt_le_dec (Rabs (rnd64 (val x + val y))) (bpow radix2 1024)) as [Ho|Ho].
  - left. apply add_round; [split; assumption..|exact Ho].
  - right. destruct (to_B x Dx) as [a <-]. destruct (to_B y Dy) as [b <-].
    rewrite B_finite in Fx, Fy. change (nadd (B2SF a) (B2SF b)) with (SFadd 53 1024 (B2SF a) (B2SF b)).
    rewrite add_equiv. rewrite !B_val in *.
    pose proof (Bplus_correct 53 1024 prec53 emax1024 mode_NE a b Fx Fy) as C.
    change (SpecFloat.fexp 53 1024) with (FLT_exp (-1074) 53) in C. change (round_mode mode_NE) with ZnearestE in C.
    rewrite Rlt_bool_false in C by exact Ho. destruct C as [C1 C2]. rewrite C1.
    destruct (Bsign a) eqn:Sa; [|reflexivity]. exfalso.
    assert (Za : forall z : binary_float 53 1024, is_finite z = true -> Bsign z = true -> (0 <= B2R z)%R -> B2R z = 0%R).
    { intros z Fz Sz Pz. destruct z as [sz| | |sz mz ez Bz]; try reflexivity. cbn in Sz. subst sz. exfalso. revert Pz. cbn.
      apply Rlt_not_le. apply F2R_lt_0. reflexivity. }
    rewrite (Za a), (Za b) in Ho by auto. rewrite Rplus_0_r in Ho. unfold rnd64 in Ho. rewrite round_0, Rabs_R0 in Ho by apply valid_rnd_N.
    pose proof (bpow_gt_0 radix2 1024). lra.
Qed.
Lemma right_b64 high m eps : finite64 high -> finite64 m -> finite64 eps -> (0 <= val m <= val high)%R -> (0 <= val eps)%R ->
  let r := if ngtb (nadd m eps) high then high else nadd m eps in finite64 r /\ (val m <= val r <= val high)%R.
Proof.
  intros Fh Fm Fe Hl He. cbn zeta. unfold ngtb. change (nltb high (nadd m eps)) with (SFltb high (nadd m eps)).
  destruct (add_nonneg m eps Fm Fe) as [[Fs Vs]|Ei]; [lra|lra| |].
  - assert (B : (val m <= val (nadd m eps))%R).
    { rewrite Vs. rewrite <- (rnd64_id (val m)) at 1 by (apply val_format, Fm). apply rnd64_le. lra. }
    rewrite SFltb_val by assumption.
    destruct (Rltb_spec (val high) (val (nadd m eps))); split; try assumption; lra.
  - rewrite Ei. assert (E : SFltb high (S754_infinity false) = true).
    { destruct Fh as [Dh Fh]. destruct high as [sg|sg| |sg mg eg]; try discriminate; reflexivity. }
    rewrite E. split; [exact Fh|lra].
Qed.

Lemma bisect_b64 Rn eps go fuel : finite64 eps -> (0 <= val eps)%R ->
  forall count low high u, finite64 low -> finite64 high -> (0 <= val low <= val high)%R -> (val high <= 1)%R ->
  bisect_loop Rn eps go fuel count low high = Ok u -> finite64 u /\ (val low <= val u <= val high)%R.
Proof.
  intros Fe He. induction fuel as [|fuel IH]; intros count low high u Fl Fh Hl Hh; cbn [bisect_loop];
    destruct (midpoint_b64 low high Fl Fh Hl Hh) as [m [Em [Fm Hm]]]; rewrite Em;
    (destruct (negb (go count)); [intros [= <-]; split; [assumption|lra]|]); [discriminate|].
  cbn [bind]. cbn zeta.
  destruct (left_b64 low m eps Fl Fm Fe ltac:(lra) He) as [Fa Ha]. destruct (right_b64 high m eps Fh Fm Fe ltac:(lra) He) as [Fb Hb].
  set (a := if nltb (nsub m eps) low then low else nsub m eps) in *.
  set (b := if ngtb (nadd m eps) high then high else nadd m eps) in *.
  intros E. bindinv E. bindinv E. bindinv E.
  match type of E with (if ?X then _ else _) = _ => destruct X end; [apply IH in E; try assumption; try lra; destruct E; split; [assumption|lra]|].
  match type of E with (if ?X then _ else _) = _ => destruct X end; [apply IH in E; try assumption; try lra; destruct E; split; [assumption|lra]|].
  match type of E with (if ?X then _ else _) = _ => destruct X end; [injection E as <-; split; [assumption|lra]|].
  apply IH in E; try assumption; try lra. destruct E; split; [assumption|lra].
Qed.

Lemma C45_b64_lemma (c : curve b64) P eps mx u : finite64 eps -> (0 <= val eps)%R ->
  Curve_BinarySearchParameter c P eps mx = Ok u -> finite64 u /\ (0 <= val u <= 1)%R.
Proof.
  intros Fe He E. unfold Curve_BinarySearchParameter in E. cbn zeta in E.
  apply bisect_b64 in E; auto using finite_0, finite_1; rewrite ?val_0, ?val_1 in *; try lra. exact E.
Qed.
Lemma C54_binary_b64_lemma (s : surface b64) P d k eps mx n u v : finite64 eps -> (0 <= val eps)%R -> 0 <= d <= 1 ->
  Surface_BinarySearchParameterOn n s P d k eps mx = Ok (u, v) ->
  (d = 0 -> u = k /\ finite64 v /\ (0 <= val v <= 1)%R) /\ (d = 1 -> v = k /\ finite64 u /\ (0 <= val u <= 1)%R).
Proof.
  intros Fe He Hd E. unfold Surface_BinarySearchParameterOn in E. cbn zeta in E. apply bind_Ok in E. destruct E as [x [Ex E]].
  apply bisect_b64 in Ex; auto using finite_0, finite_1; rewrite ?val_0, ?val_1 in *; try lra.
  assert (d = 0 \/ d = 1) as [-> | ->] by lia; injection E as <- <-; split; intros; try discriminate; auto.
Qed.
