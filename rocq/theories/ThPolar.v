(** Degree elevation of polar forms. *)
From Coq Require Import Reals ZArith List Lra Lia Permutation.
From Verif Require Import Outcome SpecCore SpecBasis ThOutcome ThKnots ThMath ThSum ThSpline ThCurve ThReverse.
Import ListNotations.
Open Scope Z_scope.

(** ** Neighbouring pieces agree on lists containing their common knot often enough *)
Lemma bl_meet_app U k j x : mono U -> (U k < U (k + 1)%Z)%R -> (U j < U (j + 1)%Z)%R -> k <= j ->
  (forall i, k < i <= j -> U i = x) ->
  forall n ts P, j - k <= nn n -> bl U j (ts ++ repeat x n) P = bl U k (ts ++ repeat x n) P.
Proof.
  intros M Sk Sj L E n ts. induction ts as [|t ts IH]; intros P Hn.
  - apply bl_meet; assumption.
  - cbn [app bl length]. apply IH. exact Hn.
Qed.
Lemma count_extract x n : forall ts, Z.of_nat n <= count x ts -> exists r, Permutation ts (r ++ repeat x n).
Proof.
  induction n as [|n IH]; intros ts H.
  - exists ts. rewrite app_nil_r. reflexivity.
  - assert (In x ts) as I. { apply (count_occ_In Req_EM_T). unfold count in H. lia. }
    destruct (in_split _ _ I) as [a [b ->]].
    assert (Permutation (a ++ x :: b) (x :: a ++ b)) as P by (symmetry; apply Permutation_middle).
    assert (count x (a ++ x :: b) = count x (a ++ b) + 1) as C.
    { rewrite !count_app. unfold count. simpl. destruct (Req_EM_T x x); [lia|congruence]. }
    destruct (IH (a ++ b) ltac:(lia)) as [r Pr]. exists r.
    rewrite P, Pr. simpl. apply Permutation_middle.
Qed.
Lemma bl_meet_count U k j x ts P : mono U -> (U k < U (k + 1)%Z)%R -> (U j < U (j + 1)%Z)%R -> k <= j ->
  (forall i, k < i <= j -> U i = x) -> j - k <= count x ts -> bl U j ts P = bl U k ts P.
Proof.
  intros M Sk Sj L E C. destruct (count_extract x (Z.to_nat (j - k)) ts ltac:(lia)) as [r Pr].
  rewrite (bl_perm U j M Sj _ _ Pr), (bl_perm U k M Sk _ _ Pr).
  apply (bl_meet_app U k j x); try assumption. unfold nn. lia.
Qed.

(** ** Sum of a function over the lists with one element left out *)
Fixpoint osum (f : list R -> R) (ts : list R) : R :=
  match ts with [] => 0%R | a :: l => (f l + osum (fun m => f (a :: m)) l)%R end.
Lemma osum_ext ts : forall f g, (forall m, S (length m) = length ts -> (forall x, count x m <= count x ts <= count x m + 1) -> f m = g m) ->
  osum f ts = osum g ts.
Proof.
  induction ts as [|a l IH]; intros f g H; [reflexivity|]. cbn [osum].
  assert (forall x m, count x (a :: m) = count x m + (if Req_EM_T a x then 1 else 0)) as Cc.
  { intros x m. unfold count. simpl. destruct (Req_EM_T a x); lia. }
  f_equal.
  - apply H; [reflexivity|]. intros x. rewrite Cc. destruct (Req_EM_T a x); lia.
  - apply IH. intros m L C. apply H; [simpl; lia|]. intros x. rewrite !Cc. specialize (C x). lia.
Qed.
Lemma osum_ext' ts f g : (forall m, S (length m) = length ts -> f m = g m) -> osum f ts = osum g ts.
Proof. intros H. apply osum_ext. intros m L _. apply H. exact L. Qed.
Lemma osum_lin ts : forall f g a b, osum (fun m => a * f m + b * g m)%R ts = (a * osum f ts + b * osum g ts)%R.
Proof.
  induction ts as [|x l IH]; intros f g a b; cbn [osum]; [ring|].
  rewrite (IH (fun m => f (x :: m)) (fun m => g (x :: m))). ring.
Qed.
Definition psym (p : nat) (f : list R -> R) : Prop := forall ts ts', length ts = p -> Permutation ts ts' -> f ts = f ts'.
Lemma osum_perm p ts ts' : Permutation ts ts' -> length ts = S p -> forall f, psym p f -> osum f ts = osum f ts'.
Proof.
  intros P. revert p. induction P as [|x l l' P IH|x y l|l l' l'' P1 IH1 P2 IH2]; intros p L f S.
  - reflexivity.
  - cbn [osum length] in *. f_equal.
    + apply S; [lia|exact P].
    + destruct p as [|p].
      * destruct l; [|discriminate]. apply Permutation_nil in P. subst. reflexivity.
      * apply (IH p); [lia|]. intros a b La Pa. apply S; [simpl; lia|]. constructor. exact Pa.
  - cbn [osum length] in *. destruct p as [|p]; [lia|].
    rewrite (osum_ext' l (fun m => f (y :: x :: m)) (fun m => f (x :: y :: m))).
    + ring.
    + intros m Lm. apply S; [simpl; lia|]. apply perm_swap.
  - rewrite (IH1 p L f S). apply (IH2 p); [|exact S]. rewrite <- (Permutation_length P1). exact L.
Qed.

Lemma sma_osum p f : sma p f -> sma (S p) (osum f).
Proof.
  intros [H1 H2]. split.
  - intros ts ts' L P. apply (osum_perm p); assumption.
  - intros a s t ts L. cbn [osum]. injection L as L.
    rewrite (osum_ext' ts (fun m => f (((1 - a) * s + a * t)%R :: m)) (fun m => (1 - a) * f (s :: m) + a * f (t :: m))%R).
    + rewrite osum_lin. ring.
    + intros m Lm. apply H2. lia.
Qed.
Lemma osum_repeat x : forall n f, osum f (repeat x (S n)) = (INR (S n) * f (repeat x n))%R.
Proof.
  induction n as [|n IH]; intros f.
  - simpl. ring.
  - change (repeat x (S (S n))) with (x :: repeat x (S n)). cbn [osum]. rewrite IH.
    change (x :: repeat x n) with (repeat x (S n)). rewrite (S_INR (S n)). ring.
Qed.
(** lists of two values *)
Definition two (b a : R) (i k : nat) : list R := repeat b i ++ repeat a k.
Lemma two_length b a i k : length (two b a i k) = (i + k)%nat.
Proof. unfold two. rewrite app_length, !repeat_length. reflexivity. Qed.
Lemma osum_two b a k : forall i f, osum f (two b a (S i) (S k)) = (INR (S i) * f (two b a i (S k)) + INR (S k) * f (two b a (S i) k))%R.
Proof.
  induction i as [|i IH]; intros f.
  - change (two b a 1 (S k)) with (b :: repeat a (S k)). cbn [osum]. rewrite osum_repeat. simpl INR. unfold two. simpl. ring.
  - change (two b a (S (S i)) (S k)) with (b :: two b a (S i) (S k)). cbn [osum]. rewrite IH.
    change (b :: two b a i (S k)) with (two b a (S i) (S k)). change (b :: two b a (S i) k) with (two b a (S (S i)) k).
    rewrite (S_INR (S i)). ring.
Qed.
Lemma osum_two_l b a i f : osum f (two b a (S i) 0) = (INR (S i) * f (two b a i 0))%R.
Proof. unfold two. simpl (repeat a 0). rewrite !app_nil_r. apply osum_repeat. Qed.
Lemma osum_two_r b a k f : osum f (two b a 0 (S k)) = (INR (S k) * f (two b a 0 k))%R.
Proof. apply osum_repeat. Qed.

(** ** Degree elevation *)
Fixpoint elev (t : nat) (f : list R -> R) (ts : list R) : R :=
  match t with O => f ts | S u => (osum (elev u f) ts / INR (length ts))%R end.

Lemma sma_elev p f t : sma p f -> sma (p + t) (elev t f).
Proof.
  intros S. induction t as [|t IH].
  - replace (p + 0)%nat with p by lia. exact S.
  - replace (p + Datatypes.S t)%nat with (Datatypes.S (p + t)) by lia. cbn [elev]. destruct (sma_osum _ _ IH) as [H1 H2]. split.
    + intros ts ts' L P. rewrite (H1 _ _ L P). rewrite (Permutation_length P). reflexivity.
    + intros a s u ts L. rewrite H2 by exact L. simpl length. unfold Rdiv. ring.
Qed.
Lemma elev_diag f x t : forall p, elev t f (repeat x (p + t)) = f (repeat x p).
Proof.
  induction t as [|t IH]; intros p.
  - simpl. f_equal. f_equal. lia.
  - replace (p + S t)%nat with (S (p + t)) by lia. cbn [elev]. rewrite osum_repeat, repeat_length, IH.
    field. apply not_0_INR. lia.
Qed.
Lemma elev_ext t : forall p f g ts, length ts = (p + t)%nat ->
  (forall m, length m = p -> (forall x, count x m <= count x ts <= count x m + Z.of_nat t) -> f m = g m) -> elev t f ts = elev t g ts.
Proof.
  induction t as [|t IH]; intros p f g ts L H.
  - simpl. apply H; [lia|]. intros; lia.
  - cbn [elev]. f_equal. apply osum_ext. intros m Lm C. apply (IH p); [lia|].
    intros m' Lm' C'. apply H; [exact Lm'|]. intros x. specialize (C x). specialize (C' x). lia.
Qed.
(** positivity *)
Lemma osum_pos ts : forall f, ts <> [] -> (forall m, S (length m) = length ts -> (forall x, count x m <= count x ts <= count x m + 1) ->
   (forall i, exists k, nth i m 0%R = nth k ts 0%R /\ (i <= k <= i + 1)%nat) -> (0 < f m)%R) -> (0 < osum f ts)%R.
Proof.
  assert (forall a x m, count x (a :: m) = count x m + (if Req_EM_T a x then 1 else 0)) as Cc.
  { intros a x m. unfold count. simpl. destruct (Req_EM_T a x); lia. }
  assert (forall ts f, (forall m, S (length m) = length ts -> (forall x, count x m <= count x ts <= count x m + 1) ->
   (forall i, exists k, nth i m 0%R = nth k ts 0%R /\ (i <= k <= i + 1)%nat) -> (0 < f m)%R) -> (0 <= osum f ts /\ (ts <> [] -> 0 < osum f ts))%R) as G.
  { clear ts. induction ts as [|a l IH]; intros f H; cbn [osum]; [split; [lra|congruence]|].
    assert (0 < f l)%R.
    { apply H; [reflexivity| |].
      - intros x. rewrite Cc. destruct (Req_EM_T a x); lia.
      - intros i. exists (S i). split; [reflexivity|lia]. }
    destruct (IH (fun m => f (a :: m))) as [N _].
    { intros m Lm C O. apply H; [simpl; lia| |].
      - intros x. rewrite !Cc. specialize (C x). lia.
      - intros [|i]; [exists 0%nat; split; [reflexivity|lia]|]. destruct (O i) as [k [Ek Hk]]. exists (S k). split; [exact Ek|lia]. }
    split; [lra|intros; lra]. }
  intros f Ne H. apply G; assumption.
Qed.

(** ** Coefficients: elevating the Bezier points *)
Definition bez (p t i j : nat) : R := (IZR (choose p j) * IZR (if (i <? j)%nat then 0 else choose t (i - j)) / IZR (choose (p + t) i))%R.

Lemma choose_R_pos n k : (k <= n)%nat -> (0 < IZR (choose n k))%R.
Proof. intros H. apply IZR_lt. pose proof (choose_pos n k H). lia. Qed.
Lemma choose_absorb_R n k : (INR (S k) * IZR (choose (S n) (S k)) = INR (S n) * IZR (choose n k))%R.
Proof. rewrite !INR_IZR_INZ, <- !mult_IZR. f_equal. apply choose_absorb. Qed.
Lemma choose_diag n : choose n n = 1.
Proof. induction n as [|n IH]; [reflexivity|]. cbn [choose]. rewrite IH, choose_zero by lia. reflexivity. Qed.
Lemma choose_sym n : forall k, (k <= n)%nat -> choose n k = choose n (n - k).
Proof.
  induction n as [|n IH]; intros k H.
  - assert (k = 0%nat) as -> by lia. reflexivity.
  - destruct k as [|k].
    + rewrite choose_0_r, Nat.sub_0_r, choose_diag. reflexivity.
    + destruct (Nat.eq_dec k n) as [->|Ne].
      * rewrite choose_diag, Nat.sub_diag, choose_0_r. reflexivity.
      * replace (S n - S k)%nat with (S (n - S k)) by lia.
        change (choose (S n) (S k)) with (choose n k + choose n (S k)).
        change (choose (S n) (S (n - S k))) with (choose n (n - S k) + choose n (S (n - S k))).
        rewrite (IH k), (IH (S k)) by lia. replace (S (n - S k)) with (n - k)%nat by lia. lia.
Qed.

(** the two terms of one elevation step *)
Lemma bez_step p t i j : (i <= p + t)%nat ->
  ((INR (S i) * bez p t i j + INR (p + t - i) * bez p t (S i) j) / INR (S (p + t)) = bez p (S t) (S i) j)%R.
Proof.
  intros Hi. unfold bez. replace (p + S t)%nat with (S (p + t)) by lia. set (n := (p + t)%nat) in *.
  assert (0 < IZR (choose n i))%R as C0 by (apply choose_R_pos; assumption).
  assert (0 < IZR (choose (S n) (S i)))%R as C1 by (apply choose_R_pos; lia).
  pose proof (choose_absorb_R n i) as A.
  assert (0 < INR (S n))%R as N0 by (apply lt_0_INR; lia). assert (0 < INR (S i))%R as I0 by (apply lt_0_INR; lia).
  assert (INR (n - i) * / IZR (choose n (S i)) = INR (S n) / IZR (choose (S n) (S i)) \/ (n = i /\ INR (n - i) = 0))%R as B.
  { destruct (Nat.eq_dec n i) as [->|Ne]; [right; split; [reflexivity|rewrite Nat.sub_diag; reflexivity]|left].
    assert (0 < IZR (choose n (S i)))%R as C2 by (apply choose_R_pos; lia).
    assert (INR (n - i) * IZR (choose (S n) (S i)) = INR (S n) * IZR (choose n (S i)))%R as Q.
    { change (choose (S n) (S i)) with (choose n i + choose n (S i)). rewrite !INR_IZR_INZ, <- !mult_IZR. f_equal.
      pose proof (choose_step n i). rewrite Nat2Z.inj_sub by lia. rewrite !Nat2Z.inj_succ in *. nia. }
    apply Rmult_eq_reg_r with (IZR (choose (S n) (S i)) * IZR (choose n (S i)))%R; [|apply Rmult_integral_contrapositive_currified; lra].
    transitivity (INR (n - i) * IZR (choose (S n) (S i)))%R; [field; lra|]. rewrite Q. field. lra. }
  set (cp := IZR (choose p j)).
  assert (INR (S i) * / IZR (choose n i) = INR (S n) / IZR (choose (S n) (S i)))%R as A'.
  { apply Rmult_eq_reg_r with (IZR (choose (S n) (S i)) * IZR (choose n i))%R; [|apply Rmult_integral_contrapositive_currified; lra].
    transitivity (INR (S i) * IZR (choose (S n) (S i)))%R; [field; lra|]. rewrite A. field. lra. }
  set (x := IZR (if (i <? j)%nat then 0 else choose t (i - j))).
  set (y := IZR (if (S i <? j)%nat then 0 else choose t (S i - j))).
  set (z := IZR (if (S i <? j)%nat then 0 else choose (S t) (S i - j))).
  assert (z = x + y)%R as Ez.
  { unfold x, y, z. destruct (Nat.ltb_spec (S i) j); destruct (Nat.ltb_spec i j); try lia.
    - rewrite <- plus_IZR. reflexivity.
    - assert (j = S i) as -> by lia. rewrite !Nat.sub_diag, !choose_0_r. rewrite <- plus_IZR. reflexivity.
    - replace (S i - j)%nat with (S (i - j)) by lia. change (choose (S t) (S (i - j))) with (choose t (i - j) + choose t (S (i - j))).
      rewrite plus_IZR. reflexivity. }
  rewrite Ez. clearbody x z. clear Ez.
  replace (INR (S i) * (cp * x / IZR (choose n i)))%R with (cp * x * (INR (S i) * / IZR (choose n i)))%R by (unfold Rdiv; ring).
  replace (INR (n - i) * (cp * y / IZR (choose n (S i))))%R with (cp * y * (INR (n - i) * / IZR (choose n (S i))))%R by (unfold Rdiv; ring).
  rewrite A'. destruct B as [B|[En B]].
  - rewrite B. field. lra.
  - rewrite B. destruct (Req_dec (cp * y) 0) as [Z0|Z0].
    + transitivity (cp * x / IZR (choose (S n) (S i)))%R; [rewrite Rmult_0_l, Rmult_0_r; field; lra|]. unfold Rdiv. rewrite Rmult_plus_distr_l, Z0. ring.
    + exfalso. apply Z0. unfold cp, y. rewrite <- mult_IZR. f_equal. unfold n in En. clear -En.
      destruct (Nat.ltb_spec (S i) j); [lia|]. destruct (Nat.le_gt_cases j p).
      * rewrite (choose_zero t) by lia. lia.
      * rewrite choose_zero by lia. lia.
Qed.

Lemma elev_two p f b a t : forall i k, (i + k = p + t)%nat ->
  elev t f (two b a i k) = zsum 0 (Z.of_nat p + 1) (fun j => bez p t i (Z.to_nat j) * f (two b a (Z.to_nat j) (p - Z.to_nat j)))%R.
Proof.
  induction t as [|t IH]; intros i k E.
  - cbn [elev]. rewrite (zsum_delta _ _ (Z.of_nat i)).
    + rewrite Nat2Z.id. replace (p - i)%nat with k by lia. unfold bez. rewrite Nat.ltb_irrefl, Nat.sub_diag.
      replace (p + 0)%nat with p by lia. cbn [choose]. pose proof (choose_R_pos p i ltac:(lia)). field. lra.
    + lia.
    + intros j Hj Ne. unfold bez. destruct (Nat.ltb_spec i (Z.to_nat j)); [unfold Rdiv; ring|].
      rewrite (choose_zero 0) by lia. unfold Rdiv. ring.
  - cbn [elev]. rewrite two_length, E. replace (p + S t)%nat with (S (p + t)) in E |- * by lia.
    destruct i as [|i].
    + assert (k = S (p + t)) as -> by lia. rewrite osum_two_r, (IH 0%nat (p + t)%nat) by lia.
      rewrite <- zsum_scale. unfold Rdiv. rewrite <- zsum_scale_r. apply zsum_ext. intros j Hj.
      assert (bez p t 0 (Z.to_nat j) = bez p (S t) 0 (Z.to_nat j)) as ->.
      { unfold bez. rewrite !choose_0_r. destruct (0 <? Z.to_nat j)%nat; [reflexivity|].
        reflexivity. }
      field. apply not_0_INR. lia.
    + destruct k as [|k].
      * rewrite osum_two_l, (IH i 0%nat) by lia. rewrite <- zsum_scale. unfold Rdiv. rewrite <- zsum_scale_r. apply zsum_ext. intros j Hj.
        rewrite <- bez_step by lia. replace (p + t - i)%nat with 0%nat by lia. simpl (INR 0). unfold Rdiv. ring.
      * rewrite osum_two, (IH i (S k)), (IH (S i) k) by lia. rewrite <- !zsum_scale, <- zsum_add. unfold Rdiv. rewrite <- zsum_scale_r.
        apply zsum_ext. intros j Hj. rewrite <- bez_step by lia. replace (p + t - i)%nat with (S k) by lia. unfold Rdiv. ring.
Qed.
(** only the coefficients in the band are non-zero *)
Lemma bez_zero p t i j : (i < j \/ p < j \/ t < i - j)%nat -> bez p t i j = 0%R.
Proof.
  intros H. unfold bez. destruct (Nat.ltb_spec i j); [unfold Rdiv; ring|]. destruct (Nat.le_gt_cases j p).
  - rewrite (choose_zero t) by lia. unfold Rdiv. ring.
  - rewrite (choose_zero p) by lia. unfold Rdiv. ring.
Qed.
Lemma bez_sym p t i j : (i <= p + t)%nat -> (j <= p)%nat -> (j <= i)%nat -> (i - j <= t)%nat -> bez p t (p + t - i) (p - j) = bez p t i j.
Proof.
  intros Hi Hj H1 H2. unfold bez. destruct (Nat.ltb_spec i j); [lia|]. destruct (Nat.ltb_spec (p + t - i) (p - j)); [lia|].
  rewrite <- (choose_sym p j), <- (choose_sym (p + t) i) by lia. rewrite (choose_sym t (i - j)) by lia.
  replace (p + t - i - (p - j))%nat with (t - (i - j))%nat by lia. reflexivity.
Qed.
