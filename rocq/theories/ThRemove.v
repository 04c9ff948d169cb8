(** Knot removal: one attempt of the removal loop. *)
From Coq Require Import Reals ZArith List Lra Lia Bool.
From Verif Require Import Outcome Num ModelCore ModelAlgo SpecCore SpecBasis
  ThOutcome ThReal ThKnots ThVec ThSum ThSpline ThBasis ThCurve ThInsert.
Import ListNotations.
Open Scope Z_scope.

Lemma while_steps {S} (Q : Z -> S -> Prop) m fuel cond (body : S -> outcome S) s :
  0 <= m -> m <= Z.of_nat fuel -> Q 0 s ->
  (forall k s, 0 <= k < m -> Q k s -> cond s = Ok true /\ exists s', body s = Ok s' /\ Q (k + 1) s') ->
  (forall s, Q m s -> cond s = Ok false) ->
  exists s', while_ fuel cond body s = Ok s' /\ Q m s'.
Proof.
  intros Hm. assert (forall n k fuel s, n = Z.to_nat (m - k) -> 0 <= k <= m -> m - k <= Z.of_nat fuel -> Q k s ->
    (forall k s, 0 <= k < m -> Q k s -> cond s = Ok true /\ exists s', body s = Ok s' /\ Q (k + 1) s') ->
    (forall s, Q m s -> cond s = Ok false) -> exists s', while_ fuel cond body s = Ok s' /\ Q m s') as G.
  { clear. induction n as [|n IH]; intros k fuel s En Hk Hf Hq Hb He.
    - assert (k = m) as -> by lia. exists s. destruct fuel; cbn [while_]; rewrite He by assumption; auto.
    - destruct (Hb k s ltac:(lia) Hq) as [Hc [s' [Es Qs]]]. destruct fuel as [|fuel]; [lia|].
      cbn [while_]. rewrite Hc. cbn [bind]. rewrite Es. cbn [bind].
      apply (IH (k + 1)); try lia; assumption. }
  intros Hf Hq Hb He. apply (G _ 0 fuel s eq_refl); try lia; assumption.
Qed.

Lemma tup5 {A} (a a' b b' c c' d d' : Z) (e e' : A) : a = a' -> b = b' -> c = c' -> d = d' -> e = e' -> (a, b, c, d, e) = (a', b', c', d', e').
Proof. congruence. Qed.
Lemma tup3 {A} (a a' b b' : Z) (e e' : A) : a = a' -> b = b' -> e = e' -> (a, b, e) = (a', b', e').
Proof. congruence. Qed.
Lemma v4div_ok (a : vec4 R) s : s <> 0%R -> v4div a s = Ok (v4scale (/ s)%R a).
Proof.
  intros. unfold v4div. norm_R. rewrite !Rdivo_ok by assumption. cbn [bind]. unfold v4scale. norm_R.
  do 2 f_equal; unfold Rdiv; ring.
Qed.
Lemma v4norm_0 (a : vec4 R) : (v4norm a <= 0)%R -> a = v4zero.
Proof.
  unfold v4norm. norm_R. destruct a as [x y z w]. cbn [x4 y4 z4 w4]. intros H.
  assert (forall q, 0 <= q * q)%R as Sq by (intros; nra).
  set (s := (x * x + y * y + z * z + w * w)%R) in H.
  assert (0 <= s)%R by (unfold s; pose proof (Sq x); pose proof (Sq y); pose proof (Sq z); pose proof (Sq w); lra).
  assert (s = 0)%R as E. { apply sqrt_eq_0; [assumption|]. pose proof (sqrt_pos s). lra. }
  pose proof (Sq x); pose proof (Sq y); pose proof (Sq z); pose proof (Sq w). unfold s in E.
  assert (forall q, q * q = 0 -> q = 0)%R as Z0 by (intros q Hq; destruct (Rmult_integral _ _ Hq); assumption).
  rewrite (Z0 x), (Z0 y), (Z0 z), (Z0 w) by lra. reflexivity.
Qed.
Lemma v4norm_zero : v4norm (v4zero : vec4 R) = 0%R.
Proof.
  unfold v4norm. norm_R. cbn [x4 y4 z4 w4 v4zero]. norm_R.
  replace (0 * 0 + 0 * 0 + 0 * 0 + 0 * 0)%R with 0%R by ring. apply sqrt_0.
Qed.
Lemma v4norm_nonneg (a : vec4 R) : (0 <= v4norm a)%R.
Proof. unfold v4norm. norm_R. apply sqrt_pos. Qed.
Lemma v4sub_self (a : vec4 R) : v4sub a a = v4zero.
Proof. apply lin_ext. intros f Lf. rewrite lin_sub, lin_zero by assumption. ring. Qed.
Lemma v4sub_0 (a b : vec4 R) : v4sub a b = v4zero -> a = b.
Proof.
  intros E. apply lin_ext. intros f Lf. assert (f (v4sub a b) = 0%R) as Q by (rewrite E; apply lin_zero; assumption).
  rewrite lin_sub in Q by assumption. lra.
Qed.

(** ** The linear system of one removal *)
(** coefficients a i, f <= i <= l; P is the sequence with the knot, Q without *)
Definition insrel (a : Z -> R) (f l : Z) (P Q : Z -> vec4 R) : Prop :=
  (forall i, i < f -> P i = Q i) /\
  (forall i, f <= i <= l -> P i = v4add (v4scale (a i) (Q i)) (v4scale (1 - a i)%R (Q (i - 1)))) /\
  (forall i, l < i -> P i = Q (i - 1)).

Section Attempt.
  Variables (a : Z -> R) (f l : Z) (P : Z -> vec4 R).
  Hypothesis A01 : forall i, f <= i <= l -> (0 < a i < 1)%R.
  Hypothesis FL : f - 1 <= l.

  (** left and right solutions *)
  Fixpoint Xn (n : nat) : vec4 R :=
    match n with
    | O => P (f - 1)
    | S m => let i := f + Z.of_nat m in v4scale (/ a i)%R (v4sub (P i) (v4scale (1 - a i)%R (Xn m)))
    end.
  Fixpoint Yn (n : nat) : vec4 R :=
    match n with
    | O => P (l + 1)
    | S m => let i := l - Z.of_nat m in v4scale (/ (1 - a i))%R (v4sub (P i) (v4scale (a i) (Yn m)))
    end.
  Definition X (k : Z) := Xn (Z.to_nat k).
  Definition Y (k : Z) := Yn (Z.to_nat k).
  Lemma X_0 : X 0 = P (f - 1). Proof. reflexivity. Qed.
  Lemma Y_0 : Y 0 = P (l + 1). Proof. reflexivity. Qed.
  Lemma X_S k : 0 <= k -> X (k + 1) = v4scale (/ a (f + k)%Z)%R (v4sub (P (f + k)) (v4scale (1 - a (f + k)%Z)%R (X k))).
  Proof.
    intros. unfold X. replace (Z.to_nat (k + 1)) with (S (Z.to_nat k)) by lia. cbn [Xn].
    rewrite Z2Nat.id by assumption. reflexivity.
  Qed.
  Lemma Y_S k : 0 <= k -> Y (k + 1) = v4scale (/ (1 - a (l - k)%Z))%R (v4sub (P (l - k)) (v4scale (a (l - k)%Z) (Y k))).
  Proof.
    intros. unfold Y. replace (Z.to_nat (k + 1)) with (S (Z.to_nat k)) by lia. cbn [Yn].
    rewrite Z2Nat.id by assumption. reflexivity.
  Qed.
  Lemma X_eq k : 0 <= k -> f + k <= l -> P (f + k) = v4add (v4scale (a (f + k)%Z) (X (k + 1))) (v4scale (1 - a (f + k)%Z)%R (X k)).
  Proof.
    intros Hk H. pose proof (A01 (f + k) ltac:(lia)). rewrite X_S by assumption. apply lin_ext. intros g Lg.
    rewrite !lin_add, !lin_scale, lin_sub, lin_scale by assumption. field. lra.
  Qed.
  Lemma Y_eq k : 0 <= k -> f <= l - k -> P (l - k) = v4add (v4scale (a (l - k)%Z) (Y k)) (v4scale (1 - a (l - k)%Z)%R (Y (k + 1))).
  Proof.
    intros Hk H. pose proof (A01 (l - k) ltac:(lia)). rewrite Y_S by assumption. apply lin_ext. intros g Lg.
    rewrite !lin_add, !lin_scale, lin_sub, lin_scale by assumption. field. lra.
  Qed.

  (** uniqueness *)
  Lemma X_unique Q k : insrel a f l P Q -> 0 <= k <= l - f + 1 -> X k = Q (f - 1 + k).
  Proof.
    intros [I1 [I2 I3]] Hk. assert (0 <= k) as K by lia. revert Hk. pattern k. apply natlike_ind; [| |exact K]; clear k K.
    - intros _. rewrite X_0, I1 by lia. f_equal. lia.
    - intros k Hk IH H. unfold Z.succ in *. rewrite X_S by assumption. rewrite IH by lia. rewrite I2 by lia.
      pose proof (A01 (f + k) ltac:(lia)). replace (f - 1 + k) with (f + k - 1) by lia. replace (f - 1 + (k + 1)) with (f + k) by lia.
      apply lin_ext. intros g Lg. rewrite lin_scale, lin_sub, lin_add, !lin_scale by assumption. field. lra.
  Qed.
  Lemma Y_unique Q k : insrel a f l P Q -> 0 <= k <= l - f + 1 -> Y k = Q (l - k).
  Proof.
    intros [I1 [I2 I3]] Hk. assert (0 <= k) as K by lia. revert Hk. pattern k. apply natlike_ind; [| |exact K]; clear k K.
    - intros _. rewrite Y_0, I3 by lia. f_equal. lia.
    - intros k Hk IH H. unfold Z.succ in *. rewrite Y_S by assumption. rewrite IH by lia. rewrite I2 by lia.
      pose proof (A01 (l - k) ltac:(lia)). replace (l - (k + 1)) with (l - k - 1) by lia.
      apply lin_ext. intros g Lg. rewrite lin_scale, lin_sub, lin_add, !lin_scale by assumption. field. lra.
  Qed.

  (** number of rounds of the loop, and the check made at its end *)
  Definition rounds : Z := (l - f + 1) / 2.
  Definition gap_vec : vec4 R :=
    if l - f - 2 * rounds <? 0 then v4sub (X rounds) (Y rounds)
    else v4sub (v4add (v4scale (a (f + rounds)%Z) (Y rounds)) (v4scale (1 - a (f + rounds)%Z)%R (X rounds))) (P (f + rounds)).
  Lemma rounds_spec : 0 <= rounds /\ (l - f = 2 * rounds \/ l - f = 2 * rounds - 1).
  Proof. unfold rounds. pose proof (Z.div_mod (l - f + 1) 2 ltac:(lia)). pose proof (Z.mod_pos_bound (l - f + 1) 2 ltac:(lia)). lia. Qed.

  Lemma gap_complete Q : insrel a f l P Q -> gap_vec = v4zero.
  Proof.
    intros I. pose proof rounds_spec as [R0 R1]. unfold gap_vec.
    destruct (Z.ltb_spec (l - f - 2 * rounds) 0).
    - rewrite (X_unique Q), (Y_unique Q) by (try assumption; lia). replace (f - 1 + rounds) with (l - rounds) by lia. apply v4sub_self.
    - rewrite (X_unique Q), (Y_unique Q) by (try assumption; lia). destruct I as [I1 [I2 I3]]. rewrite I2 by lia.
      replace (f - 1 + rounds) with (f + rounds - 1) by lia. replace (l - rounds) with (f + rounds) by lia. apply v4sub_self.
  Qed.
  (** the solution *)
  Definition sol (k : Z) : vec4 R :=
    if k <? f then P k else if k <? f + rounds then X (k - f + 1) else if k <=? l then Y (l - k) else P (k + 1).
  Lemma gap_sound : gap_vec = v4zero -> insrel a f l P sol.
  Proof.
    intros G. pose proof rounds_spec as [R0 R1].
    assert (forall k, 0 <= k <= rounds -> sol (f - 1 + k) = X k) as SX.
    { intros k Hk. unfold sol. destruct (Z.ltb_spec (f - 1 + k) f).
      - assert (k = 0) as -> by lia. rewrite X_0. f_equal. lia.
      - destruct (Z.ltb_spec (f - 1 + k) (f + rounds)); [|lia]. f_equal. lia. }
    assert (forall k, 0 <= k <= rounds -> sol (l - k) = Y k) as SY.
    { intros k Hk. destruct (Z_lt_le_dec (l - k) (f + rounds)) as [L|L].
      - (* overlap *)
        assert (k = rounds) as -> by lia. replace (l - rounds) with (f - 1 + rounds) by lia. rewrite SX by lia.
        unfold gap_vec in G. destruct (Z.ltb_spec (l - f - 2 * rounds) 0); [|lia]. apply v4sub_0. exact G.
      - unfold sol. destruct (Z.ltb_spec (l - k) f); [lia|]. destruct (Z.ltb_spec (l - k) (f + rounds)); [lia|].
        destruct (Z.leb_spec (l - k) l); [|lia]. f_equal. lia. }
    split; [|split].
    - intros i Hi. unfold sol. destruct (Z.ltb_spec i f); [reflexivity|lia].
    - intros i Hi. destruct (Z_lt_le_dec i (f + rounds)) as [L|L].
      + replace i with (f + (i - f)) at 1 2 4 by lia. rewrite X_eq by lia. replace (f + (i - f)) with i by lia.
        replace (sol i) with (X (i - f + 1)) by (rewrite <- SX by lia; f_equal; lia).
        replace (sol (i - 1)) with (X (i - f)) by (rewrite <- SX by lia; f_equal; lia). reflexivity.
      + destruct (Z_lt_le_dec (l - i) rounds) as [Lr|Lr].
        * replace i with (l - (l - i)) at 1 2 4 by lia. rewrite Y_eq by lia. replace (l - (l - i)) with i by lia.
          replace (sol i) with (Y (l - i)) by (rewrite <- SY by lia; f_equal; lia).
          replace (sol (i - 1)) with (Y (l - i + 1)) by (rewrite <- SY by lia; f_equal; lia). reflexivity.
        * assert (i = f + rounds /\ l - f = 2 * rounds) as [-> E] by lia. unfold gap_vec in G.
          destruct (Z.ltb_spec (l - f - 2 * rounds) 0); [lia|]. apply v4sub_0 in G. rewrite <- G.
          replace (sol (f + rounds)) with (Y rounds) by (rewrite <- SY by lia; f_equal; lia).
          replace (sol (f + rounds - 1)) with (X rounds) by (rewrite <- SX by lia; f_equal; lia). reflexivity.
    - intros i Hi. destruct (Z.eq_dec i (l + 1)) as [->|].
      + rewrite <- Y_0, <- SY by lia. f_equal. lia.
      + unfold sol. destruct (Z.ltb_spec (i - 1) f); [lia|]. destruct (Z.ltb_spec (i - 1) (f + rounds)); [lia|].
        destruct (Z.leb_spec (i - 1) l); [lia|]. f_equal. lia.
  Qed.
  Lemma sol_unique Q k : insrel a f l P Q -> sol k = Q k.
  Proof.
    intros I. pose proof rounds_spec as [R0 R1]. pose proof I as [I1 [I2 I3]]. unfold sol.
    destruct (Z.ltb_spec k f); [apply I1; assumption|]. destruct (Z.ltb_spec k (f + rounds)).
    - rewrite (X_unique Q) by (try assumption; lia). f_equal; lia.
    - destruct (Z.leb_spec k l).
      + rewrite (Y_unique Q) by (try assumption; lia). f_equal; lia.
      + rewrite I3 by lia. f_equal; lia.
  Qed.
  (** ** When the check finds a difference *)
  (** the other choice where left and right meet *)
  Definition solY (k : Z) : vec4 R := if (l - f - 2 * rounds <? 0) && (k =? l - rounds) then Y rounds else sol k.
  Definition bump (Q : Z -> vec4 R) (k0 : Z) (e : vec4 R) (k : Z) : vec4 R := if k =? k0 then v4add (Q k) e else Q k.
  Lemma insrel_ext P1 P2 Q1 Q2 : (forall k, P1 k = P2 k) -> (forall k, Q1 k = Q2 k) -> insrel a f l P1 Q1 -> insrel a f l P2 Q2.
  Proof. intros E1 E2 [A [B C]]. split; [|split]; intros; rewrite <- E1, <- ?E2; auto. Qed.
  (** changing one entry by a fraction of the difference makes the check exact *)
  Lemma gap_bump (V : Z -> vec4 R) : (forall k, V k = sol k) \/ (forall k, V k = solY k) ->
    exists k c, (0 <= c <= 1)%R /\ exists e, (e = v4scale c gap_vec \/ e = v4scale (- c)%R gap_vec) /\ insrel a f l (bump P k e) V.
  Proof.
    intros HV. pose proof rounds_spec as [R0 R1].
    assert (forall k, 0 <= k <= rounds -> sol (f - 1 + k) = X k) as SX.
    { intros k Hk. unfold sol. destruct (Z.ltb_spec (f - 1 + k) f).
      - assert (k = 0) as -> by lia. rewrite X_0. f_equal. lia.
      - destruct (Z.ltb_spec (f - 1 + k) (f + rounds)); [|lia]. f_equal. lia. }
    assert (forall k, 0 <= k <= rounds -> f + rounds <= l - k -> sol (l - k) = Y k) as SY.
    { intros k Hk L. unfold sol. destruct (Z.ltb_spec (l - k) f); [lia|]. destruct (Z.ltb_spec (l - k) (f + rounds)); [lia|].
      destruct (Z.leb_spec (l - k) l); [|lia]. f_equal. lia. }
    assert (forall i, f <= i < f + rounds -> P i = v4add (v4scale (a i) (sol i)) (v4scale (1 - a i)%R (sol (i - 1)))) as EX.
    { intros i Hi. replace i with (f + (i - f)) at 1 2 4 by lia. rewrite X_eq by lia. replace (f + (i - f)) with i by lia.
      replace (sol i) with (X (i - f + 1)) by (rewrite <- SX by lia; f_equal; lia).
      replace (sol (i - 1)) with (X (i - f)) by (rewrite <- SX by lia; f_equal; lia). reflexivity. }
    assert (forall i, f + rounds < i <= l -> P i = v4add (v4scale (a i) (sol i)) (v4scale (1 - a i)%R (sol (i - 1)))) as EY.
    { intros i Hi. replace i with (l - (l - i)) at 1 2 4 by lia. rewrite Y_eq by lia. replace (l - (l - i)) with i by lia.
      replace (sol i) with (Y (l - i)) by (rewrite <- SY by lia; f_equal; lia).
      replace (sol (i - 1)) with (Y (l - i + 1)) by (rewrite <- SY by lia; f_equal; lia). reflexivity. }
    assert (forall i, i < f -> P i = sol i) as EL. { intros i Hi. unfold sol. destruct (Z.ltb_spec i f); [reflexivity|lia]. }
    assert (forall i, l < i -> i <> f + rounds -> P i = sol (i - 1)) as ER.
    { intros i Hi Ne. destruct (Z.eq_dec i (l + 1)) as [->|].
      - rewrite <- Y_0. replace (l + 1 - 1) with (l - 0) by lia. rewrite SY by lia. reflexivity.
      - unfold sol. destruct (Z.ltb_spec (i - 1) f); [lia|]. destruct (Z.ltb_spec (i - 1) (f + rounds)); [lia|].
        destruct (Z.leb_spec (i - 1) l); [lia|]. f_equal. lia. }
    destruct (Z.ltb_spec (l - f - 2 * rounds) 0) as [Ov|Ov].
    2: { (* one entry is not yet determined *)
      assert (l - f = 2 * rounds) as E by lia.
      assert (forall k, V k = sol k) as HV'.
      { destruct HV as [HV|HV]; [exact HV|]. intros k. rewrite HV. unfold solY. destruct (Z.ltb_spec (l - f - 2 * rounds) 0); [lia|reflexivity]. }
      exists (f + rounds), 1%R. split; [lra|]. exists (v4scale 1%R gap_vec). split; [left; reflexivity|].
      apply (insrel_ext (bump P (f + rounds) (v4scale 1%R gap_vec)) _ sol); [reflexivity|intros; symmetry; apply HV'|].
      unfold bump. split; [|split].
      - intros i Hi. destruct (Z.eqb_spec i (f + rounds)); [lia|]. apply EL. lia.
      - intros i Hi. destruct (Z.eqb_spec i (f + rounds)) as [->|]; [|destruct (Z_lt_le_dec i (f + rounds)); [apply EX|apply EY]; lia].
        unfold gap_vec. destruct (Z.ltb_spec (l - f - 2 * rounds) 0); [lia|].
        replace (sol (f + rounds)) with (Y rounds) by (rewrite <- SY by lia; f_equal; lia).
        replace (sol (f + rounds - 1)) with (X rounds) by (rewrite <- SX by lia; f_equal; lia).
        apply lin_ext. intros g Lg. repeat rewrite ?lin_add, ?lin_scale, ?lin_sub by assumption. lra.
      - intros i Hi. destruct (Z.eqb_spec i (f + rounds)); [lia|]. apply ER; lia. }
    assert (l - f = 2 * rounds - 1) as E by lia.
    assert (gap_vec = v4sub (X rounds) (Y rounds)) as EG. { unfold gap_vec. destruct (Z.ltb_spec (l - f - 2 * rounds) 0); [reflexivity|lia]. }
    destruct HV as [HV|HV].
    - (* the left value where they meet: the equation after it changes *)
      destruct (Z.eq_dec rounds 0) as [Z0|Z0].
      + exists (l + 1), 1%R. split; [lra|]. exists (v4scale 1%R gap_vec). split; [left; reflexivity|].
        apply (insrel_ext (bump P (l + 1) (v4scale 1%R gap_vec)) _ sol); [reflexivity|intros; symmetry; apply HV|].
        unfold bump. split; [|split].
        * intros i Hi. destruct (Z.eqb_spec i (l + 1)); [lia|]. apply EL. lia.
        * intros i Hi. lia.
        * intros i Hi. destruct (Z.eqb_spec i (l + 1)) as [->|]; [|apply ER; lia].
          replace (l + 1 - 1) with (f - 1 + 0) by lia. rewrite SX by lia. rewrite EG, Z0. rewrite Y_0.
          apply lin_ext. intros g Lg. repeat rewrite ?lin_add, ?lin_scale, ?lin_sub by assumption. lra.
      + pose proof (A01 (f + rounds) ltac:(lia)) as A.
        exists (f + rounds), (1 - a (f + rounds)%Z)%R. split; [lra|]. exists (v4scale (1 - a (f + rounds)%Z)%R gap_vec). split; [left; reflexivity|].
        apply (insrel_ext (bump P (f + rounds) (v4scale (1 - a (f + rounds)%Z)%R gap_vec)) _ sol); [reflexivity|intros; symmetry; apply HV|].
        unfold bump. split; [|split].
        * intros i Hi. destruct (Z.eqb_spec i (f + rounds)); [lia|]. apply EL. lia.
        * intros i Hi. destruct (Z.eqb_spec i (f + rounds)) as [->|]; [|destruct (Z_lt_le_dec i (f + rounds)); [apply EX|apply EY]; lia].
          rewrite EG. replace (P (f + rounds)) with (P (l - (rounds - 1))) by (f_equal; lia). rewrite Y_eq by lia.
          replace (rounds - 1 + 1) with rounds by lia. replace (l - (rounds - 1)) with (f + rounds) by lia.
          replace (sol (f + rounds)) with (Y (rounds - 1)) by (rewrite <- SY by lia; f_equal; lia).
          replace (sol (f + rounds - 1)) with (X rounds) by (rewrite <- SX by lia; f_equal; lia).
          apply lin_ext. intros g Lg. repeat rewrite ?lin_add, ?lin_scale, ?lin_sub by assumption. lra.
        * intros i Hi. destruct (Z.eqb_spec i (f + rounds)); [lia|]. apply ER; lia.
    - (* the right value *)
      assert (V (l - rounds) = Y rounds) as VM. { rewrite HV. unfold solY. destruct (Z.ltb_spec (l - f - 2 * rounds) 0); [|lia]. rewrite Z.eqb_refl. reflexivity. }
      assert (forall k, k <> l - rounds -> V k = sol k) as VO. { intros k Hk. rewrite HV. unfold solY. destruct (Z.eqb_spec k (l - rounds)); [lia|]. rewrite andb_false_r. reflexivity. }
      destruct (Z.eq_dec rounds 0) as [Z0|Z0].
      + exists (f - 1), 1%R. split; [lra|]. exists (v4scale (- (1))%R gap_vec). split; [right; reflexivity|].
        unfold bump. split; [|split].
        * intros i Hi. destruct (Z.eqb_spec i (f - 1)) as [->|]; [|rewrite VO by lia; apply EL; lia].
          replace (V (f - 1)) with (V (l - rounds)) by (f_equal; lia). rewrite VM, EG, Z0, X_0.
          apply lin_ext. intros g Lg. repeat rewrite ?lin_add, ?lin_scale, ?lin_sub by assumption. lra.
        * intros i Hi. lia.
        * intros i Hi. destruct (Z.eqb_spec i (f - 1)); [lia|]. destruct (Z.eq_dec i (l + 1)) as [->|].
          -- replace (l + 1 - 1) with (l - rounds) by lia. rewrite VM, Z0. apply Y_0.
          -- rewrite VO by lia. apply ER; lia.
      + pose proof (A01 (f + rounds - 1) ltac:(lia)) as A.
        exists (f + rounds - 1), (a (f + rounds - 1)%Z). split; [lra|]. exists (v4scale (- a (f + rounds - 1)%Z)%R gap_vec). split; [right; reflexivity|].
        unfold bump. split; [|split].
        * intros i Hi. destruct (Z.eqb_spec i (f + rounds - 1)); [lia|]. rewrite VO by lia. apply EL; lia.
        * intros i Hi. destruct (Z.eqb_spec i (f + rounds - 1)) as [->|Ne].
          -- rewrite EX by lia. rewrite (VO (f + rounds - 1 - 1)) by lia. replace (V (f + rounds - 1)) with (V (l - rounds)) by (f_equal; lia). rewrite VM, EG.
             replace (sol (f + rounds - 1)) with (X rounds) by (rewrite <- SX by lia; f_equal; lia).
             apply lin_ext. intros g Lg. repeat rewrite ?lin_add, ?lin_scale, ?lin_sub by assumption. lra.
          -- destruct (Z.eq_dec i (f + rounds)) as [->|].
             ++ replace (P (f + rounds)) with (P (l - (rounds - 1))) by (f_equal; lia). rewrite Y_eq by lia.
                replace (rounds - 1 + 1) with rounds by lia. replace (l - (rounds - 1)) with (f + rounds) by lia. rewrite (VO (f + rounds)) by lia.
                replace (V (f + rounds - 1)) with (V (l - rounds)) by (f_equal; lia). rewrite VM.
                replace (sol (f + rounds)) with (Y (rounds - 1)) by (rewrite <- SY by lia; f_equal; lia). reflexivity.
             ++ rewrite !VO by lia. destruct (Z_lt_le_dec i (f + rounds)); [apply EX|apply EY]; lia.
        * intros i Hi. destruct (Z.eqb_spec i (f + rounds - 1)); [lia|]. rewrite VO by lia. apply ER; lia.
  Qed.
End Attempt.

(** ** The code of one attempt *)
Section Code.
  Variables (knots : list R) (p u_n : Z) (u : R) (t f l : Z).
  (** u_n: index of the last control point *)
  Let U := kf knots.
  Let n := u_n.
  Definition al (i : Z) : R := ((u - kf knots i) / (kf knots (i + (p + 1) + t)%Z - kf knots i))%R.
  Hypothesis P0 : 0 <= p.
  Hypothesis T0 : 0 <= t.
  Hypothesis F1 : 1 <= f.
  Hypothesis L1 : l + t + 1 <= n.
  Hypothesis LK : len knots = n + p + 2.
  Hypothesis FL : f - 1 <= l.
  Hypothesis Tmp : l + t + 1 - (f - 1) < 2 * p + 1.
  Hypothesis Kn : forall i, f <= i <= l -> (U i < u < U (i + (p + 1) + t)%Z)%R.

  Lemma al_01 i : f <= i <= l -> (0 < al i < 1)%R.
  Proof.
    intros Hi. pose proof (Kn i Hi) as K. unfold al. fold U. set (d := (U (i + (p + 1) + t)%Z - U i)%R).
    assert (0 < d)%R by (unfold d; lra). split.
    - apply Rdiv_lt_0_compat; lra.
    - apply Rmult_lt_reg_r with d; [assumption|]. unfold Rdiv. rewrite Rmult_assoc, Rinv_l, Rmult_1_r by lra. unfold d. lra.
  Qed.
  Lemma alpha_i i : f <= i <= l ->
    (ki <- vget knots i ;; ki' <- vget knots (i + (p + 1) + t) ;; ndiv (nsub u ki) (nsub ki' ki)) = Ok (al i).
  Proof.
    intros Hi. pose proof (Kn i Hi). rewrite !vget_kf by lia. cbn [bind]. norm_R. rewrite Rdivo_ok by (fold U; lra). reflexivity.
  Qed.

  Variables (P : Z -> vec4 R) (points : list (vec4 R)) (L Rt : Z).
  Let a := al.
  Let m := rounds f l.
  Hypothesis Lp : len points = n + 1.
  Hypothesis PL : forall k, 0 <= k <= L -> vget points k = Ok (P k).
  Hypothesis PR : forall k, Rt <= k <= n -> vget points k = Ok (P (k - t)).
  Hypothesis NL : f + (l - f) / 2 <= L.
  Hypothesis NR : Rt <= l + t - m + 1.

  Lemma half_rounds : (l - f) / 2 = l - f - m.
  Proof.
    unfold m, rounds. pose proof (Z.div_mod (l - f + 1) 2 ltac:(lia)). pose proof (Z.mod_pos_bound (l - f + 1) 2 ltac:(lia)).
    pose proof (Z.div_mod (l - f) 2 ltac:(lia)). pose proof (Z.mod_pos_bound (l - f) 2 ltac:(lia)). lia.
  Qed.

  Let off := f - 1.
  Let last := l + t.
  (** contents of temp after k rounds *)
  Definition temp_at (k : Z) (temp : list (option (vec4 R))) : Prop :=
    len temp = 2 * p + 1 /\
    (forall i, 0 <= i <= k -> vget temp i = Ok (Some (X a f P i))) /\
    (forall i, 0 <= i <= k -> vget temp (last + 1 - off - i) = Ok (Some (Y a l P i))).

  Lemma temp_init temp : len temp = 2 * p + 1 ->
    exists temp', (p0 <- vget points off ;; temp <- usets temp 0 p0 ;; p1 <- vget points (last + 1) ;; usets temp (last + 1 - off) p1) = Ok temp' /\
    temp_at 0 temp'.
  Proof.
    intros Lt. destruct (rounds_spec f l FL) as [R0 R1]. fold m in R0, R1. pose proof half_rounds as HR.
    rewrite PL by (unfold off; lia). cbn [bind].
    destruct (uset_spec temp 0 (P off)) as [t1 [E1 [L1' [G1 G1']]]]; [lia|]. rewrite E1. cbn [bind].
    rewrite PR by (unfold last; lia). cbn [bind].
    destruct (uset_spec t1 (last + 1 - off) (P (last + 1 - t))) as [t2 [E2 [L2 [G2 G2']]]]; [unfold last, off; lia|].
    exists t2. split; [exact E2|]. split; [lia|]. split.
    - intros i Hi. assert (i = 0) as -> by lia. destruct (Z.eq_dec 0 (last + 1 - off)) as [E|E].
      + unfold last, off in E. lia.
      + rewrite G2', G1 by lia. reflexivity.
    - intros i Hi. assert (i = 0) as -> by lia. rewrite Z.sub_0_r. rewrite G2. rewrite Y_0. do 3 f_equal. unfold last. lia.
  Qed.

  Lemma sweep_ok temp : temp_at 0 temp ->
    exists temp', removal_sweep knots points (p + 1) u t (f, last, 1, last - off, temp) =
      Ok (f + m, last - m, 1 + m, last - off - m, temp') /\ temp_at m temp'.
  Proof.
    intros T. destruct (rounds_spec f l FL) as [R0 R1]. fold m in R0, R1. pose proof half_rounds as HR.
    unfold removal_sweep.
    match goal with |- context [while_ ?fu ?co ?bo ?sta] =>
      destruct (while_steps (fun k (st : Z * Z * Z * Z * list (option (vec4 R))) => exists temp', st = (f + k, last - k, 1 + k, last - off - k, temp') /\ temp_at k temp') m fu co bo sta)
        as [st' [Es [temp' [-> T']]]] end.
    - exact R0.
    - unfold last. lia.
    - exists temp. split; [apply tup5; try lia; reflexivity|exact T].
    - intros k st Hk [tk [-> [Lt [TX TY]]]]. split.
      + f_equal. rewrite Z.gtb_ltb. apply Z.ltb_lt. unfold last. lia.
      + pose proof (Kn (f + k) ltac:(lia)) as K1. pose proof (Kn (l - k) ltac:(lia)) as K2.
        pose proof (al_01 (f + k) ltac:(lia)) as A1. pose proof (al_01 (l - k) ltac:(lia)) as A2.
        replace (last - k - t) with (l - k) by (unfold last; lia).
        replace (last - k + (p + 1)) with (l - k + (p + 1) + t) by (unfold last; lia).
        rewrite !vget_kf by lia. cbn [bind]. norm_R. rewrite !Rdivo_ok by (fold U; lra). cbn [bind].
        fold (al (f + k)). fold (al (l - k)). rewrite PL by lia. cbn [bind].
        replace (1 + k - 1) with k by lia. rewrite (ugets_get _ _ _ (TX k ltac:(lia))). cbn [bind].
        rewrite v4div_ok by lra. cbn [bind]. rewrite <- X_S by lia.
        destruct (uset_spec tk (1 + k) (X a f P (k + 1))) as [t1 [E1 [L1' [G1 G1']]]]; [lia|]. rewrite E1. cbn [bind].
        rewrite PR by (unfold last; lia). cbn [bind]. replace (last - k - t) with (l - k) by (unfold last; lia).
        replace (last - off - k + 1) with (last + 1 - off - k) by lia.
        rewrite (ugets_get t1 _ (Y a l P k)) by (rewrite G1' by (unfold last, off; lia); apply TY; lia). cbn [bind].
        rewrite v4div_ok by lra. cbn [bind]. rewrite <- Y_S by lia.
        destruct (uset_spec t1 (last - off - k) (Y a l P (k + 1))) as [t2 [E2 [L2 [G2 G2']]]]; [unfold last, off; lia|].
        rewrite E2. cbn [bind]. eexists. split; [reflexivity|]. exists t2. split; [apply tup5; try lia; reflexivity|]. split; [lia|]. split.
        * intros i Hi. rewrite G2' by (unfold last, off; lia). destruct (Z.eq_dec i (1 + k)) as [->|].
          -- rewrite G1. do 3 f_equal. lia.
          -- rewrite G1' by assumption. apply TX. lia.
        * intros i Hi. destruct (Z.eq_dec i (k + 1)) as [->|].
          -- replace (last + 1 - off - (k + 1)) with (last - off - k) by lia. exact G2.
          -- rewrite G2' by lia. rewrite G1' by (unfold last, off; lia). apply TY. lia.
    - intros st [tk [-> _]]. f_equal. rewrite Z.gtb_ltb. apply Z.ltb_ge. unfold last. lia.
    - exists temp'. split; [exact Es|exact T'].
  Qed.

  Lemma dist_ok temp : temp_at m temp ->
    (if last - m - (f + m) <? t then
       a <- ugets temp (1 + m - 1) ;; b <- ugets temp (last - off - m + 1) ;; Ok (v4norm (v4sub a b))
     else
       ki <- vget knots (f + m) ;;
       ki' <- vget knots (f + m + (p + 1) + t) ;;
       alphai <- ndiv (nsub u ki) (nsub ki' ki) ;;
       a <- ugets temp (1 + m + t + 1) ;;
       b <- ugets temp (1 + m - 1) ;;
       p <- vget points (f + m) ;;
       Ok (v4norm (v4sub (v4add (v4scale alphai a) (v4scale (nsub n1 alphai) b)) p))) = Ok (v4norm (gap_vec a f l P)).
  Proof.
    intros [Lt [TX TY]]. destruct (rounds_spec f l FL) as [R0 R1]. pose proof half_rounds as HR. unfold gap_vec. fold m in R0, R1 |- *.
    replace (1 + m - 1) with m by lia.
    destruct (Z.ltb_spec (last - m - (f + m)) t) as [C|C].
    - destruct (Z.ltb_spec (l - f - 2 * m) 0); [|unfold last in *; lia].
      rewrite (ugets_get _ _ _ (TX m ltac:(lia))). cbn [bind].
      replace (last - off - m + 1) with (last + 1 - off - m) by lia. rewrite (ugets_get _ _ _ (TY m ltac:(lia))). reflexivity.
    - destruct (Z.ltb_spec (l - f - 2 * m) 0); [unfold last in *; lia|].
      pose proof (Kn (f + m) ltac:(lia)) as K1. rewrite !vget_kf by lia. cbn [bind]. norm_R. rewrite !Rdivo_ok by (fold U; lra). cbn [bind].
      fold (al (f + m)). replace (1 + m + t + 1) with (last + 1 - off - m) by (unfold last, off; lia).
      rewrite (ugets_get _ _ _ (TY m ltac:(lia))). cbn [bind]. rewrite (ugets_get _ _ _ (TX m ltac:(lia))). cbn [bind].
      rewrite PL by lia. cbn [bind]. reflexivity.
  Qed.

  Lemma copy_ok temp : temp_at m temp ->
    exists points', removal_copy temp off t (f, last, points) = Ok (f + m, last - m, points') /\ len points' = n + 1 /\
      (forall k, f <= k < f + m -> vget points' k = Ok (X a f P (k - f + 1))) /\
      (forall k, last - m < k <= last -> vget points' k = Ok (Y a l P (last - k + 1))) /\
      (forall k, ~ (f <= k < f + m) -> ~ (last - m < k <= last) -> vget points' k = vget points k).
  Proof.
    intros [Lt [TX TY]]. destruct (rounds_spec f l FL) as [R0 R1]. fold m in R0, R1. pose proof half_rounds as HR.
    unfold removal_copy.
    match goal with |- context [while_ ?fu ?co ?bo ?sta] =>
      destruct (while_steps (fun k (st : Z * Z * list (vec4 R)) => exists pts, st = (f + k, last - k, pts) /\ len pts = n + 1 /\
          (forall q, f <= q < f + k -> vget pts q = Ok (X a f P (q - f + 1))) /\
          (forall q, last - k < q <= last -> vget pts q = Ok (Y a l P (last - q + 1))) /\
          (forall q, ~ (f <= q < f + k) -> ~ (last - k < q <= last) -> vget pts q = vget points q)) m fu co bo sta)
        as [st' [Es [pts [-> Q]]]] end.
    - exact R0.
    - unfold last. lia.
    - exists points. split; [apply tup3; try lia; reflexivity|]. split; [exact Lp|]. split; [intros; lia|]. split; [intros; lia|reflexivity].
    - intros k st Hk [pts [-> [Lq [Q1 [Q2 Q3]]]]]. split.
      + f_equal. rewrite Z.gtb_ltb. apply Z.ltb_lt. unfold last. lia.
      + replace (f + k - off) with (k + 1) by (unfold off; lia). rewrite (ugets_get _ _ _ (TX (k + 1) ltac:(lia))). cbn [bind].
        destruct (vset_spec pts (f + k) (X a f P (k + 1))) as [p1 [E1 [L1' [G1 G1']]]]; [unfold last in *; lia|].
        rewrite E1. cbn [bind]. replace (last - k - off) with (last + 1 - off - (k + 1)) by lia.
        rewrite (ugets_get _ _ _ (TY (k + 1) ltac:(lia))). cbn [bind].
        destruct (vset_spec p1 (last - k) (Y a l P (k + 1))) as [p2 [E2 [L2 [G2 G2']]]]; [unfold last in *; lia|].
        rewrite E2. cbn [bind]. eexists. split; [reflexivity|]. exists p2. split; [apply tup3; try lia; reflexivity|]. split; [lia|].
        split; [|split].
        * intros q Hq. rewrite G2' by (unfold last; lia). destruct (Z.eq_dec q (f + k)) as [->|].
          -- rewrite G1. do 2 f_equal. lia.
          -- rewrite G1' by assumption. apply Q1. lia.
        * intros q Hq. destruct (Z.eq_dec q (last - k)) as [->|].
          -- rewrite G2. do 2 f_equal. lia.
          -- rewrite G2' by assumption. rewrite G1' by (unfold last in *; lia). apply Q2. lia.
        * intros q H1 H2. rewrite G2' by lia. rewrite G1' by lia. apply Q3; lia.
    - intros st [pts [-> _]]. f_equal. rewrite Z.gtb_ltb. apply Z.ltb_ge. unfold last. lia.
    - exists pts. split; [exact Es|exact Q].
  Qed.

  (** one unfolding of the removal loop *)
  Lemma attempt N' tol temp : len temp = 2 * p + 1 ->
    exists points' temp', len temp' = 2 * p + 1 /\ len points' = n + 1 /\
      removal_loop (S N') knots (p + 1) u tol t f last points temp =
        (if ngtb (v4norm (gap_vec a f l P)) tol then Ok (t, points)
         else removal_loop N' knots (p + 1) u tol (t + 1) (f - 1) (last + 1) points' temp') /\
      (gap_vec a f l P = v4zero ->
        (forall k, 0 <= k <= f + m - 1 -> vget points' k = Ok (sol a f l P k)) /\
        (forall k, last - m + 1 <= k <= n -> vget points' k = Ok (sol a f l P (k - (t + 1))))).
  Proof.
    intros Lt. destruct (rounds_spec f l FL) as [R0 R1]. fold m in R0, R1. pose proof half_rounds as HR.
    destruct (temp_init temp Lt) as [t1 [E1 T1]]. destruct (sweep_ok t1 T1) as [t2 [E2 T2]].
    pose proof (dist_ok t2 T2) as E3. destruct (copy_ok t2 T2) as [pts [E4 [Lq [Q1 [Q2 Q3]]]]].
    exists pts, t2. split; [apply T2|]. split; [exact Lq|]. split.
    - cbn [removal_loop]. cbv zeta. fold off.
      destruct (vget points off) eqn:V1; cbn [bind] in E1; try discriminate. cbn [bind].
      destruct (usets temp 0 a0) eqn:V2; cbn [bind] in E1; try discriminate. cbn [bind].
      destruct (vget points (last + 1)) eqn:V3; cbn [bind] in E1; try discriminate. cbn [bind].
      rewrite E1. cbn [bind]. rewrite E2. cbn [bind]. rewrite E3. cbn [bind].
      destruct (ngtb _ tol); [reflexivity|]. rewrite E4. cbn [bind]. unfold off. reflexivity.
    - intros G. pose proof (gap_sound a f l P al_01 FL G) as [I1 [I2 I3]]. split.
      + intros k Hk. destruct (Z_lt_le_dec k f) as [C|C].
        * rewrite Q3 by (unfold last; lia). rewrite PL by lia. f_equal. apply I1. exact C.
        * rewrite Q1 by lia. f_equal. unfold sol. fold m. destruct (Z.ltb_spec k f); [lia|].
          destruct (Z.ltb_spec k (f + m)); [reflexivity|lia].
      + intros k Hk. destruct (Z_le_gt_dec k last) as [C|C].
        * rewrite Q2 by lia. f_equal.
          destruct (Z_lt_le_dec (k - (t + 1)) (f + m)) as [D|D].
          -- assert (k = last - m + 1 /\ l - f = 2 * m - 1) as [-> E] by (unfold last in *; lia).
             replace (last - (last - m + 1) + 1) with m by lia.
             replace (last - m + 1 - (t + 1)) with (f + m - 1) by (unfold last; lia).
             unfold gap_vec in G. fold m in G. destruct (Z.ltb_spec (l - f - 2 * m) 0); [|lia]. apply v4sub_0 in G. rewrite <- G.
             unfold sol. fold m. destruct (Z.ltb_spec (f + m - 1) f).
             ++ assert (m = 0) as -> by lia. rewrite X_0. f_equal. lia.
             ++ destruct (Z.ltb_spec (f + m - 1) (f + m)); [|lia]. f_equal. lia.
          -- unfold sol. fold m. destruct (Z.ltb_spec (k - (t + 1)) f); [lia|]. destruct (Z.ltb_spec (k - (t + 1)) (f + m)); [lia|].
             destruct (Z.leb_spec (k - (t + 1)) l); [|unfold last in *; lia]. f_equal. unfold last. lia.
        * rewrite Q3 by (unfold last in *; lia). rewrite PR by (unfold last in *; lia). f_equal. rewrite I3 by (unfold last in *; lia). f_equal. lia.
  Qed.
  (** the same attempt without assuming that the check found no difference: left of
      the hole the left solution, right of it the right one *)
  Lemma attempt_any N' tol temp : len temp = 2 * p + 1 ->
    exists points' temp', len temp' = 2 * p + 1 /\ len points' = n + 1 /\
      removal_loop (S N') knots (p + 1) u tol t f last points temp =
        (if ngtb (v4norm (gap_vec a f l P)) tol then Ok (t, points)
         else removal_loop N' knots (p + 1) u tol (t + 1) (f - 1) (last + 1) points' temp') /\
      (forall k, 0 <= k <= f + m - 1 -> vget points' k = Ok (sol a f l P k)) /\
      (forall k, last - m + 1 <= k <= n -> vget points' k = Ok (solY a f l P (k - (t + 1)))).
  Proof.
    intros Lt. destruct (rounds_spec f l FL) as [R0 R1]. fold m in R0, R1. pose proof half_rounds as HR.
    destruct (temp_init temp Lt) as [t1 [E1 T1]]. destruct (sweep_ok t1 T1) as [t2 [E2 T2]].
    pose proof (dist_ok t2 T2) as E3. destruct (copy_ok t2 T2) as [pts [E4 [Lq [Q1 [Q2 Q3]]]]].
    exists pts, t2. split; [apply T2|]. split; [exact Lq|]. split; [|split].
    - cbn [removal_loop]. cbv zeta. fold off.
      destruct (vget points off) eqn:V1; cbn [bind] in E1; try discriminate. cbn [bind].
      destruct (usets temp 0 a0) eqn:V2; cbn [bind] in E1; try discriminate. cbn [bind].
      destruct (vget points (last + 1)) eqn:V3; cbn [bind] in E1; try discriminate. cbn [bind].
      rewrite E1. cbn [bind]. rewrite E2. cbn [bind]. rewrite E3. cbn [bind].
      destruct (ngtb _ tol); [reflexivity|]. rewrite E4. cbn [bind]. unfold off. reflexivity.
    - intros k Hk. unfold sol. fold m. destruct (Z.ltb_spec k f).
      + rewrite Q3 by (unfold last; lia). rewrite PL by lia. reflexivity.
      + destruct (Z.ltb_spec k (f + m)); [|lia]. rewrite Q1 by lia. reflexivity.
    - intros k Hk. unfold solY. fold m. destruct (Z_le_gt_dec k last) as [C|C].
      + rewrite Q2 by lia. destruct (Z.ltb_spec (l - f - 2 * m) 0), (Z.eqb_spec (k - (t + 1)) (l - m)); cbn [andb].
        * do 2 f_equal. unfold last. lia.
        * unfold sol. fold m. destruct (Z.ltb_spec (k - (t + 1)) f); [unfold last in *; lia|]. destruct (Z.ltb_spec (k - (t + 1)) (f + m)); [unfold last in *; lia|].
          destruct (Z.leb_spec (k - (t + 1)) l); [|unfold last in *; lia]. do 2 f_equal. unfold last. lia.
        * unfold sol. fold m. destruct (Z.ltb_spec (k - (t + 1)) f); [unfold last in *; lia|]. destruct (Z.ltb_spec (k - (t + 1)) (f + m)); [unfold last in *; lia|].
          destruct (Z.leb_spec (k - (t + 1)) l); [|unfold last in *; lia]. do 2 f_equal. unfold last. lia.
        * unfold sol. fold m. destruct (Z.ltb_spec (k - (t + 1)) f); [unfold last in *; lia|]. destruct (Z.ltb_spec (k - (t + 1)) (f + m)); [unfold last in *; lia|].
          destruct (Z.leb_spec (k - (t + 1)) l); [|unfold last in *; lia]. do 2 f_equal. unfold last. lia.
      + rewrite Q3 by (unfold last in *; lia). rewrite PR by (unfold last in *; lia). f_equal.
        destruct (Z.ltb_spec (l - f - 2 * m) 0), (Z.eqb_spec (k - (t + 1)) (l - m)); cbn [andb].
        * assert (m = 0) as -> by (unfold last in *; lia). rewrite Y_0. f_equal. lia.
        * unfold sol. fold m. destruct (Z.ltb_spec (k - (t + 1)) f); [unfold last in *; lia|]. destruct (Z.ltb_spec (k - (t + 1)) (f + m)); [unfold last in *; lia|].
          destruct (Z.leb_spec (k - (t + 1)) l); [|f_equal; unfold last in *; lia]. replace (l - (k - (t + 1))) with 0 by (unfold last in *; lia). rewrite Y_0. f_equal. unfold last in *; lia.
        * unfold sol. fold m. destruct (Z.ltb_spec (k - (t + 1)) f); [unfold last in *; lia|]. destruct (Z.ltb_spec (k - (t + 1)) (f + m)); [unfold last in *; lia|].
          destruct (Z.leb_spec (k - (t + 1)) l); [|f_equal; unfold last in *; lia]. replace (l - (k - (t + 1))) with 0 by (unfold last in *; lia). rewrite Y_0. f_equal. unfold last in *; lia.
        * unfold sol. fold m. destruct (Z.ltb_spec (k - (t + 1)) f); [unfold last in *; lia|]. destruct (Z.ltb_spec (k - (t + 1)) (f + m)); [unfold last in *; lia|].
          destruct (Z.leb_spec (k - (t + 1)) l); [|f_equal; unfold last in *; lia]. replace (l - (k - (t + 1))) with 0 by (unfold last in *; lia). rewrite Y_0. f_equal. unfold last in *; lia.
  Qed.
End Code.
