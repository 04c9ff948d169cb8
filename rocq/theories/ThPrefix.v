(** The derivatives do not depend on how many are asked for, in every arithmetic
    (C86). *)
From Coq Require Import ZArith List Lia Bool.
From Verif Require Import Outcome Num ModelCore ModelBasis ModelAlgo ModelCurve ModelSurface ThOutcome ThVec ThGrid ThSame.
Import ListNotations.
Open Scope Z_scope.

(** The second run succeeds whenever the first does, with a related result. *)
Definition oimp {A B} (R : A -> B -> Prop) (o : outcome A) (o' : outcome B) : Prop :=
  forall a, o = Ok a -> exists b, o' = Ok b /\ R a b.
Lemma oimp_ok {A B} (R : A -> B -> Prop) a b : R a b -> oimp R (Ok a) (Ok b).
Proof. intros K x E. assert (x = a) by congruence. subst. eauto. Qed.
Lemma oimp_bind {A B C D} (R : A -> B -> Prop) (Q : C -> D -> Prop) o o' f g :
  oimp R o o' -> (forall a b, R a b -> oimp Q (f a) (g b)) -> oimp Q (bind o f) (bind o' g).
Proof. intros K F x E. bindinv E. destruct (K _ E0) as [b [-> Rb]]. cbn [bind]. exact (F _ _ Rb _ E). Qed.
Lemma oimp_same {A C D} (Q : C -> D -> Prop) (o : outcome A) f g :
  (forall a, o = Ok a -> oimp Q (f a) (g a)) -> oimp Q (bind o f) (bind o g).
Proof. intros F x E. bindinv E. rewrite E0. cbn [bind]. exact (F _ E0 _ E). Qed.
Lemma oimp_then {A B C} (R : A -> B -> Prop) (Q : C -> B -> Prop) o o' (f : A -> outcome C) :
  oimp R o o' -> (forall a b c, R a b -> f a = Ok c -> Q c b) -> oimp Q (bind o f) o'.
Proof. intros K F x E. bindinv E. destruct (K _ E0) as [b [-> Rb]]. exists b. split; [reflexivity|]. exact (F _ _ _ Rb E). Qed.
Lemma oimp_for {S S'} (R : Z -> S -> S' -> Prop) lo hi b b' s s' : lo <= hi -> R lo s s' ->
  (forall k s s', lo <= k < hi -> R k s s' -> oimp (R (k + 1)) (b k s) (b' k s')) -> oimp (R hi) (for_up lo hi b s) (for_up lo hi b' s').
Proof.
  intros L H0 St. unfold for_up. remember (Z.to_nat (hi - lo)) as n. revert lo s s' L H0 St Heqn.
  induction n as [|n IH]; intros i s s' L H0 St E.
  - cbn [loop]. apply oimp_ok. replace hi with i by lia. exact H0.
  - cbn [loop]. apply (oimp_bind (R (i + 1))); [apply St; [lia|exact H0]|].
    intros a a' Ha. apply IH; [lia|exact Ha| |lia]. intros k t t' Hk. apply St. lia.
Qed.
Lemma for_up_split {S} lo mid hi (b : Z -> S -> outcome S) s : lo <= mid <= hi -> for_up lo hi b s = bind (for_up lo mid b s) (for_up mid hi b).
Proof.
  intros [L1 L2]. replace hi with (mid + Z.of_nat (Z.to_nat (hi - mid))) by lia. clear L2. induction (Z.to_nat (hi - mid)) as [|n IH].
  - rewrite Z.add_0_r. destruct (for_up lo mid b s); cbn [bind]; try reflexivity. now rewrite for_up_empty by lia.
  - replace (mid + Z.of_nat (Datatypes.S n)) with (mid + Z.of_nat n + 1) by lia. rewrite for_up_last, IH by lia.
    destruct (for_up lo mid b s); cbn [bind]; try reflexivity. now rewrite for_up_last by lia.
Qed.
Lemma mset_inv {T} (m m' : matrix T) r c i j x : mwf m r c -> mset m i j x = Ok m' -> 0 <= i < r /\ 0 <= j < c /\ mwf m' r c /\ mget m' i j = Ok x /\
  forall i' j', (i' <> i \/ j' <> j) -> mget m' i' j' = mget m i' j'.
Proof.
  intros W E. assert (IR : in_range (mrows m) (mcols m) i j = true).
  { unfold mset in E. destruct (in_range _ _ _ _); [reflexivity|discriminate]. }
  apply in_range_true in IR. destruct W as [Wr [Wc W]]. rewrite Wr, Wc in IR.
  destruct (mset_spec m r c i j x (conj Wr (conj Wc W)) (proj1 IR) (proj2 IR)) as [m2 [E2 K]]. assert (m2 = m') by congruence. subst m2. tauto.
Qed.

Section Prefix.
  Context {T : Type} `{Num T}.
  Variables (p : Z) (ndu : matrix T).
  Hypothesis Hp : 0 <= p.
  (** the entries of the row pair that step [k] has written *)
  Definition fresh (r k j : Z) : Prop := Z.max 0 (k - r) <= j <= Z.min k (p - r).
  Definition rows_agree (m : Z) (res res' : matrix T) : Prop := forall i j, 0 <= i <= m -> 0 <= j <= p -> mget res i j = mget res' i j.
  Definition step_rel (n m r k : Z) (st st' : matrix T * matrix T * Z * Z) : Prop :=
    let '(res, a, s1, s2) := st in let '(res', a', s1', s2') := st' in
    s1 = s1' /\ s2 = s2' /\ (s1 = 0 /\ s2 = 1 \/ s1 = 1 /\ s2 = 0) /\ mwf a 2 (p + 1) /\ mwf a' 2 (p + 1) /\
    (forall j, fresh r (k - 1) j -> mget a s1 j = mget a' s1 j) /\
    mwf res (n + 1) (p + 1) /\ mwf res' (m + 1) (p + 1) /\ rows_agree m res res'.
  Lemma ders_step n m r k st st' : 1 <= k <= m -> m <= n -> 0 <= r <= p -> step_rel n m r k st st' ->
    oimp (step_rel n m r (k + 1)) (Basis_ders_step p ndu r k st) (Basis_ders_step p ndu r k st').
  Proof.
    intros Hk Hmn Hr. destruct st as [[[res a] s1] s2], st' as [[[res' a'] s1'] s2'].
    intros [<- [<- [Hs [Wa [Wa' [Fr [Wr [Wr' Ag]]]]]]]]. unfold Basis_ders_step.
    set (j1 := if -1 <=? r - k then 1 else - (r - k)). set (j2 := if r - 1 <=? p - k then k - 1 else p - r).
    assert (J1 : j1 = Z.max 1 (k - r)) by (unfold j1; destruct (Z.leb_spec (-1) (r - k)); lia).
    assert (J2 : j2 = Z.min (k - 1) (p - r)) by (unfold j2; destruct (Z.leb_spec (r - 1) (p - k)); lia).
    clearbody j1 j2.
    pose (Q := fun (j : Z) (s s' : matrix T * T) => let '(b, d) := s in let '(b', d') := s' in d = d' /\ mwf b 2 (p + 1) /\ mwf b' 2 (p + 1) /\
      (forall i, fresh r (k - 1) i -> mget b s1 i = mget b' s1 i) /\ (forall i, Z.max 0 (k - r) <= i < j -> mget b s2 i = mget b' s2 i)).
    assert (Put : forall j b b' d x, Q j (b, d) (b', d) -> 0 <= j <= p -> exists c c', mset b s2 j x = Ok c /\ mset b' s2 j x = Ok c' /\
      mget c s2 j = Ok x /\ mget c' s2 j = Ok x /\ forall d, Q (j + 1) (c, d) (c', d)).
    { intros j b b' d x [_ [Wb [Wb' [F1 F2]]]] Hj.
      destruct (mset_spec b 2 (p + 1) s2 j x Wb ltac:(lia) ltac:(lia)) as [c [Ec [Wc [G1 G2]]]].
      destruct (mset_spec b' 2 (p + 1) s2 j x Wb' ltac:(lia) ltac:(lia)) as [c' [Ec' [Wc' [G1' G2']]]].
      exists c, c'. split; [exact Ec|]. split; [exact Ec'|]. split; [exact G1|]. split; [exact G1'|]. intros d'.
      split; [reflexivity|]. split; [exact Wc|]. split; [exact Wc'|]. split.
      - intros i Hi. rewrite G2, G2' by lia. apply F1. exact Hi.
      - intros i Hi. destruct (Z.eq_dec i j) as [-> |Ne]; [now rewrite G1, G1'|]. rewrite G2, G2' by lia. apply F2. lia. }
    assert (Q0 : forall j, j <= Z.max 0 (k - r) -> Q j (a, n0) (a', n0)).
    { intros j Hj. repeat split; auto; try apply Wa; try apply Wa'. intros i Hi. lia. }
    apply (oimp_bind (Q j1)).
    { destruct (Z.leb_spec k r) as [L|L].
      - rewrite Fr by (unfold fresh; lia). apply oimp_same. intros e _. apply oimp_same. intros den _. apply oimp_same. intros q _.
        destruct (Put 0 a a' n0 q (Q0 0 ltac:(lia)) ltac:(lia)) as [c [c' [Ec [Ec' [Gc [Gc' Qc]]]]]]. rewrite Ec, Ec'. cbn [bind].
        rewrite Gc, Gc'. cbn [bind]. apply oimp_same. intros nn _. apply oimp_ok. replace j1 with (0 + 1) by lia. apply Qc.
      - apply oimp_ok. destruct (Q0 0 ltac:(lia)) as [_ [W1 [W2 [F1 _]]]]. repeat split; auto; try apply W1; try apply W2. intros i Hi. lia. }
    intros [b d] [b' d'] Qb.
    apply (oimp_bind (Q (j2 + 1))).
    { destruct (Z_le_gt_dec j1 (j2 + 1)) as [L|L].
      - apply oimp_for; [exact L|exact Qb|]. clear b d b' d' Qb. intros j [b d] [b' d'] Hj Qb.
        assert (d = d') by apply Qb. subst d'. pose proof Qb as [_ [_ [_ [F1 _]]]].
        rewrite (F1 j), (F1 (j - 1)) by (unfold fresh; lia).
        apply oimp_same. intros e _. apply oimp_same. intros e' _. apply oimp_same. intros den _. apply oimp_same. intros q _.
        destruct (Put j b b' d q Qb ltac:(lia)) as [c [c' [Ec [Ec' [Gc [Gc' Qc]]]]]]. rewrite Ec, Ec'. cbn [bind].
        rewrite Gc, Gc'. cbn [bind]. apply oimp_same. intros nn _. apply oimp_ok. apply Qc.
      - rewrite !for_up_empty by lia. apply oimp_ok. destruct Qb as [E1 [W1 [W2 [F1 F2]]]]. repeat split; auto; try apply W1; try apply W2.
        intros i Hi. apply F2. lia. }
    clear b d b' d' Qb. intros [b d] [b' d'] Qb. assert (d = d') by apply Qb. subst d'. pose proof Qb as [_ [_ [_ [F1 _]]]].
    apply (oimp_bind (Q (Z.min k (p - r) + 1))).
    { destruct (Z.leb_spec r (p - k)) as [L|L].
      - rewrite F1 by (unfold fresh; lia). apply oimp_same. intros e _. apply oimp_same. intros den _. apply oimp_same. intros q _.
        replace (j2 + 1) with k in Qb by lia.
        destruct (Put k b b' d q Qb ltac:(lia)) as [c [c' [Ec [Ec' [Gc [Gc' Qc]]]]]]. rewrite Ec, Ec'. cbn [bind].
        rewrite Gc, Gc'. cbn [bind]. apply oimp_same. intros nn _. apply oimp_ok. replace (Z.min k (p - r) + 1) with (k + 1) by lia. apply Qc.
      - apply oimp_ok. replace (Z.min k (p - r)) with j2 by lia. exact Qb. }
    clear b d b' Qb F1. intros [b d] [b' d'] [<- [Wb [Wb' [_ F2]]]].
    destruct (mset_spec res (n + 1) (p + 1) k r d Wr ltac:(lia) ltac:(lia)) as [c [Ec [Wc [G1 G2]]]].
    destruct (mset_spec res' (m + 1) (p + 1) k r d Wr' ltac:(lia) ltac:(lia)) as [c' [Ec' [Wc' [G1' G2']]]].
    rewrite Ec, Ec'. cbn [bind]. apply oimp_ok. split; [reflexivity|]. split; [reflexivity|]. split; [lia|]. split; [exact Wb|]. split; [exact Wb'|].
    split; [|split; [exact Wc|split; [exact Wc'|]]].
    - replace (k + 1 - 1) with k by lia. intros j Hj. apply F2. unfold fresh in Hj. lia.
    - intros i j Hi Hj. destruct (Z.eq_dec i k) as [-> |Ne]; [destruct (Z.eq_dec j r) as [-> |Ne]; [now rewrite G1, G1'|]|]; rewrite G2, G2' by lia; apply Ag; lia.
  Qed.
  (** what a step leaves alone *)
  Lemma ders_step_frame n r k res a s1 s2 res1 a1 t1 t2 : mwf a 2 (p + 1) -> mwf res (n + 1) (p + 1) ->
    Basis_ders_step p ndu r k (res, a, s1, s2) = Ok (res1, a1, t1, t2) ->
    mwf a1 2 (p + 1) /\ mwf res1 (n + 1) (p + 1) /\ forall i j, i <> k -> mget res1 i j = mget res i j.
  Proof.
    intros Wa Wr E. unfold Basis_ders_step in E. bindinv E. destruct a0 as [b d]. bindinv E. destruct a0 as [b' d']. bindinv E. destruct a0 as [b2 d2]. bindinv E.
    assert (Wb : mwf b 2 (p + 1)).
    { destruct (k <=? r); [|assert (b = a) by congruence; subst; exact Wa].
      repeat bindinv E0.
      match goal with K : mset a _ _ _ = Ok ?x |- _ => apply (mset_inv _ _ 2 (p + 1)) in K; [|exact Wa]; assert (b = x) by congruence; subst; apply K end. }
    assert (Wb' : mwf b' 2 (p + 1)).
    { set (lo := if -1 <=? r - k then 1 else - (r - k)) in E1. set (hi := (if r - 1 <=? p - k then k - 1 else p - r) + 1) in E1.
      destruct (Z_le_gt_dec lo hi) as [L|L].
      - pattern (b', d') in E1. apply (for_up_inv_partial (fun _ (s : matrix T * T) => mwf (fst s) 2 (p + 1)) lo hi) in E1; auto.
        intros i [c e] [c' e'] _ Wc Ec. cbn [fst] in *. repeat bindinv Ec.
        match goal with K : mset c _ _ _ = Ok ?x |- _ => apply (mset_inv _ _ 2 (p + 1)) in K; [|exact Wc]; assert (c' = x) by congruence; subst; apply K end.
      - rewrite for_up_empty in E1 by lia. assert (b' = b) by congruence. subst. exact Wb. }
    assert (Wb2 : mwf b2 2 (p + 1)).
    { destruct (r <=? p - k); [|assert (b2 = b') by congruence; subst; exact Wb'].
      repeat bindinv E2.
      match goal with K : mset b' _ _ _ = Ok ?x |- _ => apply (mset_inv _ _ 2 (p + 1)) in K; [|exact Wb']; assert (b2 = x) by congruence; subst; apply K end. }
    apply (mset_inv _ _ (n + 1) (p + 1)) in E3; [|exact Wr]. destruct E3 as [_ [_ [W1 [_ G]]]].
    assert (res1 = a0) by congruence. assert (a1 = b2) by congruence. subst. split; [exact Wb2|]. split; [exact W1|]. intros i j Ne. apply G. lia.
  Qed.

  Definition agree (n m : Z) (res res' : matrix T) : Prop := mwf res (n + 1) (p + 1) /\ mwf res' (m + 1) (p + 1) /\ rows_agree m res res'.
  Lemma agree_set n m res res' i j x : agree n m res res' -> 0 <= i <= m -> m <= n -> 0 <= j <= p ->
    exists c c', mset res i j x = Ok c /\ mset res' i j x = Ok c' /\ agree n m c c'.
  Proof.
    intros [W [W' Ag]] Hi Hmn Hj.
    destruct (mset_spec res (n + 1) (p + 1) i j x W ltac:(lia) ltac:(lia)) as [c [Ec [Wc [G1 G2]]]].
    destruct (mset_spec res' (m + 1) (p + 1) i j x W' ltac:(lia) ltac:(lia)) as [c' [Ec' [Wc' [G1' G2']]]].
    exists c, c'. split; [exact Ec|]. split; [exact Ec'|]. split; [exact Wc|]. split; [exact Wc'|].
    intros i' j' Hi' Hj'. destruct (Z.eq_dec i' i) as [-> |Ne]; [destruct (Z.eq_dec j' j) as [-> |Ne]; [now rewrite G1, G1'|]|]; rewrite G2, G2' by lia; apply Ag; lia.
  Qed.
  Lemma agree_frame n m res res' res1 : agree n m res res' -> mwf res1 (n + 1) (p + 1) -> (forall i j, 0 <= i <= m -> mget res1 i j = mget res i j) -> agree n m res1 res'.
  Proof. intros [W [W' Ag]] W1 F. split; [exact W1|]. split; [exact W'|]. intros i j Hi Hj. rewrite F by lia. apply Ag; lia. Qed.
  Lemma ders_loop n m r res res' a a' : 0 <= m <= n -> 0 <= r <= p -> agree n m res res' -> mwf a 2 (p + 1) -> mwf a' 2 (p + 1) -> mget a 0 0 = mget a' 0 0 ->
    oimp (fun st st' => let '(res, a, _, _) := st in let '(res', a', _, _) := st' in agree n m res res' /\ mwf a 2 (p + 1) /\ mwf a' 2 (p + 1))
      (for_up 1 (n + 1) (Basis_ders_step p ndu r) (res, a, 0, 1)) (for_up 1 (m + 1) (Basis_ders_step p ndu r) (res', a', 0, 1)).
  Proof.
    intros Hm Hr [W [W' Ag]] Wa Wa' E0. rewrite (for_up_split 1 (m + 1) (n + 1)) by lia.
    apply (oimp_then (step_rel n m r (m + 1))).
    - apply oimp_for; [lia| |].
      + split; [reflexivity|]. split; [reflexivity|]. split; [lia|]. split; [exact Wa|]. split; [exact Wa'|]. split; [|split; [exact W|split; [exact W'|exact Ag]]].
        intros j Hj. unfold fresh in Hj. replace j with 0 by lia. exact E0.
      + intros k st st' Hk Rk. apply ders_step; auto; lia.
    - intros [[[res1 a1] s1] s2] [[[res2 a2] t1] t2] [[[res3 a3] v1] v2] [_ [_ [_ [W1 [W2 [_ [R1 [R2 Ag2]]]]]]]] E.
      pattern (res3, a3, v1, v2) in E.
      apply (for_up_inv_partial (fun _ (st : matrix T * matrix T * Z * Z) => let '(res, a, _, _) := st in agree n m res res2 /\ mwf a 2 (p + 1)) (m + 1) (n + 1)) in E.
      + destruct E as [Ag3 W3]. split; [exact Ag3|]. split; [exact W3|exact W2].
      + lia.
      + split; [split; [exact R1|split; [exact R2|exact Ag2]]|exact W1].
      + clear - Hm. intros k [[[r1 b1] s1] s2] [[[r2 b2] t1] t2] Hk [Ag W] E. destruct Ag as [A1 A2].
        destruct (ders_step_frame n r k r1 b1 s1 s2 r2 b2 t1 t2 W A1 E) as [W2 [R2 F]]. split; [|exact W2].
        apply (agree_frame n m r1); [split; assumption|exact R2|]. intros i j Hi. apply F. lia.
  Qed.
  Lemma scale_agree n m k fac res res' : 0 <= k <= m -> m <= n -> agree n m res res' -> oimp (agree n m) (scale_row res k fac) (scale_row res' k fac).
  Proof.
    intros Hk Hm Ag. unfold scale_row. pose proof Ag as [[_ [-> _]] [[_ [-> _]] _]].
    apply (oimp_for (fun _ => agree n m)); [lia|exact Ag|]. clear res res' Ag. intros j res res' Hj Ag.
    pose proof Ag as [_ [_ Rw]]. rewrite Rw by lia. apply oimp_same. intros e _.
    destruct (agree_set n m res res' k j (nmul e fac) Ag Hk Hm ltac:(lia)) as [c [c' [-> [-> Ac]]]]. apply oimp_ok. exact Ac.
  Qed.
  Lemma scale_frame n k fac res res1 : mwf res (n + 1) (p + 1) -> scale_row res k fac = Ok res1 ->
    mwf res1 (n + 1) (p + 1) /\ forall i j, i <> k -> mget res1 i j = mget res i j.
  Proof.
    intros W E. unfold scale_row in E. replace (mcols res) with (p + 1) in E by (symmetry; apply W).
    apply (for_up_inv_partial (fun _ (m1 : matrix T) => mwf m1 (n + 1) (p + 1) /\ forall i j, i <> k -> mget m1 i j = mget res i j) 0 (p + 1)) in E; [exact E|lia|split; [exact W|reflexivity]|].
    intros j m1 m2 _ [W1 F1] E2. bindinv E2. apply (mset_inv _ _ (n + 1) (p + 1)) in E2; [|exact W1]. destruct E2 as [_ [_ [W2 [_ F2]]]].
    split; [exact W2|]. intros i j' Ne. rewrite F2 by lia. apply F1. exact Ne.
  Qed.
End Prefix.

Lemma EvaluateAll_degree {T} `{Num T} p (kn : list T) sp x n M : Basis_EvaluateAll p kn sp x n = Ok M -> 0 <= p.
Proof.
  intros E. destruct (Z_lt_le_dec p 0) as [L|L]; [exfalso|exact L]. revert E. unfold Basis_EvaluateAll, Basis_ndu, vmake.
  destruct (Z.ltb_spec (p + 1) 0) as [L1|L1]; [discriminate|]. replace (p + 1) with 0 by lia. discriminate.
Qed.
Lemma basis_prefix {T} `{Num T} p (kn : list T) sp x n m : 0 <= m <= n ->
  oimp (fun M M' => 0 <= p /\ agree p n m M M') (Basis_EvaluateAll p kn sp x n) (Basis_EvaluateAll p kn sp x m).
Proof.
  intros Hm. destruct (Z_lt_le_dec p 0) as [L|Hp].
  { intros M E. apply EvaluateAll_degree in E. lia. }
  unfold Basis_EvaluateAll. apply oimp_same. intros ndu _.
  destruct (mzero_spec (T := T) (n + 1) (p + 1) ltac:(lia) ltac:(lia)) as [z [Ez [Wz Gz]]]. rewrite Ez.
  destruct (mzero_spec (T := T) (m + 1) (p + 1) ltac:(lia) ltac:(lia)) as [z' [Ez' [Wz' Gz']]]. rewrite Ez'. cbn [bind].
  apply (oimp_bind (agree p n m)).
  { apply (oimp_for (fun _ => agree p n m)); [lia| |].
    - split; [exact Wz|]. split; [exact Wz'|]. intros i j Hi Hj. rewrite Gz, Gz' by lia. reflexivity.
    - intros k res res' Hk Ag. apply oimp_same. intros e _. destruct (agree_set p n m res res' 0 k e Ag ltac:(lia) ltac:(lia) ltac:(lia)) as [c [c' [-> [-> Ac]]]]. apply oimp_ok. exact Ac. }
  intros res res' Ag.
  destruct (mzero_spec (T := T) 2 (p + 1) ltac:(lia) ltac:(lia)) as [a [Ea [Wa _]]]. rewrite Ea. cbn [bind].
  apply (oimp_bind (fun (s s' : matrix T * matrix T) => agree p n m (fst s) (fst s'))).
  { assert (G : oimp (fun s s' : matrix T * matrix T => agree p n m (fst s) (fst s') /\ mwf (snd s) 2 (p + 1) /\ mwf (snd s') 2 (p + 1))
      (for_up 0 (p + 1) (fun r '(result, a) => a <- mset a 0 0 n1 ;; '(result, a, _, _) <- for_up 1 (n + 1) (Basis_ders_step p ndu r) (result, a, 0, 1) ;; Ok (result, a)) (res, a))
      (for_up 0 (p + 1) (fun r '(result, a) => a <- mset a 0 0 n1 ;; '(result, a, _, _) <- for_up 1 (m + 1) (Basis_ders_step p ndu r) (result, a, 0, 1) ;; Ok (result, a)) (res', a))).
    { apply (oimp_for (fun _ (s s' : matrix T * matrix T) => agree p n m (fst s) (fst s') /\ mwf (snd s) 2 (p + 1) /\ mwf (snd s') 2 (p + 1))); [lia|auto|].
      clear - Hm Hp. intros r [res a] [res' a'] Hr [Ag [Wa Wa']]. cbn [fst snd] in *.
      destruct (mset_spec a 2 (p + 1) 0 0 n1 Wa ltac:(lia) ltac:(lia)) as [b [-> [Wb [Gb _]]]].
      destruct (mset_spec a' 2 (p + 1) 0 0 n1 Wa' ltac:(lia) ltac:(lia)) as [b' [-> [Wb' [Gb' _]]]]. cbn [bind].
      eapply oimp_bind; [apply (ders_loop p ndu Hp n m r); eauto; [lia|congruence]|].
      intros [[[r1 a1] s1] s2] [[[r2 a2] t1] t2] [A1 [A2 A3]]. apply oimp_ok. cbn [fst snd]. auto. }
    intros s E. destruct (G s E) as [s' [E' [A1 _]]]. eauto. }
  intros [r1 a1] [r2 a2] Ag2. cbn [fst] in Ag2. clear - Hm Hp Ag2.
  apply (oimp_bind (fun (s s' : matrix T * T) => agree p n m (fst s) (fst s'))).
  - rewrite (for_up_split 1 (m + 1) (n + 1)) by lia.
    apply (oimp_then (fun (s s' : matrix T * T) => snd s = snd s' /\ agree p n m (fst s) (fst s'))).
    + apply (oimp_for (fun _ (s s' : matrix T * T) => snd s = snd s' /\ agree p n m (fst s) (fst s'))); [lia|auto|].
      intros k [res fac] [res' fac'] Hk [Ef Ag]. cbn [fst snd] in *. subst fac'. apply (oimp_bind (agree p n m)); [apply scale_agree; auto; lia|].
      intros b b' Ab. apply oimp_ok. cbn [fst snd]. auto.
    + intros [res fac] [res' fac'] [res3 fac3] [_ Ag] E. cbn [fst snd] in *. pattern (res3, fac3) in E.
      apply (for_up_inv_partial (fun _ (s : matrix T * T) => agree p n m (fst s) res') (m + 1) (n + 1)) in E; [exact E|lia|exact Ag|].
      intros k [b f] [b' f'] Hk Ab Eb. cbn [fst] in *. bindinv Eb. assert (b' = a) by congruence. subst a.
      destruct (scale_frame p Hp n k f b b' (proj1 Ab) Eb0) as [Wb Fb]. apply (agree_frame p n m b); auto. intros i j Hi. apply Fb. lia.
  - intros [b f] [b' f'] Ab. apply oimp_ok. auto.
Qed.

(** ** Curves *)
Definition lagree {A} (n m : Z) (l l' : list A) : Prop := len l = n + 1 /\ len l' = m + 1 /\ forall k, 0 <= k <= m -> vget l k = vget l' k.
Lemma lagree_firstn {A} n m (l l' : list A) : 0 <= m <= n -> lagree n m l l' -> l' = firstn (Z.to_nat (m + 1)) l.
Proof.
  intros Hm [L [L' G]]. apply vget_ext.
  - unfold len in *. rewrite firstn_length. lia.
  - intros i Hi. rewrite <- G by lia. unfold vget. destruct (Z.ltb_spec i 0); [lia|].
    rewrite <- (firstn_skipn (Z.to_nat (m + 1)) l) at 1. rewrite nth_error_app1; [reflexivity|]. rewrite firstn_length. unfold len in *. lia.
Qed.
Lemma homo_prefix {T} `{Num T} (c : curve T) x n m : 0 <= m <= n ->
  oimp (lagree n m) (Curve_HomogeneousDerivative c x n) (Curve_HomogeneousDerivative c x m).
Proof.
  intros Hm. unfold Curve_HomogeneousDerivative. apply oimp_same. intros _ _. apply oimp_same. intros sp _.
  eapply oimp_bind; [apply (basis_prefix _ _ _ _ n m Hm)|]. intros M M' [Hp [[R1 [C1 _]] [[R2 [C2 _]] Ag]]].
  rewrite R1, R2, C1, C2, !Z.eqb_refl. cbn [assert_ bind].
  intros l E. pose proof (tabulate_inv v4zero _ _ _ _ E) as [Ll Gl].
  destruct (tabulate_spec 0 (m + 1) (fun k => for_up 0 (Degree c + 1) (fun i tmp => p <- vget (ControlPoints c) (sp - Degree c + i) ;; b <- mget M' k i ;; Ok (v4add tmp (v4scale b (ToHomo p)))) v4zero)
    (fun k => znth v4zero l (k - 0))) as [l' [E' [Ll' Gl']]].
  - lia.
  - intros k Hk. rewrite <- Gl by lia. apply for_up_ext. intros i s Hi. rewrite Ag by lia. reflexivity.
  - exists l'. split; [exact E'|]. split; [lia|]. split; [lia|]. intros k Hk.
    rewrite (vget_ok v4zero) by lia. specialize (Gl' k). rewrite Gl' by lia. do 2 f_equal. lia.
Qed.
Lemma lagree_set {A} n m (l l' : list A) k x : m <= n -> lagree n m l l' -> 0 <= k <= m -> exists c c', vset l k x = Ok c /\ vset l' k x = Ok c' /\ lagree n m c c'.
Proof.
  intros Hmn [L [L' G]] Hk. destruct (vset_spec l k x ltac:(lia)) as [c [Ec [Lc [G1 G2]]]]. destruct (vset_spec l' k x ltac:(lia)) as [c' [Ec' [Lc' [G1' G2']]]].
  exists c, c'. split; [exact Ec|]. split; [exact Ec'|]. split; [lia|]. split; [lia|].
  intros i Hi. destruct (Z.eq_dec i k) as [-> |Ne]; [now rewrite G1, G1'|]. rewrite G2, G2' by lia. apply G. exact Hi.
Qed.
Lemma curve_prefix {T} `{Num T} (c : curve T) x n m : 0 <= m <= n ->
  oimp (lagree n m) (Curve_EvaluateAll c x n) (Curve_EvaluateAll c x m).
Proof.
  intros Hm. unfold Curve_EvaluateAll. eapply oimp_bind; [apply (homo_prefix c x n m Hm)|]. intros h h' [Lh [Lh' Gh]].
  destruct (vmake_spec (n + 1) (@v3zero T _) ltac:(lia)) as [z [-> [Lz Gz]]]. destruct (vmake_spec (m + 1) (@v3zero T _) ltac:(lia)) as [z' [-> [Lz' Gz']]]. cbn [bind].
  rewrite Gh by lia. apply oimp_same. intros h0 _. rewrite (for_up_split 0 (m + 1) (n + 1)) by lia.
  apply (oimp_then (lagree n m)).
  - apply (oimp_for (fun _ => lagree n m)); [lia| |].
    + split; [lia|]. split; [lia|]. intros k Hk. rewrite Gz, Gz' by lia. reflexivity.
    + intros k r r' Hk Ag. rewrite Gh by lia. apply oimp_same. intros hk _.
      rewrite (for_up_ext 1 (k + 1) (fun i Aders => hi <- vget h i ;; bin <- Binomial k i ;; rki <- vget r (k - i) ;; Ok (v3sub Aders (v3scale (nmul (nofZ bin) (w4 hi)) rki)))
        (fun i Aders => hi <- vget h' i ;; bin <- Binomial k i ;; rki <- vget r' (k - i) ;; Ok (v3sub Aders (v3scale (nmul (nofZ bin) (w4 hi)) rki)))).
      2: { intros i s Hi. rewrite Gh by lia. destruct Ag as [_ [_ G]]. rewrite G by lia. reflexivity. }
      apply oimp_same. intros A _. apply oimp_same. intros q _.
      destruct (lagree_set n m r r' k q ltac:(lia) Ag ltac:(lia)) as [d [d' [-> [-> Ad]]]]. apply oimp_ok. exact Ad.
  - intros r r' r1 Ag E. apply (for_up_inv_partial (fun _ l => lagree n m l r') (m + 1) (n + 1)) in E; [exact E|lia|exact Ag|].
    intros k l l1 Hk Al El. repeat bindinv El. apply vset_inv in El. destruct El as [Rk ->]. destruct Al as [L1 [L2 G]].
    split; [now rewrite len_update|]. split; [exact L2|]. intros i Hi. rewrite <- G by lia.
    destruct (vset_spec l k a1 ltac:(lia)) as [l3 [E3 [_ [_ G3]]]]. rewrite vset_ok in E3 by lia. assert (l3 = update (Z.to_nat k) a1 l) by congruence. subst l3. apply G3. lia.
Qed.
