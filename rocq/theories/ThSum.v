(** Finite sums over integer ranges. *)
From Coq Require Import Reals ZArith List Lra Lia.
From Verif Require Import Outcome ThOutcome SpecBasis.
Import ListNotations.
Open Scope Z_scope.

Lemma zsum_empty lo hi f : hi <= lo -> zsum lo hi f = 0%R.
Proof. intros. unfold zsum. replace (Z.to_nat (hi - lo)) with 0%nat by lia. reflexivity. Qed.
Lemma zsum_first lo hi f : lo < hi -> zsum lo hi f = (f lo + zsum (lo + 1) hi f)%R.
Proof.
  intros. unfold zsum. replace (Z.to_nat (hi - lo)) with (S (Z.to_nat (hi - (lo + 1)))) by lia.
  simpl. f_equal; [f_equal; lia|]. f_equal. rewrite <- seq_shift, !map_map. apply map_ext. intros a. f_equal. lia.
Qed.
Lemma zsum_ind (P : Z -> Prop) hi :
  (forall lo, hi <= lo -> P lo) -> (forall lo, lo < hi -> P (lo + 1) -> P lo) -> forall lo, P lo.
Proof.
  intros H0 H1 lo. remember (Z.to_nat (hi - lo)) as n eqn:E. revert lo E.
  induction n as [|n IH]; intros lo E; [apply H0; lia|]. apply H1; [lia|]. apply IH. lia.
Qed.
Lemma zsum_ext lo hi f g : (forall i, lo <= i < hi -> f i = g i) -> zsum lo hi f = zsum lo hi g.
Proof.
  revert lo. apply (zsum_ind (fun lo => (forall i, lo <= i < hi -> f i = g i) -> zsum lo hi f = zsum lo hi g) hi).
  - intros lo L _. rewrite !zsum_empty by assumption. reflexivity.
  - intros lo L IH E. rewrite !(zsum_first lo hi) by assumption. rewrite E by lia. rewrite IH; [reflexivity|].
    intros; apply E; lia.
Qed.
Lemma zsum_split mid lo hi f : lo <= mid <= hi -> zsum lo hi f = (zsum lo mid f + zsum mid hi f)%R.
Proof.
  revert lo. apply (zsum_ind (fun lo => lo <= mid <= hi -> zsum lo hi f = (zsum lo mid f + zsum mid hi f)%R) mid).
  - intros lo L E. assert (lo = mid) by lia. subst. rewrite (zsum_empty mid mid) by lia. ring.
  - intros lo L IH E. rewrite (zsum_first lo hi), (zsum_first lo mid) by lia. rewrite IH by lia. ring.
Qed.
Lemma zsum_one lo f : zsum lo (lo + 1) f = f lo.
Proof. rewrite zsum_first, zsum_empty by lia. ring. Qed.
Lemma zsum_last lo hi f : lo < hi -> zsum lo hi f = (zsum lo (hi - 1) f + f (hi - 1)%Z)%R.
Proof.
  intros. rewrite (zsum_split (hi - 1)) by lia. f_equal.
  replace hi with (hi - 1 + 1) at 2 by lia. apply zsum_one.
Qed.
Lemma zsum_last' lo hi f : lo <= hi -> zsum lo (hi + 1) f = (zsum lo hi f + f hi)%R.
Proof. intros. rewrite zsum_last by lia. replace (hi + 1 - 1) with hi by lia. reflexivity. Qed.
Lemma zsum_add lo hi f g : zsum lo hi (fun i => f i + g i)%R = (zsum lo hi f + zsum lo hi g)%R.
Proof.
  revert lo. apply zsum_ind with (hi := hi).
  - intros lo L. rewrite !zsum_empty by assumption. ring.
  - intros lo L IH. rewrite !(zsum_first lo hi), IH by assumption. ring.
Qed.
Lemma zsum_scale lo hi c f : zsum lo hi (fun i => c * f i)%R = (c * zsum lo hi f)%R.
Proof.
  revert lo. apply zsum_ind with (hi := hi).
  - intros lo L. rewrite !zsum_empty by assumption. ring.
  - intros lo L IH. rewrite !(zsum_first lo hi), IH by assumption. ring.
Qed.
Lemma zsum_scale_r lo hi c f : zsum lo hi (fun i => f i * c)%R = (zsum lo hi f * c)%R.
Proof. rewrite Rmult_comm, <- zsum_scale. apply zsum_ext. intros; ring. Qed.
Lemma zsum_opp lo hi f : zsum lo hi (fun i => - f i)%R = (- zsum lo hi f)%R.
Proof. replace (- zsum lo hi f)%R with (-1 * zsum lo hi f)%R by ring. rewrite <- zsum_scale. apply zsum_ext. intros; ring. Qed.
Lemma zsum_sub lo hi f g : zsum lo hi (fun i => f i - g i)%R = (zsum lo hi f - zsum lo hi g)%R.
Proof. unfold Rminus. rewrite zsum_add, zsum_opp. reflexivity. Qed.
Lemma zsum_shift lo hi k f : zsum lo hi f = zsum (lo + k) (hi + k) (fun i => f (i - k)).
Proof.
  revert lo. apply zsum_ind with (hi := hi).
  - intros lo L. rewrite !zsum_empty by lia. reflexivity.
  - intros lo L IH. rewrite (zsum_first lo hi), (zsum_first (lo + k)), IH by lia.
    f_equal; [f_equal; lia|]. f_equal; lia.
Qed.
Lemma zsum_zero lo hi f : (forall i, lo <= i < hi -> f i = 0%R) -> zsum lo hi f = 0%R.
Proof.
  intros E. rewrite (zsum_ext lo hi f (fun i => 0 * 0)%R) by (intros; rewrite E by lia; ring).
  rewrite (zsum_scale lo hi 0 (fun _ => 0%R)). ring.
Qed.
Lemma zsum_nonneg lo hi f : (forall i, lo <= i < hi -> (0 <= f i)%R) -> (0 <= zsum lo hi f)%R.
Proof.
  revert lo. apply (zsum_ind (fun lo => (forall i, lo <= i < hi -> (0 <= f i)%R) -> (0 <= zsum lo hi f)%R) hi).
  - intros lo L _. rewrite !zsum_empty by assumption. lra.
  - intros lo L IH E. rewrite !(zsum_first lo hi) by assumption. pose proof (E lo ltac:(lia)).
    assert (0 <= zsum (lo + 1) hi f)%R by (apply IH; intros; apply E; lia). lra.
Qed.
Lemma zsum_le lo hi f g : (forall i, lo <= i < hi -> (f i <= g i)%R) -> (zsum lo hi f <= zsum lo hi g)%R.
Proof.
  intros E. assert (0 <= zsum lo hi (fun i => g i - f i))%R.
  { apply zsum_nonneg. intros i Hi. specialize (E i Hi). lra. }
  rewrite zsum_sub in H. lra.
Qed.
(** only the indices in [lo', hi') contribute *)
Lemma zsum_support lo hi lo' hi' f : lo <= lo' -> hi' <= hi -> lo' <= hi' ->
  (forall i, lo <= i < hi -> ~ (lo' <= i < hi') -> f i = 0%R) -> zsum lo hi f = zsum lo' hi' f.
Proof.
  intros H1 H2 H3 E. rewrite (zsum_split lo'), (zsum_split hi' lo' hi) by lia.
  rewrite (zsum_zero lo lo'), (zsum_zero hi' hi) by (intros; apply E; lia). ring.
Qed.
Lemma zsum_delta lo hi k f : lo <= k < hi -> (forall i, lo <= i < hi -> i <> k -> f i = 0%R) -> zsum lo hi f = f k.
Proof.
  intros Hk E. rewrite (zsum_support lo hi k (k + 1)) by (try lia; intros; apply E; lia). apply zsum_one.
Qed.
Lemma zsum_swap lo hi lo' hi' f :
  zsum lo hi (fun i => zsum lo' hi' (fun j => f i j)) = zsum lo' hi' (fun j => zsum lo hi (fun i => f i j)).
Proof.
  revert lo. apply zsum_ind with (hi := hi).
  - intros lo L. rewrite zsum_empty by assumption. symmetry. apply zsum_zero. intros. apply zsum_empty; assumption.
  - intros lo L IH. rewrite zsum_first, IH by assumption. rewrite <- zsum_add. apply zsum_ext. intros j Hj.
    rewrite (zsum_first lo hi) by assumption. reflexivity.
Qed.
Lemma zsum_rev lo hi f : zsum lo hi f = zsum lo hi (fun i => f (lo + hi - 1 - i)).
Proof.
  remember (Z.to_nat (hi - lo)) as n eqn:E. revert lo hi f E. induction n as [|n IH]; intros lo hi f E.
  - rewrite !zsum_empty by lia. reflexivity.
  - rewrite (zsum_first lo hi f), (zsum_last lo hi (fun i => f (lo + hi - 1 - i))) by lia.
    rewrite (IH (lo + 1) hi f) by lia. rewrite Rplus_comm. f_equal; [|f_equal; lia].
    rewrite (zsum_shift lo (hi - 1) 1). replace (hi - 1 + 1) with hi by lia.
    apply zsum_ext. intros i Hi. f_equal. lia.
Qed.
