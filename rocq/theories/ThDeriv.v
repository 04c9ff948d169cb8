(** Derivatives of the basis functions (mathematics only). *)
From Coq Require Import Reals ZArith List Lra Lia Permutation.
From Coquelicot Require Import Coquelicot.
From Verif Require Import Outcome ThOutcome SpecBasis ThSum ThSpline.
Import ListNotations.
Open Scope Z_scope.

Definition rinv (b : R) : R := ratio 1 b.
Lemma ratio_rinv a b : ratio a b = (a * rinv b)%R.
Proof. unfold rinv, ratio. destruct (Req_EM_T b 0); [ring|]. unfold Rdiv. ring. Qed.
Lemma rinv_ok b : b <> 0%R -> (b * rinv b = 1)%R.
Proof. intros. unfold rinv. rewrite ratio_ok by assumption. field. assumption. Qed.

Lemma dconst (c x : R) : is_derive (fun _ : R => c) x 0%R.
Proof. exact (is_derive_const c x). Qed.
Lemma dplus (f g : R -> R) (x a b : R) : is_derive f x a -> is_derive g x b -> is_derive (fun t => f t + g t)%R x (a + b)%R.
Proof. intros H K. exact (is_derive_plus f g x a b H K). Qed.
Lemma dmult (f g : R -> R) (x a b : R) : is_derive f x a -> is_derive g x b -> is_derive (fun t => f t * g t)%R x (a * g x + f x * b)%R.
Proof. intros H K. exact (is_derive_mult f g x a b H K Rmult_comm). Qed.
Lemma dscal (f : R -> R) (x k a : R) : is_derive f x a -> is_derive (fun t => k * f t)%R x (k * a)%R.
Proof. intros H. exact (is_derive_scal f x k a H). Qed.

Section Der.
  Variables (U : Z -> R) (j : Z).
  Hypothesis M : mono U.
  Hypothesis Sp : (U j < U (j + 1)%Z)%R.

  Definition gap (q : nat) (i : Z) : R := (U (i + nn q)%Z - U i)%R.
  (** derivative of B *)
  Definition DB (p : nat) (i : Z) (x : R) : R :=
    match p with
    | O => 0%R
    | S q => (IZR (nn p) * (B U j q i x * rinv (gap p i) - B U j q (i + 1) x * rinv (gap p (i + 1))))%R
    end.
  Lemma B_rec q i x : B U j (S q) i x =
    ((x - U i) * rinv (gap (S q) i) * B U j q i x + (U (i + nn (S q) + 1)%Z - x) * rinv (gap (S q) (i + 1)) * B U j q (i + 1) x)%R.
  Proof.
    cbn [B]. rewrite !ratio_rinv. unfold gap. replace (i + 1 + nn (S q)) with (i + nn (S q) + 1) by lia. reflexivity.
  Qed.
  Lemma B_gap q i x : (B U j q i x * (gap (S q) i * rinv (gap (S q) i) - 1) = 0)%R /\
    (B U j q i x * (gap (S (S q)) (i - 1) * rinv (gap (S (S q)) (i - 1)) - 1) = 0)%R /\
    (B U j q i x * (gap (S (S q)) i * rinv (gap (S (S q)) i) - 1) = 0)%R.
  Proof.
    destruct (Z_le_dec i j) as [L|L]; [destruct (Z_le_dec (j - nn q) i) as [L'|L']|].
    - pose proof (den_pos U j M Sp i (i + nn (S q)) ltac:(rewrite nn_S; lia)).
      pose proof (den_pos U j M Sp (i - 1) (i - 1 + nn (S (S q))) ltac:(rewrite !nn_S; lia)).
      pose proof (den_pos U j M Sp i (i + nn (S (S q))) ltac:(rewrite !nn_S; lia)).
      unfold gap. rewrite !rinv_ok by lra. lra.
    - rewrite B_support by lia. lra.
    - rewrite B_support by lia. lra.
  Qed.
  Lemma DB_key p i x :
    ((x - U i) * rinv (gap (S p) i) * DB p i x + (U (i + nn (S p) + 1)%Z - x) * rinv (gap (S p) (i + 1)) * DB p (i + 1) x =
     IZR (nn p) * (B U j p i x * rinv (gap (S p) i) - B U j p (i + 1) x * rinv (gap (S p) (i + 1))))%R.
  Proof.
    destruct p as [|q]; [cbn [DB]; rewrite nn_0; ring|].
    cbn [DB]. rewrite (B_rec q i), (B_rec q (i + 1)).
    replace (i + 1 + 1) with (i + 2) by lia.
    destruct (B_gap q (i + 1) x) as [_ [H1 H2]]. replace (i + 1 - 1) with i in H1 by lia.
    set (c0 := rinv (gap (S (S q)) i)) in *. set (c1 := rinv (gap (S (S q)) (i + 1))) in *.
    set (e0 := rinv (gap (S q) i)). set (e1 := rinv (gap (S q) (i + 1))). set (e2 := rinv (gap (S q) (i + 2))).
    set (b0 := B U j q i x). set (b1 := B U j q (i + 1) x) in *. set (b2 := B U j q (i + 2) x).
    replace (i + 1 + nn (S q) + 1) with (i + nn (S (S q)) + 1) by (rewrite !nn_S; lia).
    assert (gap (S (S q)) i = U (i + nn (S q) + 1)%Z - U i)%R as G0 by (unfold gap; do 2 f_equal; rewrite !nn_S; lia).
    assert (gap (S (S q)) (i + 1) = U (i + nn (S (S q)) + 1)%Z - U (i + 1)%Z)%R as G1 by (unfold gap; do 2 f_equal; rewrite !nn_S; lia).
    rewrite G0 in H1. rewrite G1 in H2.
    set (n := IZR (nn (S q))).
    transitivity (n * (((x - U i) * e0 * b0 + (U (i + nn (S q) + 1)%Z - x) * e1 * b1) * c0
       - ((x - U (i + 1)%Z) * e1 * b1 + (U (i + nn (S (S q)) + 1)%Z - x) * e2 * b2) * c1)
       - n * e1 * (b1 * ((U (i + nn (S q) + 1)%Z - U i) * c0 - 1)) + n * e1 * (b1 * ((U (i + nn (S (S q)) + 1)%Z - U (i + 1)%Z) * c1 - 1)))%R; [ring|].
    rewrite H1, H2. ring.
  Qed.
  Lemma B_derive p : forall i x, is_derive (fun t => B U j p i t) x (DB p i x).
  Proof.
    induction p as [|p IH]; intros i x.
    - cbn [B DB]. apply dconst.
    - apply (is_derive_ext (fun t => (t - U i) * rinv (gap (S p) i) * B U j p i t +
        (U (i + nn (S p) + 1)%Z - t) * rinv (gap (S p) (i + 1)) * B U j p (i + 1) t)%R); [intros; symmetry; apply B_rec|].
      replace (DB (S p) i x) with
       ((rinv (gap (S p) i) * B U j p i x + (x - U i) * rinv (gap (S p) i) * DB p i x) +
        ((- rinv (gap (S p) (i + 1))) * B U j p (i + 1) x + (U (i + nn (S p) + 1)%Z - x) * rinv (gap (S p) (i + 1)) * DB p (i + 1) x))%R.
      + apply (dplus (fun t => (t - U i) * rinv (gap (S p) i) * B U j p i t)%R
          (fun t => (U (i + nn (S p) + 1)%Z - t) * rinv (gap (S p) (i + 1)) * B U j p (i + 1) t)%R).
        * apply (dmult (fun t => (t - U i) * rinv (gap (S p) i))%R (fun t => B U j p i t)); [auto_derive; [exact I|ring]|apply IH].
        * apply (dmult (fun t => (U (i + nn (S p) + 1)%Z - t) * rinv (gap (S p) (i + 1)))%R (fun t => B U j p (i + 1) t));
            [auto_derive; [exact I|ring]|apply IH].
      + pose proof (DB_key p i x) as K. cbn [DB]. rewrite nn_S, plus_IZR in *. lra.
  Qed.

  (** coefficients of the k-th derivative of N_{i,p} *)
  Fixpoint A (p : nat) (i : Z) (k : nat) (m : Z) : R :=
    match k with
    | O => if m =? 0 then 1%R else 0%R
    | S k' => ((A p i k' m - A p i k' (m - 1)) * rinv (gap (p - k') (i + m)))%R
    end.
  Lemma A_support p i k : forall m, ~ (0 <= m <= nn k) -> A p i k m = 0%R.
  Proof.
    induction k as [|k IH]; intros m H.
    - simpl. rewrite nn_0 in H. destruct (Z.eqb_spec m 0); [lia|reflexivity].
    - cbn [A]. rewrite nn_S in H. rewrite !IH by lia. ring.
  Qed.
  (** p (p-1) ... (p-k+1) *)
  Fixpoint ffact (p : nat) (k : nat) : R :=
    match k with O => 1%R | S k' => (ffact p k' * (IZR (nn p) - IZR (nn k')))%R end.
  Lemma ffact_over p k : (p < k)%nat -> ffact p k = 0%R.
  Proof.
    induction k as [|k IH]; intros H; [lia|]. cbn [ffact]. destruct (Nat.eq_dec p k) as [->|]; [ring|].
    rewrite IH by lia. ring.
  Qed.
  Definition DBk (p : nat) (i : Z) (k : nat) (x : R) : R :=
    (ffact p k * zsum 0 (nn k + 1) (fun m => A p i k m * B U j (p - k) (i + m) x))%R.
  Lemma DBk_0 p i x : DBk p i 0 x = B U j p i x.
  Proof.
    unfold DBk. rewrite nn_0, (zsum_one 0). cbn [ffact A]. rewrite Z.eqb_refl. replace (p - 0)%nat with p by lia.
    replace (i + 0) with i by lia. ring.
  Qed.
  Lemma zsum_derive lo hi (f df : Z -> R -> R) x : (forall m, lo <= m < hi -> is_derive (f m) x (df m x)) ->
    is_derive (fun t => zsum lo hi (fun m => f m t)) x (zsum lo hi (fun m => df m x)).
  Proof.
    intros H. destruct (Z_le_gt_dec hi lo) as [L|L].
    - rewrite zsum_empty by lia. apply (is_derive_ext (fun _ => 0%R)); [intros; rewrite zsum_empty by lia; reflexivity|].
      apply dconst.
    - assert (forall n : nat, lo + nn n <= hi -> is_derive (fun t => zsum lo (lo + nn n) (fun m => f m t)) x (zsum lo (lo + nn n) (fun m => df m x))) as G.
      { induction n as [|n IH]; intros Hn.
        - rewrite nn_0, zsum_empty by lia. apply (is_derive_ext (fun _ => 0%R)); [intros; rewrite zsum_empty by lia; reflexivity|].
          apply dconst.
        - rewrite nn_S in *. pose proof (nn_nonneg n). replace (lo + (nn n + 1)) with (lo + nn n + 1) by lia.
          rewrite zsum_last' by lia. apply (is_derive_ext (fun t => zsum lo (lo + nn n) (fun m => f m t) + f (lo + nn n)%Z t)%R);
            [intros; rewrite zsum_last' by lia; reflexivity|].
          apply dplus; [apply IH; lia|apply H; lia]. }
      specialize (G (Z.to_nat (hi - lo))). replace (lo + nn (Z.to_nat (hi - lo))) with hi in G by (unfold nn; lia). apply G. lia.
  Qed.
  Lemma DBk_derive p i k x : is_derive (fun t => DBk p i k t) x (DBk p i (S k) x).
  Proof.
    destruct (le_lt_dec k p) as [L|L].
    - assert (DBk p i (S k) x = (ffact p k * zsum 0 (nn k + 1) (fun m => A p i k m * DB (p - k) (i + m) x))%R) as ->.
      { unfold DBk. cbn [ffact]. destruct (p - k)%nat as [|q] eqn:Eq.
        - assert (p = k) as -> by lia. cbn [DB]. rewrite (zsum_zero 0 (nn k + 1)) by (intros; ring). ring.
        - replace (p - S k)%nat with q by lia. cbn [DB]. assert (IZR (nn p) - IZR (nn k) = IZR (nn (S q)))%R as ->.
          { rewrite <- minus_IZR. f_equal. unfold nn. lia. }
          rewrite Rmult_assoc. f_equal. rewrite <- zsum_scale.
          pose proof (nn_nonneg k).
          (* split the sum over a_{k,m} - a_{k,m-1} *)
          transitivity (zsum 0 (nn k + 2) (fun m => IZR (nn (S q)) * (A p i k m * (B U j q (i + m) x * rinv (gap (S q) (i + m)))))%R
            - zsum 0 (nn k + 2) (fun m => IZR (nn (S q)) * (A p i k (m - 1) * (B U j q (i + m) x * rinv (gap (S q) (i + m)))))%R)%R.
          + rewrite <- zsum_sub. rewrite nn_S. replace (nn k + 1 + 1) with (nn k + 2) by lia. apply zsum_ext. intros m Hm.
            cbn [A]. rewrite Eq. ring.
          + replace (nn k + 2) with (nn k + 1 + 1) by lia. rewrite zsum_last' by lia. rewrite (A_support p i k (nn k + 1)) by lia.
            rewrite (zsum_first 0 (nn k + 1 + 1)) by lia. rewrite (A_support p i k (0 - 1)) by lia.
            rewrite (zsum_shift (0 + 1) _ (-1)). replace (0 + 1 + -1) with 0 by lia. replace (nn k + 1 + 1 + -1) with (nn k + 1) by lia.
            rewrite <- (Rplus_0_r (zsum 0 (nn k + 1) (fun i0 => _ (nn (S q)) * (A p i k i0 * _))%R)) at 1.
            match goal with |- (?a + 0 + ?b - (?c + ?d) = ?e)%R => transitivity (a - d)%R; [ring|] end.
            rewrite <- zsum_sub. apply zsum_ext. intros m Hm. replace (m - -1 - 1) with m by lia.
            replace (i + (m - -1)) with (i + m + 1) by lia. ring. }
      unfold DBk. apply dscal.
      apply (zsum_derive 0 (nn k + 1) (fun m t => A p i k m * B U j (p - k) (i + m) t)%R (fun m t => A p i k m * DB (p - k) (i + m) t)%R).
      intros m Hm. apply dscal. apply B_derive.
    - assert (forall k t, (p < k)%nat -> DBk p i k t = 0%R) as Z0 by (intros; unfold DBk; rewrite ffact_over by assumption; ring).
      rewrite Z0 by lia. apply (is_derive_ext (fun _ => 0%R)); [intros; rewrite Z0 by lia; reflexivity|].
      apply dconst.
  Qed.
End Der.

(** a family of functions, each the derivative of the one before it, on an open set *)
Definition dfam (D : R -> Prop) (F : nat -> R -> R) : Prop := forall k t, D t -> is_derive (F k) t (F (S k) t).
Lemma dfam_n D F : open D -> dfam D F -> forall k t, D t -> is_derive_n (F 0%nat) k t (F k t).
Proof.
  intros O H. assert (forall k t, D t -> Derive_n (F 0%nat) k t = F k t) as G.
  { induction k as [|k IH]; intros t Dt; [reflexivity|]. simpl. rewrite (Derive_ext_loc _ (F k)).
    - apply is_derive_unique. apply H. exact Dt.
    - apply (filter_imp D); [intros; apply IH; assumption|]. apply O. exact Dt. }
  intros k t Dt. destruct k as [|k]; [reflexivity|]. simpl. apply (is_derive_ext_loc (F k)); [|apply H; exact Dt].
  apply (filter_imp D); [intros; symmetry; apply G; assumption|]. apply O. exact Dt.
Qed.
