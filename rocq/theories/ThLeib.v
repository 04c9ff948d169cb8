(** Derivatives of quotients by the Leibniz recurrence. *)
From Coq Require Import Reals ZArith List Lra Lia Bool.
From Coquelicot Require Import Coquelicot.
From Verif Require Import Outcome Num ModelCore ModelCurve SpecCore SpecBasis SpecCurve SpecDeriv ThOutcome ThMath ThSum ThDeriv.
Import ListNotations.
Open Scope Z_scope.

Lemma piece_interior f a b k x v : piece_derivative f a b k x v -> (a < x < b)%R -> is_derive_n f k x v.
Proof.
  intros [F [H1 [H2 <-]]] Hx.
  assert (open (fun t => a < t < b)%R) as O by (apply open_and; [apply open_gt|apply open_lt]).
  apply (is_derive_n_ext_loc (F 0%nat)).
  - apply (filter_imp (fun t => a < t < b)%R); [intros; symmetry; apply H1; assumption|]. apply O. exact Hx.
  - apply (dfam_n (fun t => a < t < b)%R F O); [|exact Hx]. intros n t Ht. apply H2. lra.
Qed.
Lemma piece_interior3 f a b k x v : piece_derivative3 f a b k x v -> (a < x < b)%R -> is_derive_n3 f k x v.
Proof. intros [H1 [H2 H3]] Hx. repeat split; eapply piece_interior; eassumption. Qed.
Lemma piece_partial_interior f a b c d k l u v r : piece_partial f a b c d k l u v r -> (a < u < b)%R -> (c < v < d)%R ->
  is_partial f k l u v r.
Proof.
  intros [F [H1 [H2 <-]]] Hu Hv. unfold is_partial.
  assert (open (fun t => a < t < b)%R) as O by (apply open_and; [apply open_gt|apply open_lt]).
  apply (is_derive_n_ext_loc (fun s => F 0%nat l s v)).
  - apply (filter_imp (fun t => a < t < b)%R); [|apply O; exact Hu]. intros s Hs. symmetry.
    apply is_derive_n_unique. apply (piece_interior _ c d).
    + exists (fun n t => F 0%nat n s t). split; [intros; apply H1; assumption|]. split; [|reflexivity].
      intros n t Ht. apply H2; lra.
    + exact Hv.
  - apply (dfam_n (fun t => a < t < b)%R (fun m s => F m l s v) O); [|exact Hu]. intros n t Ht. apply H2; lra.
Qed.
Lemma piece_partial_interior3 f a b c d k l u v r : piece_partial3 f a b c d k l u v r -> (a < u < b)%R -> (c < v < d)%R ->
  is_partial3 f k l u v r.
Proof. intros [H1 [H2 H3]] Hu Hv. repeat split; eapply piece_partial_interior; eassumption. Qed.

Definition ch (n k : Z) : R := IZR (choose (Z.to_nat n) (Z.to_nat k)).
Lemma ch_0 n : ch n 0 = 1%R.
Proof. unfold ch. change (Z.to_nat 0) with O. rewrite choose_0_r. reflexivity. Qed.
Lemma ch_over n k : 0 <= n < k -> ch n k = 0%R.
Proof. intros. unfold ch. rewrite choose_zero by lia. reflexivity. Qed.
Lemma ch_pascal n k : 0 <= n -> 1 <= k -> ch (n + 1) k = (ch n k + ch n (k - 1))%R.
Proof.
  intros Hn Hk. unfold ch. replace (Z.to_nat (n + 1)) with (S (Z.to_nat n)) by lia.
  replace (Z.to_nat k) with (S (Z.to_nat (k - 1))) by lia. cbn [choose]. rewrite plus_IZR. apply Rplus_comm.
Qed.
Lemma pascal_sum k (f : Z -> Z -> R) : 0 <= k ->
  zsum 0 (k + 1 + 1) (fun i => ch (k + 1) i * f i (k + 1 - i)%Z)%R =
  zsum 0 (k + 1) (fun i => ch k i * (f (i + 1)%Z (k - i)%Z + f i (k - i + 1)%Z))%R.
Proof.
  intros Hk. rewrite (zsum_ext 0 (k + 1) _ (fun i => ch k i * f (i + 1)%Z (k - i)%Z + ch k i * f i (k - i + 1)%Z)%R) by (intros; ring).
  rewrite zsum_add. rewrite zsum_first by lia. rewrite ch_0.
  rewrite (zsum_ext (0 + 1) _ _ (fun i => ch k (i - 1) * f i (k + 1 - i)%Z + ch k i * f i (k + 1 - i)%Z)%R)
    by (intros; rewrite ch_pascal by lia; ring).
  rewrite zsum_add.
  rewrite (zsum_shift 0 (k + 1) 1 (fun i => ch k i * f (i + 1)%Z (k - i)%Z)%R).
  rewrite (zsum_ext (0 + 1) (k + 1 + 1) (fun i => ch k (i - 1) * _)%R (fun i => ch k (i - 1) * f (i - 1 + 1)%Z (k - (i - 1))%Z)%R)
    by (intros i Hi; replace (i - 1 + 1) with i by lia; replace (k - (i - 1)) with (k + 1 - i) by lia; reflexivity).
  rewrite (zsum_last' (0 + 1) (k + 1) (fun i => ch k i * _)%R) by lia. rewrite ch_over by lia.
  rewrite (zsum_first 0 (k + 1) (fun i => ch k i * f i (k - i + 1)%Z)%R) by lia. rewrite ch_0.
  rewrite (zsum_ext (0 + 1) (k + 1) (fun i => ch k i * f i (k + 1 - i)%Z)%R (fun i => ch k i * f i (k - i + 1)%Z)%R)
    by (intros i Hi; replace (k - i + 1) with (k + 1 - i) by lia; reflexivity).
  replace (k + 1 - 0) with (k - 0 + 1) by lia. ring.
Qed.

(** double binomial sum *)
Definition bsum (k l : Z) (G : Z -> Z -> R) : R :=
  zsum 0 (l + 1) (fun j => ch l j * zsum 0 (k + 1) (fun i => ch k i * G i j))%R.
Definition off (i j : Z) : R := if (i =? 0) && (j =? 0) then 0%R else 1%R.
Lemma off_00 : off 0 0 = 0%R. Proof. reflexivity. Qed.
Lemma off_ij i j : i <> 0 \/ j <> 0 -> off i j = 1%R.
Proof. intros. unfold off. destruct (Z.eqb_spec i 0), (Z.eqb_spec j 0); simpl; try reflexivity. lia. Qed.
Lemma bsum_ext k l G H : (forall i j, 0 <= i <= k -> 0 <= j <= l -> G i j = H i j) -> bsum k l G = bsum k l H.
Proof. intros E. apply zsum_ext. intros j Hj. f_equal. apply zsum_ext. intros i Hi. rewrite E by lia. reflexivity. Qed.
Lemma bsum_add k l G H : bsum k l (fun i j => G i j + H i j)%R = (bsum k l G + bsum k l H)%R.
Proof.
  unfold bsum. rewrite <- zsum_add. apply zsum_ext. intros j Hj. rewrite <- Rmult_plus_distr_l. f_equal.
  rewrite <- zsum_add. apply zsum_ext. intros; ring.
Qed.
Lemma bsum_one k l g : 0 <= k -> 0 <= l -> bsum k l (fun i j => (1 - off i j) * g i j)%R = g 0 0.
Proof.
  intros Hk Hl. unfold bsum. rewrite (zsum_delta 0 (l + 1) 0); [|lia|].
  - rewrite (zsum_delta 0 (k + 1) 0); [|lia|].
    + rewrite !ch_0, off_00. ring.
    + intros i Hi Ne. rewrite off_ij by lia. ring.
  - intros j Hj Ne. rewrite zsum_zero; [ring|]. intros i Hi. rewrite off_ij by lia. ring.
Qed.
Lemma bsum_off k l G : 0 <= k -> 0 <= l -> bsum k l G = (G 0%Z 0%Z + bsum k l (fun i j => off i j * G i j))%R.
Proof.
  intros Hk Hl. rewrite <- (bsum_one k l G Hk Hl), <- bsum_add. apply bsum_ext. intros; ring.
Qed.
Lemma bsum_swap k l G : bsum k l G = bsum l k (fun j i => G i j).
Proof.
  unfold bsum. rewrite (zsum_ext _ _ _ (fun j => zsum 0 (k + 1) (fun i => ch l j * (ch k i * G i j)))%R) by (intros; rewrite zsum_scale; reflexivity).
  rewrite zsum_swap. apply zsum_ext. intros i Hi. rewrite <- zsum_scale. apply zsum_ext. intros; ring.
Qed.
Lemma bsum_pascal k l (f : Z -> Z -> Z -> R) : 0 <= k ->
  bsum (k + 1) l (fun i j => f j i (k + 1 - i)%Z) = bsum k l (fun i j => f j (i + 1)%Z (k - i)%Z + f j i (k - i + 1)%Z)%R.
Proof. intros Hk. apply zsum_ext. intros j Hj. f_equal. apply (pascal_sum k (f j) Hk). Qed.
Lemma bsum_derive k l (G dG : Z -> Z -> R -> R) x : (forall i j, 0 <= i <= k -> 0 <= j <= l -> is_derive (G i j) x (dG i j x)) ->
  is_derive (fun t => bsum k l (fun i j => G i j t)) x (bsum k l (fun i j => dG i j x)).
Proof.
  intros H. apply (zsum_derive 0 (l + 1) (fun j t => ch l j * zsum 0 (k + 1) (fun i => ch k i * G i j t))%R
    (fun j t => ch l j * zsum 0 (k + 1) (fun i => ch k i * dG i j t))%R). intros j Hj. apply dscal.
  apply (zsum_derive 0 (k + 1) (fun i t => ch k i * G i j t)%R (fun i t => ch k i * dG i j t)%R). intros i Hi. apply dscal.
  apply H; lia.
Qed.

Section Leib.
  Variable D : R -> Prop.
  Hypothesis O : open D.
  Variables A w q : Z -> Z -> R -> R.
  Hypothesis dA : forall k l t, 0 <= k -> 0 <= l -> D t -> is_derive (A k l) t (A (k + 1) l t).
  Hypothesis dw : forall k l t, 0 <= k -> 0 <= l -> D t -> is_derive (w k l) t (w (k + 1) l t).
  Hypothesis w0 : forall t, D t -> w 0 0 t <> 0%R.
  Hypothesis leib : forall k l t, 0 <= k -> 0 <= l -> D t -> bsum k l (fun i j => w i j t * q (k - i) (l - j) t)%R = A k l t.

  Lemma q_eq k l t : 0 <= k -> 0 <= l -> D t ->
    q k l t = ((A k l t - bsum k l (fun i j => off i j * (w i j t * q (k - i) (l - j) t))) / w 0 0 t)%R.
  Proof.
    intros Hk Hl Dt. pose proof (leib k l t Hk Hl Dt) as L. rewrite bsum_off in L by assumption. rewrite !Z.sub_0_r in L.
    rewrite <- L. field. apply w0. exact Dt.
  Qed.
  Lemma dplus_sub (f g : R -> R) (x a b : R) : is_derive f x a -> is_derive g x b -> is_derive (fun t => f t - g t)%R x (a - b)%R.
  Proof. intros H K. exact (is_derive_minus f g x a b H K). Qed.
  Lemma q_derive n : forall k l t, k + l < n -> 0 <= k -> 0 <= l -> D t -> is_derive (q k l) t (q (k + 1) l t).
  Proof.
    destruct (Z_le_gt_dec n 0) as [L|L]; [intros; lia|]. replace n with (Z.of_nat (Z.to_nat n)) by lia. clear L.
    induction (Z.to_nat n) as [|m IH]; intros k l t Hn Hk Hl Dt; [lia|].
    apply (is_derive_ext_loc (fun t => (A k l t - bsum k l (fun i j => off i j * (w i j t * q (k - i) (l - j) t))) / w 0 0 t)%R).
    { apply (filter_imp D); [|apply O; exact Dt]. intros s Ds. symmetry. apply q_eq; assumption. }
    set (E' := bsum k l (fun i j => off i j * (w (i + 1)%Z j t * q (k - i)%Z (l - j)%Z t + w i j t * q (k - i + 1)%Z (l - j)%Z t))%R).
    assert (is_derive (fun t => A k l t - bsum k l (fun i j => off i j * (w i j t * q (k - i)%Z (l - j)%Z t)))%R t (A (k + 1)%Z l t - E')%R) as Num.
    { apply dplus_sub; [apply dA; assumption|].
      apply (bsum_derive k l (fun i j t => off i j * (w i j t * q (k - i)%Z (l - j)%Z t))%R
        (fun i j t => off i j * (w (i + 1)%Z j t * q (k - i)%Z (l - j)%Z t + w i j t * q (k - i + 1)%Z (l - j)%Z t))%R).
      intros i j Hi Hj. destruct (Z.eq_dec i 0) as [Ei|Ei]; [destruct (Z.eq_dec j 0) as [Ej|Ej]|].
      - subst. rewrite off_00. apply (is_derive_ext (fun _ => 0%R)); [intros; symmetry; apply Rmult_0_l|]. rewrite Rmult_0_l. apply dconst.
      - apply dscal. apply dmult; [apply dw; try lia; assumption|]. apply IH; try lia. assumption.
      - apply dscal. apply dmult; [apply dw; try lia; assumption|]. apply IH; try lia. assumption. }
    assert (is_derive (w 0 0) t (w 1 0 t)) as Den by (apply (dw 0 0); [lia|lia|assumption]).
    pose proof (is_derive_div _ _ t _ _ Num Den (w0 t Dt)) as Q.
    replace (q (k + 1) l t) with (((A (k + 1)%Z l t - E') * w 0 0 t - (A k l t - bsum k l (fun i j => off i j * (w i j t * q (k - i)%Z (l - j)%Z t))) * w 1 0 t) / w 0 0 t ^ 2)%R; [exact Q|].
    assert ((A k l t - bsum k l (fun i j => off i j * (w i j t * q (k - i)%Z (l - j)%Z t)))%R = (q k l t * w 0 0 t)%R) as ->.
    { pose proof (leib k l t Hk Hl Dt) as L. rewrite bsum_off in L by assumption. rewrite !Z.sub_0_r in L. rewrite <- L. ring. }
    assert (A (k + 1)%Z l t = w 1 0 t * q k l t + w 0 0 t * q (k + 1)%Z l t + E')%R as ->.
    { rewrite <- (leib (k + 1) l t) by (try lia; assumption).
      rewrite (bsum_pascal k l (fun j i m => w i j t * q m (l - j)%Z t)%R) by assumption.
      rewrite bsum_off by assumption. fold E'. replace (k - 0) with k by lia. replace (l - 0) with l by lia. reflexivity. }
    field. apply w0. exact Dt.
  Qed.
  Lemma q_dfam k l t : 0 <= k -> 0 <= l -> D t -> is_derive (q k l) t (q (k + 1) l t).
  Proof. intros. apply (q_derive (k + l + 1)); try lia. assumption. Qed.
End Leib.

(** the quotient family *)
Fixpoint qf (A w : Z -> Z -> R) (n : nat) (k l : Z) : R :=
  match n with
  | O => 0%R
  | S n' => ((A k l - bsum k l (fun i j => off i j * (w i j * qf A w n' (k - i) (l - j)))) / w 0%Z 0%Z)%R
  end.
Lemma qf_stable A w n : forall m k l, 0 <= k -> 0 <= l -> k + l < Z.of_nat n -> k + l < Z.of_nat m -> qf A w n k l = qf A w m k l.
Proof.
  induction n as [|n IH]; intros [|m] k l Hk Hl Hn Hm; try lia. cbn [qf]. do 2 f_equal. apply bsum_ext. intros i j Hi Hj.
  destruct (Z.eq_dec i 0) as [Ei|Ei]; [destruct (Z.eq_dec j 0) as [Ej|Ej]|].
  - subst. rewrite off_00. ring.
  - do 2 f_equal. apply IH; lia.
  - do 2 f_equal. apply IH; lia.
Qed.
Definition quo (A w : Z -> Z -> R) (k l : Z) : R := qf A w (Z.to_nat (k + l + 1)) k l.
Lemma quo_eq A w k l : 0 <= k -> 0 <= l ->
  quo A w k l = ((A k l - bsum k l (fun i j => off i j * (w i j * quo A w (k - i) (l - j)))) / w 0%Z 0%Z)%R.
Proof.
  intros Hk Hl. unfold quo at 1. replace (Z.to_nat (k + l + 1)) with (S (Z.to_nat (k + l))) by lia. cbn [qf]. do 2 f_equal.
  apply bsum_ext. intros i j Hi Hj.
  destruct (Z.eq_dec i 0) as [Ei|Ei]; [destruct (Z.eq_dec j 0) as [Ej|Ej]|].
  - subst. rewrite off_00. ring.
  - do 2 f_equal. unfold quo. apply qf_stable; lia.
  - do 2 f_equal. unfold quo. apply qf_stable; lia.
Qed.
Lemma quo_leib A w k l : 0 <= k -> 0 <= l -> w 0 0 <> 0%R -> bsum k l (fun i j => w i j * quo A w (k - i) (l - j))%R = A k l.
Proof.
  intros Hk Hl W. rewrite bsum_off by assumption. rewrite !Z.sub_0_r. rewrite (quo_eq A w k l) by assumption. field. exact W.
Qed.
Lemma quo_00 A w : quo A w 0 0 = (A 0%Z 0%Z / w 0%Z 0%Z)%R.
Proof.
  rewrite quo_eq by lia. f_equal. unfold bsum. rewrite (zsum_one 0), (zsum_one 0), off_00. ring.
Qed.

(** partial derivatives of the quotient family *)
Section Partial.
  Variables A w : Z -> Z -> R -> R -> R.
  Hypothesis dAu : forall k l u v, 0 <= k -> 0 <= l -> is_derive (fun u => A k l u v) u (A (k + 1) l u v).
  Hypothesis dAv : forall k l u v, 0 <= k -> 0 <= l -> is_derive (fun v => A k l u v) v (A k (l + 1) u v).
  Hypothesis dwu : forall k l u v, 0 <= k -> 0 <= l -> is_derive (fun u => w k l u v) u (w (k + 1) l u v).
  Hypothesis dwv : forall k l u v, 0 <= k -> 0 <= l -> is_derive (fun v => w k l u v) v (w k (l + 1) u v).

  Definition quo2 (k l : Z) (u v : R) : R := quo (fun i j => A i j u v) (fun i j => w i j u v) k l.
  Lemma nonzero_open f df : (forall t : R, is_derive f t (df t)) -> open (fun t => f t <> 0%R).
  Proof.
    intros H. apply (open_comp f (fun y => y <> 0%R)); [|apply open_neq]. intros t _. apply (ex_derive_continuous f).
    exists (df t). apply H.
  Qed.
  Lemma quo2_du k l u v : 0 <= k -> 0 <= l -> w 0 0 u v <> 0%R -> is_derive (fun u => quo2 k l u v) u (quo2 (k + 1) l u v).
  Proof.
    intros Hk Hl W. apply (q_dfam (fun u => w 0 0 u v <> 0%R) (nonzero_open _ (fun u => w 1 0 u v) (fun t => dwu 0 0 t v ltac:(lia) ltac:(lia)))
      (fun i j u => A i j u v) (fun i j u => w i j u v) (fun i j u => quo2 i j u v)); try assumption.
    - intros; apply dAu; assumption.
    - intros; apply dwu; assumption.
    - intros; assumption.
    - intros. apply (quo_leib (fun i j => A i j t v) (fun i j => w i j t v)); assumption.
  Qed.
  Lemma quo2_dv k l u v : 0 <= k -> 0 <= l -> w 0 0 u v <> 0%R -> is_derive (fun v => quo2 k l u v) v (quo2 k (l + 1) u v).
  Proof.
    intros Hk Hl W. apply (q_dfam (fun v => w 0 0 u v <> 0%R) (nonzero_open _ (fun v => w 0 1 u v) (fun t => dwv 0 0 u t ltac:(lia) ltac:(lia)))
      (fun j i v => A i j u v) (fun j i v => w i j u v) (fun j i v => quo2 i j u v)); try assumption.
    - intros; apply dAv; assumption.
    - intros; apply dwv; assumption.
    - intros; assumption.
    - intros. rewrite bsum_swap. apply (quo_leib (fun i j => A i j u t) (fun i j => w i j u t)); assumption.
  Qed.
End Partial.
