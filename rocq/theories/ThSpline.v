(** Mathematics of B-splines: local polynomial basis, polar forms (blossoms). *)
From Coq Require Import Reals ZArith List Lra Lia Permutation.
From Verif Require Import Outcome ThOutcome SpecBasis ThSum.
Import ListNotations.
Open Scope Z_scope.

Definition mono (U : Z -> R) : Prop := forall i j, i <= j -> (U i <= U j)%R.
Definition nn (p : nat) : Z := Z.of_nat p.
Lemma nn_S p : nn (S p) = nn p + 1. Proof. unfold nn. lia. Qed.
Lemma nn_0 : nn 0 = 0. Proof. reflexivity. Qed.
Lemma nn_nonneg p : 0 <= nn p. Proof. unfold nn. lia. Qed.
#[global] Arguments nn : simpl never.

Lemma ratio_ok a b : b <> 0%R -> ratio a b = (a / b)%R.
Proof. unfold ratio. destruct (Req_EM_T b 0); congruence. Qed.
Lemma ratio_0 b : ratio 0 b = 0%R.
Proof. unfold ratio. destruct (Req_EM_T b 0); [reflexivity|]. unfold Rdiv. ring. Qed.

(** The parameter [x] lies in the (non-empty) span [j]. *)
Definition span_at (U : Z -> R) (j : Z) (x : R) : Prop :=
  ((U j <= x < U (j + 1)%Z) \/ (x = 1 /\ U j < 1 /\ U (j + 1)%Z = 1))%R.
Lemma span_nonempty U j x : span_at U j x -> (U j < U (j + 1)%Z)%R.
Proof. intros [H|H]; lra. Qed.
Lemma span_bounds U j x : span_at U j x -> (U j <= x <= U (j + 1)%Z)%R.
Proof. intros [H|H]; lra. Qed.

(** The basis functions restricted to span [j], as polynomials. *)
Fixpoint B (U : Z -> R) (j : Z) (p : nat) (i : Z) (x : R) : R :=
  match p with
  | O => if i =? j then 1%R else 0%R
  | S q =>
      (ratio (x - U i) (U (i + nn p)%Z - U i) * B U j q i x +
       ratio (U (i + nn p + 1)%Z - x) (U (i + nn p + 1)%Z - U (i + 1)%Z) * B U j q (i + 1)%Z x)%R
  end.

Lemma N_local U j x : mono U -> (forall i, (U i <= 1)%R) -> span_at U j x ->
  forall p i, N U p i x = B U j p i x.
Proof.
  intros M L S. induction p as [|p IH]; intros i.
  - simpl. unfold N0.
    assert (i <> j -> ~ span_at U i x) as F.
    { intros Ne Si. destruct (Z_lt_le_dec i j) as [Lt|Le].
      - pose proof (M (i + 1) j ltac:(lia)). pose proof (L (j + 1)). pose proof (L (i + 1)). destruct S as [S|S], Si as [Si|Si]; lra.
      - pose proof (M (j + 1) i ltac:(lia)). pose proof (L (j + 1)). pose proof (L (i + 1)). destruct S as [S|S], Si as [Si|Si]; lra. }
    unfold span_at in *.
    destruct (Z.eqb_spec i j) as [->|Ne].
    + repeat match goal with |- context [if ?d then _ else _] => destruct d end; lra.
    + specialize (F Ne). repeat match goal with |- context [if ?d then _ else _] => destruct d end; try reflexivity; exfalso; apply F; lra.
  - cbn [N B]. rewrite !IH. reflexivity.
Qed.

Lemma B_support U j p : forall i x, ~ (j - nn p <= i <= j) -> B U j p i x = 0%R.
Proof.
  induction p as [|p IH]; intros i x H.
  - simpl. destruct (Z.eqb_spec i j); [|reflexivity]. rewrite nn_0 in H. lia.
  - cbn [B]. rewrite nn_S in H. rewrite !IH by lia. ring.
Qed.

Section Blossom.
  Variables (U : Z -> R) (j : Z).
  Hypothesis M : mono U.
  Hypothesis Sp : (U j < U (j + 1)%Z)%R.

  Lemma den_pos a b : a <= j < b -> (0 < U b - U a)%R.
  Proof. intros H. pose proof (M a j ltac:(lia)). pose proof (M (j + 1) b ltac:(lia)). lra. Qed.

  (** one de Boor step *)
  Definition step (p : nat) (t : R) (P : Z -> R) (i : Z) : R :=
    (((U (i + nn p)%Z - t) * P (i - 1)%Z + (t - U i) * P i) / (U (i + nn p)%Z - U i))%R.
  (** the polar form of the polynomial piece with coefficients [P] *)
  Fixpoint bl (ts : list R) (P : Z -> R) : R :=
    match ts with [] => P j | t :: r => bl r (step (length ts) t P) end.

  Lemma step_ext p t P Q i : P (i - 1) = Q (i - 1) -> P i = Q i -> step p t P i = step p t Q i.
  Proof. unfold step. intros -> ->. reflexivity. Qed.
  Lemma bl_ext ts : forall P Q, (forall i, j - nn (length ts) <= i <= j -> P i = Q i) -> bl ts P = bl ts Q.
  Proof.
    induction ts as [|t ts IH]; intros P Q E; cbn [bl length] in *.
    - apply E. rewrite nn_0. lia.
    - apply IH. intros i Hi. rewrite nn_S in E. apply step_ext; apply E; lia.
  Qed.

  Lemma step_swap p s t P i : j - nn p < i <= j ->
    step p s (step (S p) t P) i = step p t (step (S p) s P) i.
  Proof.
    intros Hi. unfold step. rewrite !nn_S. replace (i - 1 + (nn p + 1)) with (i + nn p) by lia.
    replace (i + (nn p + 1)) with (i + nn p + 1) by lia.
    pose proof (den_pos i (i + nn p) ltac:(lia)). pose proof (den_pos (i - 1) (i + nn p) ltac:(lia)).
    pose proof (den_pos i (i + nn p + 1) ltac:(lia)).
    field. repeat split; lra.
  Qed.

  Lemma bl_perm ts ts' : Permutation ts ts' -> forall P, bl ts P = bl ts' P.
  Proof.
    induction 1 as [|t ts ts' Pe IH|s t ts|a b c P1 IH1 P2 IH2]; intros P.
    - reflexivity.
    - cbn [bl length]. rewrite (Permutation_length Pe). apply IH.
    - cbn [bl length]. apply bl_ext. intros i Hi. apply step_swap. rewrite nn_S. lia.
    - rewrite IH1. apply IH2.
  Qed.

  Lemma step_lin p t a b P Q i : step p t (fun i => a * P i + b * Q i)%R i = (a * step p t P i + b * step p t Q i)%R.
  Proof. unfold step, Rdiv. ring. Qed.
  Lemma bl_lin ts : forall a b P Q, bl ts (fun i => a * P i + b * Q i)%R = (a * bl ts P + b * bl ts Q)%R.
  Proof.
    induction ts as [|t ts IH]; intros a b P Q; cbn [bl]; [reflexivity|].
    rewrite <- IH. apply bl_ext. intros i Hi. apply step_lin.
  Qed.
  Lemma step_affine p a s t P i : (U (i + nn p)%Z - U i <> 0)%R ->
    step p ((1 - a) * s + a * t)%R P i = ((1 - a) * step p s P i + a * step p t P i)%R.
  Proof. intros D. unfold step. field. exact D. Qed.
  Lemma bl_affine a s t ts P :
    bl (((1 - a) * s + a * t)%R :: ts) P = ((1 - a) * bl (s :: ts) P + a * bl (t :: ts) P)%R.
  Proof.
    cbn [bl length]. rewrite <- bl_lin. apply bl_ext. intros i Hi.
    apply step_affine. pose proof (den_pos i (i + nn (S (length ts))) ltac:(rewrite nn_S; lia)). lra.
  Qed.

  (** consecutive knots U_{i+1}, ..., U_{i+n} *)
  Fixpoint run (i : Z) (n : nat) : list R :=
    match n with O => [] | S m => U (i + 1) :: run (i + 1) m end.
  Lemma run_length i n : length (run i n) = n.
  Proof. revert i. induction n; intros; simpl; auto. Qed.
  Lemma run_last i n : run i (S n) = run i n ++ [U (i + nn n + 1)].
  Proof.
    revert i. induction n as [|n IH]; intros i.
    - simpl. rewrite nn_0. do 2 f_equal. lia.
    - change (run i (S (S n))) with (U (i + 1) :: run (i + 1) (S n)). rewrite IH.
      simpl. rewrite nn_S. do 4 f_equal. lia.
  Qed.
  Lemma run_last_perm i n : Permutation (run i (S n)) (U (i + nn n + 1) :: run i n).
  Proof. rewrite run_last. symmetry. apply Permutation_cons_append. Qed.

  Lemma step_at_left p P i : (U (i + nn p)%Z - U i <> 0)%R -> step p (U i) P i = P (i - 1).
  Proof. intros D. unfold step. field. exact D. Qed.
  Lemma step_at_right p P i : (U (i + nn p)%Z - U i <> 0)%R -> step p (U (i + nn p)) P i = P i.
  Proof. intros D. unfold step. field. exact D. Qed.

  (** dual functional property: coefficients are blossom values at consecutive knots *)
  Lemma bl_dual p : forall i P, j - nn p <= i <= j -> bl (run i p) P = P i.
  Proof.
    induction p as [|p IH]; intros i P Hi.
    - rewrite nn_0 in Hi. simpl. f_equal. lia.
    - rewrite nn_S in Hi. destruct (Z.eq_dec i j) as [->|Ne].
      + rewrite (bl_perm _ _ (run_last_perm j p)). cbn [bl length]. rewrite run_length, IH by (pose proof (nn_nonneg p); lia).
        replace (j + nn p + 1) with (j + nn (S p)) by (rewrite nn_S; lia). apply step_at_right.
        pose proof (den_pos j (j + nn (S p)) ltac:(rewrite nn_S; pose proof (nn_nonneg p); lia)). lra.
      + change (run i (S p)) with (U (i + 1) :: run (i + 1) p). cbn [bl length]. rewrite run_length, IH by lia.
        rewrite step_at_left; [f_equal; lia|]. pose proof (den_pos (i + 1) (i + 1 + nn (S p)) ltac:(rewrite nn_S; pose proof (nn_nonneg p); lia)). lra.
  Qed.

  (** symmetric multi-affine functions of [p] arguments *)
  Definition sma (p : nat) (f : list R -> R) : Prop :=
    (forall ts ts', length ts = p -> Permutation ts ts' -> f ts = f ts') /\
    (forall a s t ts, S (length ts) = p ->
       f (((1 - a) * s + a * t)%R :: ts) = ((1 - a) * f (s :: ts) + a * f (t :: ts))%R).
  Lemma bl_sma p P : sma p (fun ts => bl ts P).
  Proof. split; intros; [apply bl_perm; assumption|apply bl_affine]. Qed.
  Lemma sma_tail p f t : sma (S p) f -> sma p (fun ts => f (t :: ts)).
  Proof.
    intros [H1 H2]. split.
    - intros ts ts' L Pe. apply H1; [simpl; lia|]. constructor; assumption.
    - intros a s u ts L.
      rewrite (H1 (t :: _ :: ts) (((1 - a) * s + a * u)%R :: t :: ts)) by (simpl; try lia; apply perm_swap).
      rewrite H2 by (simpl; lia).
      rewrite (H1 (s :: t :: ts) (t :: s :: ts)), (H1 (u :: t :: ts) (t :: u :: ts)) by (simpl; try lia; apply perm_swap).
      reflexivity.
  Qed.

  Lemma sma_step p f t P i : sma (S p) f -> (U (i + nn (S p))%Z - U i <> 0)%R ->
    f (run (i - 1) (S p)) = P (i - 1) -> f (run i (S p)) = P i ->
    f (t :: run i p) = step (S p) t P i.
  Proof.
    intros [H1 H2] D E1 E2. unfold step. rewrite <- E1, <- E2.
    change (run (i - 1) (S p)) with (U (i - 1 + 1) :: run (i - 1 + 1) p). replace (i - 1 + 1) with i by lia.
    rewrite (H1 (run i (S p)) (U (i + nn (S p)) :: run i p)).
    2: apply run_length.
    2:{ rewrite nn_S. replace (i + (nn p + 1)) with (i + nn p + 1) by lia. apply run_last_perm. }
    set (b := U (i + nn (S p))) in *. set (a := U i) in *.
    replace t with ((1 - (t - a) / (b - a)) * a + (t - a) / (b - a) * b)%R at 1 by (field; exact D).
    rewrite H2 by (rewrite run_length; reflexivity). field. exact D.
  Qed.

  (** a symmetric multi-affine function is determined by its values at consecutive knots *)
  Lemma bl_unique ts : forall f P, sma (length ts) f ->
    (forall i, j - nn (length ts) <= i <= j -> f (run i (length ts)) = P i) -> f ts = bl ts P.
  Proof.
    induction ts as [|t ts IH]; intros f P Sf E.
    - cbn [bl]. rewrite <- (E j) by (simpl; rewrite nn_0; lia). reflexivity.
    - cbn [bl length] in *. apply (IH (fun ts => f (t :: ts))); [apply sma_tail; assumption|].
      intros i Hi. apply sma_step; auto.
      + pose proof (den_pos i (i + nn (S (length ts))) ltac:(rewrite nn_S; lia)). lra.
      + apply E. rewrite nn_S. lia.
      + apply E. rewrite nn_S. lia.
  Qed.

  (** value of the polynomial piece *)
  Lemma B_step p x P : zsum (j - nn (S p)) (j + 1) (fun i => B U j (S p) i x * P i)%R
    = zsum (j - nn p) (j + 1) (fun i => B U j p i x * step (S p) x P i)%R.
  Proof.
    cbn [B].
    rewrite (zsum_ext _ _ _ (fun i => ratio (x - U i) (U (i + nn (S p))%Z - U i) * B U j p i x * P i +
        ratio (U (i + nn (S p) + 1)%Z - x) (U (i + nn (S p) + 1)%Z - U (i + 1)%Z) * B U j p (i + 1)%Z x * P i)%R)
      by (intros; ring).
    rewrite zsum_add. rewrite (zsum_shift _ _ 1 (fun i => ratio (U (i + nn (S p) + 1)%Z - x) _ * _ * _)%R).
    pose proof (nn_nonneg p).
    rewrite (zsum_support _ _ (j - nn p) (j + 1)); [|rewrite nn_S; lia|lia|lia|].
    2:{ intros i Hi Ho. rewrite B_support by lia. ring. }
    rewrite (zsum_support (j - nn (S p) + 1) _ (j - nn p) (j + 1)); [|rewrite nn_S; lia|lia|lia|].
    2:{ intros i Hi Ho. rewrite B_support by lia. ring. }
    rewrite <- zsum_add. apply zsum_ext. intros i Hi.
    replace (i - 1 + 1) with i by lia. replace (i - 1 + nn (S p) + 1) with (i + nn (S p)) by lia.
    pose proof (den_pos i (i + nn (S p)) ltac:(rewrite nn_S; lia)).
    rewrite !ratio_ok by lra. unfold step. field. lra.
  Qed.
  Lemma B_value p x : forall P, zsum (j - nn p) (j + 1) (fun i => B U j p i x * P i)%R = bl (repeat x p) P.
  Proof.
    induction p as [|p IH]; intros P.
    - simpl. rewrite nn_0. replace (j - 0) with j by lia. rewrite zsum_one. rewrite Z.eqb_refl. ring.
    - rewrite B_step, IH. simpl. rewrite repeat_length. reflexivity.
  Qed.
  Lemma bl_const ts c : bl ts (fun _ => c) = c.
  Proof.
    induction ts as [|t ts IH]; cbn [bl length]; [reflexivity|]. transitivity (bl ts (fun _ => c)); [|exact IH]. apply bl_ext. intros i Hi.
    unfold step. pose proof (den_pos i (i + nn (S (length ts))) ltac:(rewrite nn_S; lia)). field. lra.
  Qed.
  Lemma B_sum p x : zsum (j - nn p) (j + 1) (fun i => B U j p i x) = 1%R.
  Proof.
    rewrite <- (bl_const (repeat x p) 1), <- B_value. apply zsum_ext. intros; ring.
  Qed.
  Lemma B_nonneg p x : (U j <= x <= U (j + 1)%Z)%R -> forall i, (0 <= B U j p i x)%R.
  Proof.
    intros Hx. induction p as [|p IH]; intros i; cbn [B].
    - destruct (i =? j); lra.
    - apply Rplus_le_le_0_compat.
      + destruct (Z_le_dec i j) as [L|L]; [destruct (Z_le_dec (j - nn p) i) as [L'|L']|].
        * pose proof (den_pos i (i + nn (S p)) ltac:(rewrite nn_S; lia)). rewrite ratio_ok by lra.
          pose proof (M i j L). apply Rmult_le_pos; [|apply IH]. apply Rmult_le_pos; [lra|].
          apply Rlt_le, Rinv_0_lt_compat; lra.
        * rewrite B_support by lia. lra.
        * rewrite B_support by lia. lra.
      + destruct (Z_le_dec (i + 1) j) as [L|L]; [destruct (Z_le_dec (j - nn p) (i + 1)) as [L'|L']|].
        * pose proof (den_pos (i + 1) (i + nn (S p) + 1) ltac:(rewrite nn_S; lia)). rewrite ratio_ok by lra.
          pose proof (M (j + 1) (i + nn (S p) + 1) ltac:(rewrite nn_S; lia)). apply Rmult_le_pos; [|apply IH]. apply Rmult_le_pos; [lra|].
          apply Rlt_le, Rinv_0_lt_compat; lra.
        * rewrite B_support by lia. lra.
        * rewrite B_support by lia. lra.
  Qed.
End Blossom.
