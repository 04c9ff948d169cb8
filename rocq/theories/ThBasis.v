(** BSplineBasis::Evaluate computes the Cox-de Boor basis (exact arithmetic). *)
From Coq Require Import Reals ZArith List Lra Lia Bool.
From Verif Require Import Outcome Num ModelCore ModelBasis SpecCore SpecBasis ThOutcome ThReal ThKnots ThVec ThSum ThSpline.
Import ListNotations.
Open Scope Z_scope.

(** ** the knot function of a knot list *)
Lemma vget_kf l i : 0 <= i < len l -> vget l i = Ok (kf l i).
Proof. intros. apply (vget_ok 1%R). assumption. Qed.
Lemma kf_at l i : 0 <= i < len l -> kf l i = at_ l i.
Proof. intros. apply (znth_indep 1%R 0%R). assumption. Qed.
Lemma kf_high l i : len l <= i -> kf l i = 1%R.
Proof. intros. apply (znth_default 1%R). assumption. Qed.
Lemma kf_low l i : i <= 0 -> kf l i = kf l 0.
Proof. intros. unfold kf. replace (Z.to_nat i) with (Z.to_nat 0) by lia. reflexivity. Qed.

Lemma kf_le1 l : nondecreasing l -> at_ l (len l - 1) = 1%R -> forall i, (kf l i <= 1)%R.
Proof.
  intros S E i. destruct (Z_lt_le_dec i (len l)) as [L|L]; [|rewrite kf_high by assumption; lra].
  destruct (Z_lt_le_dec i 0) as [L0|L0].
  - rewrite kf_low by lia. destruct (Z.eq_dec (len l) 0) as [E0|E0]; [rewrite kf_high by lia; lra|].
    pose proof (len_nonneg l). rewrite kf_at by lia. rewrite <- E. apply S; lia.
  - rewrite kf_at by lia. rewrite <- E. apply S; lia.
Qed.
Lemma kf_mono l : nondecreasing l -> at_ l (len l - 1) = 1%R -> mono (kf l).
Proof.
  intros S E i j Hij. destruct (Z_lt_le_dec j (len l)) as [L|L]; [|rewrite (kf_high l j) by assumption; apply kf_le1; assumption].
  destruct (Z_lt_le_dec j 0) as [L0|L0]; [rewrite (kf_low l i), (kf_low l j) by lia; lra|].
  destruct (Z_lt_le_dec i 0) as [L1|L1].
  - rewrite (kf_low l i) by lia. rewrite !kf_at by lia. apply S; lia.
  - rewrite !kf_at by lia. apply S; lia.
Qed.

Lemma clamped_mono p l : clamped p l -> mono (kf l).
Proof. intros C. destruct C. apply kf_mono; auto. apply cl_one; lia. Qed.
Lemma clamped_le1 p l : clamped p l -> forall i, (kf l i <= 1)%R.
Proof. intros C. destruct C. apply kf_le1; auto. apply cl_one; lia. Qed.
Lemma in_span_span_at l i u : 0 <= i < len l - 1 -> in_span l i u -> span_at (kf l) i u.
Proof. intros Hi H. unfold in_span, span_at in *. rewrite !kf_at by lia. lra. Qed.
Lemma clamped_span p l u : clamped p l -> (0 <= u <= 1)%R ->
  exists i, KnotVector_FindSpanIndex l p u = Ok i /\ p <= i <= len l - p - 2 /\ span_at (kf l) i u.
Proof.
  intros C Hu. destruct (FindSpanIndex_R p l u C Hu) as [i [E [Hi Si]]]. exists i.
  split; [exact E|]. split; [exact Hi|]. destruct C. apply in_span_span_at; [lia|exact Si].
Qed.

(** ** Evaluate *)
Section Eval.
  Variables (l : list R) (i : Z) (x : R).
  Let U := kf l.
  Hypothesis M : mono U.
  Hypothesis Sp : (U i < U (i + 1)%Z)%R.

  (** first summand of B_{ii, j} *)
  Definition term1 (j : nat) (ii : Z) : R :=
    match j with O => 0%R | S q => (ratio (x - U ii) (U (ii + nn j)%Z - U ii) * B U i q ii x)%R end.

  Definition basis_lr (j : Z) (lft rgt : list R) : Prop :=
    (forall k, 1 <= k < j -> vget lft k = Ok (x - U (i + 1 - k)%Z)%R) /\
    (forall k, 1 <= k < j -> vget rgt k = Ok (U (i + k)%Z - x)%R).

  Lemma Basis_Evaluate_span p : nn p <= i -> i + nn p < len l ->
    exists res, Basis_Evaluate (nn p) l i x = Ok res /\ len res = nn p + 1 /\
      forall r, 0 <= r <= nn p -> vget res r = Ok (B U i p (i - nn p + r) x).
  Proof.
    intros Hp Hi. pose proof (nn_nonneg p) as P0. unfold Basis_Evaluate.
    destruct (vmake_spec (nn p + 1) (n0 : R)) as [result [E [Lr Gr]]]; [lia|]. rewrite E; cbn [bind]; clear E.
    destruct (vset_spec result 0 (n1 : R)) as [result1 [E [L1 [G1 _]]]]; [lia|]. rewrite E; cbn [bind]; clear E.
    edestruct (for_up_inv (fun j st => let '(result, lft, rgt) := st in
        len result = nn p + 1 /\ len lft = nn p + 1 /\ len rgt = nn p + 1 /\ basis_lr j lft rgt /\
        forall r, 0 <= r < j -> vget result r = Ok (B U i (Z.to_nat (j - 1)) (i - (j - 1) + r) x))
      1 (nn p + 1)) as [st [E Q]]; cycle 3.
    - rewrite E; cbn [bind]. destruct st as [[res lft] rgt]. destruct Q as [Q1 [Q2 [Q3 [Q4 Q5]]]].
      exists res. split; [reflexivity|]. split; [exact Q1|]. intros r Hr. rewrite Q5 by lia.
      do 2 f_equal; [unfold nn; lia|]. lia.
    - lia.
    - split; [lia|]. split; [lia|]. split; [lia|]. split; [split; intros; lia|].
      intros r Hr. assert (r = 0) as -> by lia. rewrite G1. replace (1 - 1) with 0 by lia. simpl.
      destruct (Z.eqb_spec (i - 0 + 0) i); [reflexivity|lia].
    - intros j [[res lft] rgt] Hj [Q1 [Q2 [Q3 [[Q4 Q5] Q6]]]].
      rewrite vget_kf by lia. cbn [bind].
      match goal with |- context [vset lft j ?a] => destruct (vset_spec lft j a) as [lft' [E [L' [G2 G3]]]] end; [lia|].
      rewrite E; cbn [bind]; clear E. rewrite vget_kf by lia. cbn [bind].
      match goal with |- context [vset rgt j ?a] => destruct (vset_spec rgt j a) as [rgt' [E [L'' [G4 G5]]]] end; [lia|].
      rewrite E; cbn [bind]; clear E.
      assert (basis_lr (j + 1) lft' rgt') as [A1 A2].
      { split; intros k Hk; (destruct (Z.eq_dec k j) as [->|Ne]; [assumption|]).
        - rewrite G3 by lia. apply Q4; lia.
        - rewrite G5 by lia. apply Q5; lia. }
      assert (exists q, Z.to_nat j = S q /\ Z.to_nat (j - 1) = q /\ nn q = j - 1) as [q [Eq [Eq' Eq'']]].
      { exists (Z.to_nat (j - 1)). unfold nn. lia. }
      edestruct (for_up_inv (fun r st => let '(res, saved) := st in
          len res = nn p + 1 /\ saved = term1 (Z.to_nat j) (i - j + r) /\
          (forall r', 0 <= r' < r -> vget res r' = Ok (B U i (Z.to_nat j) (i - j + r') x)) /\
          (forall r', r <= r' < j -> vget res r' = Ok (B U i (Z.to_nat (j - 1)) (i - (j - 1) + r') x)))
        0 j) as [st [E Q]]; cycle 3.
      + rewrite E; cbn [bind]. destruct st as [res' saved]. destruct Q as [W1 [W2 [W3 W4]]].
        destruct (vset_spec res' j saved) as [res'' [E2 [L3 [G6 G7]]]]; [lia|]. rewrite E2; cbn [bind].
        eexists. split; [reflexivity|]. split; [lia|]. split; [lia|]. split; [lia|]. split; [split; assumption|].
        replace (j + 1 - 1) with j by lia. intros r Hr. destruct (Z.eq_dec r j) as [->|Ne].
        * rewrite G6, W2. f_equal. rewrite Eq. cbn [B term1].
          rewrite (B_support U i q (i - j + j + 1)) by lia. ring.
        * rewrite G7 by lia. apply W3; lia.
      + lia.
      + split; [lia|]. split.
        * norm_R. rewrite Eq. cbn [term1]. rewrite B_support by lia. ring.
        * split; [intros; lia|]. intros r' Hr'. apply Q6; lia.
      + intros r [res' saved] Hr [W1 [W2 [W3 W4]]].
        rewrite W4 by lia. cbn [bind]. rewrite A2 by lia. cbn [bind]. rewrite A1 by lia. cbn [bind].
        norm_R.
        replace (i + 1 - (j - r)) with (i - j + r + 1) by lia. replace (i + (r + 1)) with (i - j + r + j + 1) by lia.
        replace (i - (j - 1) + r) with (i - j + r + 1) by lia. set (ii := i - j + r).
        pose proof (den_pos U i M Sp (ii + 1) (ii + j + 1) ltac:(lia)) as D.
        replace (U (ii + j + 1)%Z - x + (x - U (ii + 1)%Z))%R with (U (ii + j + 1)%Z - U (ii + 1)%Z)%R by ring.
        rewrite Rdivo_ok by lra. cbn [bind].
        match goal with |- context [vset res' r ?a] => destruct (vset_spec res' r a) as [res'' [E2 [L3 [G6 G7]]]] end; [lia|].
        rewrite E2; cbn [bind]. eexists. split; [reflexivity|]. split; [lia|]. split; [|split].
        * rewrite Eq. cbn [term1]. replace (i - j + (r + 1)) with (ii + 1) by lia.
          rewrite nn_S, Eq''. replace (ii + 1 + (j - 1 + 1)) with (ii + j + 1) by lia.
          rewrite ratio_ok by lra. rewrite Eq'. field. lra.
        * intros r' Hr'. destruct (Z.eq_dec r' r) as [->|Ne].
          -- rewrite G6. f_equal. fold ii. rewrite W2. fold ii. rewrite Eq. cbn [B term1].
             rewrite nn_S, Eq''. replace (ii + (j - 1 + 1) + 1) with (ii + j + 1) by lia.
             rewrite (ratio_ok (U (ii + j + 1)%Z - x)) by lra. rewrite Eq'. field. lra.
          -- rewrite G7 by lia. apply W3; lia.
        * intros r' Hr'. rewrite G7 by lia. apply W4; lia.
  Qed.
End Eval.

(** ** in terms of the Cox-de Boor functions *)
Lemma nn_of p : 0 <= p -> nn (Z.to_nat p) = p.
Proof. unfold nn. lia. Qed.

Lemma Basis_Evaluate_N p l x : clamped p l -> (0 <= x <= 1)%R ->
  exists i res, KnotVector_FindSpanIndex l p x = Ok i /\ Basis_Evaluate_kv p l x = Ok res /\
    Basis_Evaluate p l i x = Ok res /\
    p <= i <= len l - p - 2 /\ span_at (kf l) i x /\ len res = p + 1 /\
    (forall r, 0 <= r <= p -> vget res r = Ok (N (kf l) (Z.to_nat p) (i - p + r) x)) /\
    (forall k, ~ (i - p <= k <= i) -> N (kf l) (Z.to_nat p) k x = 0%R).
Proof.
  intros C Hx. destruct (clamped_span p l x C Hx) as [i [E [Hi Si]]].
  pose proof (clamped_mono p l C) as M. pose proof (clamped_le1 p l C) as L1.
  pose proof (cl_degree p l C) as P0.
  destruct (Basis_Evaluate_span l i x M (span_nonempty _ _ _ Si) (Z.to_nat p)) as [res [Er [Lr Gr]]];
    [rewrite nn_of by lia; lia|rewrite nn_of by lia; lia|]. rewrite nn_of in * by lia.
  exists i, res. split; [exact E|]. split; [unfold Basis_Evaluate_kv; rewrite E; exact Er|]. split; [exact Er|].
  split; [exact Hi|]. split; [exact Si|]. split; [exact Lr|]. split.
  - intros r Hr. rewrite Gr by lia. rewrite (N_local _ _ _ M L1 Si). reflexivity.
  - intros k Hk. rewrite (N_local _ _ _ M L1 Si). apply B_support. rewrite nn_of by lia. lia.
Qed.
