(** Linear independence of B-splines: coefficients are determined by values. *)
From Coq Require Import Reals ZArith List Lra Lia Permutation.
From Coquelicot Require Import Coquelicot.
From Verif Require Import Outcome Num ModelCore ModelCurve SpecCore SpecBasis SpecCurve ThOutcome ThSum ThSpline ThBasis ThCurve ThInsert ThDeriv.
Import ListNotations.
Open Scope Z_scope.

Section Indep.
  Variables (U : Z -> R) (j : Z).
  Hypothesis M : mono U.
  Hypothesis Sp : (U j < U (j + 1)%Z)%R.
  Lemma DB_sum p x P : zsum (j - nn (S p)) (j + 1) (fun i => DB U j (S p) i x * P i)%R
    = zsum (j - nn p) (j + 1) (fun i => B U j p i x * (IZR (nn (S p)) * rinv (gap U (S p) i) * (P i - P (i - 1)%Z)))%R.
  Proof.
    pose proof (nn_nonneg p).
    rewrite (zsum_ext _ _ _ (fun i => IZR (nn (S p)) * (B U j p i x * rinv (gap U (S p) i)) * P i +
      (- (IZR (nn (S p)) * (B U j p (i + 1) x * rinv (gap U (S p) (i + 1))) * P i)))%R) by (intros; cbn [DB]; ring).
    rewrite zsum_add. rewrite (zsum_shift _ _ 1 (fun i => - _)%R).
    rewrite (zsum_support _ _ (j - nn p) (j + 1)); [|rewrite nn_S; lia|lia|lia|].
    2:{ intros i Hi Ho. rewrite B_support by lia. ring. }
    rewrite (zsum_support (j - nn (S p) + 1) _ (j - nn p) (j + 1)); [|rewrite nn_S; lia|lia|lia|].
    2:{ intros i Hi Ho. rewrite B_support by lia. ring. }
    rewrite <- zsum_add. apply zsum_ext. intros i Hi. replace (i - 1 + 1) with i by lia. ring.
  Qed.
  Lemma B_indep p : forall P, (forall x, (U j < x < U (j + 1)%Z)%R -> zsum (j - nn p) (j + 1) (fun i => B U j p i x * P i)%R = 0%R) ->
    forall i, j - nn p <= i <= j -> P i = 0%R.
  Proof.
    induction p as [|p IH]; intros P H i Hi.
    - rewrite nn_0 in *. replace i with j by lia. specialize (H ((U j + U (j + 1)%Z) / 2)%R ltac:(lra)). replace (j - 0) with j in H by lia. rewrite zsum_one in H. cbn [B] in H. rewrite Z.eqb_refl in H. lra.
    - pose proof (nn_nonneg p).
      assert (forall i, j - nn p <= i <= j -> (IZR (nn (S p)) * rinv (gap U (S p) i) * (P i - P (i - 1)%Z))%R = 0%R) as D.
      { apply (IH (fun i => (IZR (nn (S p)) * rinv (gap U (S p) i) * (P i - P (i - 1)%Z))%R)). intros x Hx. rewrite <- DB_sum.
        assert (is_derive (fun t => zsum (j - nn (S p)) (j + 1) (fun i => B U j (S p) i t * P i)%R) x (zsum (j - nn (S p)) (j + 1) (fun i => DB U j (S p) i x * P i)%R)) as Dv.
        { apply (zsum_derive (j - nn (S p)) (j + 1) (fun i t => B U j (S p) i t * P i)%R (fun i t => DB U j (S p) i t * P i)%R). intros m Hm.
          apply (is_derive_ext (fun t => P m * B U j (S p) m t)%R); [intros; apply Rmult_comm|]. rewrite Rmult_comm. apply dscal, B_derive; assumption. }
        assert (is_derive (fun t => zsum (j - nn (S p)) (j + 1) (fun i => B U j (S p) i t * P i)%R) x 0%R) as D0.
        { apply (is_derive_ext_loc (fun _ => 0%R)); [|apply dconst]. apply (locally_interval _ x (U j) (U (j + 1)%Z)); [apply Hx|apply Hx|]. intros y Hy1 Hy2. symmetry. apply H. split; assumption. }
        apply is_derive_unique in Dv. apply is_derive_unique in D0. congruence. }
      assert (forall i, j - nn p <= i <= j -> P i = P (i - 1)) as E.
      { intros k Hk. specialize (D k Hk). pose proof (den_pos U j M Sp k (k + nn (S p)) ltac:(rewrite nn_S; lia)) as G. pose proof (rinv_ok (gap U (S p) k) ltac:(unfold gap; lra)) as R1.
        assert (0 < IZR (nn (S p)))%R by (apply (IZR_lt 0); rewrite nn_S; lia). apply Rmult_integral in D. destruct D as [D|D]; [|lra]. exfalso.
        apply Rmult_integral in D. destruct D as [D|D]; [lra|]. rewrite D in R1. lra. }
      assert (forall n : nat, nn n <= nn (S p) -> P (j - nn (S p) + nn n) = P (j - nn (S p))) as C.
      { induction n as [|n IHn]; intros Hn; [rewrite nn_0; f_equal; lia|]. rewrite <- IHn by (rewrite nn_S in Hn; lia). rewrite (nn_S n) in *. rewrite (E (j - nn (S p) + (nn n + 1))) by (rewrite nn_S in *; pose proof (nn_nonneg n); lia). f_equal. lia. }
      assert (P (j - nn (S p)) = 0%R) as Z0.
      { specialize (H ((U j + U (j + 1)%Z) / 2)%R ltac:(lra)). rewrite (zsum_ext _ _ _ (fun k => B U j (S p) k ((U j + U (j + 1)%Z) / 2) * P (j - nn (S p))%Z)%R) in H.
        - rewrite zsum_scale_r, B_sum in H by assumption. lra.
        - intros k Hk. f_equal. specialize (C (Z.to_nat (k - (j - nn (S p))))). unfold nn at 3 in C. rewrite Z2Nat.id in C by lia. rewrite <- C; [f_equal; lia|unfold nn at 1; lia]. }
      rewrite <- Z0. specialize (C (Z.to_nat (i - (j - nn (S p))))). unfold nn at 3 in C. rewrite Z2Nat.id in C by lia. rewrite <- C; [f_equal; lia|unfold nn at 1; lia].
  Qed.
End Indep.
