(** BSplineBasis::EvaluateAll computes the derivatives of the basis functions (exact arithmetic). *)
From Coq Require Import Reals ZArith List Lra Lia Bool.
From Verif Require Import Outcome Num ModelCore ModelBasis SpecCore SpecBasis ThOutcome ThReal ThKnots ThVec ThSum ThSpline ThBasis ThDeriv.
Import ListNotations.
Open Scope Z_scope.

Section Ders.
  Variables (l : list R) (i : Z) (x : R) (p : nat).
  Let U := kf l.
  Hypothesis M : mono U.
  Hypothesis Sp : (U i < U (i + 1)%Z)%R.
  Hypothesis Hp : nn p <= i.
  Hypothesis Hi : i + nn p < len l.

  Definition ndu_ok (j : Z) (ndu : matrix R) : Prop :=
    mwf ndu (nn p + 1) (nn p + 1) /\
    (forall r c, 0 <= r <= c -> c < j -> mget ndu r c = Ok (B U i (Z.to_nat c) (i - c + r) x)) /\
    (forall r c, 0 <= c < r -> r < j -> mget ndu r c = Ok (U (i + c + 1)%Z - U (i + 1 - r + c)%Z)%R).

  Lemma ndu_spec : exists ndu, Basis_ndu (nn p) l i x = Ok ndu /\ ndu_ok (nn p + 1) ndu.
  Proof.
    pose proof (nn_nonneg p) as P0. unfold Basis_ndu.
    destruct (vmake_spec (nn p + 1) (n0 : R)) as [lf [E [Lr _]]]; [lia|]. rewrite E; cbn [bind]; clear E.
    destruct (mzero_spec (T := R) (nn p + 1) (nn p + 1)) as [m [E [Wm _]]]; [lia|lia|]. rewrite E; cbn [bind]; clear E.
    destruct (mset_spec m _ _ 0 0 (n1 : R) Wm) as [m1 [E [W1 [G1 _]]]]; [lia|lia|]. rewrite E; cbn [bind]; clear E.
    edestruct (for_up_inv (fun j st => let '(ndu, lft, rgt) := st in
        ndu_ok j ndu /\ len lft = nn p + 1 /\ len rgt = nn p + 1 /\ basis_lr l i x j lft rgt) 1 (nn p + 1)) as [st [E Q]]; cycle 3.
    - rewrite E; cbn [bind]. destruct st as [[ndu lft] rgt]. exists ndu. split; [reflexivity|apply Q].
    - lia.
    - split; [|split; [lia|split; [lia|split; intros; lia]]]. split; [exact W1|]. split.
      + intros r c H1 H2. assert (r = 0) as -> by lia. assert (c = 0) as -> by lia. rewrite G1. simpl.
        destruct (Z.eqb_spec (i - 0 + 0) i); [reflexivity|lia].
      + intros; lia.
    - intros j [[ndu lft] rgt] Hj [[Wn [Q1 Q2]] [Q3 [Q4 [Q5 Q6]]]].
      rewrite vget_kf by lia. cbn [bind].
      match goal with |- context [vset lft j ?a] => destruct (vset_spec lft j a) as [lft' [E [L' [G2 G3]]]] end; [lia|].
      rewrite E; cbn [bind]; clear E. rewrite vget_kf by lia. cbn [bind].
      match goal with |- context [vset rgt j ?a] => destruct (vset_spec rgt j a) as [rgt' [E [L'' [G4 G5]]]] end; [lia|].
      rewrite E; cbn [bind]; clear E.
      assert (basis_lr l i x (j + 1) lft' rgt') as [A1 A2].
      { split; intros k Hk; (destruct (Z.eq_dec k j) as [->|Ne]; [assumption|]).
        - rewrite G3 by lia. apply Q5; lia.
        - rewrite G5 by lia. apply Q6; lia. }
      assert (exists q, Z.to_nat j = S q /\ Z.to_nat (j - 1) = q /\ nn q = j - 1) as [q [Eq [Eq' Eq'']]].
      { exists (Z.to_nat (j - 1)). unfold nn. lia. }
      edestruct (for_up_inv (fun r st => let '(ndu, saved) := st in
          mwf ndu (nn p + 1) (nn p + 1) /\ saved = term1 l i x (Z.to_nat j) (i - j + r) /\
          (forall r c, 0 <= r <= c -> c < j -> mget ndu r c = Ok (B U i (Z.to_nat c) (i - c + r) x)) /\
          (forall r c, 0 <= c < r -> r < j -> mget ndu r c = Ok (U (i + c + 1)%Z - U (i + 1 - r + c)%Z)%R) /\
          (forall r', 0 <= r' < r -> mget ndu r' j = Ok (B U i (Z.to_nat j) (i - j + r') x)) /\
          (forall c, 0 <= c < r -> mget ndu j c = Ok (U (i + c + 1)%Z - U (i + 1 - j + c)%Z)%R))
        0 j) as [st [E Q]]; cycle 3.
      + rewrite E; cbn [bind]. destruct st as [ndu' saved]. destruct Q as [W [W2 [W3 [W4 [W5 W6]]]]].
        destruct (mset_spec ndu' _ _ j j saved W) as [ndu'' [E2 [W' [G6 G7]]]]; [lia|lia|]. rewrite E2; cbn [bind].
        eexists. split; [reflexivity|]. split; [|split; [lia|split; [lia|split; assumption]]].
        split; [exact W'|]. split.
        * intros r c H1 H2. destruct (Z.eq_dec c j) as [->|Ne].
          -- destruct (Z.eq_dec r j) as [->|Ne2].
             ++ rewrite G6, W2. f_equal. rewrite Eq. cbn [B term1].
                rewrite (B_support U i q (i - j + j + 1)) by lia. fold U. ring.
             ++ rewrite G7 by lia. apply W5; lia.
          -- rewrite G7 by lia. apply W3; lia.
        * intros r c H1 H2. rewrite G7 by lia. destruct (Z.eq_dec r j) as [->|Ne]; [apply W6; lia|apply W4; lia].
      + lia.
      + split; [exact Wn|]. split; [|split; [exact Q1|split; [exact Q2|split; intros; lia]]].
        norm_R. rewrite Eq. cbn [term1]. rewrite B_support by lia. ring.
      + intros r [ndu' saved] Hr [W [W2 [W3 [W4 [W5 W6]]]]].
        rewrite A2 by lia. cbn [bind]. rewrite A1 by lia. cbn [bind].
        match goal with |- context [mset ndu' j r ?a] => destruct (mset_spec ndu' _ _ j r a W) as [n2 [E2 [V2 [G6 G7]]]] end; [lia|lia|].
        rewrite E2; cbn [bind]; clear E2. rewrite G7 by lia. rewrite W3 by lia. cbn [bind]. rewrite G6. cbn [bind].
        norm_R.
        replace (i + 1 - (j - r)) with (i - j + r + 1) in * by lia. replace (i + (r + 1)) with (i - j + r + j + 1) in * by lia.
        replace (i - (j - 1) + r) with (i - j + r + 1) by lia. set (ii := i - j + r) in *.
        pose proof (den_pos U i M Sp (ii + 1) (ii + j + 1) ltac:(lia)) as D. fold U in G6 |- *.
        replace (U (ii + j + 1)%Z - x + (x - U (ii + 1)%Z))%R with (U (ii + j + 1)%Z - U (ii + 1)%Z)%R in * by ring.
        rewrite Rdivo_ok by lra. cbn [bind].
        match goal with |- context [mset n2 r j ?a] => destruct (mset_spec n2 _ _ r j a V2) as [n3 [E2 [V3 [G8 G9]]]] end; [lia|lia|].
        rewrite E2; cbn [bind]. eexists. split; [reflexivity|]. split; [exact V3|]. split; [|split; [|split; [|split]]].
        * rewrite Eq. cbn [term1]. replace (i - j + (r + 1)) with (ii + 1) by lia. fold U.
          rewrite nn_S, Eq''. replace (ii + 1 + (j - 1 + 1)) with (ii + j + 1) by lia.
          rewrite ratio_ok by lra. rewrite Eq'. field. lra.
        * intros r' c H1 H2. rewrite G9, G7 by lia. apply W3; lia.
        * intros r' c H1 H2. rewrite G9, G7 by lia. apply W4; lia.
        * intros r' Hr'. destruct (Z.eq_dec r' r) as [->|Ne].
          -- rewrite G8. f_equal. fold ii. rewrite W2. fold ii. rewrite Eq. cbn [B term1]. fold U.
             rewrite nn_S, Eq''. replace (ii + (j - 1 + 1) + 1) with (ii + j + 1) by lia.
             rewrite (ratio_ok (U (ii + j + 1)%Z - x)) by lra. rewrite Eq'. field. lra.
          -- rewrite G9, G7 by lia. apply W5; lia.
        * intros c Hc. rewrite G9 by lia. destruct (Z.eq_dec c r) as [->|Ne].
          -- rewrite G6. do 3 f_equal; lia.
          -- rewrite G7 by lia. apply W6; lia.
  Qed.

  (** the coefficients and partial sums of round k for column r *)
  Definition cf (r k m : Z) : R := A U p (i - nn p + r) (Z.to_nat k) m.
  Definition trm (r k m : Z) : R := (cf r k m * B U i (Z.to_nat (nn p - k)) (i - nn p + r + m) x)%R.
  Definition unscaled (k r : Z) : R := if k <=? nn p then zsum 0 (k + 1) (trm r k) else 0%R.

  Lemma trm_zero r k m : 0 <= k <= nn p -> m < k - r \/ nn p - r < m -> trm r k m = 0%R.
  Proof.
    intros Hk Hm. unfold trm. rewrite B_support; [ring|]. rewrite nn_of by lia. lia.
  Qed.
  Lemma cf_step r k m : 1 <= k <= nn p -> cf r k m = ((cf r (k - 1) m - cf r (k - 1) (m - 1)) * rinv (U (i - nn p + r + m + (nn p - k + 1))%Z - U (i - nn p + r + m)%Z))%R.
  Proof.
    intros Hk. unfold cf. replace (Z.to_nat k) with (S (Z.to_nat (k - 1))) by lia. cbn [A]. unfold gap.
    replace (nn (p - Z.to_nat (k - 1))) with (nn p - k + 1) by (unfold nn in *; lia). reflexivity.
  Qed.
  Lemma cf_out r k m : 0 <= k -> m < 0 \/ k < m -> cf r k m = 0%R.
  Proof. intros. unfold cf. apply A_support. rewrite nn_of by lia. lia. Qed.

  Definition in_s (r k m : Z) : Prop := 0 <= m /\ k - r <= m /\ m <= k /\ m <= nn p - r.

  Lemma ndu_num ndu r k m : ndu_ok (nn p + 1) ndu -> 0 <= r <= nn p -> 1 <= k <= nn p -> in_s r k m ->
    mget ndu (r - k + m) (nn p - k) = Ok (B U i (Z.to_nat (nn p - k)) (i - nn p + r + m) x).
  Proof.
    intros [_ [Q1 _]] Hr Hk Hm. unfold in_s in Hm. rewrite Q1 by lia. do 2 f_equal. lia.
  Qed.
  Lemma ndu_den ndu r k m : ndu_ok (nn p + 1) ndu -> 0 <= r <= nn p -> 1 <= k <= nn p -> in_s r k m ->
    exists d, (d = U (i - nn p + r + m + (nn p - k + 1))%Z - U (i - nn p + r + m)%Z)%R /\ (0 < d)%R /\ mget ndu (nn p - k + 1) (r - k + m) = Ok d.
  Proof.
    intros [_ [_ Q2]] Hr Hk Hm. unfold in_s in Hm. eexists. split; [reflexivity|]. split; [apply (den_pos U i M Sp); lia|].
    rewrite Q2 by lia. do 3 f_equal; lia.
  Qed.

  Definition row_ok (a : matrix R) (s r k hi : Z) : Prop :=
    forall m, in_s r k m -> m < hi -> mget a s m = Ok (cf r k m).

  Lemma ders_step_spec order ndu result a s1 s2 r k : ndu_ok (nn p + 1) ndu -> 0 <= r <= nn p -> 1 <= k <= order ->
    mwf result (order + 1) (nn p + 1) -> mwf a 2 (nn p + 1) -> (s1 = 0 /\ s2 = 1 \/ s1 = 1 /\ s2 = 0) ->
    row_ok a s1 r (k - 1) k ->
    exists result' a', Basis_ders_step (nn p) ndu r k (result, a, s1, s2) = Ok (result', a', s2, s1) /\
      mwf result' (order + 1) (nn p + 1) /\ mwf a' 2 (nn p + 1) /\ row_ok a' s2 r k (k + 1) /\
      mget result' k r = Ok (unscaled k r) /\
      forall k' r', (k' <> k \/ r' <> r) -> mget result' k' r' = mget result k' r'.
  Proof.
    intros Nd Hr Hk Wr Wa Ss Row. pose proof (nn_nonneg p) as P0. unfold Basis_ders_step.
    destruct (Z_le_gt_dec k (nn p)) as [Kp|Kp].
    - (* k <= degree *)
      set (a0 := a) in Row.
      assert (exists a1 d1, (if k <=? r then
          a_s1_0 <- mget a s1 0 ;; den <- mget ndu (nn p - k + 1) (r - k) ;; q <- ndiv a_s1_0 den ;;
          a <- mset a s2 0 q ;; b <- mget a s2 0 ;; n <- mget ndu (r - k) (nn p - k) ;; Ok (a, nmul b n)
          else Ok (a, n0)) = Ok (a1, d1) /\ mwf a1 2 (nn p + 1) /\ (forall m, mget a1 s1 m = mget a s1 m) /\
          d1 = zsum 0 (if -1 <=? r - k then 1 else - (r - k)) (trm r k) /\ row_ok a1 s2 r k (if -1 <=? r - k then 1 else - (r - k))) as [a1 [d1 [E [Wa1 [Ga1 [Ed1 Row1]]]]]].
      { destruct (Z.leb_spec k r) as [L|L].
        - assert (in_s r k 0) as I0 by (unfold in_s; lia).
          rewrite Row by (unfold in_s in *; lia). cbn [bind].
          destruct (ndu_den ndu r k 0 Nd Hr ltac:(lia) I0) as [d [Ed [Dp Gd]]]. replace (r - k + 0) with (r - k) in Gd by lia. rewrite Gd. cbn [bind].
          norm_R. rewrite Rdivo_ok by lra. cbn [bind].
          match goal with |- context [mset a s2 0 ?v] => destruct (mset_spec a _ _ s2 0 v Wa) as [a1 [E [W1 [G1 G2]]]] end; [lia|lia|].
          rewrite E; cbn [bind]. rewrite G1; cbn [bind]. pose proof (ndu_num ndu r k 0 Nd Hr ltac:(lia) I0) as Gn.
          replace (r - k + 0) with (r - k) in Gn by lia. rewrite Gn. cbn [bind].
          assert (cf r (k - 1) 0 / d = cf r k 0)%R as Ec.
          { rewrite (cf_step r k 0) by lia. rewrite (cf_out r (k - 1) (0 - 1)) by lia. rewrite <- Ed. unfold rinv. rewrite ratio_ok by lra. field. lra. }
          rewrite Ec in *. eexists _, _. split; [reflexivity|]. split; [exact W1|]. split; [intros; apply G2; lia|].
          destruct (Z.leb_spec (-1) (r - k)); [|lia]. split; [rewrite (zsum_one 0); reflexivity|].
          intros m Hm Hm1. assert (m = 0) as -> by (unfold in_s in Hm; lia). exact G1.
        - eexists _, _. split; [reflexivity|]. split; [exact Wa|]. split; [reflexivity|]. split.
          + symmetry. norm_R. apply zsum_zero. intros m Hm. apply trm_zero; [lia|]. destruct (Z.leb_spec (-1) (r - k)); lia.
          + intros m Hm Hm1. unfold in_s in Hm. destruct (Z.leb_spec (-1) (r - k)); lia. }
      rewrite E; cbn [bind]; clear E.
      set (j1 := if -1 <=? r - k then 1 else - (r - k)) in *.
      set (j2 := if r - 1 <=? nn p - k then k - 1 else nn p - r).
      assert (j1 = Z.max 1 (k - r)) as J1 by (unfold j1; destruct (Z.leb_spec (-1) (r - k)); lia).
      assert (j2 = Z.min (k - 1) (nn p - r)) as J2 by (unfold j2; destruct (Z.leb_spec (r - 1) (nn p - k)); lia).
      edestruct (for_up_inv (fun j st => let '(a, d) := st in
          mwf a 2 (nn p + 1) /\ (forall m, mget a s1 m = mget a0 s1 m) /\ d = zsum 0 j (trm r k) /\ row_ok a s2 r k j) j1 (j2 + 1)) as [st [E Q]]; cycle 3.
      + rewrite E; cbn [bind]; clear E. destruct st as [a2 d2]. destruct Q as [Wa2 [Ga2 [Ed2 Row2]]].
        assert (exists a3 d3, (if r <=? nn p - k then
            akm1 <- mget a2 s1 (k - 1) ;; den <- mget ndu (nn p - k + 1) r ;; q <- ndiv (nopp akm1) den ;;
            a <- mset a2 s2 k q ;; b <- mget a s2 k ;; n <- mget ndu r (nn p - k) ;; Ok (a, nadd d2 (nmul b n))
            else Ok (a2, d2)) = Ok (a3, d3) /\ mwf a3 2 (nn p + 1) /\ d3 = zsum 0 (k + 1) (trm r k) /\ row_ok a3 s2 r k (k + 1)) as [a3 [d3 [E [Wa3 [Ed3 Row3]]]]].
        { destruct (Z.leb_spec r (nn p - k)) as [L|L].
          - assert (in_s r k k) as Ik by (unfold in_s; lia).
            rewrite Ga2. rewrite Row by (unfold in_s in *; lia). cbn [bind].
            destruct (ndu_den ndu r k k Nd Hr ltac:(lia) Ik) as [d [Ed [Dp Gd]]]. replace (r - k + k) with r in Gd by lia. rewrite Gd. cbn [bind].
            norm_R. rewrite Rdivo_ok by lra. cbn [bind].
            match goal with |- context [mset a2 s2 k ?v] => destruct (mset_spec a2 _ _ s2 k v Wa2) as [a3 [E [W1 [G1 G2]]]] end; [lia|lia|].
            rewrite E; cbn [bind]. rewrite G1; cbn [bind]. pose proof (ndu_num ndu r k k Nd Hr ltac:(lia) Ik) as Gn.
            replace (r - k + k) with r in Gn by lia. rewrite Gn. cbn [bind].
            assert (- cf r (k - 1) (k - 1) / d = cf r k k)%R as Ec.
            { rewrite (cf_step r k k) by lia. rewrite (cf_out r (k - 1) k) by lia. rewrite <- Ed. unfold rinv. rewrite ratio_ok by lra. field. lra. }
            rewrite Ec in *. eexists _, _. split; [reflexivity|]. split; [exact W1|]. split.
            + rewrite zsum_last' by lia. rewrite Ed2. replace (j2 + 1) with k by lia. reflexivity.
            + intros m Hm Hm1. destruct (Z.eq_dec m k) as [->|Ne]; [exact G1|]. rewrite G2 by lia. apply Row2; [exact Hm|unfold in_s in Hm; lia].
          - eexists _, _. split; [reflexivity|]. split; [exact Wa2|]. split.
            + rewrite Ed2. symmetry. rewrite (zsum_split (j2 + 1)) by lia. rewrite (zsum_zero (j2 + 1)); [ring|].
              intros m Hm. apply trm_zero; lia.
            + intros m Hm Hm1. apply Row2; [exact Hm|unfold in_s in Hm; lia]. }
        rewrite E; cbn [bind]; clear E.
        destruct (mset_spec result _ _ k r d3 Wr) as [result' [E [W' [G1 G2]]]]; [lia|lia|]. rewrite E; cbn [bind].
        eexists _, _. split; [reflexivity|]. split; [exact W'|]. split; [exact Wa3|]. split; [exact Row3|]. split; [|exact G2].
        rewrite G1. unfold unscaled. destruct (Z.leb_spec k (nn p)); [|lia]. rewrite Ed3. reflexivity.
      + lia.
      + split; [exact Wa1|]. split; [exact Ga1|]. split; [exact Ed1|exact Row1].
      + intros m [a2 d2] Hm [Wa2 [Ga2 [Ed2 Row2]]].
        assert (in_s r k m) as Im by (unfold in_s; lia).
        rewrite !Ga2. rewrite !Row by (unfold in_s in *; lia). cbn [bind].
        destruct (ndu_den ndu r k m Nd Hr ltac:(lia) Im) as [d [Ed [Dp Gd]]]. rewrite Gd. cbn [bind].
        norm_R. rewrite Rdivo_ok by lra. cbn [bind].
        match goal with |- context [mset a2 s2 m ?v] => destruct (mset_spec a2 _ _ s2 m v Wa2) as [a3 [E [W1 [G1 G2]]]] end; [lia|lia|].
        rewrite E; cbn [bind]. rewrite G1; cbn [bind]. rewrite (ndu_num ndu r k m Nd Hr ltac:(lia) Im). cbn [bind].
        assert ((cf r (k - 1) m - cf r (k - 1) (m - 1)) / d = cf r k m)%R as Ec.
        { rewrite (cf_step r k m) by lia. rewrite <- Ed. unfold rinv. rewrite ratio_ok by lra. field. lra. }
        rewrite Ec in *. eexists. split; [reflexivity|]. split; [exact W1|]. split; [intros; rewrite G2 by lia; apply Ga2|]. split.
        * rewrite zsum_last' by lia. rewrite Ed2. reflexivity.
        * intros m' Hm' Hm1. destruct (Z.eq_dec m' m) as [->|Ne]; [exact G1|]. rewrite G2 by lia. apply Row2; [exact Hm'|lia].
    - (* k > degree: nothing is read, the entry is 0 *)
      destruct (Z.leb_spec k r) as [L|L]; [lia|]. cbn [bind].
      rewrite for_up_empty; [cbn [bind]|destruct (Z.leb_spec (-1) (r - k)); destruct (Z.leb_spec (r - 1) (nn p - k)); lia].
      destruct (Z.leb_spec r (nn p - k)) as [L2|L2]; [lia|]. cbn [bind].
      destruct (mset_spec result _ _ k r (n0 : R) Wr) as [result' [E [W' [G1 G2]]]]; [lia|lia|]. rewrite E; cbn [bind].
      eexists _, _. split; [reflexivity|]. split; [exact W'|]. split; [exact Wa|]. split; [|split; [|exact G2]].
      + intros m Hm _. unfold in_s in Hm. lia.
      + rewrite G1. unfold unscaled. destruct (Z.leb_spec k (nn p)); [lia|]. reflexivity.
  Qed.

  Lemma scale_row_spec (m : matrix R) rows cols k fac : mwf m rows cols -> 0 <= k < rows ->
    exists m', scale_row m k fac = Ok m' /\ mwf m' rows cols /\
      (forall r v, 0 <= r < cols -> mget m k r = Ok v -> mget m' k r = Ok (v * fac)%R) /\
      (forall k' r, k' <> k -> mget m' k' r = mget m k' r).
  Proof.
    intros W Hk. unfold scale_row. destruct W as [W1 [W2 [W3 [W4 W5]]]]. rewrite W2.
    assert (mwf m rows cols) as W by (repeat split; assumption).
    assert (forall r, 0 <= r < cols -> exists v, mget m k r = Ok v) as G.
    { intros r Hr. unfold mget. assert (in_range (mrows m) (mcols m) k r = true) as -> by (apply in_range_true; lia).
      apply vget_ex. rewrite W5, W2. nia. }
    edestruct (for_up_inv (fun j m' => mwf m' rows cols /\
       (forall r, j <= r -> mget m' k r = mget m k r) /\
       (forall r v, 0 <= r < j -> mget m k r = Ok v -> mget m' k r = Ok (v * fac)%R) /\
       (forall k' r, k' <> k -> mget m' k' r = mget m k' r)) 0 cols) as [m' [E Q]]; cycle 3.
    - rewrite E. exists m'. split; [reflexivity|]. destruct Q as [Q1 [_ [Q2 Q3]]]. auto.
    - lia.
    - split; [exact W|]. split; [reflexivity|]. split; [intros; lia|reflexivity].
    - intros j m' Hj [Q1 [Q2 [Q3 Q4]]]. rewrite Q2 by lia. destruct (G j Hj) as [v Ev]. rewrite Ev. cbn [bind].
      match goal with |- context [mset m' k j ?v] => destruct (mset_spec m' _ _ k j v Q1) as [m2 [E [V [G1 G2]]]] end; [lia|lia|].
      rewrite E. exists m2. split; [reflexivity|]. split; [exact V|]. split; [intros; rewrite G2 by lia; apply Q2; lia|].
      split; [|intros; rewrite G2 by lia; apply Q4; assumption].
      intros r v' Hr Hv. destruct (Z.eq_dec r j) as [->|Ne].
      + rewrite G1. norm_R. rewrite Ev in Hv. injection Hv as ->. reflexivity.
      + rewrite G2 by lia. apply Q3; [lia|exact Hv].
  Qed.

  Lemma unscaled_0 r : 0 <= r -> unscaled 0 r = B U i p (i - nn p + r) x.
  Proof.
    intros. pose proof (nn_nonneg p). unfold unscaled. destruct (Z.leb_spec 0 (nn p)); [|lia]. replace (0 + 1) with (0 + 1) by lia. rewrite (zsum_one 0).
    unfold trm, cf. cbn [Z.to_nat A]. rewrite Z.eqb_refl. replace (i - nn p + r + 0) with (i - nn p + r) by lia.
    replace (Z.to_nat (nn p - 0)) with p by (unfold nn; lia). ring.
  Qed.
  Lemma unscaled_DBk k r : 0 <= k -> (ffact p (Z.to_nat k) * unscaled k r)%R = DBk U i p (i - nn p + r) (Z.to_nat k) x.
  Proof.
    intros Hk. unfold DBk. unfold unscaled. destruct (Z.leb_spec k (nn p)) as [L|L].
    - rewrite nn_of by lia. f_equal. apply zsum_ext. intros m Hm. unfold trm, cf. do 2 f_equal.
      unfold nn in *. lia.
    - rewrite ffact_over by (unfold nn in *; lia). ring.
  Qed.

  Lemma EvaluateAll_DBk order : 0 <= order ->
    exists res, Basis_EvaluateAll (nn p) l i x order = Ok res /\ mwf res (order + 1) (nn p + 1) /\
      forall k r, 0 <= k <= order -> 0 <= r <= nn p -> mget res k r = Ok (DBk U i p (i - nn p + r) (Z.to_nat k) x).
  Proof.
    intros Ho. pose proof (nn_nonneg p) as P0. unfold Basis_EvaluateAll.
    destruct ndu_spec as [ndu [E Nd]]. rewrite E; cbn [bind]; clear E.
    destruct (mzero_spec (T := R) (order + 1) (nn p + 1)) as [m [E [Wm _]]]; [lia|lia|]. rewrite E; cbn [bind]; clear E.
    edestruct (for_up_inv (fun r m => mwf m (order + 1) (nn p + 1) /\ forall r', 0 <= r' < r -> mget m 0 r' = Ok (unscaled 0 r')) 0 (nn p + 1)) as [m1 [E [W1 Q1]]]; cycle 3.
    { rewrite E; cbn [bind]; clear E.
      destruct (mzero_spec (T := R) 2 (nn p + 1)) as [a [E [Wa _]]]; [lia|lia|]. rewrite E; cbn [bind]; clear E.
      edestruct (for_up_inv (fun r (st : matrix R * matrix R) => let '(res, a) := st in mwf res (order + 1) (nn p + 1) /\ mwf a 2 (nn p + 1) /\
         forall k' r', 0 <= k' <= order -> 0 <= r' <= nn p -> k' = 0 \/ r' < r -> mget res k' r' = Ok (unscaled k' r')) 0 (nn p + 1)) as [st [E Q]]; cycle 3.
      - rewrite E; cbn [bind]; clear E. destruct st as [m2 a2]. destruct Q as [W2 [_ Q2]].
        edestruct (for_up_inv (fun k (st : matrix R * R) => let '(res, fac) := st in mwf res (order + 1) (nn p + 1) /\ fac = ffact p (Z.to_nat k) /\
          (forall k' r', 0 <= k' < k -> 0 <= r' <= nn p -> mget res k' r' = Ok (DBk U i p (i - nn p + r') (Z.to_nat k') x)) /\
          (forall k' r', k <= k' <= order -> 0 <= r' <= nn p -> mget res k' r' = Ok (unscaled k' r'))) 1 (order + 1)) as [st [E Q]]; cycle 3.
        + rewrite E; cbn [bind]; clear E. destruct st as [res fac]. destruct Q as [W3 [_ [Q3 _]]].
          exists res. split; [reflexivity|]. split; [exact W3|]. intros. apply Q3; lia.
        + lia.
        + split; [exact W2|]. split; [|split].
          * change (Z.to_nat 1) with 1%nat. cbn [ffact]. rewrite nn_0. norm_R. ring.
          * intros k' r' Hk' Hr'. assert (k' = 0) as -> by lia. rewrite Q2 by lia. rewrite <- unscaled_DBk by lia. cbn [Z.to_nat ffact]. f_equal. ring.
          * intros k' r' Hk' Hr'. apply Q2; lia.
        + intros k [res fac] Hk [W3 [Ef [Q3 Q4]]].
          destruct (scale_row_spec res _ _ k fac W3) as [res' [E [W4 [Q5 Q6]]]]; [lia|]. rewrite E; cbn [bind]; clear E.
          eexists. split; [reflexivity|]. split; [exact W4|]. split; [|split].
          * replace (Z.to_nat (k + 1)) with (S (Z.to_nat k)) by lia. cbn [ffact]. rewrite nn_of by lia. norm_R. rewrite Ef.
            rewrite minus_IZR. reflexivity.
          * intros k' r' Hk' Hr'. destruct (Z.eq_dec k' k) as [->|Ne].
            -- rewrite (Q5 r' (unscaled k r')) by (try apply Q4; lia). f_equal. rewrite <- unscaled_DBk by lia. rewrite Ef. ring.
            -- rewrite Q6 by assumption. apply Q3; lia.
          * intros k' r' Hk' Hr'. rewrite Q6 by lia. apply Q4; lia.
      - lia.
      - split; [exact W1|]. split; [exact Wa|]. intros k' r' Hk' Hr' [->|?]; [|lia]. apply Q1; lia.
      - intros r [res b] Hr [W2 [Wb Q2]].
        destruct (mset_spec b _ _ 0 0 (n1 : R) Wb) as [b1 [E [Wb1 [G1 G2]]]]; [lia|lia|]. rewrite E; cbn [bind]; clear E.
        edestruct (for_up_inv (fun k (st : matrix R * matrix R * Z * Z) => let '(res, a, s1, s2) := st in mwf res (order + 1) (nn p + 1) /\ mwf a 2 (nn p + 1) /\
            (s1 = 0 /\ s2 = 1 \/ s1 = 1 /\ s2 = 0) /\ row_ok a s1 r (k - 1) k /\
            (forall k' r', 0 <= k' <= order -> 0 <= r' <= nn p -> k' = 0 \/ r' < r \/ (r' = r /\ k' < k) -> mget res k' r' = Ok (unscaled k' r')))
          1 (order + 1) (Basis_ders_step (nn p) ndu r)) as [st [E Q]]; cycle 3.
        + rewrite E; cbn [bind]; clear E. destruct st as [[[res' a'] s1] s2]. destruct Q as [W3 [Wa3 [_ [_ Q3]]]].
          eexists. split; [reflexivity|]. split; [exact W3|]. split; [exact Wa3|]. intros. apply Q3; lia.
        + lia.
        + split; [exact W2|]. split; [exact Wb1|]. split; [auto|]. split.
          * intros m0 Hm _. unfold in_s in Hm. assert (m0 = 0) as -> by lia. rewrite G1. unfold cf. cbn. reflexivity.
          * intros k' r' Hk' Hr' D. apply Q2; lia.
        + intros k [[[res' a'] s1] s2] Hk [W3 [Wa3 [Ss [Rw Q3]]]].
          destruct (ders_step_spec order ndu res' a' s1 s2 r k Nd ltac:(lia) ltac:(lia) W3 Wa3 Ss Rw) as [res'' [a'' [E [W4 [Wa4 [Rw' [G3 G4]]]]]]].
          rewrite E. eexists. split; [reflexivity|]. split; [exact W4|]. split; [exact Wa4|]. split; [tauto|]. split.
          * replace (k + 1 - 1) with k by lia. exact Rw'.
          * intros k' r' Hk' Hr' D. destruct (Z.eq_dec k' k) as [->|Ne]; [destruct (Z.eq_dec r' r) as [->|Ne]|].
            -- exact G3.
            -- rewrite G4 by lia. apply Q3; lia.
            -- rewrite G4 by lia. apply Q3; lia. }
    - lia.
    - split; [exact Wm|]. intros; lia.
    - intros r m' Hr [W Q]. destruct Nd as [_ [N1 _]]. rewrite N1 by lia. cbn [bind].
      match goal with |- context [mset m' 0 r ?v] => destruct (mset_spec m' _ _ 0 r v W) as [m2 [E [V [G1 G2]]]] end; [lia|lia|].
      rewrite E. exists m2. split; [reflexivity|]. split; [exact V|]. intros r' Hr'. destruct (Z.eq_dec r' r) as [->|Ne].
      + rewrite G1. rewrite unscaled_0 by lia. do 2 f_equal. unfold nn; lia.
      + rewrite G2 by lia. apply Q; lia.
  Qed.
End Ders.
