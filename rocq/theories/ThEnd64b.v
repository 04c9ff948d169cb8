(** Evaluation at the end points on doubles (C115). *)
From Coq Require Import Reals QArith ZArith List Lra Lia Bool Floats.SpecFloat.
From Flocq Require Import Core.
From Verif Require Import Outcome Num ModelCore ModelBasis ModelCurve SpecCore SpecBasis SpecCurve SpecErr SpecGeom64 SpecEnd64
  ThOutcome ThReal ThB64 ThRound ThVec ThKnots ThSum ThSpline ThBasis ThCurve ThErr ThErrBasis ThErrCurve ThErrInsert2 ThErrInsert3 ThBBoxWit ThUniform64 ThEnd64.
Import ListNotations.
Open Scope R_scope.

Definition is_ (r : R) (b : b64) : Prop := finite64 b /\ val b = r.
Lemma is_0 : is_ 0 (n0 : b64). Proof. split; [apply finite_0|apply val_0]. Qed.
Lemma is_1 : is_ 1 (n1 : b64). Proof. split; [apply finite_1|apply val_1]. Qed.
Lemma fmt a b : is_ a b -> generic_format radix2 (FLT_exp (-1074) 53) a.
Proof. intros [F <-]. apply val_format. exact F. Qed.
Lemma no_over a b : is_ a b -> no_overflow a.
Proof. intros H. unfold no_overflow. rewrite (rnd64_id a) by exact (fmt _ _ H). destruct H as [F <-]. apply val_lt_emax. exact F. Qed.
Lemma add_0l a x y : is_ 0 x -> is_ a y -> is_ a (nadd x y).
Proof.
  intros [Fx Vx] Hy. pose proof (no_over _ _ Hy) as O. pose proof (fmt _ _ Hy) as G. destruct Hy as [Fy Vy]. destruct (add_round x y Fx Fy) as [F V]; rewrite Vx, Vy, Rplus_0_l in *; [exact O|].
  split; [exact F|]. rewrite V. apply rnd64_id. exact G.
Qed.
Lemma add_0r a x y : is_ a x -> is_ 0 y -> is_ a (nadd x y).
Proof.
  intros Hy [Fx Vx]. pose proof (no_over _ _ Hy) as O. pose proof (fmt _ _ Hy) as G. destruct Hy as [Fy Vy]. destruct (add_round x y Fy Fx) as [F V]; rewrite Vx, Vy, Rplus_0_r in *; [exact O|].
  split; [exact F|]. rewrite V. apply rnd64_id. exact G.
Qed.
Lemma no_0 : no_overflow 0. Proof. apply (no_over 0 n0 is_0). Qed.
Lemma mul_0l a x y : is_ 0 x -> is_ a y -> is_ 0 (nmul x y).
Proof. intros [Fx Vx] [Fy Vy]. destruct (mul_round x y Fx Fy) as [F V]; rewrite Vx, Rmult_0_l in *; [apply no_0|]. split; [exact F|]. rewrite V. apply rnd64_id, generic_format_0. Qed.
Lemma small_no x : Rabs x <= bpow radix2 1000 -> no_overflow x.
Proof. intros H. apply rnd64_big. eapply Rle_trans; [exact H|]. apply bpow_le. discriminate. Qed.
(** n / d *)
Lemma div_fine d n (b t : b64) : bpow radix2 (-900) <= d <= 1 -> 0 <= n <= 1 -> is_ n b -> is_ d t ->
  exists q, ndiv b t = Ok q /\ is_ (rnd64 (n / d)) q /\ 0 <= n / d <= bpow radix2 900.
Proof.
  intros Hd Hn [Fb Vb] [Ft Vt]. pose proof (bpow_gt_0 radix2 (-900)) as P. assert (0 < d) as Dp by lra. pose proof (Rinv_0_lt_compat d Dp) as Ip.
  assert (0 <= n / d <= bpow radix2 900) as B. { split; [unfold Rdiv; apply Rmult_le_pos; lra|]. unfold Rdiv. assert (/ d <= bpow radix2 900) by (replace (bpow radix2 900) with (/ bpow radix2 (-900)) by (rewrite <- bpow_opp; reflexivity); apply Rinv_le; lra). nra. }
  destruct (div_round b t Fb Ft) as [q [E [Fq Vq]]]; rewrite ?Vb, ?Vt in *; [lra| |].
  - apply small_no. rewrite Rabs_pos_eq by lra. eapply Rle_trans; [apply B|]. apply bpow_le. discriminate.
  - exists q. split; [exact E|]. split; [split; assumption|exact B].
Qed.
Lemma mul_fine d n (t q : b64) : bpow radix2 (-900) <= d <= 1 -> 0 <= n / d <= bpow radix2 900 -> is_ d t -> is_ (rnd64 (n / d)) q -> is_ (back d n) (nmul t q).
Proof.
  intros Hd Hn [Ft Vt] [Fq Vq]. pose proof (bpow_gt_0 radix2 (-900)) as P. destruct (mul_round t q Ft Fq) as [F V]; [|split; [exact F|rewrite V, Vt, Vq; reflexivity]].
  rewrite Vt, Vq. apply small_no. assert (0 <= rnd64 (n / d) <= bpow radix2 900) as B.
  { split; [rewrite <- (rnd64_id 0) by apply generic_format_0; apply rnd64_le; lra|]. rewrite <- (rnd64_id (bpow radix2 900)) by (apply generic_format_bpow; vm_compute; discriminate). apply rnd64_le. lra. }
  rewrite Rabs_pos_eq by (apply Rmult_le_pos; lra). apply Rle_trans with (bpow radix2 900); [nra|]. apply bpow_le. discriminate.
Qed.
Lemma back_0 d : back d 0 = 0.
Proof. unfold back, Rdiv. rewrite Rmult_0_l, (rnd64_id 0) by apply generic_format_0. rewrite Rmult_0_r. apply rnd64_id, generic_format_0. Qed.
(** the values the factor can take *)
Definition chain (d n : R) : Prop := n = 1 \/ n = back d 1.
Lemma chain_unit d n : bpow radix2 (-900) <= d <= 1 -> chain d n -> n = 1 \/ n = one_less.
Proof. intros Hd [->| ->]; [left; reflexivity|]. destruct (back_chain d Hd) as [->|[-> _]]; auto. Qed.
Lemma chain_S d n : bpow radix2 (-900) <= d <= 1 -> chain d n -> chain d (back d n).
Proof. intros Hd [->| ->]; [right; reflexivity|]. destruct (back_chain d Hd) as [E|[E1 E2]]; [rewrite E, E; left; reflexivity|rewrite E1, E2; right; symmetry; exact E1]. Qed.
Lemma unit_range n : n = 1 \/ n = one_less -> 0 <= n <= 1.
Proof. pose proof u64_53. unfold one_less. intros [->| ->]; lra. Qed.

(** ** The basis at 0 *)
Section AtZero.
  Variables (l : list b64) (i : Z) (x : b64) (p : Z).
  Hypothesis Fl : all_finite l.
  Hypothesis Hx : is_ 0 x.
  Let U := kf (vals l).
  Hypothesis P0 : (0 <= p)%Z.
  Hypothesis Low : (p <= i)%Z.
  Hypothesis High : (i + p < len l)%Z.
  Hypothesis Zl : forall k, (k <= i)%Z -> U k = 0.
  Hypothesis Gr : forall k, (i + 1 <= k)%Z -> bpow radix2 (-900) <= U k <= 1.
  Lemma basis_at_0 : exists res n, Basis_Evaluate p l i x = Ok res /\ len res = (p + 1)%Z /\ chain (U (i + 1)%Z) n /\
    (exists b, vget res 0 = Ok b /\ is_ n b) /\ (forall r, (1 <= r <= p)%Z -> exists b, vget res r = Ok b /\ is_ 0 b).
  Proof.
    unfold Basis_Evaluate.
    destruct (vmake_spec (p + 1) (n0 : b64)) as [result [E [Lr _]]]; [lia|]. rewrite E; cbn [bind]; clear E.
    destruct (vset_spec result 0 (n1 : b64)) as [result1 [E [Lr1 [G1 _]]]]; [lia|]. rewrite E; cbn [bind]; clear E.
    edestruct (for_up_inv (fun j st => let '(result, lft, rgt) := st in
        len result = (p + 1)%Z /\ len lft = (p + 1)%Z /\ len rgt = (p + 1)%Z /\
        (forall k, (1 <= k < j)%Z -> exists b, vget lft k = Ok b /\ is_ 0 b) /\ (forall k, (1 <= k < j)%Z -> exists b, vget rgt k = Ok b /\ is_ (U (i + k)%Z) b) /\
        (exists n b, chain (U (i + 1)%Z) n /\ vget result 0 = Ok b /\ is_ n b) /\ (forall r, (1 <= r < j)%Z -> exists b, vget result r = Ok b /\ is_ 0 b))
      1%Z (p + 1)%Z) as [st [E Q]]; cycle 3.
    - rewrite E; cbn [bind]. destruct st as [[res lft] rgt]. destruct Q as [Q1 [_ [_ [_ [_ [[n [b [Cn Hb]]] Q7]]]]]]. exists res, n. split; [reflexivity|]. split; [exact Q1|]. split; [exact Cn|].
      split; [exists b; exact Hb|]. intros r Hr. apply Q7. lia.
    - lia.
    - split; [lia|]. split; [lia|]. split; [lia|]. split; [intros; lia|]. split; [intros; lia|]. split; [|intros; lia]. exists 1, n1. split; [left; reflexivity|]. split; [exact G1|apply is_1].
    - intros j [[res lft] rgt] Hj [Q1 [Q2 [Q3 [Q4 [Q5 [Q6 Q7]]]]]].
      destruct (vget64 l (i + 1 - j) Fl ltac:(lia)) as [kl [El [Fkl Vkl]]]. rewrite El. cbn [bind].
      destruct (vset_spec lft j (nsub x kl)) as [lft' [E [L' [G2 G3]]]]; [lia|]. rewrite E; cbn [bind]; clear E.
      destruct (vget64 l (i + j) Fl ltac:(lia)) as [kr [Er [Fkr Vkr]]]. rewrite Er. cbn [bind].
      destruct (vset_spec rgt j (nsub kr x)) as [rgt' [E [L'' [G4 G5]]]]; [lia|]. rewrite E; cbn [bind]; clear E.
      fold U in Vkl, Vkr. rewrite (Zl (i + 1 - j)) in Vkl by lia. destruct Hx as [Fx Vx].
      assert (is_ 0 (nsub x kl)) as Il. { destruct (sub_round x kl Fx Fkl) as [F V]; rewrite Vx, Vkl, Rminus_0_r in *; [apply no_0|]. split; [exact F|]. rewrite V. apply rnd64_id, generic_format_0. }
      assert (is_ (U (i + j)%Z) (nsub kr x)) as Ir. { pose proof (no_over _ _ (conj Fkr Vkr)) as O. pose proof (fmt _ _ (conj Fkr Vkr)) as G. destruct (sub_round kr x Fkr Fx) as [F V]; rewrite Vx, Vkr, Rminus_0_r in *; [exact O|]. split; [exact F|]. rewrite V. apply rnd64_id. exact G. }
      assert (forall k, (1 <= k < j + 1)%Z -> exists b, vget lft' k = Ok b /\ is_ 0 b) as A1.
      { intros k Hk. destruct (Z.eq_dec k j) as [->|Ne]; [exists (nsub x kl); split; assumption|]. rewrite G3 by lia. apply Q4; lia. }
      assert (forall k, (1 <= k < j + 1)%Z -> exists b, vget rgt' k = Ok b /\ is_ (U (i + k)%Z) b) as A2.
      { intros k Hk. destruct (Z.eq_dec k j) as [->|Ne]; [exists (nsub kr x); split; assumption|]. rewrite G5 by lia. apply Q5; lia. }
      edestruct (for_up_inv (fun r st => let '(res, saved) := st in
          len res = (p + 1)%Z /\ is_ 0 saved /\ (exists n b, chain (U (i + 1)%Z) n /\ vget res 0 = Ok b /\ is_ n b) /\ (forall r', (1 <= r' < j)%Z -> exists b, vget res r' = Ok b /\ is_ 0 b))
        0%Z j) as [st [E Q]]; cycle 3.
      + rewrite E; cbn [bind]. destruct st as [res' saved]. destruct Q as [W1 [W2 [W3 W4]]].
        destruct (vset_spec res' j saved) as [res'' [E2 [L3 [G6 G7]]]]; [lia|]. rewrite E2; cbn [bind].
        eexists. split; [reflexivity|]. split; [lia|]. split; [lia|]. split; [lia|]. split; [exact A1|]. split; [exact A2|]. split; [rewrite G7 by lia; exact W3|].
        intros r Hr. destruct (Z.eq_dec r j) as [->|Ne]; [exists saved; split; assumption|]. rewrite G7 by lia. apply W4; lia.
      + lia.
      + split; [lia|]. split; [apply is_0|]. split; assumption.
      + intros r [res' saved] Hr [W1 [W2 [W3 W4]]].
        destruct (A2 (r + 1)%Z ltac:(lia)) as [rt [Ert Prt]]. destruct (A1 (j - r)%Z ltac:(lia)) as [lf [Elf Plf]]. pose proof (Gr (i + (r + 1)) ltac:(lia)) as Hd.
        assert (exists n b, vget res' r = Ok b /\ is_ n b /\ 0 <= n <= 1 /\ (r = 0%Z -> chain (U (i + 1)%Z) n) /\ (r <> 0%Z -> n = 0)) as [n [b [Eb [Hb [Hn [N0 N1]]]]]].
        { destruct (Z.eq_dec r 0) as [->|Ne].
          - destruct W3 as [n [b [C [Eb Hb]]]]. exists n, b. split; [exact Eb|]. split; [exact Hb|]. split; [|split; [intros; exact C|lia]]. apply unit_range, (chain_unit (U (i + 1)%Z)); [apply Gr; lia|exact C].
          - destruct (W4 r ltac:(lia)) as [b [Eb Hb]]. exists 0, b. split; [exact Eb|]. split; [exact Hb|]. split; [lra|]. split; [lia|reflexivity]. }
        rewrite Eb. cbn [bind]. rewrite Ert. cbn [bind]. rewrite Elf. cbn [bind].
        destruct (div_fine _ _ _ _ Hd Hn Hb (add_0r _ _ _ Prt Plf)) as [t [Et [Pt Bt]]]. rewrite Et. cbn [bind].
        pose proof (add_0l _ _ _ W2 (mul_fine _ _ _ _ Hd Bt Prt Pt)) as New. pose proof (mul_0l _ _ _ Plf Pt) as Sav.
        destruct (vset_spec res' r (nadd saved (nmul rt t))) as [res'' [E2 [L3 [G6 G7]]]]; [lia|]. rewrite E2; cbn [bind].
        eexists. split; [reflexivity|]. split; [lia|]. split; [exact Sav|]. destruct (Z.eq_dec r 0) as [->|Ne].
        * split; [|intros r' Hr'; rewrite G7 by lia; apply W4; lia]. exists (back (U (i + 1)%Z) n), (nadd saved (nmul rt t)). split; [apply chain_S; [apply Gr; lia|apply N0; reflexivity]|]. split; [exact G6|exact New].
        * rewrite (N1 Ne), back_0 in New. split; [rewrite G7 by lia; exact W3|]. intros r' Hr'. destruct (Z.eq_dec r' r) as [->|Nr]; [exists (nadd saved (nmul rt t)); split; assumption|]. rewrite G7 by lia. apply W4; lia.
  Qed.
End AtZero.

(** ** The basis at 1 *)
Section AtOne.
  Variables (l : list b64) (i : Z) (x : b64) (p : Z).
  Hypothesis Fl : all_finite l.
  Hypothesis Hx : is_ 1 x.
  Let U := kf (vals l).
  Let dd (k : Z) := rnd64 (1 - U k).
  Hypothesis P0 : (0 <= p)%Z.
  Hypothesis Low : (p <= i)%Z.
  Hypothesis High : (i + p < len l)%Z.
  Hypothesis Ol : forall k, (i + 1 <= k)%Z -> (k < len l)%Z -> U k = 1.
  Hypothesis Gr : forall k, (k <= i)%Z -> 0 <= U k /\ bpow radix2 (-900) <= dd k <= 1.
  Lemma basis_at_1 : exists res n, Basis_Evaluate p l i x = Ok res /\ len res = (p + 1)%Z /\ chain (dd i) n /\
    (exists b, vget res p = Ok b /\ is_ n b) /\ (forall r, (0 <= r < p)%Z -> exists b, vget res r = Ok b /\ is_ 0 b).
  Proof.
    unfold Basis_Evaluate.
    destruct (vmake_spec (p + 1) (n0 : b64)) as [result [E [Lr _]]]; [lia|]. rewrite E; cbn [bind]; clear E.
    destruct (vset_spec result 0 (n1 : b64)) as [result1 [E [Lr1 [G1 _]]]]; [lia|]. rewrite E; cbn [bind]; clear E.
    edestruct (for_up_inv (fun j st => let '(result, lft, rgt) := st in
        len result = (p + 1)%Z /\ len lft = (p + 1)%Z /\ len rgt = (p + 1)%Z /\
        (forall k, (1 <= k < j)%Z -> exists b, vget lft k = Ok b /\ is_ (dd (i + 1 - k)) b) /\ (forall k, (1 <= k < j)%Z -> exists b, vget rgt k = Ok b /\ is_ 0 b) /\
        (exists n b, chain (dd i) n /\ vget result (j - 1) = Ok b /\ is_ n b) /\ (forall r, (0 <= r < j - 1)%Z -> exists b, vget result r = Ok b /\ is_ 0 b))
      1%Z (p + 1)%Z) as [st [E Q]]; cycle 3.
    - rewrite E; cbn [bind]. destruct st as [[res lft] rgt]. destruct Q as [Q1 [_ [_ [_ [_ [[n [b [Cn Hb]]] Q7]]]]]]. exists res, n. split; [reflexivity|]. split; [exact Q1|]. split; [exact Cn|].
      replace (p + 1 - 1)%Z with p in * by lia. split; [exists b; exact Hb|exact Q7].
    - lia.
    - split; [lia|]. split; [lia|]. split; [lia|]. split; [intros; lia|]. split; [intros; lia|]. split; [|intros; lia]. exists 1, n1. split; [left; reflexivity|]. split; [exact G1|apply is_1].
    - intros j [[res lft] rgt] Hj [Q1 [Q2 [Q3 [Q4 [Q5 [Q6 Q7]]]]]].
      destruct (vget64 l (i + 1 - j) Fl ltac:(lia)) as [kl [El [Fkl Vkl]]]. rewrite El. cbn [bind].
      destruct (vset_spec lft j (nsub x kl)) as [lft' [E [L' [G2 G3]]]]; [lia|]. rewrite E; cbn [bind]; clear E.
      destruct (vget64 l (i + j) Fl ltac:(lia)) as [kr [Er [Fkr Vkr]]]. rewrite Er. cbn [bind].
      destruct (vset_spec rgt j (nsub kr x)) as [rgt' [E [L'' [G4 G5]]]]; [lia|]. rewrite E; cbn [bind]; clear E.
      fold U in Vkl, Vkr. rewrite (Ol (i + j)) in Vkr by lia. destruct Hx as [Fx Vx].
      assert (is_ 0 (nsub kr x)) as Ir. { destruct (sub_round kr x Fkr Fx) as [F V]; rewrite Vx, Vkr, Rminus_eq_0 in *; [apply no_0|]. split; [exact F|]. rewrite V. apply rnd64_id, generic_format_0. }
      assert (is_ (dd (i + 1 - j)) (nsub x kl)) as Il.
      { destruct (Gr (i + 1 - j) ltac:(lia)) as [K0 K1]. destruct (sub_round x kl Fx Fkl) as [F V]; rewrite Vx, Vkl in *; [|split; [exact F|exact V]].
        unfold no_overflow. fold (dd (i + 1 - j)). pose proof (bpow_gt_0 radix2 (-900)). rewrite Rabs_pos_eq by lra. apply Rle_lt_trans with 1; [lra|]. change 1 with (bpow radix2 0). apply bpow_lt. reflexivity. }
      assert (forall k, (1 <= k < j + 1)%Z -> exists b, vget lft' k = Ok b /\ is_ (dd (i + 1 - k)) b) as A1.
      { intros k Hk. destruct (Z.eq_dec k j) as [->|Ne]; [exists (nsub x kl); split; assumption|]. rewrite G3 by lia. apply Q4; lia. }
      assert (forall k, (1 <= k < j + 1)%Z -> exists b, vget rgt' k = Ok b /\ is_ 0 b) as A2.
      { intros k Hk. destruct (Z.eq_dec k j) as [->|Ne]; [exists (nsub kr x); split; assumption|]. rewrite G5 by lia. apply Q5; lia. }
      edestruct (for_up_inv (fun r st => let '(res, saved) := st in
          len res = (p + 1)%Z /\ ((r < j)%Z -> is_ 0 saved) /\ ((r = j)%Z -> exists n, chain (dd i) n /\ is_ n saved) /\
          ((r < j)%Z -> exists n b, chain (dd i) n /\ vget res (j - 1) = Ok b /\ is_ n b) /\ ((r = j)%Z -> exists b, vget res (j - 1) = Ok b /\ is_ 0 b) /\
          (forall r', (0 <= r' < j - 1)%Z -> exists b, vget res r' = Ok b /\ is_ 0 b))
        0%Z j) as [st [E Q]]; cycle 3.
      + rewrite E; cbn [bind]. destruct st as [res' saved]. destruct Q as [W1 [_ [W3 [_ [W5 W6]]]]]. destruct (W3 eq_refl) as [n [Cn Hn]].
        destruct (vset_spec res' j saved) as [res'' [E2 [L3 [G6 G7]]]]; [lia|]. rewrite E2; cbn [bind].
        eexists. split; [reflexivity|]. split; [lia|]. split; [lia|]. split; [lia|]. split; [exact A1|]. split; [exact A2|]. replace (j + 1 - 1)%Z with j by lia.
        split; [exists n, saved; split; [exact Cn|split; assumption]|].
        intros r Hr. rewrite G7 by lia. destruct (Z.eq_dec r (j - 1)) as [->|Ne]; [apply W5; reflexivity|apply W6; lia].
      + lia.
      + split; [lia|]. split; [intros; apply is_0|]. split; [lia|]. split; [intros; exact Q6|]. split; [lia|exact Q7].
      + intros r [res' saved] Hr [W1 [W2 [_ [W4 [_ W6]]]]]. specialize (W2 ltac:(lia)). specialize (W4 ltac:(lia)).
        destruct (A2 (r + 1)%Z ltac:(lia)) as [rt [Ert Prt]]. destruct (A1 (j - r)%Z ltac:(lia)) as [lf [Elf Plf]]. destruct (Gr (i + 1 - (j - r)) ltac:(lia)) as [_ Hd].
        assert (exists n b, vget res' r = Ok b /\ is_ n b /\ 0 <= n <= 1 /\ ((r = j - 1)%Z -> chain (dd i) n) /\ ((r <> j - 1)%Z -> n = 0)) as [n [b [Eb [Hb [Hn [N0 N1]]]]]].
        { destruct (Z.eq_dec r (j - 1)) as [->|Ne].
          - destruct W4 as [n [b [C [Eb Hb]]]]. exists n, b. split; [exact Eb|]. split; [exact Hb|]. split; [|split; [intros; exact C|lia]]. apply unit_range, (chain_unit (dd i)); [apply Gr; lia|exact C].
          - destruct (W6 r ltac:(lia)) as [b [Eb Hb]]. exists 0, b. split; [exact Eb|]. split; [exact Hb|]. split; [lra|]. split; [lia|reflexivity]. }
        rewrite Eb. cbn [bind]. rewrite Ert. cbn [bind]. rewrite Elf. cbn [bind].
        destruct (div_fine _ _ _ _ Hd Hn Hb (add_0l _ _ _ Prt Plf)) as [t [Et [Pt Bt]]]. rewrite Et. cbn [bind].
        pose proof (mul_fine _ _ _ _ Hd Bt Plf Pt) as Sav. pose proof (add_0l _ _ _ W2 (mul_0l _ _ _ Prt Pt)) as New.
        destruct (vset_spec res' r (nadd saved (nmul rt t))) as [res'' [E2 [L3 [G6 G7]]]]; [lia|]. rewrite E2; cbn [bind].
        eexists. split; [reflexivity|]. split; [lia|]. destruct (Z.eq_dec r (j - 1)) as [->|Ne].
        * split; [lia|]. split; [|split; [lia|split; [intros _; exists (nadd saved (nmul rt t)); split; assumption|intros r' Hr'; rewrite G7 by lia; apply W6; lia]]].
          intros _. replace (i + 1 - (j - (j - 1)))%Z with i in Sav by lia. exists (back (dd i) n). split; [apply chain_S; [apply Gr; lia|apply N0; reflexivity]|exact Sav].
        * rewrite (N1 Ne), back_0 in Sav. split; [intros _; exact Sav|]. split; [lia|]. split; [intros _; rewrite G7 by lia; exact W4|]. split; [lia|].
          intros r' Hr'. destruct (Z.eq_dec r' r) as [->|Nr]; [exists (nadd saved (nmul rt t)); split; assumption|]. rewrite G7 by lia. apply W6; lia.
  Qed.
End AtOne.

(** ** The point *)
Lemma scaled n (b h : b64) v : 0 <= n <= 1 -> is_ n b -> is_ v h -> is_ (rnd64 (n * v)) (nmul b h).
Proof.
  intros Hn [Fb Vb] Hh. pose proof (fmt _ _ Hh) as G. destruct Hh as [Fh Vh]. destruct (mul_round b h Fb Fh) as [F V]; [|split; [exact F|rewrite V, Vb, Vh; reflexivity]].
  rewrite Vb, Vh. pose proof (val_lt_emax h Fh) as B. rewrite Vh in B.
  apply (bounded_no_overflow (- Rabs v) (Rabs v)).
  - apply generic_format_opp, generic_format_abs, G.
  - apply generic_format_abs, G.
  - rewrite Rabs_Ropp, Rabs_Rabsolu. exact B.
  - rewrite Rabs_Rabsolu. exact B.
  - pose proof (Rabs_pos v). assert (Rabs (n * v) <= Rabs v) as A by (rewrite Rabs_mult, (Rabs_pos_eq n) by lra; nra). apply Rabs_le_inv in A. lra.
Qed.
Lemma again n (a w : b64) v : n = 1 \/ n = one_less -> is_ (rnd64 (n * v)) a -> is_ n w -> generic_format radix2 (FLT_exp (-1074) 53) v -> Rabs v < bpow radix2 1024 ->
  v = 0 \/ bpow radix2 (-1021) <= Rabs v -> exists q, ndiv a w = Ok q /\ is_ v q.
Proof.
  intros Hn [Fa Va] [Fw Vw] G B O. assert (rnd64 (rnd64 (n * v) / n) = v) as E.
  { destruct Hn as [->| ->]; [|apply undo; assumption]. rewrite Rmult_1_l, (rnd64_id v) by exact G. unfold Rdiv. rewrite Rinv_1, Rmult_1_r. apply rnd64_id. exact G. }
  assert (n <> 0) as Nz by (pose proof u64_53; unfold one_less in Hn; destruct Hn as [->| ->]; lra).
  destruct (div_round a w Fa Fw) as [q [Eq [Fq Vq]]]; rewrite ?Va, ?Vw in *; [exact Nz|unfold no_overflow; rewrite E; exact B|]. exists q. split; [exact Eq|]. split; [exact Fq|]. rewrite Vq. exact E.
Qed.
Definition is4 (a b c d : R) (q : vec4 b64) : Prop := is_ a (x4 q) /\ is_ b (y4 q) /\ is_ c (z4 q) /\ is_ d (w4 q).
Lemma sum_at (cps : list (vec4 b64)) (basis : list b64) lo p e n pe : (0 <= p)%Z -> (0 <= e <= p)%Z -> n = 1 \/ n = one_less -> Forall mild cps ->
  (0 <= lo)%Z -> (lo + p < len cps)%Z -> vget cps (lo + e) = Ok pe -> val (w4 pe) = 1 ->
  (exists b, vget basis e = Ok b /\ is_ n b) -> (forall r, (0 <= r <= p)%Z -> r <> e -> exists b, vget basis r = Ok b /\ is_ 0 b) ->
  exists s, for_up 0 (p + 1) (fun i result => bind (vget cps (lo + i)) (fun p => bind (vget basis i) (fun b => Ok (v4add result (v4scale b (ToHomo p)))))) v4zero = Ok s /\
    is4 (rnd64 (n * val (x4 pe))) (rnd64 (n * val (y4 pe))) (rnd64 (n * val (z4 pe))) n s.
Proof.
  intros P0 He Hn M L0 L1 Ep Wp [be [Ebe Hbe]] Hz.
  assert (forall k, (0 <= k < len cps)%Z -> exists q, vget cps k = Ok q /\ mild q) as Get.
  { intros k Hk. destruct (vget_ex cps k Hk) as [q Eq]. exists q. split; [exact Eq|]. rewrite Forall_forall in M. apply M. apply (vget_in _ _ _ Eq). }
  edestruct (for_up_inv (fun r s => ((r <= e)%Z -> is4 0 0 0 0 s) /\ ((e < r)%Z -> is4 (rnd64 (n * val (x4 pe))) (rnd64 (n * val (y4 pe))) (rnd64 (n * val (z4 pe))) n s)) 0%Z (p + 1)%Z) as [s [E Q]]; cycle 3.
  - exists s. split; [exact E|]. apply Q. lia.
  - lia.
  - split; [|lia]. intros _. repeat (split; [apply is_0|]). apply is_0.
  - intros r s Hr [Q1 Q2]. destruct (Get (lo + r)%Z ltac:(lia)) as [q [Eq [Fw [[F1 F1'] [[F2 F2'] [F3 F3']]]]]]. rewrite Eq. cbn [bind].
    destruct (Z.eq_dec r e) as [->|Ne].
    + rewrite Ebe. cbn [bind]. eexists. split; [reflexivity|]. split; [lia|]. intros _. rewrite Eq in Ep. injection Ep as ->. destruct (Q1 ltac:(lia)) as [S1 [S2 [S3 S4]]].
      assert (forall a : b64, finite64 a -> is_ (val a) (nmul a (w4 pe))) as Hom.
      { intros a Fa. pose proof (val_lt_emax a Fa) as B. pose proof (val_format a Fa) as G. destruct (mul_round a (w4 pe) Fa Fw) as [F V]; rewrite Wp, Rmult_1_r in *; [unfold no_overflow; rewrite rnd64_id by exact G; exact B|]. split; [exact F|]. rewrite V. apply rnd64_id. exact G. }
      pose proof (unit_range n Hn) as Un. unfold is4, v4add, v4scale, ToHomo. cbn [x4 y4 z4 w4].
      split; [apply add_0l; [exact S1|apply scaled; [exact Un|exact Hbe|apply Hom; exact F1]]|]. split; [apply add_0l; [exact S2|apply scaled; [exact Un|exact Hbe|apply Hom; exact F2]]|].
      split; [apply add_0l; [exact S3|apply scaled; [exact Un|exact Hbe|apply Hom; exact F3]]|]. apply add_0l; [exact S4|].
      pose proof (scaled n be (w4 pe) 1 Un Hbe (conj Fw Wp)) as Sw. rewrite Rmult_1_r, (rnd64_id n) in Sw by exact (fmt _ _ Hbe). exact Sw.
    + destruct (Hz r ltac:(lia) Ne) as [b [Eb Hb]]. rewrite Eb. cbn [bind]. eexists. split; [reflexivity|].
      assert (forall a b' c d, is4 a b' c d s -> is4 a b' c d (v4add s (v4scale b (ToHomo q)))) as Keep.
      { intros a b' c d [S1 [S2 [S3 S4]]]. unfold is4, v4add, v4scale, ToHomo. cbn [x4 y4 z4 w4].
        split; [apply add_0r; [exact S1|exact (mul_0l _ _ _ Hb (conj F1' eq_refl))]|]. split; [apply add_0r; [exact S2|exact (mul_0l _ _ _ Hb (conj F2' eq_refl))]|].
        split; [apply add_0r; [exact S3|exact (mul_0l _ _ _ Hb (conj F3' eq_refl))]|]. apply add_0r; [exact S4|exact (mul_0l _ _ _ Hb (conj Fw eq_refl))]. }
      split; intros H; apply Keep; [apply Q1; lia|apply Q2; lia].
Qed.
Lemma point_at (c : curve b64) (x : b64) i basis e n pe : (0 <= Degree c)%Z -> finite64 x -> 0 <= val x <= 1 -> KnotVector_FindSpanIndex (Knots c) (Degree c) x = Ok i ->
  Basis_Evaluate (Degree c) (Knots c) i x = Ok basis -> len basis = (Degree c + 1)%Z ->
  (0 <= e <= Degree c)%Z -> n = 1 \/ n = one_less -> Forall mild (ControlPoints c) -> (0 <= i - Degree c)%Z -> (i < len (ControlPoints c))%Z -> vget (ControlPoints c) (i - Degree c + e) = Ok pe ->
  plain_end pe -> (exists b, vget basis e = Ok b /\ is_ n b) -> (forall r, (0 <= r <= Degree c)%Z -> r <> e -> exists b, vget basis r = Ok b /\ is_ 0 b) ->
  exists q, Curve_Evaluate c x = Ok q /\ finite64 (x3 q) /\ finite64 (y3 q) /\ finite64 (z3 q) /\ val3 q = val3 (spot pe).
Proof.
  intros P0 Fx Hx Es Eb Lb He Hn M L0 L1 Ep [Wp [Ox [Oy Oz]]] Hbe Hz. unfold Curve_Evaluate. rewrite (unit_assert64 x Fx Hx). cbn [assert_ bind]. rewrite Es. cbn [bind]. rewrite Eb. cbn [bind]. rewrite Lb, Z.eqb_refl. cbn [assert_ bind].
  destruct (sum_at (ControlPoints c) basis (i - Degree c) (Degree c) e n pe P0 He Hn M L0 ltac:(lia) Ep Wp Hbe Hz) as [s [Esum [S1 [S2 [S3 S4]]]]]. rewrite Esum. cbn [bind]. clear Esum.
  assert (mild pe) as [_ [[F1 _] [[F2 _] [F3 _]]]]. { rewrite Forall_forall in M. apply M. apply (vget_in _ _ _ Ep). }
  destruct (again n _ _ _ Hn S1 S4 (val_format _ F1) (val_lt_emax _ F1) Ox) as [q1 [E1 [G1 V1]]]. destruct (again n _ _ _ Hn S2 S4 (val_format _ F2) (val_lt_emax _ F2) Oy) as [q2 [E2 [G2 V2]]]. destruct (again n _ _ _ Hn S3 S4 (val_format _ F3) (val_lt_emax _ F3) Oz) as [q3 [E3 [G3 V3]]].
  exists (Vec3 q1 q2 q3). split; [|split; [exact G1|split; [exact G2|split; [exact G3|unfold val3, spot; cbn [x3 y3 z3]; rewrite V1, V2, V3; reflexivity]]]].
  unfold v3div, head3. cbn [x3 y3 z3]. rewrite E1. cbn [bind]. rewrite E2. cbn [bind]. rewrite E3. reflexivity.
Qed.

Lemma knots_low c : clamped (Degree c) (vals (Knots c)) -> forall k, 0 <= kf (vals (Knots c)) k.
Proof.
  intros C k. pose proof (cl_degree _ _ C) as P0. pose proof (cl_len _ _ C) as CL. pose proof (clamped_mono _ _ C) as M.
  assert (kf (vals (Knots c)) 0%Z = 0) as Z1 by (rewrite kf_at by lia; apply (cl_zero _ _ C); lia).
  destruct (Z_le_dec k 0); [rewrite kf_low by lia; lra|]. rewrite <- Z1. apply M. lia.
Qed.
Lemma C115_start_lemma : forall (c : curve b64) x first, sound_curve c -> / 2 ^ 900 <= at_ (vals (Knots c)) (Degree c + 1) -> Forall mild (ControlPoints c) ->
  nth_error (ControlPoints c) 0 = Some first -> plain_end first -> finite64 x -> val x = 0 ->
  exists q, Curve_Evaluate c x = Ok q /\ finite64 (x3 q) /\ finite64 (y3 q) /\ finite64 (z3 q) /\ val3 q = val3 (spot first).
Proof.
  intros c x pe [[Fl C] Sn] Gap M Hp Pl Fx Vx. pose proof (cl_degree _ _ C) as P0. pose proof (cl_len _ _ C) as CL. pose proof (clamped_mono _ _ C) as Mo. pose proof (clamped_le1 _ _ C) as L1.
  assert (0 <= val x <= 1) as Hx by lra. destruct (Basis_Evaluate_N (Degree c) (vals (Knots c)) (val x) C Hx) as [i [r0 [E1 [_ [_ [Hi [Sp _]]]]]]].
  pose proof (span_nonempty _ _ _ Sp) as Sn'. pose proof (span_bounds _ _ _ Sp) as Sb. rewrite Vx in Sb.
  assert (i = Degree c) as ->.
  { destruct (Z.eq_dec i (Degree c)) as [|Ne]; [assumption|exfalso]. pose proof (cl_first _ _ C) as Cf. rewrite <- (kf_at (vals (Knots c))) in Cf by lia. pose proof (Mo (Degree c + 1)%Z i ltac:(lia)). lra. }
  rewrite <- FindSpanIndex_b64 in E1 by assumption. rewrite len_vals in *.
  destruct (basis_at_0 (Knots c) (Degree c) x (Degree c) Fl (conj Fx Vx) P0 ltac:(lia) ltac:(lia)) as [basis [n [Eb [Lb [Cn [H0 Hz]]]]]].
  { intros k Hk. pose proof (knots_low c C k). pose proof (Mo k (Degree c) Hk). rewrite (kf_at _ (Degree c)) in * by (rewrite len_vals; lia). rewrite (cl_zero _ _ C (Degree c)) in * by lia. lra. }
  { intros k Hk. split; [|apply L1]. change (-900)%Z with (- Z.of_nat 900)%Z. rewrite bpow_inv. eapply Rle_trans; [exact Gap|]. rewrite <- (kf_at (vals (Knots c))) by (rewrite len_vals; lia). apply Mo. lia. }
  assert (bpow radix2 (-900) <= kf (vals (Knots c)) (Degree c + 1)%Z <= 1) as Hd. { split; [|apply L1]. change (-900)%Z with (- Z.of_nat 900)%Z. rewrite bpow_inv, kf_at by (rewrite len_vals; lia). exact Gap. }
  apply (point_at c x (Degree c) basis 0 n pe); try assumption; try lia.
  - exact (chain_unit _ _ Hd Cn).
  - replace (Degree c - Degree c + 0)%Z with 0%Z by lia. unfold vget. change (0 <? 0)%Z with false. cbv iota. change (Z.to_nat 0) with 0%nat. rewrite Hp. reflexivity.
  - intros r Hr Ne. apply Hz. lia.
Qed.
Lemma C115_finish_lemma : forall (c : curve b64) x final, sound_curve c -> Forall mild (ControlPoints c) ->
  nth_error (ControlPoints c) (length (ControlPoints c) - 1) = Some final -> plain_end final -> finite64 x -> val x = 1 ->
  exists q, Curve_Evaluate c x = Ok q /\ finite64 (x3 q) /\ finite64 (y3 q) /\ finite64 (z3 q) /\ val3 q = val3 (spot final).
Proof.
  intros c x pe [[Fl C] Sn] M Hp Pl Fx Vx. pose proof (cl_degree _ _ C) as P0. pose proof (cl_len _ _ C) as CL. pose proof (clamped_mono _ _ C) as Mo. pose proof (clamped_le1 _ _ C) as L1.
  assert (0 <= val x <= 1) as Hx by lra. destruct (Basis_Evaluate_N (Degree c) (vals (Knots c)) (val x) C Hx) as [i [r0 [E1 [_ [_ [Hi [Sp _]]]]]]].
  pose proof (span_nonempty _ _ _ Sp) as Sn'. pose proof (span_bounds _ _ _ Sp) as Sb. rewrite Vx in Sb. rewrite len_vals in *.
  set (L := len (Knots c)) in *. assert (i = L - Degree c - 2)%Z as Ei.
  { destruct (Z.eq_dec i (L - Degree c - 2)) as [|Ne]; [assumption|exfalso]. pose proof (cl_last _ _ C) as Cf. rewrite len_vals in Cf. fold L in Cf. rewrite <- (kf_at (vals (Knots c))) in Cf by (rewrite len_vals; fold L; lia).
    pose proof (Mo (i + 1)%Z (L - Degree c - 2)%Z ltac:(lia)). lra. }
  rewrite <- FindSpanIndex_b64 in E1 by assumption.
  assert (forall k, (k <= i)%Z -> 0 <= kf (vals (Knots c)) k /\ bpow radix2 (-900) <= rnd64 (1 - kf (vals (Knots c)) k) <= 1) as Gr.
  { intros k Hk. pose proof (knots_low c C k) as K0. split; [exact K0|]. split.
    - apply Rle_trans with (rnd64 (/ 9007199254740992)).
      + assert (generic_format radix2 (FLT_exp (-1074) 53) (/ 9007199254740992)) as G by (change (/ 9007199254740992) with (bpow radix2 (-53)); apply generic_format_bpow; vm_compute; discriminate). rewrite rnd64_id by exact G. change (/ 9007199254740992) with (bpow radix2 (-53)). apply bpow_le. discriminate.
      + apply rnd64_le. pose proof (Mo k i Hk) as Mk. pose proof (cl_last _ _ C) as Cl. rewrite len_vals in Cl. fold L in Cl. rewrite <- Ei in Cl.
        destruct (vget64 (Knots c) i Fl ltac:(fold L; lia)) as [b [_ [Fb Vb]]]. assert (val b < 1) as Vl by (rewrite Vb, kf_at by (rewrite len_vals; fold L; lia); exact Cl).
        assert (val b <= 1 - / 9007199254740992); [|rewrite Vb in *; lra].
        destruct (Rle_dec (val b) (1 - / 9007199254740992)) as [|Hn]; [assumption|exfalso]. apply Rnot_le_lt in Hn.
        pose proof (val_format b Fb) as G. pose proof (rnd64_id _ G) as I. rewrite (rnd_binade (-53)) in I; [|lia|change (-53 + 52)%Z with (-1)%Z; change (-53 + 53)%Z with 0%Z; change (bpow radix2 (-1)) with (/ 2); change (bpow radix2 0) with 1; lra].
        rewrite bm53 in I. set (z := ZnearestE (val b * bpow radix2 (- -53))) in *.
        assert (9007199254740991 < z)%Z by (apply lt_IZR; lra). assert (z < 9007199254740992)%Z by (apply lt_IZR; lra). lia.
    - rewrite <- (rnd64_id 1) at 2 by (change 1 with (bpow radix2 0); apply generic_format_bpow; vm_compute; discriminate). apply rnd64_le. lra. }
  destruct (basis_at_1 (Knots c) i x (Degree c) Fl (conj Fx Vx) P0 ltac:(lia) ltac:(fold L; lia)) as [basis [n [Eb [Lb [Cn [H0 Hz]]]]]].
  { intros k Hk1 Hk2. rewrite kf_at by (rewrite len_vals; lia). apply (cl_one _ _ C). rewrite len_vals. fold L. lia. }
  { exact Gr. }
  apply (point_at c x i basis (Degree c) n pe); try assumption; try lia.
  - exact (chain_unit _ _ (proj2 (Gr i ltac:(lia))) Cn).
  - replace (i - Degree c + Degree c)%Z with (len (ControlPoints c) - 1)%Z by lia. unfold vget. assert (1 <= len (ControlPoints c))%Z as Lc by lia. unfold len in *.
    destruct (Z.ltb_spec (Z.of_nat (length (ControlPoints c)) - 1) 0); [lia|]. replace (Z.to_nat (Z.of_nat (length (ControlPoints c)) - 1)) with (length (ControlPoints c) - 1)%nat by lia. rewrite Hp. reflexivity.
  - intros r Hr Ne. apply Hz. lia.
Qed.
