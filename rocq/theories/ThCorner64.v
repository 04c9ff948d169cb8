(** Evaluation at the corners on doubles (C116). *)
From Coq Require Import Reals QArith ZArith List Lra Lia Bool Floats.SpecFloat.
From Flocq Require Import Core.
From Verif Require Import Outcome Num ModelCore ModelBasis ModelCurve ModelSurface SpecCore SpecBasis SpecCurve SpecErr SpecGeom64 SpecEnd64 SpecCorner64
  ThOutcome ThReal ThB64 ThRound ThVec ThKnots ThSum ThSpline ThBasis ThCurve ThErr ThErrBasis ThErrCurve ThErrInsert2 ThErrInsert3 ThBBoxWit ThUniform64 ThEnd64 ThEnd64b.
Import ListNotations.
Open Scope R_scope.

Definition zero_but (basis : list b64) p e n : Prop :=
  len basis = (p + 1)%Z /\ (0 <= e <= p)%Z /\ (exists b, vget basis e = Ok b /\ is_ n b) /\ (forall r, (0 <= r <= p)%Z -> r <> e -> exists b, vget basis r = Ok b /\ is_ 0 b).

Lemma knots0 p (l : list b64) : clamped p (vals l) -> forall k, 0 <= kf (vals l) k.
Proof.
  intros C k. pose proof (cl_degree _ _ C) as P0. pose proof (cl_len _ _ C) as CL. pose proof (clamped_mono _ _ C) as M.
  assert (kf (vals l) 0%Z = 0) as Z1 by (rewrite kf_at by lia; apply (cl_zero _ _ C); lia).
  destruct (Z_le_dec k 0); [rewrite kf_low by lia; lra|]. rewrite <- Z1. apply M. lia.
Qed.
Lemma end_basis p (l : list b64) x k d : sound_knots p l -> end_of p l x k d ->
  exists i basis e n, KnotVector_FindSpanIndex l p x = Ok i /\ Basis_Evaluate p l i x = Ok basis /\ zero_but basis p e n /\
    (i - p + e = k)%Z /\ (0 <= i - p)%Z /\ (i < len l - p - 1)%Z /\ (n = 1 \/ n = one_less) /\ (undone d -> n = 1).
Proof.
  intros [Fl C] [Fx H]. pose proof (cl_degree _ _ C) as P0. pose proof (cl_len _ _ C) as CL. pose proof (clamped_mono _ _ C) as Mo. pose proof (clamped_le1 _ _ C) as L1.
  assert (0 <= val x <= 1) as Hx by (destruct H as [[H _]|[H _]]; lra).
  destruct (Basis_Evaluate_N p (vals l) (val x) C Hx) as [i [r0 [E1 [_ [_ [Hi [Sp _]]]]]]].
  pose proof (span_nonempty _ _ _ Sp) as Sn'. pose proof (span_bounds _ _ _ Sp) as Sb.
  rewrite <- FindSpanIndex_b64 in E1 by assumption. rewrite len_vals in *.
  destruct H as [[Vx [-> [-> Gap]]]|[Vx [-> ->]]]; rewrite Vx in Sb.
  - assert (i = p) as ->.
    { destruct (Z.eq_dec i p) as [|Ne]; [assumption|exfalso]. pose proof (cl_first _ _ C) as Cf. rewrite <- (kf_at (vals l)) in Cf by (rewrite len_vals; lia). pose proof (Mo (p + 1)%Z i ltac:(lia)). lra. }
    assert (forall k, (p + 1 <= k)%Z -> bpow radix2 (-900) <= kf (vals l) k <= 1) as Gr.
    { intros k Hk. split; [|apply L1]. change (-900)%Z with (- Z.of_nat 900)%Z. rewrite bpow_inv. eapply Rle_trans; [exact Gap|]. rewrite <- (kf_at (vals l)) by (rewrite len_vals; lia). apply Mo. lia. }
    destruct (basis_at_0 l p x p Fl (conj Fx Vx) P0 ltac:(lia) ltac:(lia)) as [basis [n [Eb [Lb [Cn [H0 Hz]]]]]].
    { intros k Hk. pose proof (knots0 p l C k). pose proof (Mo k p Hk). rewrite (kf_at _ p) in * by (rewrite len_vals; lia). rewrite (cl_zero _ _ C p) in * by lia. lra. }
    { exact Gr. }
    exists p, basis, 0%Z, n. split; [exact E1|]. split; [exact Eb|]. split; [split; [exact Lb|]; split; [lia|]; split; [exact H0|]; intros r Hr Ne; apply Hz; lia|].
    split; [lia|]. split; [lia|]. split; [lia|]. split; [exact (chain_unit _ _ (Gr (p + 1)%Z ltac:(lia)) Cn)|].
    intros Un. destruct Cn as [->| ->]; [reflexivity|]. rewrite kf_at by (rewrite len_vals; lia). exact Un.
  - set (L := len l) in *. assert (i = L - p - 2)%Z as Ei.
    { destruct (Z.eq_dec i (L - p - 2)) as [|Ne]; [assumption|exfalso]. pose proof (cl_last _ _ C) as Cf. rewrite len_vals in Cf. fold L in Cf. rewrite <- (kf_at (vals l)) in Cf by (rewrite len_vals; fold L; lia).
      pose proof (Mo (i + 1)%Z (L - p - 2)%Z ltac:(lia)). lra. }
    assert (forall k, (k <= i)%Z -> 0 <= kf (vals l) k /\ bpow radix2 (-900) <= rnd64 (1 - kf (vals l) k) <= 1) as Gr.
    { intros k Hk. pose proof (knots0 p l C k) as K0. split; [exact K0|]. split.
      - apply Rle_trans with (rnd64 (/ 9007199254740992)).
        + assert (generic_format radix2 (FLT_exp (-1074) 53) (/ 9007199254740992)) as G by (change (/ 9007199254740992) with (bpow radix2 (-53)); apply generic_format_bpow; vm_compute; discriminate). rewrite rnd64_id by exact G. change (/ 9007199254740992) with (bpow radix2 (-53)). apply bpow_le. discriminate.
        + apply rnd64_le. pose proof (Mo k i Hk) as Mk. pose proof (cl_last _ _ C) as Cl. rewrite len_vals in Cl. fold L in Cl. rewrite <- Ei in Cl.
          destruct (vget64 l i Fl ltac:(fold L; lia)) as [b [_ [Fb Vb]]]. assert (val b < 1) as Vl by (rewrite Vb, kf_at by (rewrite len_vals; fold L; lia); exact Cl).
          assert (val b <= 1 - / 9007199254740992); [|rewrite Vb in *; lra].
          destruct (Rle_dec (val b) (1 - / 9007199254740992)) as [|Hn]; [assumption|exfalso]. apply Rnot_le_lt in Hn.
          pose proof (val_format b Fb) as G. pose proof (rnd64_id _ G) as I. rewrite (rnd_binade (-53)) in I; [|lia|change (-53 + 52)%Z with (-1)%Z; change (-53 + 53)%Z with 0%Z; change (bpow radix2 (-1)) with (/ 2); change (bpow radix2 0) with 1; lra].
          rewrite bm53 in I. set (z := ZnearestE (val b * bpow radix2 (- -53))) in *.
          assert (9007199254740991 < z)%Z by (apply lt_IZR; lra). assert (z < 9007199254740992)%Z by (apply lt_IZR; lra). lia.
      - rewrite <- (rnd64_id 1) at 2 by (change 1 with (bpow radix2 0); apply generic_format_bpow; vm_compute; discriminate). apply rnd64_le. lra. }
    destruct (basis_at_1 l i x p Fl (conj Fx Vx) P0 ltac:(lia) ltac:(fold L; lia)) as [basis [n [Eb [Lb [Cn [H0 Hz]]]]]].
    { intros k Hk1 Hk2. rewrite kf_at by (rewrite len_vals; lia). apply (cl_one _ _ C). rewrite len_vals. fold L. lia. }
    { exact Gr. }
    exists i, basis, p, n. split; [exact E1|]. split; [exact Eb|]. split; [split; [exact Lb|]; split; [lia|]; split; [exact H0|]; intros r Hr Ne; apply Hz; lia|].
    split; [lia|]. split; [lia|]. split; [lia|]. split; [exact (chain_unit _ _ (proj2 (Gr i ltac:(lia))) Cn)|].
    intros Un. destruct Cn as [->| ->]; [reflexivity|]. rewrite Ei, kf_at by (rewrite len_vals; fold L; lia). exact Un.
Qed.

Lemma is_val (b : b64) : finite64 b -> is_ (val b) b. Proof. intros F. split; [exact F|reflexivity]. Qed.
Definition homo4 n (q : vec4 b64) s : Prop :=
  is4 (rnd64 (n * val (nmul (x4 q) (w4 q)))) (rnd64 (n * val (nmul (y4 q) (w4 q)))) (rnd64 (n * val (nmul (z4 q) (w4 q)))) (rnd64 (n * val (w4 q))) s.
Lemma add4_0l a b c d s t : is4 0 0 0 0 s -> is4 a b c d t -> is4 a b c d (v4add s t).
Proof. intros [A [B [C D]]] [A' [B' [C' D']]]. split; [|split; [|split]]; apply add_0l; assumption. Qed.
Lemma add4_0r a b c d s t : is4 a b c d s -> is4 0 0 0 0 t -> is4 a b c d (v4add s t).
Proof. intros [A [B [C D]]] [A' [B' [C' D']]]. split; [|split; [|split]]; apply add_0r; assumption. Qed.
Lemma mul4_0 a b c d e s : is_ 0 e -> is4 a b c d s -> is4 0 0 0 0 (v4scale e s).
Proof. intros E [A [B [C D]]]. split; [|split; [|split]]; eapply mul_0l; eassumption. Qed.
Lemma scaled4 n a b c d e s : 0 <= n <= 1 -> is_ n e -> is4 a b c d s -> is4 (rnd64 (n * a)) (rnd64 (n * b)) (rnd64 (n * c)) (rnd64 (n * d)) (v4scale e s).
Proof. intros N E [A [B [C D]]]. split; [|split; [|split]]; apply scaled; assumption. Qed.
Lemma zero4 : is4 0 0 0 0 (v4zero : vec4 b64).
Proof. repeat (split; [apply is_0|]). apply is_0. Qed.
Lemma homo_is q : mild q -> is4 (val (nmul (x4 q) (w4 q))) (val (nmul (y4 q) (w4 q))) (val (nmul (z4 q) (w4 q))) (val (w4 q)) (ToHomo q).
Proof. intros [Fw [[_ F1] [[_ F2] [_ F3]]]]. split; [|split; [|split]]; apply is_val; assumption. Qed.

(** a sum with one non-zero basis value picks its term *)
Lemma pick (term : Z -> outcome (vec4 b64)) (basis : list b64) p e n a b c d : zero_but basis p e n -> 0 <= n <= 1 ->
  (forall r, (0 <= r <= p)%Z -> exists t a' b' c' d', term r = Ok t /\ is4 a' b' c' d' t) ->
  (exists t, term e = Ok t /\ is4 a b c d t) ->
  exists s, for_up 0 (p + 1) (fun i result => bind (term i) (fun t => bind (vget basis i) (fun b => Ok (v4add result (v4scale b t))))) v4zero = Ok s /\
    is4 (rnd64 (n * a)) (rnd64 (n * b)) (rnd64 (n * c)) (rnd64 (n * d)) s.
Proof.
  intros [_ [He [[be [Ebe Hbe]] Hz]]] Hn Ht [te [Ete Hte]].
  edestruct (for_up_inv (fun r s => ((r <= e)%Z -> is4 0 0 0 0 s) /\ ((e < r)%Z -> is4 (rnd64 (n * a)) (rnd64 (n * b)) (rnd64 (n * c)) (rnd64 (n * d)) s)) 0%Z (p + 1)%Z) as [s [E Q]]; cycle 3.
  - exists s. split; [exact E|]. apply Q. lia.
  - lia.
  - split; [|lia]. intros _. exact zero4.
  - intros r s Hr [Q1 Q2]. destruct (Z.eq_dec r e) as [->|Ne].
    + rewrite Ete. cbn [bind]. rewrite Ebe. cbn [bind]. eexists. split; [reflexivity|]. split; [lia|]. intros _. apply add4_0l; [apply Q1; lia|]. apply scaled4; assumption.
    + destruct (Ht r ltac:(lia)) as [t [a' [b' [c' [d' [Et Pt]]]]]]. destruct (Hz r ltac:(lia) Ne) as [z [Ez Pz]]. rewrite Et. cbn [bind]. rewrite Ez. cbn [bind]. eexists. split; [reflexivity|].
      pose proof (mul4_0 _ _ _ _ _ _ Pz Pt) as M0. split; intros H; apply add4_0r; try exact M0; [apply Q1; lia|apply Q2; lia].
Qed.

Lemma for_up_ext' {A} lo hi (f g : Z -> A -> outcome A) s : (forall i a, f i a = g i a) -> for_up lo hi f s = for_up lo hi g s.
Proof. intros H. unfold for_up. generalize (Z.to_nat (hi - lo)) as k. intros k. revert lo s. induction k as [|k IH]; intros lo s; [reflexivity|]. cbn. rewrite H. destruct (g lo s); cbn; try reflexivity. apply IH. Qed.

Lemma one_less_format : generic_format radix2 (FLT_exp (-1074) 53) one_less.
Proof.
  assert (one_less = F2R (Float radix2 9007199254740991 (-53))) as ->.
  { unfold F2R. cbn [Fnum Fexp]. change (bpow radix2 (-53)) with (/ 9007199254740992). unfold one_less. rewrite u64_53. field. }
  apply generic_format_F2R. intros _. unfold cexp, FLT_exp. rewrite mag_F2R by discriminate. replace (mag radix2 (IZR 9007199254740991) : Z) with 53%Z; [lia|]. symmetry. apply mag_unique. rewrite Rabs_pos_eq by lra. change (bpow radix2 (53 - 1)) with 4503599627370496. change (bpow radix2 53) with 9007199254740992. lra.
Qed.
Lemma C116_corner_lemma : forall (s : surface b64) u v ku kv du dv corner, sound_surface s -> Forall mild (Values (Net s)) ->
  end_of (DegreeU s) (KnotsU s) u ku du -> end_of (DegreeV s) (KnotsV s) v kv dv -> undone du \/ undone dv ->
  nth_error (Values (Net s)) (Z.to_nat (kv * UCount (Net s) + ku)) = Some corner -> plain_end corner ->
  exists q, Surface_Evaluate s u v = Ok q /\ finite64 (x3 q) /\ finite64 (y3 q) /\ finite64 (z3 q) /\ val3 q = val3 (spot corner).
Proof.
  intros s u v ku kv du dv pe [Su [Sv [Nu [Nv Nn]]]] M Eu Ev Un Hp [Wp [Ox [Oy Oz]]].
  destruct (end_basis _ _ _ _ _ Su Eu) as [iu [bu [eu [nu [Fu [Bu [Zu [Ku [Lu [Hu [Unu Uu]]]]]]]]]]].
  destruct (end_basis _ _ _ _ _ Sv Ev) as [iv [bv [ev [nv [Fv [Bv [Zv [Kv [Lv [Hv [Unv Uv]]]]]]]]]]].
  pose proof (unit_range _ Unu) as Ru. pose proof (unit_range _ Unv) as Rv.
  assert (forall x k d p l, end_of p l x k d -> finite64 x /\ 0 <= val x <= 1) as Dom by (intros ? ? ? ? ? [F [[H _]|[H _]]]; split; [exact F|lra|exact F|lra]).
  destruct (Dom _ _ _ _ _ Eu) as [Fu' Hu']. destruct (Dom _ _ _ _ _ Ev) as [Fv' Hv'].
  assert (0 <= DegreeU s)%Z as P0 by (apply (cl_degree _ _ (proj2 Su))). assert (0 <= DegreeV s)%Z as P1 by (apply (cl_degree _ _ (proj2 Sv))).
  unfold Surface_Evaluate. rewrite (unit_assert64 u Fu' Hu'), (unit_assert64 v Fv' Hv'). cbn [assert_ bind]. rewrite Fu. cbn [bind]. rewrite Fv. cbn [bind]. rewrite Bu. cbn [bind]. rewrite Bv. cbn [bind].
  rewrite (proj1 Zu), (proj1 Zv), !Z.eqb_refl. cbn [assert_ bind]. cbv zeta.
  pose proof (proj1 (proj2 Zu)) as Heu. pose proof (proj1 (proj2 Zv)) as Hev.
  assert (forall j i, (0 <= i < UCount (Net s))%Z -> (0 <= j < VCount (Net s))%Z -> exists q, Grid_Get (Net s) i j = Ok q /\ vget (Values (Net s)) (j * UCount (Net s) + i) = Ok q /\ mild q) as Get.
  { intros j i Hi Hj. unfold Grid_Get. destruct (Z.ltb_spec i (UCount (Net s))); [|lia]. destruct (Z.ltb_spec j (VCount (Net s))); [|lia]. cbn [andb assert_ bind].
    destruct (vget_ex (Values (Net s)) (j * UCount (Net s) + i)) as [q Eq]; [rewrite Nn; nia|]. exists q. split; [exact Eq|]. split; [exact Eq|]. rewrite Forall_forall in M. apply M. apply (vget_in _ _ _ Eq). }
  set (row := fun j => for_up 0 (DegreeU s + 1) (fun i tmp => bind (bind (Grid_Get (Net s) (iu - DegreeU s + i) (iv - DegreeV s + j)) (fun q => Ok (ToHomo q))) (fun t => bind (vget bu i) (fun b => Ok (v4add tmp (v4scale b t))))) v4zero).
  assert (forall j, (0 <= j <= DegreeV s)%Z -> exists q t, Grid_Get (Net s) ku (iv - DegreeV s + j) = Ok q /\ vget (Values (Net s)) ((iv - DegreeV s + j) * UCount (Net s) + ku) = Ok q /\ row j = Ok t /\ homo4 nu q t) as Row.
  { intros j Hj. destruct (Get (iv - DegreeV s + j)%Z ku ltac:(lia) ltac:(lia)) as [q [Eq [Eq' Mq]]].
    edestruct (pick (fun i => bind (Grid_Get (Net s) (iu - DegreeU s + i) (iv - DegreeV s + j)) (fun q => Ok (ToHomo q))) bu (DegreeU s) eu nu) as [t [Et Pt]]; [exact Zu|exact Ru| | |].
    - intros r Hr. destruct (Get (iv - DegreeV s + j)%Z (iu - DegreeU s + r)%Z ltac:(lia) ltac:(lia)) as [q' [Eq2 [_ Mq']]]. rewrite Eq2. cbn [bind]. do 5 eexists. split; [reflexivity|]. apply homo_is. exact Mq'.
    - rewrite Ku, Eq. cbn [bind]. eexists. split; [reflexivity|]. apply homo_is. exact Mq.
    - exists q, t. split; [exact Eq|]. split; [exact Eq'|]. split; [exact Et|exact Pt]. }
  destruct (Row ev Hev) as [q0 [te [_ [Eq0 [Ete Hte]]]]]. rewrite Kv in Eq0.
  assert (q0 = pe) as ->.
  { revert Eq0. unfold vget. destruct (Z.ltb_spec (kv * UCount (Net s) + ku) 0); [discriminate|]. rewrite Hp. congruence. }
  edestruct (pick row bv (DegreeV s) ev nv) as [res [Er [S1 [S2 [S3 S4]]]]]; [exact Zv|exact Rv| | |].
  { intros r Hr. destruct (Row r Hr) as [q' [t [_ [_ [Et Pt]]]]]. do 5 eexists. split; [exact Et|exact Pt]. }
  { exists te. split; [exact Ete|exact Hte]. }
  assert (mild pe) as [Fw [[F1 _] [[F2 _] [F3 _]]]]. { rewrite Forall_forall in M. apply M. apply (vget_in _ _ _ Eq0). }
  assert (forall a : b64, finite64 a -> val (nmul a (w4 pe)) = val a) as Hom.
  { intros a Fa. pose proof (val_lt_emax a Fa) as B. pose proof (val_format a Fa) as G. destruct (mul_round a (w4 pe) Fa Fw) as [F V]; rewrite Wp, Rmult_1_r in *; [unfold no_overflow; rewrite rnd64_id by exact G; exact B|]. rewrite V. apply rnd64_id. exact G. }
  assert (exists n, (n = 1 \/ n = one_less) /\ forall r, generic_format radix2 (FLT_exp (-1074) 53) r -> rnd64 (nv * rnd64 (nu * r)) = rnd64 (n * r)) as [n [Hn En]].
  { destruct Un as [Un|Un].
    - exists nv. split; [exact Unv|]. intros r G. rewrite (Uu Un), Rmult_1_l, (rnd64_id r) by exact G. reflexivity.
    - exists nu. split; [exact Unu|]. intros r G. rewrite (Uv Un), Rmult_1_l. apply rnd64_id. apply rnd64_format. }
  assert (rnd64 (n * 1) = n) as Rn.
  { rewrite Rmult_1_r. apply rnd64_id. destruct Un as [Un|Un]; [destruct Zv as [_ [_ [[b [_ Hb]] _]]]|destruct Zu as [_ [_ [[b [_ Hb]] _]]]]; destruct Hn as [->| ->];
      try (change 1 with (bpow radix2 0); apply generic_format_bpow; vm_compute; discriminate); exact one_less_format. }
  rewrite Hom, En in S1 by (assumption || apply val_format; assumption). rewrite Hom, En in S2 by (assumption || apply val_format; assumption). rewrite Hom, En in S3 by (assumption || apply val_format; assumption).
  rewrite Wp, En, Rn in S4 by (change 1 with (bpow radix2 0); apply generic_format_bpow; vm_compute; discriminate).
  destruct (again n _ _ _ Hn S1 S4 (val_format _ F1) (val_lt_emax _ F1) Ox) as [q1 [E1 [G1 V1]]]. destruct (again n _ _ _ Hn S2 S4 (val_format _ F2) (val_lt_emax _ F2) Oy) as [q2 [E2 [G2 V2]]]. destruct (again n _ _ _ Hn S3 S4 (val_format _ F3) (val_lt_emax _ F3) Oz) as [q3 [E3 [G3 V3]]].
  exists (Vec3 q1 q2 q3). split; [|split; [exact G1|split; [exact G2|split; [exact G3|unfold val3, spot; cbn [x3 y3 z3]; rewrite V1, V2, V3; reflexivity]]]].
  rewrite (for_up_ext' 0 (DegreeV s + 1) _ (fun i result => bind (row i) (fun t => bind (vget bv i) (fun b => Ok (v4add result (v4scale b t)))))).
  - rewrite Er. cbn [bind]. unfold v3div, head3. cbn [x3 y3 z3]. rewrite E1. cbn [bind]. rewrite E2. cbn [bind]. rewrite E3. reflexivity.
  - intros j a. unfold row. f_equal. apply for_up_ext'. intros i b. destruct (Grid_Get (Net s) (iu - DegreeU s + i) (iv - DegreeV s + j)); reflexivity.
Qed.
