(** Concrete text files. *)
From Coq Require Import List ZArith Lia Bool Ascii String Reals Lra Psatz.
From Flocq Require Import Core.
From Verif Require Import Outcome Num ModelCore ModelCurve ModelSurface ModelSerial SpecText ThSerialWit ThTextSurf.
Import ListNotations.
Open Scope Z_scope.

(** zero, or magnitude at least 1/16 *)
Definition exactb (d : dbl) : bool :=
  (pattern d mod 2 ^ 63 =? 0) || ((1019 <=? exponent_field d) && negb (exponent_field d =? 2047)).
Lemma exactb_ok d : exactb d = true -> text_exact d.
Proof.
  unfold exactb, text_exact. rewrite orb_true_iff, andb_true_iff, negb_true_iff. intros [H|[H H']].
  - apply Z.eqb_eq in H. assert (0 <= pattern d) as P by (rewrite pattern_bits; apply ThTextBits.dbl_bits_range).
    assert (exponent_field d = 0 /\ fraction_field d = 0) as [E F].
    { unfold exponent_field, fraction_field. set (z := pattern d) in *. clearbody z. clear -H P. Z.to_euclidean_division_equations. lia. }
    split; [unfold finite_dbl; lia|]. right. exists 0. unfold real_of, magnitude. rewrite E, F. change (0 =? 0) with true. cbv iota.
    destruct (2 ^ 63 <=? pattern d); lra.
  - apply Z.leb_le in H. apply Z.eqb_neq in H'. split; [exact H'|]. left.
    assert (Rabs (real_of d) = magnitude d) as ->.
    { unfold real_of. assert (0 <= magnitude d)%R.
      { unfold magnitude. pose proof (Z.mod_pos_bound (pattern d) (2 ^ 52) eq_refl). destruct (exponent_field d =? 0); apply Rmult_le_pos; try apply bpow_ge_0; apply IZR_le; unfold fraction_field; lia. }
      destruct (2 ^ 63 <=? pattern d); rewrite ?Rabs_Ropp; apply Rabs_pos_eq; assumption. }
    unfold magnitude. destruct (Z.eqb_spec (exponent_field d) 0); [lia|].
    apply (Rle_trans _ (IZR (2 ^ 52) * bpow radix2 (-56))).
    + change (bpow radix2 (-56)) with (/ IZR (2 ^ 56))%R. change (2 ^ 52) with 4503599627370496. change (2 ^ 56) with (16 * 4503599627370496). rewrite mult_IZR. 
      assert (IZR 4503599627370496 <> 0)%R by (apply IZR_neq; lia). right. field.
    + apply Rmult_le_compat; [apply IZR_le; lia|apply bpow_ge_0| |apply bpow_le; lia].
      apply IZR_le. unfold fraction_field. pose proof (Z.mod_pos_bound (pattern d) (2 ^ 52) eq_refl). lia.
Qed.
Definition exact4b (p : vec4 dbl) : bool := exactb (x4 p) && exactb (y4 p) && exactb (z4 p) && exactb (w4 p).
Lemma exact_list l : forallb exactb l = true -> Forall text_exact l.
Proof. rewrite forallb_forall, Forall_forall. intros H d I. apply exactb_ok, H, I. Qed.
Lemma exact_list4 l : forallb exact4b l = true -> Forall (on_coords text_exact) l.
Proof.
  rewrite forallb_forall, Forall_forall. intros H p I. specialize (H p I). unfold exact4b in H. rewrite !andb_true_iff in H.
  destruct H as [[[A B] C] D]. repeat split; apply exactb_ok; assumption.
Qed.
(** 0.1, -1/3 and 2^-60 *)
Definition dtenth : dbl := dbl_of_bits 4591870180066957722.
Definition dmthird : dbl := dbl_of_bits 13823048456275842389.
Definition dtiny : dbl := dbl_of_bits 4336966441157787648.
Definition text_curve : curve dbl := Curve 2 [d0; d0; d0; dtenth; d1; d1; d1] [Vec4 d0 dmthird d0 d1; Vec4 dtenth dm0 d1 dtenth; Vec4 d1 d1 dmthird d1; Vec4 d0 d0 d1 d1].
Definition text_surface : surface dbl :=
  Surface 1 1 [d0; d0; d1; d1] [d0; d0; dtenth; d1; d1]
    (Grid 2 3 [Vec4 d0 d0 dmthird d1; Vec4 d1 d0 d0 d1; Vec4 d0 dtenth d0 d1; Vec4 d1 dtenth d0 d1; Vec4 d0 d1 d0 dtenth; Vec4 d1 d1 dmthird d1]).
Definition tiny_curve : curve dbl := Curve 1 [d0; d0; d1; d1] [Vec4 dtiny d0 d0 d1; Vec4 d1 d0 d0 d1].
Lemma C60_ex_lemma : Forall text_exact (Knots text_curve) /\ Forall (on_coords text_exact) (ControlPoints text_curve).
Proof. split; [apply exact_list|apply exact_list4]; vm_compute; reflexivity. Qed.
Lemma C61_ex_lemma : Forall text_exact (KnotsU text_surface) /\ Forall text_exact (KnotsV text_surface) /\ Forall (on_coords text_exact) (Values (Net text_surface)) /\
  len (Values (Net text_surface)) = UCount (Net text_surface) * VCount (Net text_surface).
Proof. split; [apply exact_list; vm_compute; reflexivity|]. split; [apply exact_list; vm_compute; reflexivity|]. split; [apply exact_list4; vm_compute; reflexivity|reflexivity]. Qed.
Lemma tiny_value : real_of dtiny = (/ IZR (2 ^ 60))%R.
Proof.
  unfold real_of, magnitude. replace (exponent_field dtiny) with 963 by (vm_compute; reflexivity). replace (fraction_field dtiny) with 0 by (vm_compute; reflexivity).
  replace (2 ^ 63 <=? pattern dtiny) with false by (vm_compute; reflexivity). change (963 =? 0) with false. cbv iota. rewrite Z.add_0_r.
  change (963 - 1075) with (- 112). change (bpow radix2 (-112)) with (/ IZR (2 ^ 112))%R. replace (2 ^ 112) with (2 ^ 52 * 2 ^ 60) by reflexivity. rewrite mult_IZR.
  assert (IZR (2 ^ 52) <> 0)%R by (apply IZR_neq; lia). assert (IZR (2 ^ 60) <> 0)%R by (apply IZR_neq; lia). field. split; assumption.
Qed.
Lemma C60_loss_lemma : exists c c' : curve dbl, Forall finite_dbl (Knots c) /\ Forall (on_coords finite_dbl) (ControlPoints c) /\
  Curve_LoadFromFile (Curve (-1) [] []) (Curve_SaveToFile c false) = (c', Ok tt) /\
  exists p q, In p (ControlPoints c) /\ ControlPoints c' = q :: tl (ControlPoints c) /\ (0 < real_of (x4 p))%R /\ real_of (x4 q) = 0%R.
Proof.
  assert (forall d, exponent_field d <> 2047 -> finite_dbl d) as Fi by auto.
  exists tiny_curve. eexists. split; [repeat constructor; apply Fi; vm_compute; discriminate|].
  split; [repeat constructor; apply Fi; vm_compute; discriminate|]. split; [vm_compute; reflexivity|].
  exists (Vec4 dtiny d0 d0 d1), (Vec4 d0 d0 d0 d1). split; [left; reflexivity|]. split; [vm_compute; reflexivity|]. split.
  - cbn [x4]. rewrite tiny_value. apply Rinv_0_lt_compat, IZR_lt. reflexivity.
  - cbn [x4]. destruct (exactb_ok d0 eq_refl) as [_ _]. unfold real_of, magnitude. replace (exponent_field d0) with 0 by (vm_compute; reflexivity). replace (fraction_field d0) with 0 by (vm_compute; reflexivity).
    replace (2 ^ 63 <=? pattern d0) with false by (vm_compute; reflexivity). change (0 =? 0) with true. cbv iota. lra.
Qed.
Lemma C60_nonfinite_lemma : forall x, In x [dnan; d_ (SpecFloat.S754_infinity false); d_ (SpecFloat.S754_infinity true)] ->
  ~ finite_dbl x /\ exists c', Curve_LoadFromFile (Curve (-1) [] []) (Curve_SaveToFile (Curve 1 [d0; d0; d1; d1] [Vec4 x d0 d0 d1; Vec4 d1 d0 d0 d1]) false) = (c', Throw RuntimeError).
Proof.
  intros x [<-|[<-|[<-|[]]]]; (split; [intros H; apply H; vm_compute; reflexivity|eexists; vm_compute; reflexivity]).
Qed.
