(** Order-only code at IEEE binary64: for finite doubles the comparisons are
    those of the real numbers they denote, so the results transfer. *)
From Coq Require Import Reals Qreals Lra ZArith Lia Bool List Floats.SpecFloat.
From Flocq Require Import Core.Raux IEEE754.BinarySingleNaN.
From Verif Require Import Outcome Num ModelCore SpecCore ThOutcome ThReal.
Import ListNotations.
Open Scope Z_scope.

(** A double: a canonical binary64 datum (bit patterns decode to such). *)
Definition double (x : b64) : Prop := valid_binary 53 1024 x = true.
Definition finite64 (x : b64) : Prop := double x /\ is_finite_SF x = true.
(** the real number a finite double denotes *)
Definition val (x : b64) : R := SF2R Zaux.radix2 x.

Lemma SFcompare_val x y : finite64 x -> finite64 y -> SFcompare x y = Some (Rcompare (val x) (val y)).
Proof.
  intros [Vx Fx] [Vy Fy].
  pose proof (Bcompare_correct 53 1024 (SF2B x Vx) (SF2B y Vy)) as H.
  rewrite !is_finite_SF2B in H. specialize (H Fx Fy).
  unfold Bcompare in H. rewrite !B2SF_SF2B, !B2R_SF2B in H. exact H.
Qed.
Lemma SFltb_val x y : finite64 x -> finite64 y -> SFltb x y = Rltb (val x) (val y).
Proof.
  intros Hx Hy. unfold SFltb. rewrite SFcompare_val by assumption.
  destruct (Rcompare_spec (val x) (val y)), (Rltb_spec (val x) (val y)); auto; lra.
Qed.
Lemma SFleb_val x y : finite64 x -> finite64 y -> SFleb x y = Rleb (val x) (val y).
Proof.
  intros Hx Hy. unfold SFleb. rewrite SFcompare_val by assumption.
  destruct (Rcompare_spec (val x) (val y)), (Rleb_spec (val x) (val y)); auto; lra.
Qed.
Lemma SFeqb_val x y : finite64 x -> finite64 y -> SFeqb x y = Reqb (val x) (val y).
Proof.
  intros Hx Hy. unfold SFeqb. rewrite SFcompare_val by assumption.
  destruct (Rcompare_spec (val x) (val y)), (Reqb_spec (val x) (val y)); auto; lra.
Qed.
Lemma finite_0 : finite64 (n0 : b64).
Proof. split; reflexivity. Qed.
Lemma finite_1 : finite64 (n1 : b64).
Proof. split; vm_compute; reflexivity. Qed.
Lemma val_0 : val (n0 : b64) = 0%R.
Proof. reflexivity. Qed.
Lemma val_1 : val (n1 : b64) = 1%R.
Proof.
  change (n1 : b64) with (b64_of_Z 1). replace (b64_of_Z 1) with (S754_finite false 4503599627370496 (-52)) by (vm_compute; reflexivity).
  unfold val, SF2R, Defs.F2R. simpl. lra.
Qed.

Ltac to_R := change (@nltb b64 Num_b64) with SFltb in *; change (@nleb b64 Num_b64) with SFleb in *;
  change (@neqb b64 Num_b64) with SFeqb in *.

Definition vals (l : list b64) : list R := map val l.
Lemma len_vals l : len (vals l) = len l.
Proof. apply len_map. Qed.
Definition all_finite (l : list b64) : Prop := Forall finite64 l.

Lemma validate_loop_b64 l : forall v, finite64 v -> all_finite l ->
  validate_loop v l = validate_loop (val v) (vals l).
Proof.
  induction l as [|a l IH]; intros v Hv Fa; cbn [validate_loop vals map].
  - unfold nneb. to_R. norm_R. rewrite SFeqb_val, val_1 by auto using finite_1. reflexivity.
  - inversion Fa; subst. to_R. norm_R. rewrite SFltb_val by auto. fold (vals l). rewrite IH by auto. reflexivity.
Qed.
Lemma ValidateKnots_b64 l : all_finite l -> ValidateKnots l = ValidateKnots (vals l).
Proof.
  intros Fa. destruct l as [|a l]; [reflexivity|]. unfold ValidateKnots.
  rewrite validate_loop_b64 by auto using finite_0. reflexivity.
Qed.
(** an infinity is always rejected when there is no NaN *)
Definition not_nan (x : b64) : Prop := x <> S754_nan.
Lemma finite_or x : double x -> not_nan x -> finite64 x \/ x = S754_infinity true \/ x = S754_infinity false.
Proof.
  intros D N. destruct x as [s|s| |s m e]; try (left; split; [assumption|reflexivity]).
  - destruct s; auto.
  - unfold not_nan in N. congruence.
Qed.
Lemma validate_loop_inf l : Forall not_nan l -> validate_loop (S754_infinity false) l = false.
Proof.
  induction 1 as [|a l Na Nl IH]; [reflexivity|]. simpl. to_R.
  destruct a as [s|[|]| |[|] m e]; try reflexivity; [exact IH|]. unfold not_nan in Na. congruence.
Qed.
Lemma validate_loop_finite l : forall v, Forall double l -> Forall not_nan l -> finite64 v ->
  validate_loop v l = true -> all_finite l.
Proof.
  induction l as [|a l IH]; intros v D N Fv H; [constructor|].
  inversion D; inversion N; subst. simpl in H. to_R.
  destruct (finite_or a) as [Fa|[->| ->]]; auto.
  - destruct (SFltb a v); [discriminate|]. constructor; auto. eapply IH; eauto.
  - exfalso. destruct v as [s|[|]| |[|] m e]; try discriminate H; destruct Fv as [_ Fv]; discriminate Fv.
  - rewrite validate_loop_inf in H by assumption.
    destruct (SFltb (S754_infinity false) v); discriminate.
Qed.

Lemma nondecreasing_loop_b64 l : forall v, finite64 v -> all_finite l ->
  nondecreasing_loop v l = nondecreasing_loop (val v) (vals l).
Proof.
  induction l as [|a l IH]; intros v Hv Fa; simpl; auto.
  inversion Fa; subst. to_R. norm_R. rewrite SFltb_val by auto. fold (vals l). rewrite IH by auto. reflexivity.
Qed.
Lemma last_vals l d : last (vals l) (val d) = val (last l d).
Proof. induction l as [|a [|b l] IH]; simpl in *; auto. Qed.
Lemma finite_last l d : all_finite l -> finite64 d -> finite64 (last l d).
Proof. intros H Hd. induction H as [|a [|b l] Ha Hl IH]; simpl in *; auto. Qed.
Lemma IsValid_b64 l : all_finite l -> KnotVector_IsValid l = KnotVector_IsValid (vals l).
Proof.
  intros Fa. unfold KnotVector_IsValid. rewrite len_vals.
  destruct (len l <? 4); [reflexivity|]. destruct l as [|a l]; [reflexivity|].
  inversion Fa; subst. change (vals (a :: l)) with (val a :: vals l).
  pose proof (last_vals (a :: l) a) as EL. change (vals (a :: l)) with (val a :: vals l) in EL.
  cbv beta iota. rewrite EL. unfold nneb. to_R. norm_R.
  rewrite !SFeqb_val by auto using finite_0, finite_1, finite_last.
  rewrite val_0, val_1, nondecreasing_loop_b64 by auto. reflexivity.
Qed.

Lemma upper_bound_b64 l u : finite64 u -> all_finite l -> upper_bound l u = upper_bound (vals l) (val u).
Proof.
  intros Fu. induction 1 as [|a l Ha Hl IH]; [reflexivity|].
  assert (forallb (fun e' => nltb u e') l = forallb (fun e' => nltb (val u) e') (vals l)) as E.
  { clear IH. induction Hl as [|b l Hb Hl IH]; [reflexivity|]. cbn [forallb map vals]. fold (vals l). rewrite IH. f_equal. apply SFltb_val; auto. }
  cbn [upper_bound vals map]. fold (vals l). rewrite E, IH. to_R. norm_R. rewrite SFltb_val by auto. reflexivity.
Qed.
Lemma vget_vals l i : vget (vals l) i = bind (vget l i) (fun x => Ok (val x)).
Proof.
  unfold vget, vals. destruct (i <? 0); [reflexivity|]. rewrite nth_error_map.
  destruct (nth_error l (Z.to_nat i)); reflexivity.
Qed.
Lemma vget_finite l i x : all_finite l -> vget l i = Ok x -> finite64 x.
Proof.
  intros Fa H. apply (vget_inv (n0 : b64)) in H. destruct H as [Hi ->].
  eapply Forall_forall in Fa; [exact Fa|]. apply znth_In. lia.
Qed.
Lemma FindSpanIndex_b64 l p u : finite64 u -> all_finite l ->
  KnotVector_FindSpanIndex l p u = KnotVector_FindSpanIndex (vals l) p (val u).
Proof.
  intros Fu Fa. unfold KnotVector_FindSpanIndex, ngeb. to_R. norm_R.
  rewrite !SFleb_val by auto using finite_0, finite_1. rewrite val_0, val_1.
  rewrite !len_vals.
  destruct (assert_ (Rleb 0 (val u) && Rleb (val u) 1)); cbn [bind]; auto.
  destruct (assert_ (0 <=? len l - p - 2)); cbn [bind]; auto.
  destruct (assert_ (p <=? len l - p - 2)); cbn [bind]; auto.
  rewrite !vget_vals. destruct (vget l (len l - 1)) as [x| | | | |] eqn:Ex; cbn [bind]; auto.
  apply vget_finite in Ex; [|assumption]. rewrite SFeqb_val by auto.
  destruct (Reqb (val u) (val x)); auto.
  destruct (vget l 0) as [y| | | | |] eqn:Ey; cbn [bind]; auto.
  apply vget_finite in Ey; [|assumption]. rewrite SFeqb_val by auto.
  destruct (Reqb (val u) (val y)); auto. rewrite upper_bound_b64 by auto. reflexivity.
Qed.
Lemma FindSpanIndex_nonfinite (l : list b64) p u : is_finite_SF u = false ->
  KnotVector_FindSpanIndex l p u = AssertFail.
Proof. destruct u as [s|[|]| |s m e]; simpl; intros; try discriminate; reflexivity. Qed.

Lemma vals_inserted l k n x :
  vals (firstn k l ++ repeat x n ++ skipn k l) = firstn k (vals l) ++ repeat (val x) n ++ skipn k (vals l).
Proof. unfold vals. rewrite !map_app, firstn_map, skipn_map. do 2 f_equal. induction n; simpl; f_equal; auto. Qed.
Lemma kv_InsertKnot_b64 l v n : finite64 v -> all_finite l ->
  KnotVector_InsertKnot (vals l) (val v) n
  = bind (KnotVector_InsertKnot l v n) (fun '(l', i) => Ok (vals l', i)).
Proof.
  intros Fu Fa. unfold KnotVector_InsertKnot, ngtb. to_R. norm_R.
  rewrite !SFltb_val by auto using finite_0, finite_1. rewrite val_0, val_1.
  destruct (assert_ (Rltb 0 (val v) && Rltb (val v) 1)); cbn [bind]; auto.
  rewrite <- upper_bound_b64 by auto. destruct (upper_bound l v) as [i| | | | |]; cbn [bind]; auto.
  unfold vinsert. rewrite len_vals.
  destruct ((0 <=? i) && (i <=? len l)); cbn [bind]; auto. destruct (n <? 0); cbn [bind]; auto.
  rewrite vals_inserted. reflexivity.
Qed.
Lemma kv_InsertKnot_nonfinite (l : list b64) n v : is_finite_SF v = false ->
  KnotVector_InsertKnot l v n = AssertFail.
Proof. destruct v as [s|[|]| |s m e]; simpl; intros; try discriminate; reflexivity. Qed.
