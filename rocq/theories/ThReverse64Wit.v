(** Witnesses for C103. *)
From Coq Require Import Reals QArith ZArith List Lra Lia Bool SpecFloat.
From Verif Require Import Outcome Num ModelCore SpecCore SpecErr SpecReverse64
  ThOutcome ThReal ThB64 ThCoreWit ThDecide ThBBoxWit ThAlignWit ThErrWit ThKnots ThReverse64.
Import ListNotations.
Open Scope Z_scope.

(** degree 2, interior knots 1/10 and 2/3 *)
Definition rev_knots : list b64 := [dq 0; dq 0; dq 0; dq (1 # 10); dq (2 # 3); dq 1; dq 1; dq 1].
Lemma rev_knots_ok : sound_knots 2 rev_knots /\ in_unit_interval (vals rev_knots) /\ nondecreasing (vals rev_knots) /\ (/ 2 ^ 54 < at_ (vals rev_knots) (2 + 1))%R.
Proof.
  assert (sound_knots 2 rev_knots) as S by (apply soundb_ok; vm_compute; reflexivity). split; [exact S|].
  split; [exact (clamped_interval _ _ (proj2 S))|]. split; [exact (cl_sorted _ _ (proj2 S))|].
  apply C103_clamped_lemma; [exact S|]. apply soundb_ok. vm_compute. reflexivity.
Qed.
(** degree 2, interior knots 1/4 and 5/8 *)
Definition dyadic_knots : list b64 := [dq 0; dq 0; dq 0; dq (1 # 4); dq (5 # 8); dq 1; dq 1; dq 1].
Lemma dyadic_knots_ok : all_finite dyadic_knots /\ in_unit_interval (vals dyadic_knots) /\ on_grid53 (vals dyadic_knots).
Proof.
  assert (sound_knots 2 dyadic_knots) as S by (apply soundb_ok; vm_compute; reflexivity). split; [exact (proj1 S)|]. split; [exact (clamped_interval _ _ (proj2 S))|].
  assert (val (dq 0) = 0%R) as E0 by val_one. assert (val (dq 1) = 1%R) as E1 by val_one.
  assert (val (dq (1 # 4)) = (1 / 4)%R) as E2 by val_one. assert (val (dq (5 # 8)) = (5 / 8)%R) as E3 by val_one.
  assert ((2 ^ 53)%R = IZR 9007199254740992) as P by (rewrite (pow_IZR 2 53); reflexivity).
  unfold on_grid53, vals, dyadic_knots. cbn [map]. rewrite E0, E1, E2, E3, P.
  repeat (constructor; [first [exists 0; lra | exists 9007199254740992; lra | exists 2251799813685248; lra | exists 5629499534213120; lra]|]). constructor.
Qed.
Definition tiny_knots : list b64 := [dq 0; dq 0; dq (1 # 1152921504606846976); dq 1; dq 1].
Lemma C103_lost_lemma : exists l : list b64, sound_knots 1 l /\ KnotVector_IsValid (KnotVector_Reverse l) = true /\ ~ sound_knots 1 (KnotVector_Reverse l).
Proof.
  exists tiny_knots. split; [apply soundb_ok; vm_compute; reflexivity|]. split; [vm_compute; reflexivity|].
  intros [_ C]. pose proof (cl_last _ _ C) as Q. rewrite len_vals in Q. change (len (KnotVector_Reverse tiny_knots) - 1 - 2) with 2 in Q. rewrite at_vals in Q.
  assert (zn (KnotVector_Reverse tiny_knots) 2 = dq 1) as E by (vm_compute; reflexivity). rewrite E in Q.
  assert (val (dq 1) = 1%R) as E1 by val_one. rewrite E1 in Q. lra.
Qed.
