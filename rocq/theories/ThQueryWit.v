(** Witnesses for the knot-vector queries on doubles (C112). *)
From Coq Require Import Reals QArith ZArith List Lra Lia Bool Floats.SpecFloat.
From Flocq Require Import Core BinarySingleNaN.
From Verif Require Import Outcome Num ModelCore SpecCore SpecQuery ThOutcome ThReal ThB64 ThCoreWit ThDecide ThAlignWit ThQuery.
Import ListNotations.
Open Scope Z_scope.

Definition q_ex : list b64 := map dq [0; 0; 1 # 2; 1; 1]%Q.
Definition six : b64 := lit_1e_6.
Definition edge_ex : list b64 := [dq 0; dq 0; six; dq 1; dq 1].
Lemma edge_lemma : exists (l : list b64) u, KnotVector_make l = Ok l /\ finite64 u /\ all_finite l /\
  KnotVector_GetMultiplicity l u = 2 /\ KnotVector_GetMultiplicity (vals l) (val u) = 3.
Proof.
  exists edge_ex, (dq 0). split; [reflexivity|]. split; [split; reflexivity|]. split; [repeat constructor|]. split; [reflexivity|].
  rewrite (proj1 (C11_lemma _ _)). unfold edge_ex, vals. cbn [map]. rewrite v_0, v_1. change (val six) with e64. rewrite val_lit6.
  assert (forall x : R, (Rabs (x - 0) < 1 / 1000000)%R -> near 0 x = true) as T by (intros x Hx; unfold near; destruct Rlt_dec; [reflexivity|contradiction]).
  assert (near 0 1 = false) as F1 by (unfold near; destruct Rlt_dec as [Q|]; [|reflexivity]; rewrite Rabs_pos_eq in Q by lra; lra).
  cbn [filter]. rewrite F1, !T by (rewrite Rabs_pos_eq; lra). reflexivity.
Qed.
Lemma zero_lemma : exists l l' : list b64, KnotVector_make l = Ok l /\ KnotVector_of_pairs (KnotVector_GetKnotPairs l) = Ok l' /\ l' <> l /\ vals l' = vals l.
Proof.
  exists [S754_zero false; S754_zero true; dq 1; dq 1], [S754_zero false; S754_zero false; dq 1; dq 1]. split; [reflexivity|]. split; [reflexivity|]. split; [discriminate|reflexivity].
Qed.
Lemma vals_q : vals q_ex = [0; 0; 1 / 2; 1; 1]%R.
Proof. unfold q_ex, vals. cbn [map]. assert (val (dq (1 # 2)) = 1 / 2)%R as -> by val_one. rewrite v_0, v_1. reflexivity. Qed.
Lemma query_ex : all_finite q_ex /\ SpecCore.unit_knots (vals q_ex) /\ KnotVector_IsValid q_ex = true /\ clamped 1 (vals q_ex) /\
  Forall (fun a => 0 <= a <= 1)%R (vals q_ex) /\ spaced_within (999999999 / 1000000000000000) (vals q_ex).
Proof.
  split; [repeat constructor|]. rewrite vals_q. split; [exact unit_ex|]. split; [reflexivity|]. split; [|split].
  - rewrite <- vals_q. assert (q_ex = [dz; dz; dhalf; done_; done_]) as -> by reflexivity. exact clamped_ex64.
  - repeat constructor; lra.
  - unfold spaced_within. assert (first_nonzero (gaps [0; 0; 1 / 2; 1; 1]%R) = 1 / 2)%R as E.
    { cbn [gaps first_nonzero]. destruct (Req_EM_T (0 - 0) 0) as [|N]; [|lra]. destruct (Req_EM_T (1 / 2 - 0) 0) as [|N]; [lra|]. lra. }
    rewrite E. cbn [gaps]. repeat (apply Forall_cons; [first [left; lra|right; apply Rabs_le; lra]|]). apply Forall_nil.
Qed.
Lemma uneven_ex : exists d, In d (gaps (vals (map dq [0; 0; 1 # 4; 1; 1]%Q))) /\ d <> 0%R /\ (1000000001 / 1000000000000000 <= Rabs (d - first_nonzero (gaps (vals (map dq [0; 0; 1 # 4; 1; 1]%Q)))))%R.
Proof.
  assert (vals (map dq [0; 0; 1 # 4; 1; 1]%Q) = [0; 0; 1 / 4; 1; 1]%R) as ->.
  { unfold vals. cbn [map]. assert (val (dq (1 # 4)) = 1 / 4)%R as -> by val_one. rewrite v_0, v_1. reflexivity. }
  exists (1 - 1 / 4)%R. split; [cbn; auto|]. split; [lra|].
  assert (first_nonzero (gaps [0; 0; 1 / 4; 1; 1]%R) = 1 / 4)%R as ->.
  { cbn [gaps first_nonzero]. destruct (Req_EM_T (0 - 0) 0) as [|N]; [|lra]. destruct (Req_EM_T (1 / 4 - 0) 0) as [|N]; [lra|]. lra. }
  rewrite Rabs_pos_eq; lra.
Qed.
