(** AlignParameterDomain with collapsed edges: witnesses (C99). *)
From Coq Require Import Reals ZArith List Lra Lia Bool Permutation Sorted.
From Verif Require Import Outcome Num ModelCore ModelCurve ModelSurface SpecCore SpecBasis SpecCurve SpecSurface SpecAlign SpecFan
  ThOutcome ThReal ThB64 ThKnots ThSurfWit ThSurfRemove2 ThAlign ThAlign2 ThAlignWit ThFan.
Import ListNotations.
Open Scope R_scope.

(** the library functions exist *)
Lemma acos_decreasing01 : decreasing01 acos.
Proof.
  intros x y Hx Hxy Hy. destruct (Rlt_le_dec (acos y) (acos x)) as [|H]; [assumption|]. exfalso.
  pose proof (acos_bound x) as Bx. pose proof (acos_bound y) as By.
  pose proof (cos_decr_1 (acos x) (acos y) ltac:(lra) ltac:(lra) ltac:(lra) ltac:(lra)) as C.
  rewrite !cos_acos in C by lra. lra.
Qed.
Fixpoint ins (p : R * AlignAxis) (l : list (R * AlignAxis)) : list (R * AlignAxis) :=
  match l with [] => [p] | q :: r => if Rle_dec (fst q) (fst p) then p :: q :: r else q :: ins p r end.
Definition isort (l : list (R * AlignAxis)) : list (R * AlignAxis) := fold_right ins [] l.
Lemma ins_perm p l : Permutation (ins p l) (p :: l).
Proof.
  induction l as [|q l IH]; [reflexivity|]. cbn. destruct (Rle_dec (fst q) (fst p)); [reflexivity|].
  rewrite IH. apply perm_swap.
Qed.
Definition down (x y : R * AlignAxis) : Prop := fst y <= fst x.
Lemma ins_sorted p l : StronglySorted down l -> StronglySorted down (ins p l).
Proof.
  induction l as [|q l IH]; intros S; [repeat constructor|]. inversion_clear S as [|? ? S' F]. cbn.
  destruct (Rle_dec (fst q) (fst p)) as [H|H].
  - constructor; [constructor; assumption|]. constructor; [exact H|]. eapply Forall_impl; [|exact F]. unfold down. cbn. intros; lra.
  - constructor; [apply IH; exact S'|]. apply (Permutation_Forall (Permutation_sym (ins_perm p l))).
    constructor; [unfold down; lra|exact F].
Qed.
Lemma isort_ok : sorts_down isort.
Proof.
  intros l. assert (Permutation (isort l) l) as P.
  { induction l as [|p l IH]; [reflexivity|]. cbn. rewrite ins_perm. constructor. exact IH. }
  split; [exact P|]. assert (StronglySorted down (isort l)) as S.
  { clear P. induction l as [|p l IH]; [constructor|]. cbn. apply ins_sorted. exact IH. }
  rewrite <- (Permutation_length P). generalize dependent (isort l). intros m _. clear l. induction m as [|q l IH]; intros S i j H; [cbn in H; lia|].
  inversion_clear S as [|? ? S' F]. destruct j as [|j]; [lia|]. cbn in H. destruct i as [|i]; cbn [map nth].
  - rewrite Forall_forall in F. apply (F (nth j l (0, XAxis))) || (change 0 with (fst (0, XAxis)); rewrite map_nth; apply (F (nth j l (0, XAxis)))).
    apply nth_In. lia.
  - apply IH; [exact S'|lia].
Qed.

(** two u edges along -y, one v edge along x, the other collapsed *)
Definition fanV : surface R := patchR (0, 0) (1, -5) (3, 0) (1, -5).
(** the same with the roles of u and v exchanged *)
Definition fanU : surface R := patchR (0, 0) (3, 0) (1, -5) (1, -5).
Lemma patchR_wf a b c d : wf_surface (patchR a b c d).
Proof.
  assert (wf_surface (patchR (1, 2) (1, 0) (-2, 2) (-2, 0))) as W by (rewrite <- turned_val; apply wf64s_ok; vm_compute; reflexivity).
  destruct W as [K1 K2 C1 C2 V _]. constructor; [exact K1|exact K2|exact C1|exact C2|exact V|].
  unfold positive_weights. cbn. repeat constructor; cbn; lra.
Qed.
Lemma coords_patch a b c d x e : corner_coord (patchR a b c d) x e =
  let p := match e with (false, false) => a | (true, false) => b | (false, true) => c | (true, true) => d end in
  match x with XAxis => fst p | YAxis => snd p | ZAxis => 0 end.
Proof. unfold corner_coord. destruct e as [[] []], x; exact (Rminus_0_r _). Qed.
Ltac wide i j := exists i, j; intros [[] []] [[] []]; unfold fanU, fanV; rewrite !coords_patch; cbn; lra.
Lemma fan_wide s : s = fanV \/ s = fanU -> wider s YAxis XAxis /\ wider s YAxis ZAxis /\ wider s XAxis ZAxis.
Proof.
  intros [->| ->]; split; [|split| |split].
  - wide (true, false) (false, false).
  - wide (true, false) (false, false).
  - wide (false, false) (false, true).
  - wide (false, true) (false, false).
  - wide (false, true) (false, false).
  - wide (false, false) (true, false).
Qed.
Lemma short0 x y z : x = 0 -> y = 0 -> z = 0 -> collapsed (Vec3 x y z).
Proof. intros -> -> ->. unfold collapsed, length3. cbn. replace (0 * 0 + 0 * 0 + 0 * 0) with 0 by ring. rewrite sqrt_0. lra. Qed.
Lemma long1 (v : vec3 R) a : 1 <= Rabs (coord a v) -> ~ collapsed v.
Proof. intros H C. pose proof (long_of v a H). unfold collapsed in C. lra. Qed.

Lemma fanV_facts : let s := fanV in
  (forall side, ~ collapsed (edgeU s side) /\ leans YAxis XAxis (edgeU s side)) /\
  ~ collapsed (edgeV s false) /\ leans XAxis YAxis (edgeV s false) /\ collapsed (edgeV s true) /\
  0 < coord YAxis (edgeU s false) * coord YAxis (edgeU s true).
Proof.
  cbv zeta. unfold fanV. destruct (patch_edges (0, 0) (1, -5) (3, 0) (1, -5)) as [E1 [E2 [E3 E4]]]. cbn [fst snd] in *.
  rewrite E1, E2, E3, E4. split.
  - intros []; rewrite ?E1, ?E2; (split; [apply (long1 _ YAxis)|unfold leans]); cbn; rabs; lra.
  - split; [apply (long1 _ XAxis); cbn; rabs; lra|]. split; [unfold leans; cbn; rabs; lra|]. split; [apply short0; lra|cbn; lra].
Qed.
Lemma fanU_facts : let s := fanU in
  (forall side, ~ collapsed (edgeV s side) /\ leans YAxis XAxis (edgeV s side)) /\
  ~ collapsed (edgeU s false) /\ leans XAxis YAxis (edgeU s false) /\ collapsed (edgeU s true).
Proof.
  cbv zeta. unfold fanU. destruct (patch_edges (0, 0) (3, 0) (1, -5) (1, -5)) as [E1 [E2 [E3 E4]]]. cbn [fst snd] in *.
  rewrite E1, E2. split.
  - intros []; rewrite ?E3, ?E4; (split; [apply (long1 _ YAxis)|unfold leans]); cbn; rabs; lra.
  - split; [apply (long1 _ XAxis); cbn; rabs; lra|]. split; [unfold leans; cbn; rabs; lra|]. apply short0; lra.
Qed.
Lemma fanV_visible : (0 < length (visible fanV) < 4)%nat.
Proof.
  destruct fanV_facts as [HU [NV [_ [CV _]]]]. destruct (HU false) as [N0 _], (HU true) as [N1 _]. rewrite seen_visible.
  unfold seen, corner_edges. cbn [filter].
  apply longb_collapsed in N0, N1, NV. apply longb_collapsed' in CV. rewrite N0, N1, NV, CV. cbn. lia.
Qed.

Lemma C99_ex_lemma : decreasing01 acos /\ sorts_down isort /\
  exists s t, wf_surface s /\ (UCount (Net s) * VCount (Net s) <= INT_MAX /\ 2 <= UCount (Net s) /\ 2 <= VCount (Net s))%Z /\
    wider s YAxis XAxis /\ wider s YAxis ZAxis /\ wider s XAxis ZAxis /\ (0 < length (visible s) < 4)%nat /\
    (forall side, ~ collapsed (edgeU s side) /\ leans YAxis XAxis (edgeU s side)) /\
    ~ collapsed (edgeV s t) /\ leans XAxis YAxis (edgeV s t) /\ collapsed (edgeV s (negb t)) /\
    0 < coord YAxis (edgeU s false) * coord YAxis (edgeU s true).
Proof.
  split; [apply acos_decreasing01|]. split; [apply isort_ok|]. exists fanV, false. split; [apply patchR_wf|].
  split; [cbn; unfold INT_MAX; lia|]. destruct (fan_wide fanV (or_introl eq_refl)) as [A [B C]].
  split; [exact A|]. split; [exact B|]. split; [exact C|]. split; [exact fanV_visible|]. exact fanV_facts.
Qed.
Lemma C99_ex_u_lemma : exists s t, wf_surface s /\ (UCount (Net s) * VCount (Net s) <= INT_MAX /\ 2 <= UCount (Net s) /\ 2 <= VCount (Net s))%Z /\
    (wider s XAxis YAxis \/ wider s YAxis XAxis) /\ wider s XAxis ZAxis /\ wider s YAxis ZAxis /\
    (forall side, ~ collapsed (edgeV s side) /\ leans YAxis XAxis (edgeV s side)) /\
    ~ collapsed (edgeU s t) /\ leans XAxis YAxis (edgeU s t) /\ collapsed (edgeU s (negb t)).
Proof.
  exists fanU, false. split; [apply patchR_wf|].
  split; [cbn; unfold INT_MAX; lia|]. destruct (fan_wide fanU (or_intror eq_refl)) as [A [B C]].
  split; [right; exact A|]. split; [exact C|]. split; [exact B|]. exact fanU_facts.
Qed.
