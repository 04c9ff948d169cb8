(** Boundary curves on doubles (C118). *)
From Coq Require Import Reals QArith ZArith List Lra Lia Psatz Bool Floats.SpecFloat.
From Flocq Require Import Core IEEE754.BinarySingleNaN.
From Verif Require Import Outcome Num ModelCore ModelBasis ModelCurve ModelSurface SpecCore SpecBasis SpecCurve SpecErr SpecGeom64 SpecEnd64 SpecCorner64 SpecEdge64
  ThOutcome ThReal ThB64 ThRound ThVec ThKnots ThSum ThSpline ThBasis ThCurve ThErr ThErrBasis ThErrSum ThErrCurve ThErrInsert2 ThErrInsert3 ThBBoxWit ThUniform64 ThEnd64 ThEnd64b ThCorner64 ThCurveWit.
Import ListNotations.
Open Scope R_scope.

(** ** Equal up to the sign of zero *)
Definition zero_ (a : b64) : Prop := exists s, a = S754_zero s.
Definition eqz (a b : b64) : Prop := a = b \/ (zero_ a /\ zero_ b).
Lemma eqz_refl a : eqz a a. Proof. left. reflexivity. Qed.
Lemma eqz_add a a' b b' : eqz a a' -> eqz b b' -> eqz (nadd a b) (nadd a' b').
Proof.
  intros [->|[[s ->] [s' ->]]] [->|[[t ->] [t' ->]]].
  - left. reflexivity.
  - destruct a' as [s|s| |s m e]; [right|left; reflexivity|left; reflexivity|left; reflexivity]. split; [destruct s, t|destruct s, t']; eexists; reflexivity.
  - destruct b' as [t|t| |t m e]; [right|left; reflexivity|left; reflexivity|left; reflexivity]. split; [destruct s, t|destruct s', t]; eexists; reflexivity.
  - right. split; [destruct s, t|destruct s', t']; eexists; reflexivity.
Qed.
Lemma eqz_mul a a' b b' : eqz a a' -> eqz b b' -> eqz (nmul a b) (nmul a' b').
Proof.
  intros [->|[[s ->] [s' ->]]] [->|[[t ->] [t' ->]]].
  - left. reflexivity.
  - destruct a' as [s|s| |s m e]; [right; split; eexists; reflexivity|left; reflexivity|left; reflexivity|right; split; eexists; reflexivity].
  - destruct b' as [t|t| |t m e]; [right; split; eexists; reflexivity|left; reflexivity|left; reflexivity|right; split; eexists; reflexivity].
  - right. split; eexists; reflexivity.
Qed.
Lemma eqz_div (a a' w w' q : b64) : eqz a a' -> eqz w w' -> ndiv a w = Ok q -> finite64 q -> exists q', ndiv a' w' = Ok q' /\ finite64 q' /\ val q' = val q.
Proof.
  intros Ha Hw E F. injection E as <-. exists (SFdiv 53 1024 a' w'). split; [reflexivity|].
  assert (~ zero_ w) as Nw. { intros [s ->]. destruct F as [_ F]. destruct a as [t|t| |t m e]; discriminate F. }
  destruct Hw as [<-|[Z0 _]]; [|contradiction]. destruct Ha as [->|[[s ->] [s' ->]]]; [split; [exact F|reflexivity]|].
  destruct w as [t|t| |t m e]; [exfalso; apply Nw; eexists; reflexivity| | |]; destruct F as [F1 F2]; try discriminate F2; split; try reflexivity; split; reflexivity.
Qed.
Lemma eqz_val (a b : b64) : finite64 a -> finite64 b -> val a = val b -> eqz a b.
Proof.
  intros [Da Fa] [Db Fb] V. destruct (to_B a Da) as [x <-]. destruct (to_B b Db) as [y <-]. rewrite !B_val in V.
  destruct x as [sx|sx| |sx mx ex Hx]; try discriminate Fa; destruct y as [sy|sy| |sy my ey Hy]; try discriminate Fb.
  - right. split; eexists; reflexivity.
  - exfalso. symmetry in V. revert V. cbn [B2R]. intros V. apply F2R_eq_0 in V || apply eq_0_F2R in V. destruct sy; discriminate V.
  - exfalso. revert V. cbn [B2R]. intros V. apply F2R_eq_0 in V || apply eq_0_F2R in V. destruct sx; discriminate V.
  - left. f_equal. apply B2R_inj; [reflexivity|reflexivity|exact V].
Qed.
Definition eqz4 (a b : vec4 b64) : Prop := eqz (x4 a) (x4 b) /\ eqz (y4 a) (y4 b) /\ eqz (z4 a) (z4 b) /\ eqz (w4 a) (w4 b).
Lemma eqz4_refl a : eqz4 a a. Proof. repeat split; apply eqz_refl. Qed.
Lemma eqz4_step a a' b t t' : eqz4 a a' -> eqz4 t t' -> eqz4 (v4add a (v4scale b t)) (v4add a' (v4scale b t')).
Proof. intros [A [B [C D]]] [A' [B' [C' D']]]. split; [|split; [|split]]; apply eqz_add; try assumption; apply eqz_mul; try assumption; apply eqz_refl. Qed.
Lemma eqz4_sym a b : eqz4 a b -> eqz4 b a.
Proof. assert (forall x y, eqz x y -> eqz y x) as S by (intros x y [->|[P Q]]; [left; reflexivity|right; split; assumption]). intros [A [B [C D]]]. split; [|split; [|split]]; apply S; assumption. Qed.
Definition fin4 (t : vec4 b64) : Prop := finite64 (x4 t) /\ finite64 (y4 t) /\ finite64 (z4 t) /\ finite64 (w4 t).
Lemma fin4_is t : fin4 t -> is4 (val (x4 t)) (val (y4 t)) (val (z4 t)) (val (w4 t)) t.
Proof. intros [A [B [C D]]]. split; [|split; [|split]]; apply is_val; assumption. Qed.
Lemma is4_eqz t r : fin4 t -> is4 (rnd64 (1 * val (x4 t))) (rnd64 (1 * val (y4 t))) (rnd64 (1 * val (z4 t))) (rnd64 (1 * val (w4 t))) r -> eqz4 r t.
Proof.
  intros [A [B [C D]]] [[A1 A2] [[B1 B2] [[C1 C2] [D1 D2]]]]. rewrite Rmult_1_l, rnd64_id in A2, B2, C2, D2 by (apply val_format; assumption).
  split; [|split; [|split]]; apply eqz_val; assumption.
Qed.
Lemma div3 t t' q : eqz4 t t' -> v3div (head3 t) (w4 t) = Ok q -> finite64 (x3 q) -> finite64 (y3 q) -> finite64 (z3 q) ->
  exists q', v3div (head3 t') (w4 t') = Ok q' /\ finite64 (x3 q') /\ finite64 (y3 q') /\ finite64 (z3 q') /\ val3 q' = val3 q.
Proof.
  intros [A [B [C D]]] E F1 F2 F3. unfold v3div, head3 in *. cbn [x3 y3 z3] in *.
  destruct (ndiv (x4 t) (w4 t)) as [q1| | | | |] eqn:E1; try discriminate E. cbn [bind] in E. destruct (ndiv (y4 t) (w4 t)) as [q2| | | | |] eqn:E2; try discriminate E. cbn [bind] in E. destruct (ndiv (z4 t) (w4 t)) as [q3| | | | |] eqn:E3; try discriminate E. cbn [bind] in E.
  injection E as <-. cbn [x3 y3 z3] in *. destruct (eqz_div _ _ _ _ _ A D E1 F1) as [r1 [G1 [H1 V1]]]. destruct (eqz_div _ _ _ _ _ B D E2 F2) as [r2 [G2 [H2 V2]]]. destruct (eqz_div _ _ _ _ _ C D E3 F3) as [r3 [G3 [H3 V3]]].
  rewrite G1. cbn [bind]. rewrite G2. cbn [bind]. rewrite G3. cbn [bind]. eexists. split; [reflexivity|]. split; [exact H1|]. split; [exact H2|]. split; [exact H3|]. unfold val3. cbn [x3 y3 z3]. rewrite V1, V2, V3. reflexivity.
Qed.

(** ** Curves: the homogeneous sum is finite *)
Definition csum (cps : list (vec4 b64)) (basis : list b64) lo p := for_up 0 (p + 1) (fun i result => bind (vget cps (lo + i)) (fun q => bind (vget basis i) (fun b => Ok (v4add result (v4scale b (ToHomo q)))))) v4zero.
Lemma csum_fin (c : curve b64) M x i res : clamped (Degree c) (vals (Knots c)) -> (Degree c <= 50)%Z ->
  len (ControlPoints c) = (len (Knots c) - Degree c - 1)%Z -> Forall (tame M) (ControlPoints c) -> 0 <= M <= bpow radix2 100 -> (Degree c <= i <= len (Knots c) - Degree c - 2)%Z ->
  (forall r, (0 <= r <= Degree c)%Z -> exists b, vget res r = Ok b /\ bas64 (Z.to_nat (Degree c)) b (N (kf (vals (Knots c))) (Z.to_nat (Degree c)) (i - Degree c + r) x)) ->
  exists t, csum (ControlPoints c) res (i - Degree c) (Degree c) = Ok t /\ fin4 t.
Proof.
  intros C H50 Cn T HM Hj Gr. pose proof (cl_degree _ _ C) as P0. unfold csum. set (p := Degree c) in *. set (lo := (i - p)%Z) in *.
  set (cpv := fun i => nth (Z.to_nat i) (ControlPoints c) v4zero).
  assert (forall k, (0 <= k < p + 1)%Z -> vget (ControlPoints c) (lo + k) = Ok (cpv (lo + k)%Z) /\ tame M (cpv (lo + k)%Z)) as Gp.
  { intros k Hk. destruct (vget_tame M (ControlPoints c) (lo + k) T ltac:(lia)) as [q [Eq Tq]]. assert (cpv (lo + k)%Z = q) as ->; [|split; assumption].
    unfold cpv. revert Eq. unfold vget. destruct (Z.ltb_spec (lo + k) 0); [discriminate|]. destruct (nth_error (ControlPoints c) (Z.to_nat (lo + k))) eqn:En; [|discriminate]. intros E. injection E as <-. apply nth_error_nth. exact En. }
  set (g := fun k => N (kf (vals (Knots c))) (Z.to_nat p) (lo + k) x).
  destruct (sum_loop64 (fun i result => bind (vget (ControlPoints c) (lo + i)) (fun q => bind (vget res i) (fun b => Ok (v4add result (v4scale b (ToHomo q)))))) (6 * Z.to_nat p + 2) (bpow radix2 (-711)) (p + 1)
    (fun k j => g j * co k (ToHomo (val4 (cpv (lo + j)%Z)))) (fun k j => g j * maj k M (val (w4 (cpv (lo + j)%Z))))) as [s [Es Qs]].
  { lia. } { lia. } { split; [apply bpow_ge_0|]. change 1 with (bpow radix2 0). apply bpow_le. lia. }
  { intros j acc Hi. destruct (Gp j Hi) as [Eq Tq]. destruct (Gr j ltac:(lia)) as [b [Eb Bb]]. exists (ToHomo (cpv (lo + j)%Z)), b. rewrite Eq. cbn [bind]. rewrite Eb. cbn [bind]. split; [reflexivity|].
    intros k. pose proof (tame_w M _ Tq) as Wq. pose proof (bpow_gt_0 radix2 (-100)).
    pose proof (maj_le k M (val (w4 (cpv (lo + j)%Z))) HM ltac:(lra)) as Mj. split.
    - replace (6 * Z.to_nat p + 2)%nat with (6 * Z.to_nat p + 1 + 1)%nat by lia. apply (term64 _ _ _ _ _ _ 1 eta64 (-714) Bb); try lia.
      + rewrite nn_of; lia.
      + apply hom64; assumption.
      + apply Mj.
      + split; [apply bpow_ge_0|apply bpow_le; lia].
    - destruct Bb as [_ [[B1 B2] _]]. fold (g j) in B1, B2. assert (bpow radix2 200 <= bpow radix2 900) by (apply bpow_le; lia). nra. }
  exists s. split; [exact Es|]. split; [exact (proj1 (Qs 0%nat))|]. split; [exact (proj1 (Qs 1%nat))|]. split; [exact (proj1 (Qs 2%nat))|exact (proj1 (Qs 3%nat))].
Qed.

Lemma for_up_rel {A B} (R : A -> B -> Prop) lo hi (f : Z -> A -> outcome A) (g : Z -> B -> outcome B) s s' t : (forall i a a' b, (lo <= i < hi)%Z -> R a a' -> f i a = Ok b -> exists b', g i a' = Ok b' /\ R b b') ->
  R s s' -> for_up lo hi f s = Ok t -> exists t', for_up lo hi g s' = Ok t' /\ R t t'.
Proof.
  unfold for_up. intros H. assert (Z.to_nat (hi - lo) <= Z.to_nat (hi - lo))%nat as K by lia. revert K. generalize (Z.to_nat (hi - lo)) at 1 3 4 as k. intros k.
  assert (forall k lo' s s' t, (lo <= lo')%Z -> (k <= Z.to_nat (hi - lo'))%nat -> R s s' -> loop k lo' f s = Ok t -> exists t', loop k lo' g s' = Ok t' /\ R t t') as G.
  { clear k s s' t. induction k as [|k IH]; intros lo' s s' t Hl Hk Hs E; cbn in E |- *; [injection E as <-; exists s'; split; [reflexivity|exact Hs]|].
    destruct (f lo' s) as [b| | | | |] eqn:Ef; try discriminate E. cbn [bind] in E. destruct (H lo' s s' b ltac:(lia) Hs Ef) as [b' [Eb Rb]]. rewrite Eb. cbn [bind]. apply (IH (lo' + 1)%Z b b' t); try assumption; lia. }
  intros Hk. apply G; [lia|exact Hk].
Qed.
Lemma homo_fin M p : tame M p -> 0 <= M <= bpow radix2 100 -> fin4 (ToHomo p).
Proof. intros T HM. split; [exact (proj1 (hom64 0 M p T HM))|]. split; [exact (proj1 (hom64 1 M p T HM))|]. split; [exact (proj1 (hom64 2 M p T HM))|exact (proj1 (hom64 3 M p T HM))]. Qed.
Lemma in_firstn' {A} (n : nat) (l : list A) x : In x (firstn n l) -> In x l.
Proof. intros H. rewrite <- (firstn_skipn n l). apply in_or_app. left. exact H. Qed.
Lemma in_skipn' {A} (l : list A) (n : nat) x : In x (skipn n l) -> In x l.
Proof. intros H. rewrite <- (firstn_skipn n l). apply in_or_app. right. exact H. Qed.
Lemma row_facts (s : surface b64) M j : len (Values (Net s)) = (UCount (Net s) * VCount (Net s))%Z -> (0 < UCount (Net s))%Z -> (0 <= j < VCount (Net s))%Z -> Forall (tame M) (Values (Net s)) ->
  len (ControlPoints (net_row s j)) = UCount (Net s) /\ Forall (tame M) (ControlPoints (net_row s j)) /\ forall i, (0 <= i < UCount (Net s))%Z -> Grid_Get (Net s) i j = vget (ControlPoints (net_row s j)) i.
Proof.
  intros L U0 Hj T. cbn [net_row ControlPoints]. split; [unfold len in *; rewrite firstn_length, skipn_length; nia|]. split.
  - apply Forall_forall. intros q Hq. rewrite Forall_forall in T. apply T. apply (in_skipn' _ (Z.to_nat (j * UCount (Net s)))). apply (in_firstn' _ _ _ Hq).
  - intros i Hi. unfold Grid_Get. destruct (Z.ltb_spec i (UCount (Net s))); [|lia]. destruct (Z.ltb_spec j (VCount (Net s))); [|lia]. cbn [andb assert_ bind]. rewrite vget_firstn by lia. rewrite vget_skipn by nia. reflexivity.
Qed.
Lemma column_facts (s : surface b64) M i : len (Values (Net s)) = (UCount (Net s) * VCount (Net s))%Z -> (0 <= i < UCount (Net s))%Z -> (0 < VCount (Net s))%Z -> Forall (tame M) (Values (Net s)) ->
  len (ControlPoints (net_column s i)) = VCount (Net s) /\ Forall (tame M) (ControlPoints (net_column s i)) /\ forall j, (0 <= j < VCount (Net s))%Z -> Grid_Get (Net s) i j = vget (ControlPoints (net_column s i)) j.
Proof.
  intros L Hi V0 T. cbn [net_column ControlPoints].
  assert (forall j, (0 <= j < VCount (Net s))%Z -> nth_error (Values (Net s)) (Z.to_nat (j * UCount (Net s) + i)) = Some (nth (Z.to_nat (j * UCount (Net s) + i)) (Values (Net s)) v4zero)) as Nth.
  { intros j Hj. apply nth_error_nth'. unfold len in L. nia. }
  split; [unfold len; rewrite map_length, seq_length; lia|]. split.
  - apply Forall_forall. intros q Hq. apply in_map_iff in Hq. destruct Hq as [j [<- Hj]]. apply in_seq in Hj. rewrite Forall_forall in T. apply T. eapply nth_error_In. apply Nth. lia.
  - intros j Hj. unfold Grid_Get. destruct (Z.ltb_spec i (UCount (Net s))); [|lia]. destruct (Z.ltb_spec j (VCount (Net s))); [|lia]. cbn [andb assert_ bind]. rewrite vget_map.
    unfold vget. destruct (Z.ltb_spec (j * UCount (Net s) + i) 0); [nia|]. destruct (Z.ltb_spec j 0); [lia|]. rewrite (Nth j Hj).
    rewrite (nth_error_nth' (seq 0 (Z.to_nat (VCount (Net s)))) 0%nat) by (rewrite seq_length; lia). rewrite seq_nth by lia. cbn [bind]. rewrite Nat.add_0_l, Z2Nat.id by lia. reflexivity.
Qed.

Lemma C118_row_lemma : forall (s : surface b64) M u v kv dv, sound_surface s -> apart (KnotsU s) -> (DegreeU s <= 50)%Z -> Forall (tame M) (Values (Net s)) -> 0 <= M <= 2 ^ 100 ->
  end_of (DegreeV s) (KnotsV s) v kv dv -> undone dv -> finite64 u -> 0 <= val u <= 1 ->
  exists q q', Curve_Evaluate (net_row s kv) u = Ok q /\ Surface_Evaluate s u v = Ok q' /\ finite64 (x3 q') /\ finite64 (y3 q') /\ finite64 (z3 q') /\ val3 q' = val3 q.
Proof.
  intros s M u v kv dv [[Fl C] [Sv [Nu [Nv Nn]]]] Ap H50 T HM Ev Un Fu Hu. rewrite <- bpow_100 in HM. pose proof (cl_degree _ _ C) as P0. pose proof (cl_len _ _ C) as CL. rewrite len_vals in CL.
  destruct (end_basis _ _ _ _ _ Sv Ev) as [iv [bv [ev [nv [Fv [Bv [Zv [Kv [Lv [Hv [Unv Uv]]]]]]]]]]]. rewrite (Uv Un) in *. clear Unv Uv.
  assert (finite64 v /\ 0 <= val v <= 1) as [Fv' Hv'] by (destruct Ev as [F [[H _]|[H _]]]; (split; [exact F|lra])).
  assert (0 <= DegreeV s)%Z as P1 by (apply (cl_degree _ _ (proj2 Sv))). pose proof (proj1 (proj2 Zv)) as Hev.
  destruct (Basis64_N _ _ u Fl C Ap Fu Hu H50) as [iu [ru [E1 [E2 [Hj [Lr [Gr _]]]]]]].
  assert (forall j, (0 <= j < VCount (Net s))%Z -> exists t, csum (ControlPoints (net_row s j)) ru (iu - DegreeU s) (DegreeU s) = Ok t /\ fin4 t) as Fin.
  { intros j Hjj. destruct (row_facts s M j Nn ltac:(lia) Hjj T) as [R1 [R2 _]]. apply (csum_fin (net_row s j) M (val u) iu ru); cbn [net_row Degree Knots]; try assumption. exact (eq_trans R1 Nu). }
  destruct (row_facts s M kv Nn ltac:(lia) ltac:(lia) T) as [R1 [R2 R3]].
  destruct (Curve64_ok (net_row s kv) M u) as [q [Eq [Q1 [Q2 [Q3 _]]]]]; cbn [net_row Degree Knots]; try assumption; [exact (eq_trans R1 Nu)|].
  destruct (Fin kv ltac:(lia)) as [te [Ete Fte]].
  edestruct (pick (fun j => csum (ControlPoints (net_row s (iv - DegreeV s + j))) ru (iu - DegreeU s) (DegreeU s)) bv (DegreeV s) ev 1) as [res [Er Pr]]; [exact Zv|lra| | |].
  { intros r Hr. destruct (Fin (iv - DegreeV s + r)%Z ltac:(lia)) as [t [Et Ft]]. do 5 eexists. split; [exact Et|exact (fin4_is t Ft)]. }
  { exists te. rewrite Kv. split; [exact Ete|exact (fin4_is te Fte)]. }
  pose proof (is4_eqz te res Fte Pr) as Ez. exists q.
  assert (v3div (head3 te) (w4 te) = Ok q) as Ec.
  { revert Eq. unfold Curve_Evaluate. rewrite (unit_assert64 u Fu Hu). cbn [net_row Degree Knots assert_ bind]. rewrite E1. cbn [bind]. rewrite E2. cbn [bind]. rewrite Lr, Z.eqb_refl. cbn [assert_ bind].
    fold (net_row s kv). unfold csum in Ete. cbn [net_row ControlPoints] in Ete |- *. rewrite Ete. cbn [bind]. intros E; exact E. }
  destruct (div3 te res q (eqz4_sym _ _ Ez) Ec Q1 Q2 Q3) as [q' [Eq' Rest]]. exists q'. split; [exact Eq|]. split; [|exact Rest].
  unfold Surface_Evaluate. rewrite (unit_assert64 u Fu Hu), (unit_assert64 v Fv' Hv'). cbn [assert_ bind]. rewrite E1. cbn [bind]. rewrite Fv. cbn [bind]. rewrite E2. cbn [bind]. rewrite Bv. cbn [bind].
  rewrite (proj1 Zv), Lr, !Z.eqb_refl. cbn [assert_ bind]. cbv zeta.
  erewrite (for_up_ext 0 (DegreeV s + 1)).
  - rewrite Er. cbn [bind]. exact Eq'.
  - intros j a Hjj. cbv beta. f_equal. unfold csum. apply for_up_ext. intros k b Hk. destruct (row_facts s M (iv - DegreeV s + j)%Z Nn ltac:(lia) ltac:(lia) T) as [_ [_ G]]. rewrite G by lia. reflexivity.
Qed.

Lemma C118_column_lemma : forall (s : surface b64) M u v ku du, sound_surface s -> apart (KnotsV s) -> (DegreeV s <= 50)%Z -> Forall (tame M) (Values (Net s)) -> 0 <= M <= 2 ^ 100 ->
  end_of (DegreeU s) (KnotsU s) u ku du -> undone du -> finite64 v -> 0 <= val v <= 1 ->
  exists q q', Curve_Evaluate (net_column s ku) v = Ok q /\ Surface_Evaluate s u v = Ok q' /\ finite64 (x3 q') /\ finite64 (y3 q') /\ finite64 (z3 q') /\ val3 q' = val3 q.
Proof.
  intros s M u v ku du [Su [[Fl C] [Nu [Nv Nn]]]] Ap H50 T HM Eu Un Fv Hv. rewrite <- bpow_100 in HM. pose proof (cl_degree _ _ C) as P0. pose proof (cl_len _ _ C) as CL. rewrite len_vals in CL.
  destruct (end_basis _ _ _ _ _ Su Eu) as [iu [bu [eu [nu [Fu [Bu [Zu [Ku [Lu [Hu [Unu Uu]]]]]]]]]]]. rewrite (Uu Un) in *. clear Unu Uu.
  assert (finite64 u /\ 0 <= val u <= 1) as [Fu' Hu'] by (destruct Eu as [F [[H _]|[H _]]]; (split; [exact F|lra])).
  assert (0 <= DegreeU s)%Z as P1 by (apply (cl_degree _ _ (proj2 Su))). pose proof (proj1 (proj2 Zu)) as Heu.
  destruct (Basis64_N _ _ v Fl C Ap Fv Hv H50) as [iv [rv [E1 [E2 [Hj [Lr [Gr _]]]]]]].
  destruct (column_facts s M ku Nn ltac:(lia) ltac:(lia) T) as [R1 [R2 R3]].
  destruct (Curve64_ok (net_column s ku) M v) as [q [Eq [Q1 [Q2 [Q3 _]]]]]; cbn [net_column Degree Knots]; try assumption; [exact (eq_trans R1 Nv)|].
  destruct (csum_fin (net_column s ku) M (val v) iv rv) as [t [Et Ft]]; cbn [net_column Degree Knots]; try assumption; [exact (eq_trans R1 Nv)|].
  cbn [net_column Degree Knots] in Et. fold (net_column s ku) in Et.
  assert (v3div (head3 t) (w4 t) = Ok q) as Ec.
  { revert Eq. unfold Curve_Evaluate. rewrite (unit_assert64 v Fv Hv). cbn [net_column Degree Knots assert_ bind]. rewrite E1. cbn [bind]. rewrite E2. cbn [bind]. rewrite Lr, Z.eqb_refl. cbn [assert_ bind].
    unfold csum in Et. cbn [net_column ControlPoints] in Et |- *. rewrite Et. cbn [bind]. intros E; exact E. }
  assert (forall i j, (0 <= i < UCount (Net s))%Z -> (0 <= j < VCount (Net s))%Z -> exists q, Grid_Get (Net s) i j = Ok q /\ tame M q) as Get.
  { intros i j Hi Hjj. destruct (column_facts s M i Nn Hi ltac:(lia) T) as [G1 [G2 G3]]. rewrite G3 by exact Hjj. apply vget_tame; [exact G2|lia]. }
  set (row := fun j => for_up 0 (DegreeU s + 1) (fun i tmp => bind (bind (Grid_Get (Net s) (iu - DegreeU s + i) (iv - DegreeV s + j)) (fun q => Ok (ToHomo q))) (fun t => bind (vget bu i) (fun b => Ok (v4add tmp (v4scale b t))))) v4zero).
  assert (forall j p0, (0 <= j < DegreeV s + 1)%Z -> vget (ControlPoints (net_column s ku)) (iv - DegreeV s + j) = Ok p0 -> exists t, row j = Ok t /\ eqz4 (ToHomo p0) t) as Row.
  { intros j p0 Hjj Ep. rewrite <- R3 in Ep by lia. destruct (Get ku (iv - DegreeV s + j)%Z ltac:(lia) ltac:(lia)) as [q0 [Eq0 Tq]]. rewrite Ep in Eq0. injection Eq0 as <-. pose proof (homo_fin M p0 Tq HM) as Hf.
    edestruct (pick (fun i => bind (Grid_Get (Net s) (iu - DegreeU s + i) (iv - DegreeV s + j)) (fun q => Ok (ToHomo q))) bu (DegreeU s) eu 1) as [r [Er Pr]]; [exact Zu|lra| | |].
    - intros r Hr. destruct (Get (iu - DegreeU s + r)%Z (iv - DegreeV s + j)%Z ltac:(lia) ltac:(lia)) as [q' [Eq2 Tq']]. rewrite Eq2. cbn [bind]. do 5 eexists. split; [reflexivity|]. apply fin4_is. exact (homo_fin M q' Tq' HM).
    - rewrite Ku, Ep. cbn [bind]. eexists. split; [reflexivity|]. apply fin4_is. exact Hf.
    - exists r. split; [exact Er|]. apply eqz4_sym. apply is4_eqz; [exact Hf|exact Pr]. }
  unfold csum in Et. lazymatch type of Et with for_up _ _ ?f _ = _ => pose (body := f) end.
  edestruct (for_up_rel eqz4 0%Z (DegreeV s + 1)%Z body (fun j result => bind (row j) (fun t => bind (vget rv j) (fun b => Ok (v4add result (v4scale b t))))) v4zero v4zero t) as [res [Er Ez]]; [|apply eqz4_refl|exact Et|].
  { intros j a a' b Hjj Ra E. unfold body in E. cbv beta in E. destruct (vget (ControlPoints (net_column s ku)) (iv - DegreeV s + j)) as [p0| | | | |] eqn:Ep; try discriminate E. cbn [bind] in E.
    destruct (Row j p0 Hjj Ep) as [tt' [Ett Rt]]. rewrite Ett. cbn [bind]. destruct (vget rv j) as [bb| | | | |]; try discriminate E. cbn [bind] in E |- *. injection E as <-. eexists. split; [reflexivity|]. apply eqz4_step; assumption. }
  destruct (div3 t res q Ez Ec Q1 Q2 Q3) as [q' [Eq' Rest]]. exists q, q'. split; [exact Eq|]. split; [|exact Rest].
  unfold Surface_Evaluate. rewrite (unit_assert64 u Fu' Hu'), (unit_assert64 v Fv Hv). cbn [assert_ bind]. rewrite Fu. cbn [bind]. rewrite E1. cbn [bind]. rewrite Bu. cbn [bind]. rewrite E2. cbn [bind].
  rewrite (proj1 Zu), Lr, !Z.eqb_refl. cbn [assert_ bind]. cbv zeta.
  erewrite (for_up_ext 0 (DegreeV s + 1)).
  - rewrite Er. cbn [bind]. exact Eq'.
  - intros j a Hjj. cbv beta. f_equal. unfold row. apply for_up_ext. intros k b Hk. destruct (Grid_Get (Net s) (iu - DegreeU s + k) (iv - DegreeV s + j)); reflexivity.
Qed.
