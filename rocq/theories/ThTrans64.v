(** Transform on doubles (C113). *)
From Coq Require Import Reals QArith ZArith List Lra Lia Bool SpecFloat.
From Flocq Require Import Core.
From Verif Require Import Outcome Num ModelCore ModelBasis ModelCurve ModelSurface SpecCore SpecBasis SpecCurve SpecSurface SpecErr SpecErrIns SpecGeom64 SpecTrans64
  ThOutcome ThReal ThKnots ThKnots2 ThGrid ThVec ThSum ThSpline ThBasis ThCurve ThInsert ThCurveWit ThSurface ThSurface2 ThSurfWit ThOrder2 ThGeom
  ThB64 ThRound ThErr ThDecide ThErrWit ThCoreWit ThBBoxWit ThErrInsert3 ThErrInsert4 ThErrInsSurf ThBBox64 ThUniform64 ThGeom64.
Import ListNotations.
Open Scope Z_scope.

(** ** One dot product *)
Lemma prod_ok K M a b : coord_ok K a -> coord_ok M b -> (0 <= K)%R -> (0 <= M)%R -> (K * M <= 2 ^ 100)%R ->
  finite64 (nmul a b) /\ (Rabs (val a * val b) <= K * M)%R /\ (Rabs (val (nmul a b) - val a * val b) <= K * M * u64 + eta64)%R.
Proof.
  intros [Fa Ba] [Fb Bb] HK HM HP. assert (Rabs (val a * val b) <= K * M)%R as B by (rewrite Rabs_mult; apply Rmult_le_compat; try assumption; apply Rabs_pos).
  assert (0 <= K * M)%R as P0 by (apply Rmult_le_pos; assumption).
  destruct (mul_round a b Fa Fb) as [Fp Vp]; [apply M_ok with (K * M)%R; [lra|lra]|]. split; [exact Fp|]. split; [exact B|]. rewrite Vp. eapply Rle_trans; [apply rnd64_err|].
  pose proof u64_53 as U. rewrite U. lra.
Qed.
Lemma dot_ok K M (a b : vec3 b64) : small3 K a -> small3 M b -> (0 <= K)%R -> (0 <= M)%R -> (K * M <= 2 ^ 98)%R ->
  finite64 (v3dot a b) /\ (Rabs (val (v3dot a b) - v3dot (val3 a) (val3 b)) <= 9 * u64 * (K * M) + tau / 2)%R /\ (Rabs (v3dot (val3 a) (val3 b)) <= 3 * (K * M))%R.
Proof.
  intros [A1 [A2 A3]] [B1 [B2 B3]] HK HM HP. assert (0 <= K * M)%R as P0 by (apply Rmult_le_pos; assumption).
  assert (2 ^ 100 = 4 * 2 ^ 98)%R as E100 by ring.
  destruct (prod_ok K M _ _ A1 B1 HK HM ltac:(lra)) as [F1 [D1 E1]]. destruct (prod_ok K M _ _ A2 B2 HK HM ltac:(lra)) as [F2 [D2 E2]]. destruct (prod_ok K M _ _ A3 B3 HK HM ltac:(lra)) as [F3 [D3 E3]].
  pose proof u64_53 as U. pose proof eta64_pos as Ep. pose proof eta_tau as Et. pose proof tau_1 as T1. pose proof tau_pos as T0.
  set (p1 := nmul (x3 a) (x3 b)) in *. set (p2 := nmul (y3 a) (y3 b)) in *. set (p3 := nmul (z3 a) (z3 b)) in *. set (P := (K * M)%R) in *.
  set (r1 := (val (x3 a) * val (x3 b))%R) in *. set (r2 := (val (y3 a) * val (y3 b))%R) in *. set (r3 := (val (z3 a) * val (z3 b))%R) in *.
  change (v3dot a b) with (nadd (nadd p1 p2) p3). change (v3dot (val3 a) (val3 b)) with (r1 + r2 + r3)%R. rewrite U in *.
  assert (Rabs (val p1 + val p2) <= 3 * P + 1)%R as S1 by (apply Rabs_le; apply Rabs_le_inv in E1, E2, D1, D2; lra).
  destruct (add_round p1 p2 F1 F2) as [F4 V4]; [apply M_ok with P; lra|]. pose proof (rnd64_err (val p1 + val p2)) as E4. rewrite <- V4, U in E4.
  assert (Rabs (val p1 + val p2) <= 2 * P + 2 * (P * / 9007199254740992 + eta64))%R as S1' by (apply Rabs_le; apply Rabs_le_inv in E1, E2, D1, D2; lra).
  set (s := val (nadd p1 p2)) in *.
  assert (Rabs (s + val p3) <= 3 * P + 8 * P * / 9007199254740992 + 8 * eta64)%R as S2 by (apply Rabs_le; apply Rabs_le_inv in E1, E2, E3, D1, D2, D3, E4; lra).
  destruct (add_round (nadd p1 p2) p3 F4 F3) as [F5 V5]; [fold s; apply M_ok with P; lra|]. fold s in V5. pose proof (rnd64_err (s + val p3)) as E5. rewrite <- V5, U in E5.
  split; [exact F5|]. split; [|apply Rabs_le; apply Rabs_le_inv in D1, D2, D3; lra].
  apply Rabs_le. apply Rabs_le_inv in E1, E2, E3, E4, E5, D1, D2, D3. lra.
Qed.

(** ** One control point *)
Definition moved64 (m : mat3 b64) (p : vec4 b64) : vec4 b64 := set_head3 p (m3mul m (head3 p)).
Definition movedR (m : mat3 R) (p : vec4 R) : vec4 R := set_head3 p (m3mul m (head3 p)).
Definition big_of (K M : R) : R := (4 * (K * M) + tau)%R.
Definition off_of (K M : R) : R := (9 / 2 ^ 53 * (K * M) + tau)%R.
Lemma moved_ok K M m p : small_mat K m -> tame M p -> (0 <= K)%R -> (0 <= M)%R -> (K * M <= 2 ^ 97)%R ->
  tame (big_of K M) (moved64 m p) /\ bounded4 (big_of K M) (movedR (mat_val m) (val4 p)) /\ close4 (off_of K M) 0 (val4 (moved64 m p)) (movedR (mat_val m) (val4 p)) /\ w4 (moved64 m p) = w4 p.
Proof.
  intros [R0 [R1 R2]] [Fx [Fy [Fz [Fw [Bw [Bx [By Bz]]]]]]] HK HM HP. assert (2 ^ 98 = 2 * 2 ^ 97)%R as E98 by ring. assert (0 <= K * M)%R as P0 by (apply Rmult_le_pos; assumption).
  assert (small3 M (head3 p)) as Sp by (split; [|split]; (split; assumption)).
  pose proof u64_53 as U. pose proof tau_1 as T1. pose proof tau_pos as T0. unfold big_of, off_of, Rdiv. rewrite p53.
  destruct (dot_ok K M (row0 m) (head3 p) R0 Sp HK HM ltac:(lra)) as [F0 [E0 B0]]. destruct (dot_ok K M (row1 m) (head3 p) R1 Sp HK HM ltac:(lra)) as [F1 [E1 B1]]. destruct (dot_ok K M (row2 m) (head3 p) R2 Sp HK HM ltac:(lra)) as [F2 [E2 B2]].
  rewrite U in *. set (P := (K * M)%R) in *.
  assert (forall x y : R, (Rabs (x - y) <= 9 * / 9007199254740992 * P + tau / 2)%R -> (Rabs y <= 3 * P)%R -> (Rabs x <= 4 * P + tau)%R /\ (Rabs y <= 4 * P + tau)%R /\ (Rabs (x - y) <= 9 * / 9007199254740992 * P + tau)%R) as Q.
  { intros x y H1 H2. split; [|split; lra]. apply Rabs_le. apply Rabs_le_inv in H1, H2. lra. }
  destruct (Q _ _ E0 B0) as [Q1 [Q2 Q3]]. destruct (Q _ _ E1 B1) as [Q4 [Q5 Q6]]. destruct (Q _ _ E2 B2) as [Q7 [Q8 Q9]].
  split; [|split; [|split]].
  - unfold tame, moved64, m3mul. cbn [set_head3 x4 y4 z4 w4 x3 y3 z3]. auto 20.
  - unfold bounded4, movedR, m3mul. cbn [set_head3 x4 y4 z4 w4 x3 y3 z3]. auto.
  - unfold close4, movedR, moved64, m3mul, val4. cbn [set_head3 x4 y4 z4 w4 x3 y3 z3]. split; [exact Q3|]. split; [exact Q6|]. split; [exact Q9|]. rewrite Rminus_eq_0, Rabs_R0, Rmult_0_l. lra.
  - reflexivity.
Qed.
Lemma big_ok K M : (0 <= K)%R -> (0 <= M)%R -> (K * M <= 2 ^ 97)%R -> (0 <= big_of K M <= 2 ^ 100)%R.
Proof.
  intros HK HM HP. assert (0 <= K * M)%R as P0 by (apply Rmult_le_pos; assumption). assert (2 ^ 100 = 8 * 2 ^ 97)%R as E by ring. pose proof tau_1. pose proof tau_pos. unfold big_of.
  assert (1 <= 2 ^ 97)%R by (apply pow_R1_Rle; lra). lra.
Qed.
Lemma bound_final K M n : (0 <= K)%R -> (0 <= M)%R -> (0 <= n <= 101)%R -> (K * M <= 2 ^ 97)%R ->
  (45 * n / 2 ^ 53 * big_of K M + / 2 ^ 450 + off_of K M <= (180 * n + 9) / 2 ^ 53 * (K * M) + / 2 ^ 449)%R.
Proof.
  intros HK HM Hn HP. assert (0 <= K * M)%R as P0 by (apply Rmult_le_pos; assumption). unfold big_of, off_of. pose proof tau_pos as T0. pose proof tau_450 as T4.
  assert (/ 2 ^ 449 = 2 * / 2 ^ 450)%R as -> by (replace 450%nat with (449 + 1)%nat by reflexivity; rewrite pow_add; field; apply pow_nonzero; lra).
  unfold Rdiv. rewrite p53. assert (45 * n * / 9007199254740992 * tau <= tau)%R. { rewrite <- (Rmult_1_l tau) at 2. apply Rmult_le_compat_r; lra. } lra.
Qed.

Lemma nth_map_in {A B} (f : A -> B) l k d d' : (k < length l)%nat -> nth k (map f l) d' = f (nth k l d).
Proof. intros H. rewrite (nth_indep _ _ (f d)) by (rewrite map_length; exact H). apply map_nth. Qed.

(** ** Curves *)
Lemma trans_sound c m : sound_curve c -> sound_curve (Curve_Transform c m).
Proof. intros [A B]. split; [exact A|]. cbn [Curve_Transform ControlPoints Knots Degree]. rewrite len_map. exact B. Qed.
Lemma C113_points_lemma : forall (c : curve b64) m K M, small_mat K m -> Forall (tame M) (ControlPoints c) -> (0 <= K)%R -> (0 <= M)%R -> (K * M <= 2 ^ 97)%R ->
  Degree (Curve_Transform c m) = Degree c /\ Knots (Curve_Transform c m) = Knots c /\
  List.Forall2 (fun p q => w4 q = w4 p /\ near3 (9 / 2 ^ 53 * (K * M) + / 2 ^ 1000) (spot q) (mat_apply (mat_val m) (val3 (spot p)))) (ControlPoints c) (ControlPoints (Curve_Transform c m)).
Proof.
  intros c m K M Hm T HK HM HP. split; [reflexivity|]. split; [reflexivity|]. cbn [Curve_Transform ControlPoints]. induction T as [|p l Tp T IH]; cbn [map]; constructor; [|exact IH].
  destruct (moved_ok K M m p Hm Tp HK HM HP) as [T' [_ [[C1 [C2 [C3 _]]] W]]]. split; [reflexivity|]. destruct T' as [F1 [F2 [F3 _]]]. split; [exact F1|]. split; [exact F2|]. split; [exact F3|]. split; [exact C1|]. split; [exact C2|exact C3].
Qed.
Lemma C113_net_lemma : forall (s : surface b64) m K M, small_mat K m -> Forall (tame M) (Values (Net s)) -> (0 <= K)%R -> (0 <= M)%R -> (K * M <= 2 ^ 97)%R ->
  let t := Surface_Transform s m in
  DegreeU t = DegreeU s /\ DegreeV t = DegreeV s /\ KnotsU t = KnotsU s /\ KnotsV t = KnotsV s /\ UCount (Net t) = UCount (Net s) /\ VCount (Net t) = VCount (Net s) /\
  List.Forall2 (fun p q => w4 q = w4 p /\ near3 (9 / 2 ^ 53 * (K * M) + / 2 ^ 1000) (spot q) (mat_apply (mat_val m) (val3 (spot p)))) (Values (Net s)) (Values (Net t)).
Proof.
  intros s m K M Hm T HK HM HP t. repeat (split; [reflexivity|]). exact (proj2 (proj2 (C113_points_lemma (Curve 0 [] (Values (Net s))) m K M Hm T HK HM HP))).
Qed.
Lemma C113_curve_lemma : forall (c : curve b64) m K M x, sound_curve c -> apart (Knots c) -> Degree c <= 50 -> Forall (tame M) (ControlPoints c) -> small_mat K m ->
  (0 <= K)%R -> (0 <= M)%R -> (K * M <= 2 ^ 97)%R -> finite64 x -> (0 <= val x <= 1)%R ->
  exists q, Curve_Evaluate (Curve_Transform c m) x = Ok q /\
    near3 ((180 * (IZR (Degree c) + 1) + 9) / 2 ^ 53 * (K * M) + / 2 ^ 449) q (mat_apply (mat_val m) (curve_point (curve_val c) (val x))).
Proof.
  intros c m K M x S Ap D T Hm HK HM HP Fx Hx. pose proof (big_ok K M HK HM HP) as HB.
  assert (Forall (tame (big_of K M)) (ControlPoints (Curve_Transform c m))) as T'.
  { cbn [Curve_Transform ControlPoints]. apply Forall_map. revert T. apply Forall_impl. intros p Hp. apply (moved_ok K M m p Hm Hp HK HM HP). }
  destruct (C66_lemma (Curve_Transform c m) (big_of K M) x (trans_sound c m S) Ap D T' HB Fx Hx) as [q [E N]]. exists q. split; [exact E|].
  pose proof (tame_wf c M S T) as W. rewrite <- (transform_point (curve_val c) (mat_val m) (val x) W Hx).
  assert (within3 (off_of K M + 201 / 100 * 0 * big_of K M) (curve_point (curve_val (Curve_Transform c m)) (val x)) (curve_point (Curve_Transform (curve_val c) (mat_val m)) (val x))) as [W1 [W2 W3]].
  { apply curve_move; try reflexivity; try lra; try exact Hx.
    - apply (tame_wf _ _ (trans_sound c m S) T').
    - apply transform_wf. exact W.
    - cbn [Curve_Transform curve_val ControlPoints]. rewrite !len_map. reflexivity.
    - intros i Hi. cbn [Curve_Transform curve_val ControlPoints] in Hi. rewrite !len_map in Hi.
      unfold cp. cbn [Curve_Transform curve_val ControlPoints]. rewrite !map_map.
      rewrite !(nth_map_in _ (ControlPoints c) _ v4zero) by (unfold len in Hi; lia).
      assert (tame M (nth (Z.to_nat i) (ControlPoints c) v4zero)) as Tp. { rewrite Forall_forall in T. apply T. apply nth_In. unfold len in Hi. lia. }
      destruct (moved_ok K M m _ Hm Tp HK HM HP) as [_ [A [B _]]]. split; assumption. }
  replace (off_of K M + 201 / 100 * 0 * big_of K M)%R with (off_of K M) in * by ring.
  apply (near3_trans _ _ _ _ _ _ N W1 W2 W3). cbn [Curve_Transform Degree]. pose proof (cl_degree _ _ (proj2 (proj1 S))) as D0.
  apply bound_final; try assumption. assert (0 <= IZR (Degree c) <= 50)%R by (split; apply IZR_le; lia). lra.
Qed.

(** ** Surfaces *)
Lemma strans_sound s m : sound_surface s -> sound_surface (Surface_Transform s m).
Proof. intros [A [B [C [D E]]]]. repeat split; try apply A; try apply B; try assumption. cbn [Surface_Transform Net Values UCount VCount]. rewrite len_map. exact E. Qed.
Lemma C113_surface_lemma : forall (s : surface b64) m K M u v, sound_surface s -> apart (KnotsU s) -> apart (KnotsV s) -> DegreeU s <= 50 -> DegreeV s <= 50 ->
  Forall (tame M) (Values (Net s)) -> small_mat K m -> (0 <= K)%R -> (0 <= M)%R -> (K * M <= 2 ^ 97)%R -> finite64 u -> (0 <= val u <= 1)%R -> finite64 v -> (0 <= val v <= 1)%R ->
  exists q, Surface_Evaluate (Surface_Transform s m) u v = Ok q /\
    near3 ((180 * (IZR (DegreeU s) + IZR (DegreeV s) + 1) + 9) / 2 ^ 53 * (K * M) + / 2 ^ 449) q (mat_apply (mat_val m) (surf_point (surface_val s) (val u) (val v))).
Proof.
  intros s m K M u v S Au Av Du Dv T Hm HK HM HP Fu Hu Fv Hv. pose proof (big_ok K M HK HM HP) as HB.
  assert (Forall (tame (big_of K M)) (Values (Net (Surface_Transform s m)))) as T'.
  { cbn [Surface_Transform Net Values]. apply Forall_map. revert T. apply Forall_impl. intros p Hp. apply (moved_ok K M m p Hm Hp HK HM HP). }
  destruct (C67_lemma (Surface_Transform s m) (big_of K M) u v (strans_sound s m S) Au Av Du Dv T' HB Fu Hu Fv Hv) as [q [E N]]. exists q. split; [exact E|].
  pose proof (tame_wf_surf s M S T) as W. rewrite <- (stransform_point (surface_val s) (mat_val m) (val u) (val v) W Hu Hv).
  pose proof (tame_wf_surf _ _ (strans_sound s m S) T') as W'. pose proof (stransform_wf _ (mat_val m) W) as Wt.
  set (s1 := surface_val (Surface_Transform s m)) in *. set (s2 := Surface_Transform (surface_val s) (mat_val m)) in *.
  assert (forall i j, 0 <= i < UCount (Net s) -> 0 <= j < VCount (Net s) -> bounded4 (big_of K M) (gp s2 i j) /\ close4 (off_of K M) 0 (gp s1 i j) (gp s2 i j)) as G.
  { intros i j Hi Hj. assert (0 <= j * UCount (Net s) + i < len (Values (Net s))) as Hk by (destruct S as [_ [_ [_ [_ ->]]]]; nia).
    unfold gp, s1, s2. cbn [Surface_Transform surface_val Net Values UCount]. rewrite !map_map. set (k := j * UCount (Net s) + i) in *.
      rewrite !(nth_map_in _ (Values (Net s)) _ v4zero) by (unfold len in Hk; lia).
    assert (tame M (nth (Z.to_nat k) (Values (Net s)) v4zero)) as Tp. { rewrite Forall_forall in T. apply T. apply nth_In. unfold len in Hk. lia. }
    destruct (moved_ok K M m _ Hm Tp HK HM HP) as [_ [A [B _]]]. split; assumption. }
  assert (0 <= UCount (Net s)) as U0 by (exact (ucount_nonneg _ W)).
  assert (within3 (off_of K M + 201 / 100 * 0 * big_of K M) (surf_point s1 (val u) (val v)) (surf_point s2 (val u) (val v))) as [W1 [W2 W3]].
  { apply surf_move_u; try assumption; try reflexivity; try lra. intros j Hj. change (VCount (Net s2)) with (VCount (Net s)) in Hj. change (UCount (Net s2)) with (UCount (Net s)).
    assert (forall i, 0 <= i < len (ControlPoints (colU s2 j)) -> bounded4 (big_of K M) (cp (colU s2 j) i) /\ close4 (off_of K M) 0 (cp (colU s1 j) i) (cp (colU s2 j) i)) as Gc.
    { intros i Hi. cbn [colU ControlPoints] in Hi. rewrite zlist_len in Hi by exact U0. change (UCount (Net s2)) with (UCount (Net s)) in Hi. rewrite !colU_cp by exact Hi. apply G; assumption. }
    assert (len (ControlPoints (colU s1 j)) = len (ControlPoints (colU s2 j))) as El by (cbn [colU ControlPoints]; rewrite !zlist_len by exact U0; reflexivity).
    split; [|split].
    - replace (off_of K M) with (off_of K M + 201 / 100 * 0 * big_of K M)%R by ring. apply curve_move; try reflexivity; try assumption; try lra; apply colU_wf; assumption.
    - apply (den_move _ _ (big_of K M) (off_of K M)); try reflexivity; try assumption. apply colU_wf. assumption.
    - intros i Hi. apply G; assumption. }
  replace (off_of K M + 201 / 100 * 0 * big_of K M)%R with (off_of K M) in * by ring.
  apply (near3_trans _ _ _ _ _ _ N W1 W2 W3). cbn [Surface_Transform DegreeU DegreeV]. destruct S as [[_ Cu] [[_ Cv] _]]. pose proof (cl_degree _ _ Cu) as D0. pose proof (cl_degree _ _ Cv) as D1.
  apply bound_final; try assumption. assert (0 <= IZR (DegreeU s) <= 50)%R by (split; apply IZR_le; lia). assert (0 <= IZR (DegreeV s) <= 50)%R by (split; apply IZR_le; lia). lra.
Qed.

(** ** An example: a turn by the angle of the 3-4-5 triangle, whose entries are not doubles *)
Definition turn345 : mat3 b64 := Mat3 (Vec3 (dq (3 # 5)) (dq (- (4 # 5))) dz) (Vec3 (dq (4 # 5)) (dq (3 # 5)) dz) (Vec3 dz dz done_).
Lemma turn_small : small_mat 1 turn345.
Proof.
  assert (Forall (tame 1) (map (fun a => Vec4 (x3 a) (y3 a) (z3 a) done_) [row0 turn345; row1 turn345; row2 turn345])) as T by (apply tameb_ok; vm_compute; reflexivity).
  repeat (match goal with H : Forall _ (map _ (_ :: _)) |- _ => inversion H; clear H; subst end). 
  repeat match goal with H : Forall _ _ |- _ => inversion H; clear H; subst end.
  repeat match goal with H : tame _ _ |- _ => destruct H as [? [? [? [_ [_ [? [? ?]]]]]]] end.
  split; [|split]; (split; [|split]); (split; assumption).
Qed.
