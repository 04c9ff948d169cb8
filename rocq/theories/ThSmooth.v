(** Smoothness of curves at their knots. *)
From Coq Require Import Reals ZArith List Lra Lia Bool.
From Coquelicot Require Import Coquelicot.
From Verif Require Import Outcome Num ModelCore ModelBasis ModelCurve SpecCore SpecBasis SpecCurve SpecDeriv
  ThOutcome ThReal ThKnots ThVec ThSum ThSpline ThBasis ThCurve ThReverse ThDeriv ThDers ThLeib ThDerivs.
Import ListNotations.
Open Scope Z_scope.

(** the two polynomial pieces that meet at a knot of multiplicity at most the degree *)
Section Glue.
  Variables (U : Z -> R) (a b : Z) (x : R).
  Hypothesis M : mono U.
  Hypothesis Sa : (U a < U (a + 1)%Z)%R.
  Hypothesis Sb : (U b < U (b + 1)%Z)%R.
  Hypothesis Hab : a <= b.
  Hypothesis Hx : forall i, a < i <= b -> U i = x.
  Lemma run_same : forall n i, a <= i -> i + nn n <= b -> run U i n = repeat x n.
  Proof.
    induction n as [|n IH]; intros i Hi Hn; [reflexivity|]. rewrite nn_S in Hn. pose proof (nn_nonneg n). cbn [run repeat]. rewrite Hx by lia. f_equal. apply IH; lia.
  Qed.
  Lemma bl_glue : forall d q P, nn q = b - a + nn d -> bl U a (repeat x q) P = bl U b (repeat x q) P.
  Proof.
    induction d as [|d IH]; intros q P Hq.
    - rewrite nn_0 in Hq. rewrite <- (run_same q a) by lia. rewrite !bl_dual; try assumption; try lia. reflexivity.
    - rewrite nn_S in Hq. pose proof (nn_nonneg d). destruct q as [|q]; [rewrite nn_0 in Hq; lia|]. rewrite nn_S in Hq. cbn [repeat bl length]. rewrite !repeat_length. apply IH. lia.
  Qed.
  Lemma B_delta j q i : (U j < U (j + 1)%Z)%R -> B U j q i x = bl U j (repeat x q) (fun k => if k =? i then 1%R else 0%R).
  Proof.
    intros S. rewrite <- (B_value U j M S). pose proof (nn_nonneg q).
    destruct (Z_le_gt_dec (j - nn q) i) as [L1|L1]; [destruct (Z_le_gt_dec i j) as [L2|L2]|].
    - rewrite (zsum_support _ _ i (i + 1)); try lia.
      + rewrite zsum_one, Z.eqb_refl. ring.
      + intros k Hk Ho. destruct (Z.eqb_spec k i); [lia|ring].
    - rewrite B_support by lia. rewrite zsum_zero; [reflexivity|]. intros k Hk. destruct (Z.eqb_spec k i); [lia|ring].
    - rewrite B_support by lia. rewrite zsum_zero; [reflexivity|]. intros k Hk. destruct (Z.eqb_spec k i); [lia|ring].
  Qed.
  Lemma B_glue q i : b - a <= nn q -> B U a q i x = B U b q i x.
  Proof. intros H. rewrite !B_delta by assumption. apply (bl_glue (Z.to_nat (nn q - (b - a)))). rewrite nn_of by lia. lia. Qed.
  Lemma DBk_glue p i k : (k <= p)%nat -> b - a <= nn (p - k) -> DBk U a p i k x = DBk U b p i k x.
  Proof. intros Hk H. unfold DBk. f_equal. apply zsum_ext. intros m Hm. rewrite B_glue by assumption. reflexivity. Qed.
End Glue.

Lemma hder_glue c a b x f k : wf_curve c -> a <= b -> (forall i, a < i <= b -> kf (Knots c) i = x) ->
  (kf (Knots c) a < kf (Knots c) (a + 1)%Z)%R -> (kf (Knots c) b < kf (Knots c) (b + 1)%Z)%R -> 0 <= k -> b - a + k <= Degree c -> hder c a f k x = hder c b f k x.
Proof.
  intros W Hab Hx Sa Sb Hk H. unfold hder, piece. apply zsum_ext. intros i Hi. f_equal.
  apply DBk_glue; try assumption; [apply (clamped_mono _ _ (wf_knots c W))|lia|unfold nn; lia].
Qed.
Lemma cder_glue c a b x f : wf_curve c -> a <= b -> (forall i, a < i <= b -> kf (Knots c) i = x) ->
  (kf (Knots c) a < kf (Knots c) (a + 1)%Z)%R -> (kf (Knots c) b < kf (Knots c) (b + 1)%Z)%R -> forall n k, 0 <= k <= Z.of_nat n -> b - a + k <= Degree c -> cder c a f k x = cder c b f k x.
Proof.
  intros W Hab Hx Sa Sb. induction n as [|n IH]; intros k Hk H; unfold cder; rewrite !quo1_eq by lia.
  - rewrite !(zsum_empty 1) by lia. rewrite (hder_glue c a b x f k), (hder_glue c a b x w4 0) by (assumption || lia). reflexivity.
  - rewrite (hder_glue c a b x f k), (hder_glue c a b x w4 0) by (assumption || lia). do 2 f_equal. apply zsum_ext. intros i Hi.
    rewrite (hder_glue c a b x w4 i) by (assumption || lia). f_equal. apply IH; lia.
Qed.

(** the spans on both sides of an inner parameter *)
Lemma left_span p l b x : clamped p l -> p <= b <= len l - p - 2 -> (kf l b <= x < kf l (b + 1)%Z)%R -> (0 < x)%R ->
  exists a, p <= a <= b /\ (kf l a < x)%R /\ (x <= kf l (a + 1)%Z)%R /\ (forall i, a < i <= b -> kf l i = x) /\ b - a <= count x l.
Proof.
  intros C Hb Sp Hx. pose proof (cl_degree _ _ C) as P0. pose proof (cl_len _ _ C) as CL.
  assert (forall n : nat, Z.of_nat n <= b - p -> (forall i, b - Z.of_nat n < i <= b -> kf l i = x) ->
    exists a, p <= a <= b /\ (kf l a < x)%R /\ (x <= kf l (a + 1)%Z)%R /\ (forall i, a < i <= b -> kf l i = x)) as G.
  { intros n. remember (Z.to_nat (b - p) - n)%nat as d eqn:Ed. revert n Ed. induction d as [|d IH]; intros n Ed Hn E.
    - exists (b - Z.of_nat n). assert (b - Z.of_nat n = p) as Ep by lia. split; [lia|]. rewrite Ep. rewrite kf_at by lia. rewrite (cl_zero _ _ C) by lia. split; [exact Hx|]. split.
      + destruct (Z.eq_dec p b) as [Eb|Ne]; [rewrite Eb; lra|]. rewrite E by lia. lra.
      + intros i Hi. apply E. lia.
    - destruct (Rlt_le_dec (kf l (b - Z.of_nat n)) x) as [L|L].
      + exists (b - Z.of_nat n). split; [lia|]. split; [exact L|]. split; [|exact E]. destruct n as [|n]; [replace (b - Z.of_nat 0 + 1) with (b + 1) by lia; lra|]. rewrite E by lia. lra.
      + apply (IH (S n)); [lia|lia|]. intros i Hi. destruct (Z.eq_dec i (b - Z.of_nat n)) as [->|Ne]; [|apply E; lia].
        pose proof (clamped_mono _ _ C (b - Z.of_nat n) b ltac:(lia)). lra. }
  destruct (G O ltac:(lia)) as [a [H1 [H2 [H3 H4]]]]; [intros; lia|]. exists a. split; [exact H1|]. split; [exact H2|]. split; [exact H3|]. split; [exact H4|].
  apply (count_run l x a b); try lia. intros i Hi. rewrite <- kf_at by lia. apply H4. exact Hi.
Qed.

(** gluing functions at a point *)
Definition glued (x : R) (F G : R -> R) (t : R) : R := if Rlt_dec t x then F t else G t.
Lemma glued_left x F G t : (t < x)%R -> glued x F G t = F t.
Proof. intros H. unfold glued. destruct (Rlt_dec t x); [reflexivity|lra]. Qed.
Lemma glued_right x F G t : (x <= t)%R -> glued x F G t = G t.
Proof. intros H. unfold glued. destruct (Rlt_dec t x); [lra|reflexivity]. Qed.
Lemma glued_derive x F G l : is_derive F x l -> is_derive G x l -> F x = G x -> is_derive (glued x F G) x l.
Proof.
  intros HF HG E. apply is_derive_Reals in HF. apply is_derive_Reals in HG. apply is_derive_Reals. intros eps He.
  destruct (HF eps He) as [d1 H1]. destruct (HG eps He) as [d2 H2]. assert (0 < Rmin d1 d2)%R as Hd by (apply Rmin_pos; [apply d1|apply d2]).
  exists (mkposreal _ Hd). cbn [pos]. intros h Hh Hl. pose proof (Rmin_l d1 d2). pose proof (Rmin_r d1 d2). rewrite (glued_right x F G x) by lra.
  destruct (Rlt_le_dec h 0) as [L|L].
  - rewrite glued_left by lra. rewrite <- E. apply H1; [exact Hh|lra].
  - rewrite glued_right by lra. apply H2; [exact Hh|lra].
Qed.
Lemma glued_derive_all x F G F' G' lo hi t : (lo < t < hi)%R -> (forall t, (lo < t <= x)%R -> is_derive F t (F' t)) -> (forall t, (x <= t < hi)%R -> is_derive G t (G' t)) ->
  F x = G x -> F' x = G' x -> is_derive (glued x F G) t (glued x F' G' t).
Proof.
  intros Ht HF HG E E'. destruct (Rtotal_order t x) as [L|[->|L]].
  - rewrite glued_left by exact L. apply (is_derive_ext_loc F); [|apply HF; lra].
    apply (locally_interval _ t lo x); [simpl; lra|simpl; lra|]. intros y H1 H2. simpl in *. symmetry. apply glued_left. exact H2.
  - rewrite glued_right by lra. apply glued_derive; [rewrite <- E'; apply HF; lra|apply HG; lra|exact E].
  - rewrite glued_right by lra. apply (is_derive_ext_loc G); [|apply HG; lra].
    apply (locally_interval _ t x hi); [simpl; lra|simpl; lra|]. intros y H1 H2. simpl in *. symmetry. apply glued_right. lra.
Qed.
(** a finite family of derivatives *)
Lemma family_n (F : nat -> R -> R) lo hi n : (forall k t, (k < n)%nat -> (lo < t < hi)%R -> is_derive (F k) t (F (S k) t)) ->
  forall k, (k <= n)%nat -> forall t, (lo < t < hi)%R -> is_derive_n (F 0%nat) k t (F k t).
Proof.
  intros H. induction k as [|k IH]; intros Hk t Ht; [reflexivity|]. cbn [is_derive_n].
  apply (is_derive_ext_loc (F k)); [|apply H; [lia|exact Ht]]. apply (locally_interval _ t lo hi); [simpl; lra|simpl; lra|].
  intros y H1 H2. simpl in *. symmetry. apply is_derive_n_unique. apply IH; [lia|lra].
Qed.

Lemma cder_derive c j f k t : wf_curve c -> Degree c <= j <= len (Knots c) - Degree c - 2 -> (kf (Knots c) j < kf (Knots c) (j + 1)%Z)%R ->
  (kf (Knots c) j <= t <= kf (Knots c) (j + 1)%Z)%R -> 0 <= k -> is_derive (cder c j f k) t (cder c j f (k + 1) t).
Proof.
  intros W Hj Sp Ht Hk. apply quo1_derive.
  - intros; apply piece_derive; [apply (wf_knots c W)|exact Sp|assumption].
  - intros; apply piece_derive; [apply (wf_knots c W)|exact Sp|assumption].
  - exact Hk.
  - pose proof (hder_w_pos c j t W Hj Sp Ht). lra.
Qed.
Lemma derive_cont F x l : is_derive F x l -> forall eps, (0 < eps)%R -> exists d, (0 < d)%R /\ forall t, (Rabs (t - x) < d)%R -> (Rabs (F t - F x) < eps)%R.
Proof.
  intros D eps He. assert (continuous F x) as Cn by (apply ex_derive_continuous; exists l; exact D).
  destruct (proj1 (filterlim_locally F (F x)) Cn (mkposreal eps He)) as [d H]. exists d. split; [apply d|]. intros t Ht. apply (H t). exact Ht.
Qed.
Lemma EvaluateDerivative_at c t k j : wf_curve c -> (0 <= t <= 1)%R -> 0 <= k <= 29 -> span_at (kf (Knots c)) j t -> Degree c <= j <= len (Knots c) - Degree c - 2 ->
  Curve_EvaluateDerivative c t k = Ok (cder3 c j k t).
Proof.
  intros W Ht Hk Sp Hj. unfold Curve_EvaluateDerivative. destruct (Curve_EvaluateAll_ok c t k W Ht ltac:(lia)) as [j' [res [Hj' [Sp' [E [L G]]]]]].
  rewrite E. cbn [bind]. rewrite G by lia. do 2 f_equal. pose proof (clamped_mono _ _ (wf_knots c W)) as M. pose proof (clamped_le1 _ _ (wf_knots c W)) as L1.
  destruct (Z.lt_trichotomy j j') as [Lt|[->|Lt]]; [exfalso|reflexivity|exfalso].
  - pose proof (M (j + 1) j' ltac:(lia)). pose proof (L1 (j' + 1)). destruct Sp, Sp'; lra.
  - pose proof (M (j' + 1) j ltac:(lia)). pose proof (L1 (j + 1)). destruct Sp, Sp'; lra.
Qed.

(** ** at an inner parameter *)
Lemma smooth_at c x k : wf_curve c -> (0 < x < 1)%R -> 0 <= k <= 29 -> count x (Knots c) + k <= Degree c ->
  exists q, Curve_EvaluateDerivative c x k = Ok q /\ is_derive_n3 (curve_point c) (Z.to_nat k) x q /\
    forall eps, (0 < eps)%R -> exists delta, (0 < delta)%R /\ forall t, (Rabs (t - x) < delta)%R -> exists r, Curve_EvaluateDerivative c t k = Ok r /\
      (Rabs (x3 r - x3 q) < eps /\ Rabs (y3 r - y3 q) < eps /\ Rabs (z3 r - z3 q) < eps)%R.
Proof.
  intros W Hx Hk Hm. pose proof (wf_knots c W) as C. pose proof (cl_degree _ _ C) as P0.
  destruct (Curve_EvaluateAll_ok c x k W ltac:(lra) ltac:(lia)) as [b [res [Hb [Sp _]]]].
  assert (kf (Knots c) b <= x < kf (Knots c) (b + 1)%Z)%R as Sb by (destruct Sp as [Sp|Sp]; [exact Sp|lra]).
  destruct (left_span _ _ b x C Hb Sb ltac:(lra)) as [a [Ha [La [Ra [Ea Ca]]]]].
  assert (kf (Knots c) a < kf (Knots c) (a + 1)%Z)%R as Sa by lra. assert (kf (Knots c) b < kf (Knots c) (b + 1)%Z)%R as Sb' by lra.
  pose proof (clamped_le1 _ _ C) as L1. pose proof (clamped_mono _ _ C) as M.
  assert (forall i, 0 <= kf (Knots c) i)%R as G0. { intros i. destruct (Z_le_gt_dec i 0) as [Li|Li]; [unfold kf; replace (Z.to_nat i) with (Z.to_nat 0) by lia; change (0 <= kf (Knots c) 0)%R; rewrite kf_at by (pose proof (cl_len _ _ C); lia); rewrite (cl_zero _ _ C) by lia; lra|]. pose proof (M 0 i ltac:(lia)) as M0. rewrite (kf_at _ 0) in M0 by (pose proof (cl_len _ _ C); lia). rewrite (cl_zero _ _ C) in M0 by lia. exact M0. }
  pose (lo := kf (Knots c) a). pose (hi := kf (Knots c) (b + 1)%Z).
  assert (forall t f k', (lo < t < hi)%R -> 0 <= k' -> k' < k -> is_derive (glued x (cder c a f k') (cder c b f k')) t (glued x (cder c a f (k' + 1)) (cder c b f (k' + 1)) t)) as D.
  { intros t f k' Ht K0 K1. apply (glued_derive_all x _ _ (cder c a f (k' + 1)) (cder c b f (k' + 1)) lo hi t Ht).
    - intros s Hs. apply cder_derive; try assumption; try lia. unfold lo in *. lra.
    - intros s Hs. apply cder_derive; try assumption; try lia. unfold hi in *. lra.
    - apply (cder_glue c a b x f W ltac:(lia) Ea Sa Sb' (Z.to_nat k')); lia.
    - apply (cder_glue c a b x f W ltac:(lia) Ea Sa Sb' (Z.to_nat (k' + 1))); lia. }
  assert (forall t, (lo < t < hi)%R -> (t < x)%R -> span_at (kf (Knots c)) a t) as SpA. { intros t Ht Lt. left. unfold lo in Ht. lra. }
  assert (forall t, (lo < t < hi)%R -> (x <= t)%R -> span_at (kf (Knots c)) b t) as SpB. { intros t Ht Lt. left. unfold hi in Ht. lra. }
  assert (forall t, (lo < t < hi)%R -> 0 <= t <= 1)%R as T01. { intros t Ht. pose proof (G0 a). pose proof (L1 (b + 1)). unfold lo, hi in Ht. lra. }
  assert (forall t, (lo < t < hi)%R -> curve_point c t = Vec3 (glued x (cder c a x4 0) (cder c b x4 0) t) (glued x (cder c a y4 0) (cder c b y4 0) t) (glued x (cder c a z4 0) (cder c b z4 0) t)) as Cp.
  { intros t Ht. unfold glued. destruct (Rlt_dec t x) as [Lt|Lt].
    - rewrite <- (cder3_0 c a t W (SpA t Ht Lt)). reflexivity.
    - rewrite <- (cder3_0 c b t W (SpB t Ht ltac:(lra))). reflexivity. }
  assert (lo < x < hi)%R as Hx' by (unfold lo, hi; lra).
  exists (cder3 c b k x). split; [apply EvaluateDerivative_at; (assumption || lra)|]. split.
  - assert (forall f (g : vec3 R -> R), (forall t, (lo < t < hi)%R -> g (curve_point c t) = glued x (cder c a f 0) (cder c b f 0) t) -> is_derive_n (fun t => g (curve_point c t)) (Z.to_nat k) x (cder c b f k x)) as Dn.
    { intros f g Hg. apply (is_derive_n_ext_loc (glued x (cder c a f 0) (cder c b f 0))).
      - apply (locally_interval _ x lo hi); [simpl; lra|simpl; lra|]. intros y H1 H2. simpl in *. symmetry. apply Hg. lra.
      - pose proof (family_n (fun n => glued x (cder c a f (Z.of_nat n)) (cder c b f (Z.of_nat n))) lo hi (Z.to_nat k)) as Fn.
        assert (is_derive_n (glued x (cder c a f 0) (cder c b f 0)) (Z.to_nat k) x (glued x (cder c a f (Z.of_nat (Z.to_nat k))) (cder c b f (Z.of_nat (Z.to_nat k))) x)) as Fn'.
        { apply Fn; [|lia|exact Hx']. intros n t Hn Ht. replace (Z.of_nat (S n)) with (Z.of_nat n + 1) by lia. apply D; [exact Ht|lia|lia]. }
        rewrite (glued_right x _ _ x), Z2Nat.id in Fn' by (lra || lia). exact Fn'. }
    split; [|split]; cbn [cder3 x3 y3 z3]; apply Dn; intros t Ht; rewrite Cp by exact Ht; reflexivity.
  - assert (forall f eps, (0 < eps)%R -> exists d, (0 < d)%R /\ forall t, (Rabs (t - x) < d)%R -> (Rabs (cder c a f k t - cder c b f k x) < eps /\ Rabs (cder c b f k t - cder c b f k x) < eps)%R) as Cn.
    { intros f eps He. destruct (derive_cont (cder c a f k) x _ (cder_derive c a f k x W ltac:(lia) Sa ltac:(lra) ltac:(lia)) eps He) as [d1 [P1 H1]].
      destruct (derive_cont (cder c b f k) x _ (cder_derive c b f k x W ltac:(lia) Sb' ltac:(lra) ltac:(lia)) eps He) as [d2 [P2 H2]].
      exists (Rmin d1 d2). split; [apply Rmin_pos; assumption|]. intros t Ht. pose proof (Rmin_l d1 d2). pose proof (Rmin_r d1 d2). split.
      - rewrite <- (cder_glue c a b x f W ltac:(lia) Ea Sa Sb' (Z.to_nat k)) by lia. apply H1. lra.
      - apply H2. lra. }
    intros eps He. destruct (Cn x4 eps He) as [dx [Px Hdx]]. destruct (Cn y4 eps He) as [dy [Py Hdy]]. destruct (Cn z4 eps He) as [dz [Pz Hdz]].
    exists (Rmin (Rmin dx (Rmin dy dz)) (Rmin (x - lo) (hi - x))). split.
    + repeat apply Rmin_pos; lra.
    + intros t Ht. pose proof (Rmin_l (Rmin dx (Rmin dy dz)) (Rmin (x - lo) (hi - x))). pose proof (Rmin_r (Rmin dx (Rmin dy dz)) (Rmin (x - lo) (hi - x))).
      pose proof (Rmin_l (x - lo) (hi - x)). pose proof (Rmin_r (x - lo) (hi - x)). pose proof (Rmin_l dx (Rmin dy dz)). pose proof (Rmin_r dx (Rmin dy dz)). pose proof (Rmin_l dy dz). pose proof (Rmin_r dy dz).
      assert (lo < t < hi)%R as Ht'. { assert (Rabs (t - x) < x - lo)%R as A1 by lra. assert (Rabs (t - x) < hi - x)%R as A2 by lra. apply Rabs_def2 in A1. apply Rabs_def2 in A2. lra. }
      destruct (Rlt_le_dec t x) as [Lt|Lt].
      * exists (cder3 c a k t). split; [apply EvaluateDerivative_at; auto; lia|]. cbn [cder3 x3 y3 z3]. split; [apply Hdx; lra|split; [apply Hdy; lra|apply Hdz; lra]].
      * exists (cder3 c b k t). split; [apply EvaluateDerivative_at; auto; lia|]. cbn [cder3 x3 y3 z3]. split; [apply Hdx; lra|split; [apply Hdy; lra|apply Hdz; lra]].
Qed.

(** ** at the ends of the parameter range *)
Lemma smooth_end c x k : wf_curve c -> x = 0%R \/ x = 1%R -> 0 <= k <= 29 ->
  exists q, Curve_EvaluateDerivative c x k = Ok q /\
    forall eps, (0 < eps)%R -> exists delta, (0 < delta)%R /\ forall t, (0 <= t <= 1)%R -> (Rabs (t - x) < delta)%R -> exists r, Curve_EvaluateDerivative c t k = Ok r /\
      (Rabs (x3 r - x3 q) < eps /\ Rabs (y3 r - y3 q) < eps /\ Rabs (z3 r - z3 q) < eps)%R.
Proof.
  intros W Hx Hk. pose proof (wf_knots c W) as C. pose proof (cl_degree _ _ C) as P0. pose proof (cl_len _ _ C) as CL.
  assert (exists j, Degree c <= j <= len (Knots c) - Degree c - 2 /\ span_at (kf (Knots c)) j x /\ exists d, (0 < d)%R /\ forall t, (0 <= t <= 1)%R -> (Rabs (t - x) < d)%R -> span_at (kf (Knots c)) j t) as [j [Hj [Sp [d0 [Pd Hd]]]]].
  { destruct Hx as [-> | ->].
    - exists (Degree c). split; [lia|]. split; [apply span_start; exact C|]. pose proof (cl_first _ _ C). exists (kf (Knots c) (Degree c + 1)). rewrite kf_at by lia. split; [exact H|].
      intros t Ht Hl. left. rewrite !kf_at by lia. rewrite (cl_zero _ _ C) by lia. rewrite Rminus_0_r, Rabs_right in Hl by lra. lra.
    - exists (len (Knots c) - Degree c - 2). split; [lia|]. split; [apply span_end; exact C|]. pose proof (cl_last _ _ C). exists (1 - kf (Knots c) (len (Knots c) - Degree c - 2))%R. rewrite kf_at by lia. split; [lra|].
      intros t Ht Hl. assert (kf (Knots c) (len (Knots c) - Degree c - 2 + 1) = 1%R) as E1 by (rewrite kf_at by lia; apply (cl_one _ _ C); lia).
      rewrite Rabs_minus_sym, Rabs_right in Hl by lra. destruct (Req_dec t 1) as [->|Ne]; [right; split; [reflexivity|]; rewrite kf_at by lia; split; [assumption|exact E1]|left; rewrite E1; rewrite kf_at by lia; lra]. }
  exists (cder3 c j k x). split; [apply EvaluateDerivative_at; try assumption; destruct Hx; lra|].
  assert (forall f eps, (0 < eps)%R -> exists d, (0 < d)%R /\ forall t, (Rabs (t - x) < d)%R -> (Rabs (cder c j f k t - cder c j f k x) < eps)%R) as Cn.
  { intros f eps He. apply (derive_cont _ _ (cder c j f (k + 1) x)); [|exact He]. apply cder_derive; try assumption; try lia; [apply (span_nonempty _ _ _ Sp)|apply (span_bounds _ _ _ Sp)]. }
  intros eps He. destruct (Cn x4 eps He) as [dx [Px Hdx]]. destruct (Cn y4 eps He) as [dy [Py Hdy]]. destruct (Cn z4 eps He) as [dz [Pz Hdz]].
  exists (Rmin (Rmin dx (Rmin dy dz)) d0). split; [repeat apply Rmin_pos; assumption|]. intros t Ht Hl.
  pose proof (Rmin_l (Rmin dx (Rmin dy dz)) d0). pose proof (Rmin_r (Rmin dx (Rmin dy dz)) d0). pose proof (Rmin_l dx (Rmin dy dz)). pose proof (Rmin_r dx (Rmin dy dz)). pose proof (Rmin_l dy dz). pose proof (Rmin_r dy dz).
  exists (cder3 c j k t). split; [apply EvaluateDerivative_at; try assumption; apply Hd; [exact Ht|lra]|]. cbn [cder3 x3 y3 z3]. split; [apply Hdx; lra|split; [apply Hdy; lra|apply Hdz; lra]].
Qed.
