(** GetBoundingBox on doubles: no failure, termination, contents (C98). *)
From Coq Require Import Reals QArith Qreals ZArith List Lra Lia Bool Permutation Floats.SpecFloat.
From Flocq Require Import Core.
From Verif Require Import Outcome Num ModelCore ModelCurve SpecCore SpecBasis SpecCurve SpecErr SpecBox64
  ThOutcome ThReal ThB64 ThRound ThErr ThKnots ThVec ThBox ThBezier ThBBox ThBBox2 ThBBoxWit ThCoreWit ThCurveWit ThDecide ThExtract64.
Import ListNotations.
Open Scope Z_scope.

(** ** The loop, in any arithmetic *)
Section Any.
  Context {T : Type} {NT : Num T}.
  Variable d0 : vec4 T.
  Fixpoint row_ (r : nat) (P : list (vec4 T)) : list (vec4 T) := match r with O => P | S r' => row_ r' (midpoints P) end.
  Definition mid_ (a b : vec4 T) : vec4 T := v4add (v4scale (nlit (1 # 2)) a) (v4scale (nlit (1 # 2)) b).
  Lemma len_mids (P : list (vec4 T)) : P <> [] -> len (midpoints P) = len P - 1.
  Proof.
    induction P as [|a P IH]; [congruence|]. intros _. destruct P as [|b P]; [reflexivity|].
    change (midpoints (a :: b :: P)) with (mid_ a b :: midpoints (b :: P)).
    rewrite len_cons, IH, !len_cons by discriminate. lia.
  Qed.
  Lemma znth_mids (P : list (vec4 T)) : forall i, 0 <= i < len P - 1 -> znth d0 (midpoints P) i = mid_ (znth d0 P i) (znth d0 P (i + 1)).
  Proof.
    induction P as [|a P IH]; intros i Hi; [cbn in Hi; lia|]. destruct P as [|b P]; [cbn in Hi; lia|].
    change (midpoints (a :: b :: P)) with (mid_ a b :: midpoints (b :: P)). destruct (Z.eq_dec i 0) as [->|Ni]; [reflexivity|].
    rewrite (znth_cons d0 _ (midpoints (b :: P))), !(znth_cons d0 a) by lia. rewrite len_cons in Hi. rewrite IH by lia. replace (i + 1 - 1) with (i - 1 + 1) by lia. reflexivity.
  Qed.
  Lemma row_S r : forall P, row_ (S r) P = midpoints (row_ r P).
  Proof. induction r as [|r IH]; intros P; [reflexivity|]. change (row_ (S r) (midpoints P) = midpoints (row_ r (midpoints P))). apply IH. Qed.
  Lemma len_row r : forall P, Z.of_nat r < len P -> len (row_ r P) = len P - Z.of_nat r.
  Proof.
    induction r as [|r IH]; intros P H; [cbn [row_]; lia|]. cbn [row_].
    assert (P <> []) by (intros ->; cbn in H; lia). rewrite IH; rewrite len_mids by assumption; lia.
  Qed.
  Lemma rows_at_ n : forall P r, 0 <= r <= Z.of_nat n -> vget (casteljau_rows n P) r = Ok (row_ (Z.to_nat r) P).
  Proof.
    induction n as [|n IH]; intros P r Hr.
    - assert (r = 0) as -> by lia. reflexivity.
    - cbn [casteljau_rows]. destruct (Z.eq_dec r 0) as [->|Nr]; [reflexivity|].
      rewrite vget_cons_pos by lia. rewrite IH by lia. f_equal. replace (Z.to_nat r) with (S (Z.to_nat (r - 1))) by lia. reflexivity.
  Qed.
  Definition left_ (p : Z) (P : list (vec4 T)) : list (vec4 T) := map (fun r => znth d0 (row_ (Z.to_nat r) P) 0) (zrange 0 (p + 1)).
  Definition right_ (p : Z) (P : list (vec4 T)) : list (vec4 T) := map (fun r => znth d0 (row_ (Z.to_nat (p - r)) P) r) (zrange 0 (p + 1)).
  Lemma subdivide_ok_ p P : 0 <= p -> len P = p + 1 -> subdivide p P = Ok (left_ p P, right_ p P).
  Proof.
    intros Hp L. unfold subdivide.
    rewrite (tabulate_ok 0 (p + 1) _ (fun r => znth d0 (row_ (Z.to_nat r) P) 0)).
    2:{ intros i Hi. rewrite rows_at_ by lia. cbn [bind]. apply vget_ok. rewrite len_row; lia. }
    cbn [bind]. rewrite (tabulate_ok 0 (p + 1) _ (fun r => znth d0 (row_ (Z.to_nat (p - r)) P) r)).
    2:{ intros i Hi. rewrite rows_at_ by lia. cbn [bind]. apply vget_ok. rewrite len_row; lia. }
    reflexivity.
  Qed.
  Lemma len_left_ p P : 0 <= p -> len (left_ p P) = p + 1.
  Proof. intros. unfold left_. rewrite len_map, len_zrange. lia. Qed.
  Lemma len_right_ p P : 0 <= p -> len (right_ p P) = p + 1.
  Proof. intros. unfold right_. rewrite len_map, len_zrange. lia. Qed.
  Lemma znth_tab_ (f : Z -> vec4 T) n i : 0 <= i < n -> znth d0 (map f (zrange 0 n)) i = f i.
  Proof. intros H. pose proof (vget_zrange_map f 0 n i ltac:(lia)) as E. apply (vget_inv d0) in E. destruct E as [_ <-]. f_equal. Qed.
  Lemma znth_left p P i : 0 <= i <= p -> znth d0 (left_ p P) i = znth d0 (row_ (Z.to_nat i) P) 0.
  Proof. intros. unfold left_. rewrite znth_tab_ by lia. reflexivity. Qed.
  Lemma znth_right p P i : 0 <= i <= p -> znth d0 (right_ p P) i = znth d0 (row_ (Z.to_nat (p - i)) P) i.
  Proof. intros. unfold right_. rewrite znth_tab_ by lia. reflexivity. Qed.
  Lemma boxes_total (P : list (vec4 T)) : P <> [] -> exists cp, polygon_boxes P = Ok (cp, BoundingBox_make (head3 (znth d0 P 0)) (head3 (znth d0 P (len P - 1)))).
  Proof.
    destruct P as [|a P]; [congruence|]. intros _. eexists. unfold polygon_boxes. do 4 f_equal.
    assert (forall a b, last (a :: P) b = znth d0 (a :: P) (len (a :: P) - 1)) as H; [|apply H].
    clear a. induction P as [|b P IH]; intros a d; [reflexivity|]. change (last (b :: P) d = znth d0 (a :: b :: P) (len (a :: b :: P) - 1)). rewrite (IH b d).
    rewrite !len_cons. pose proof (len_nonneg P). rewrite (znth_cons d0 a) by lia. f_equal. lia.
  Qed.
  (** the loop either ends or is still running *)
  Lemma loop_safe p (eps : T) : 0 <= p -> forall fuel stack g, Forall (fun P => len P = p + 1) stack ->
    bbox_loop fuel p eps stack g = OutOfFuel \/ exists r, bbox_loop fuel p eps stack g = Ok r.
  Proof.
    intros Hp. induction fuel as [|fuel IH]; intros [|P stack] g Hs; cbn [bbox_loop]; [right; eexists; reflexivity|left; reflexivity|right; eexists; reflexivity|].
    inversion_clear Hs as [|? ? L Ls]. assert (P <> []) as Hne by (intros ->; cbn in L; lia). destruct (boxes_total P Hne) as [cp ->]. cbn [bind].
    destruct (polygon_accept _ _ _); [apply IH; exact Ls|]. rewrite subdivide_ok_ by assumption. cbn [bind]. apply IH. constructor; [apply len_left_; exact Hp|]. constructor; [apply len_right_; exact Hp|exact Ls].
  Qed.
  Lemma loop_more p (eps : T) : forall fuel stack g r k, bbox_loop fuel p eps stack g = Ok r -> bbox_loop (fuel + k) p eps stack g = Ok r.
  Proof.
    induction fuel as [|fuel IH]; intros [|P stack] g r k E; cbn [bbox_loop Nat.add] in *; try discriminate.
    - destruct k; exact E.
    - exact E.
    - destruct (polygon_boxes P) as [[cp ep]| | | | |]; cbn [bind] in *; try discriminate.
      destruct (polygon_accept eps cp ep); [apply IH; exact E|].
      destruct (subdivide p P) as [[l r']| | | | |]; cbn [bind] in *; try discriminate. apply IH. exact E.
  Qed.
  Lemma fold_safe p (eps : T) fuel : 0 <= p -> forall segs g, Forall (fun s => len (ControlPoints s) = p + 1) segs ->
    foldM (fun g seg => bbox_loop fuel p eps [ControlPoints seg] g) segs g = OutOfFuel \/ exists r, foldM (fun g seg => bbox_loop fuel p eps [ControlPoints seg] g) segs g = Ok r.
  Proof.
    intros Hp. induction segs as [|s segs IH]; intros g Hs; cbn [foldM]; [right; eexists; reflexivity|]. inversion_clear Hs as [|? ? L Ls].
    destruct (loop_safe p eps Hp fuel [ControlPoints s] g) as [->|[r ->]]; [constructor; [exact L|constructor]|left; reflexivity|]. cbn [bind]. apply IH. exact Ls.
  Qed.
  (** the leaves of the subdivision *)
  Definition ends (P : list (vec4 T)) : bbox T := BoundingBox_make (head3 (znth d0 P 0)) (head3 (znth d0 P (len P - 1))).
  Inductive splits (p : Z) (eps : T) : nat -> list (vec4 T) -> list (list (vec4 T)) -> Prop :=
  | splits_leaf P cp : polygon_boxes P = Ok (cp, ends P) -> polygon_accept eps cp (ends P) = true -> splits p eps 1 P [P]
  | splits_node m n P ls rs : splits p eps m (left_ p P) ls -> splits p eps n (right_ p P) rs ->
      (forall cp, polygon_boxes P = Ok (cp, ends P) -> polygon_accept eps cp (ends P) = false) -> splits p eps (S (m + n)) P (ls ++ rs).
  Lemma loop_splits p eps n P ls : 0 <= p -> len P = p + 1 -> splits p eps n P ls -> forall fuel stack g,
    bbox_loop (n + fuel) p eps (P :: stack) g = bbox_loop fuel p eps stack (fold_left merge_box (map ends ls) g).
  Proof.
    intros Hp L S. revert L. induction S as [P cp E A|m n P ls rs Sl IHl Sr IHr A]; intros L fuel stack g.
    - cbn [Nat.add bbox_loop]. rewrite E. cbn [bind]. rewrite A. reflexivity.
    - cbn [Nat.add bbox_loop]. assert (P <> []) as Hne by (intros ->; cbn in L; lia). destruct (boxes_total P Hne) as [cp E]. rewrite E. cbn [bind]. fold (ends P) in *. rewrite (A cp E).
      rewrite subdivide_ok_ by assumption. cbn [bind]. rewrite <- Nat.add_assoc, (IHl (len_left_ p P Hp)), (IHr (len_right_ p P Hp)), map_app, fold_left_app. reflexivity.
  Qed.
  Lemma splits_ends p eps n P ls : 1 <= p -> len P = p + 1 -> splits p eps n P ls ->
    (exists l, In l ls /\ len l = p + 1 /\ znth d0 l 0 = znth d0 P 0) /\ (exists l, In l ls /\ len l = p + 1 /\ znth d0 l p = znth d0 P p).
  Proof.
    intros Hp L S. revert L. induction S as [P cp E A|m n P ls rs Sl IHl Sr IHr A]; intros L.
    - split; exists P; (split; [left; reflexivity|split; [exact L|reflexivity]]).
    - destruct (IHl (len_left_ p P ltac:(lia))) as [[l [Hl [Ll Gl]]] _]. destruct (IHr (len_right_ p P ltac:(lia))) as [_ [r [Hr [Lr Gr]]]]. split.
      + exists l. split; [apply in_or_app; left; exact Hl|]. split; [exact Ll|]. rewrite Gl. rewrite znth_left by lia. reflexivity.
      + exists r. split; [apply in_or_app; right; exact Hr|]. split; [exact Lr|]. rewrite Gr. rewrite znth_right by lia. rewrite Z.sub_diag. reflexivity.
  Qed.
  (** properties kept by midpoints hold on all leaves *)
  Lemma Forall_mids (Q : vec4 T -> Prop) : (forall a b, Q a -> Q b -> Q (mid_ a b)) -> forall P, Forall Q P -> Forall Q (midpoints P).
  Proof.
    intros Hm. induction P as [|a P IH]; intros F; [constructor|]. destruct P as [|b P]; [constructor|]. change (midpoints (a :: b :: P)) with (mid_ a b :: midpoints (b :: P)).
    inversion_clear F as [|? ? Ha Fb]. constructor; [|apply IH; exact Fb]. inversion_clear Fb. apply Hm; assumption.
  Qed.
  Lemma Forall_row (Q : vec4 T -> Prop) r : (forall a b, Q a -> Q b -> Q (mid_ a b)) -> forall P, Forall Q P -> Forall Q (row_ r P).
  Proof. intros Hm. induction r as [|r IH]; intros P F; [exact F|]. cbn [row_]. apply IH, Forall_mids; assumption. Qed.
  Lemma Forall_left (Q : vec4 T -> Prop) p P : (forall a b, Q a -> Q b -> Q (mid_ a b)) -> 0 <= p -> len P = p + 1 -> Forall Q P -> Forall Q (left_ p P).
  Proof.
    intros Hm Hp L F. apply Forall_forall. intros q Hq. apply in_map_iff in Hq. destruct Hq as [r [<- Hr]]. apply In_zrange in Hr.
    pose proof (Forall_row Q (Z.to_nat r) Hm P F) as G. rewrite Forall_forall in G. apply G, znth_In. rewrite len_row; lia.
  Qed.
  Lemma Forall_right (Q : vec4 T -> Prop) p P : (forall a b, Q a -> Q b -> Q (mid_ a b)) -> 0 <= p -> len P = p + 1 -> Forall Q P -> Forall Q (right_ p P).
  Proof.
    intros Hm Hp L F. apply Forall_forall. intros q Hq. apply in_map_iff in Hq. destruct Hq as [r [<- Hr]]. apply In_zrange in Hr.
    pose proof (Forall_row Q (Z.to_nat (p - r)) Hm P F) as G. rewrite Forall_forall in G. apply G, znth_In. rewrite len_row; lia.
  Qed.
  Lemma splits_forall (Q : vec4 T -> Prop) p eps n P ls : (forall a b, Q a -> Q b -> Q (mid_ a b)) -> 0 <= p -> len P = p + 1 -> Forall Q P -> splits p eps n P ls ->
    Forall (fun l => len l = p + 1 /\ Forall Q l) ls.
  Proof.
    intros Hm Hp L F S. revert L F. induction S as [P cp E A|m n P ls rs Sl IHl Sr IHr A]; intros L F.
    - constructor; [split; assumption|constructor].
    - apply Forall_app. split; [apply IHl|apply IHr]; auto using len_left_, len_right_, Forall_left, Forall_right.
  Qed.
End Any.

(** ** Midpoints of doubles *)
Local Notation F := (FLT_exp (-1074) 53).
Definition half_ok (X : R) : Prop := generic_format radix2 F X /\ generic_format radix2 F (X / 2).
Definition midc (a b : b64) : b64 := nadd (nmul (nlit (1 # 2)) a) (nmul (nlit (1 # 2)) b).
Lemma half64 : finite64 (nlit (1 # 2) : b64) /\ val (nlit (1 # 2) : b64) = (/ 2)%R.
Proof. split; [split; reflexivity|]. change (val dhalf = (/ 2)%R). rewrite val_dhalf. lra. Qed.
Lemma rnd_abs x y : generic_format radix2 F y -> (Rabs x <= y -> Rabs (rnd64 x) <= y)%R.
Proof.
  intros Fy H. apply Rabs_le_inv in H. apply Rabs_le. split.
  - rewrite <- (rnd64_id (- y)%R) by (apply generic_format_opp; exact Fy). apply rnd64_le. lra.
  - rewrite <- (rnd64_id y Fy). apply rnd64_le. lra.
Qed.
Lemma mul_half (a : b64) : finite64 a -> finite64 (nmul (nlit (1 # 2)) a) /\ val (nmul (nlit (1 # 2)) a) = rnd64 (val a / 2).
Proof.
  intros Fa. destruct half64 as [Fh Vh]. replace (val a / 2)%R with (val (nlit (1 # 2) : b64) * val a)%R by (rewrite Vh; lra). apply mul_round; [exact Fh|exact Fa|].
  rewrite Vh. unfold no_overflow. pose proof (val_lt_emax a Fa) as L. pose proof (val_format a Fa) as G. apply (Rle_lt_trans _ (Rabs (val a))); [|exact L].
  apply rnd_abs; [apply generic_format_abs; exact G|]. rewrite Rabs_mult, (Rabs_right (/ 2)) by lra. pose proof (Rabs_pos (val a)). lra.
Qed.
Section Mid.
  Variables (a b : b64).
  Hypothesis (Fa : finite64 a) (Fb : finite64 b).
  Lemma midc_val : (Rabs (val a) <= bpow radix2 1000)%R -> (Rabs (val b) <= bpow radix2 1000)%R ->
    finite64 (midc a b) /\ val (midc a b) = rnd64 (rnd64 (val a / 2) + rnd64 (val b / 2)).
  Proof.
    intros Ha Hb. destruct (mul_half a Fa) as [F1 V1]. destruct (mul_half b Fb) as [F2 V2]. unfold midc. rewrite <- V1, <- V2. apply add_round; [exact F1|exact F2|]. rewrite V1, V2. apply rnd64_big.
    assert (forall x, finite64 x -> (Rabs (val x) <= bpow radix2 1000)%R -> (Rabs (rnd64 (val x / 2)) <= bpow radix2 1000)%R) as H.
    { intros x Fx Hx. apply (Rle_trans _ (Rabs (val x))); [|exact Hx]. apply rnd_abs; [apply generic_format_abs, val_format; exact Fx|].
      unfold Rdiv. rewrite Rabs_mult, (Rabs_right (/ 2)) by lra. pose proof (Rabs_pos (val x)). lra. }
    eapply Rle_trans; [apply Rabs_triang|]. pose proof (H a Fa Ha). pose proof (H b Fb Hb). assert (bpow radix2 1001 = 2 * bpow radix2 1000)%R as E by (change 1001 with (1 + 1000); rewrite bpow_plus; reflexivity).
    apply (Rle_trans _ (bpow radix2 1001)); [lra|]. apply bpow_le. lia.
  Qed.
  Hypothesis (Ba : (Rabs (val a) <= bpow radix2 1000)%R) (Bb : (Rabs (val b) <= bpow radix2 1000)%R).
  Lemma midc_le X : half_ok X -> (val a <= X)%R -> (val b <= X)%R -> (val (midc a b) <= X)%R.
  Proof.
    intros [H1 H2] A B. rewrite (proj2 (midc_val Ba Bb)). rewrite <- (rnd64_id X H1). apply rnd64_le.
    assert (rnd64 (val a / 2) <= X / 2)%R by (rewrite <- (rnd64_id (X / 2) H2); apply rnd64_le; lra).
    assert (rnd64 (val b / 2) <= X / 2)%R by (rewrite <- (rnd64_id (X / 2) H2); apply rnd64_le; lra). lra.
  Qed.
  Lemma midc_ge X : half_ok X -> (X <= val a)%R -> (X <= val b)%R -> (X <= val (midc a b))%R.
  Proof.
    intros [H1 H2] A B. rewrite (proj2 (midc_val Ba Bb)). rewrite <- (rnd64_id X H1). apply rnd64_le.
    assert (X / 2 <= rnd64 (val a / 2))%R by (rewrite <- (rnd64_id (X / 2) H2) at 1; apply rnd64_le; lra).
    assert (X / 2 <= rnd64 (val b / 2))%R by (rewrite <- (rnd64_id (X / 2) H2) at 1; apply rnd64_le; lra). lra.
  Qed.
  Lemma midc_err B : half_ok B -> (1 <= B)%R -> (Rabs (val a) <= B)%R -> (Rabs (val b) <= B)%R -> (Rabs (val (midc a b) - (val a + val b) / 2) <= 3 * u64 * B)%R.
  Proof.
    intros [H1 H2] B1 A Bd. rewrite (proj2 (midc_val Ba Bb)).
    assert (forall x, (Rabs x <= B)%R -> (Rabs (rnd64 (x / 2)) <= B / 2)%R) as Hb.
    { intros x Hx. apply rnd_abs; [exact H2|]. unfold Rdiv. rewrite Rabs_mult, (Rabs_right (/ 2)) by lra. lra. }
    pose proof (Hb _ A) as Xa. pose proof (Hb _ Bd) as Xb.
    destruct (rnd64_rel (val a / 2)) as [e1 [t1 [E1 [T1 R1]]]]. destruct (rnd64_rel (val b / 2)) as [e2 [t2 [E2 [T2 R2]]]]. set (x := rnd64 (val a / 2)) in *. set (y := rnd64 (val b / 2)) in *.
    destruct (rnd64_rel (x + y)) as [e3 [t3 [E3 [T3 R3]]]]. rewrite R3. pose proof u64_pos as U0. pose proof eta64_pos as N0.
    assert (3 * eta64 <= u64)%R as Nu. { unfold eta64, u64. change (-53) with (2 + -55). rewrite bpow_plus. change (bpow radix2 2) with 4%R. assert (bpow radix2 (-1075) <= bpow radix2 (-55))%R by (apply bpow_le; lia). pose proof (bpow_gt_0 radix2 (-55)). lra. }
    assert (forall v e, (Rabs v <= B)%R -> (Rabs e <= u64)%R -> (Rabs (v * e) <= u64 * B)%R) as Hm.
    { intros v e Hv He. rewrite Rabs_mult, Rmult_comm. apply Rmult_le_compat; auto using Rabs_pos. }
    pose proof (Hm _ _ A E1) as M1. pose proof (Hm _ _ Bd E2) as M2.
    assert (Rabs ((x + y) * e3) <= u64 * B)%R as M3. { apply Hm; [|exact E3]. eapply Rle_trans; [apply Rabs_triang|]. lra. }
    replace ((x + y) * (1 + e3) + t3 - (val a + val b) / 2)%R with ((x + y) * e3 + t3 + (x - val a / 2) + (y - val b / 2))%R by field.
    replace (x - val a / 2)%R with (val a * e1 / 2 + t1)%R by (rewrite R1; lra). replace (y - val b / 2)%R with (val b * e2 / 2 + t2)%R by (rewrite R2; lra).
    apply Rabs_le_inv in M1, M2, M3, T1, T2, T3. assert (u64 * 1 <= u64 * B)%R by (apply Rmult_le_compat_l; lra). apply Rabs_le. lra.
  Qed.
End Mid.

(** ** Boxes of finite points *)
Lemma nmin_val (a b : b64) : finite64 a -> finite64 b -> finite64 (nmin a b) /\ val (nmin a b) = Rmin (val a) (val b).
Proof.
  intros Fa Fb. unfold nmin. change (nltb b a) with (SFltb b a). rewrite SFltb_val by assumption. destruct (Rltb (val b) (val a)) eqn:E.
  - apply Rltb_true in E. split; [exact Fb|]. rewrite Rmin_right by lra. reflexivity.
  - apply Rltb_false in E. split; [exact Fa|]. rewrite Rmin_left by lra. reflexivity.
Qed.
Lemma nmax_val (a b : b64) : finite64 a -> finite64 b -> finite64 (nmax a b) /\ val (nmax a b) = Rmax (val a) (val b).
Proof.
  intros Fa Fb. unfold nmax. change (nltb a b) with (SFltb a b). rewrite SFltb_val by assumption. destruct (Rltb (val a) (val b)) eqn:E.
  - apply Rltb_true in E. split; [exact Fb|]. rewrite Rmax_right by lra. reflexivity.
  - apply Rltb_false in E. split; [exact Fa|]. rewrite Rmax_left by lra. reflexivity.
Qed.
Lemma min3_val a b : finite3 a -> finite3 b -> finite3 (v3min a b) /\ val3 (v3min a b) = v3min (val3 a) (val3 b).
Proof.
  intros [A1 [A2 A3]] [B1 [B2 B3]]. destruct (nmin_val _ _ A1 B1) as [F1 V1]. destruct (nmin_val _ _ A2 B2) as [F2 V2]. destruct (nmin_val _ _ A3 B3) as [F3 V3].
  split; [split; [exact F1|split; [exact F2|exact F3]]|]. unfold val3, v3min. cbn [x3 y3 z3]. rewrite V1, V2, V3. unfold nmin. norm_R. rewrite !Rmin_if. reflexivity.
Qed.
Lemma max3_val a b : finite3 a -> finite3 b -> finite3 (v3max a b) /\ val3 (v3max a b) = v3max (val3 a) (val3 b).
Proof.
  intros [A1 [A2 A3]] [B1 [B2 B3]]. destruct (nmax_val _ _ A1 B1) as [F1 V1]. destruct (nmax_val _ _ A2 B2) as [F2 V2]. destruct (nmax_val _ _ A3 B3) as [F3 V3].
  split; [split; [exact F1|split; [exact F2|exact F3]]|]. unfold val3, v3max. cbn [x3 y3 z3]. rewrite V1, V2, V3. unfold nmax. norm_R. rewrite !Rmax_if. reflexivity.
Qed.
Lemma make_val a b : finite3 a -> finite3 b -> finite_box (BoundingBox_make a b) /\ box_val (BoundingBox_make a b) = BoundingBox_make (val3 a) (val3 b).
Proof.
  intros A B. destruct (min3_val a b A B) as [F1 V1]. destruct (max3_val a b A B) as [F2 V2]. split; [split; assumption|]. unfold box_val, BoundingBox_make. cbn [Min Max]. rewrite V1, V2. reflexivity.
Qed.
Lemma expand_val b q : finite_box b -> finite3 q -> finite_box (BoundingBox_ExpandToInclude b q) /\ box_val (BoundingBox_ExpandToInclude b q) = BoundingBox_ExpandToInclude (box_val b) (val3 q).
Proof.
  intros [A _] Q. destruct (min3_val _ _ A Q) as [F1 V1]. destruct (max3_val _ _ F1 Q) as [F2 V2]. split; [split; assumption|]. unfold box_val, BoundingBox_ExpandToInclude. cbn [Min Max]. rewrite V2, V1. reflexivity.
Qed.
Lemma join_val b c : finite_box b -> finite_box c -> finite_box (BoundingBox_ExpandToInclude_box b c) /\ box_val (BoundingBox_ExpandToInclude_box b c) = BoundingBox_ExpandToInclude_box (box_val b) (box_val c).
Proof.
  intros [A1 A2] [B1 B2]. destruct (min3_val _ _ A1 B1) as [F1 V1]. destruct (max3_val _ _ A2 B2) as [F2 V2]. split; [split; assumption|]. unfold box_val, BoundingBox_ExpandToInclude_box. cbn [Min Max]. rewrite V2, V1. reflexivity.
Qed.
Lemma head_val q : val3 (head3 q) = head3 (val4 q). Proof. destruct q; reflexivity. Qed.
Lemma last_map {A B} (f : A -> B) l d : last (map f l) (f d) = f (last l d).
Proof. induction l as [|a l IH]; [reflexivity|]. destruct l as [|b l]; [reflexivity|]. exact IH. Qed.
Lemma boxes_val P cp ep : Forall (fun q => finite3 (head3 q)) P -> polygon_boxes P = Ok (cp, ep) ->
  finite_box cp /\ finite_box ep /\ polygon_boxes (map val4 P) = Ok (box_val cp, box_val ep).
Proof.
  intros F E. destruct P as [|a P]; [discriminate|]. inversion F as [|? ? Fa Fp]; subst. unfold polygon_boxes in *. injection E as <- <-.
  assert (forall b, finite_box b -> finite_box (fold_left (fun b q => BoundingBox_ExpandToInclude b (head3 q)) P b) /\
    box_val (fold_left (fun b q => BoundingBox_ExpandToInclude b (head3 q)) P b) = fold_left (fun b q => BoundingBox_ExpandToInclude b (head3 q)) (map val4 P) (box_val b)) as H.
  { clear F Fa. induction Fp as [|q P Fq Fp IH]; intros b Fb; [split; [exact Fb|reflexivity]|]. cbn [fold_left map]. destruct (expand_val b (head3 q) Fb Fq) as [F1 V1]. destruct (IH _ F1) as [F2 V2]. split; [exact F2|]. rewrite V2, V1, head_val. reflexivity. }
  destruct (make_val _ _ Fa Fa) as [F1 V1]. destruct (H _ F1) as [F2 V2].
  assert (finite3 (head3 (last (a :: P) a))) as Fl. { rewrite Forall_forall in F. apply F. destruct (exists_last (l := a :: P)) as [l' [x El]]; [discriminate|]. rewrite El, last_last. apply in_or_app. right. left. reflexivity. }
  destruct (make_val _ _ Fa Fl) as [F3 V3]. split; [exact F2|]. split; [exact F3|].
  match goal with |- _ = Ok (?u, _) => change (polygon_boxes (map val4 (a :: P)) = Ok (u, box_val (BoundingBox_make (head3 a) (head3 (last (a :: P) a))))) end.
  rewrite V3, V2, V1, !head_val, <- last_map. reflexivity.
Qed.

(** ** The flatness test accepts small polygons *)
Definition h20 : R := bpow radix2 (-20).
Lemma lit6 : finite64 (lit_1e_6 : b64) /\ (h20 < val (lit_1e_6 : b64))%R.
Proof.
  split; [split; reflexivity|]. assert (h20 = val (dq (1 # 1048576))) as E.
  { unfold h20. change (-20) with (52 + -72). rewrite bpow_plus. change (dq (1 # 1048576)) with (S754_finite false 4503599627370496 (-72)). reflexivity. }
  rewrite E. apply lt64. reflexivity.
Qed.
Lemma h20_format : generic_format radix2 F h20.
Proof. apply generic_format_bpow. unfold FLT_exp. lia. Qed.
Lemma nabs_val (a : b64) : finite64 a -> finite64 (nabs a) /\ val (nabs a) = Rabs (val a).
Proof.
  intros Fa. unfold nabs. change (nltb a n0) with (SFltb a (n0 : b64)). rewrite SFltb_val by (try exact Fa; apply finite_0). replace (val n0) with 0%R by (symmetry; exact val_0).
  assert (finite64 (nopp a) /\ val (nopp a) = - val a)%R as [Fo Vo].
  { destruct Fa as [D Fi]. split; [split|].
    - destruct a; cbn in *; try discriminate; exact D.
    - destruct a; cbn in *; try discriminate; reflexivity.
    - destruct a as [s| | |s m e]; cbn in *; try discriminate; [lra|]. unfold val. cbn. unfold F2R. cbn [Fnum Fexp]. destruct s; cbn [negb cond_Zopp Z.opp]; rewrite ?opp_IZR; lra. }
  destruct (Rltb (val a) 0) eqn:E.
  - apply Rltb_true in E. rewrite Rabs_left by exact E. split; assumption.
  - apply Rltb_false in E. rewrite Rabs_right by lra. split; [exact Fa|reflexivity].
Qed.
Lemma approx64 a b : finite3 a -> finite3 b -> (forall g, axis g -> (Rabs (g (val3 a) - g (val3 b)) <= h20)%R) -> Approx3 a b (lit_1e_6 : b64) = true.
Proof.
  intros [A1 [A2 A3]] [B1 [B2 B3]] H. destruct lit6 as [Fl Ll].
  assert (forall x y : b64, finite64 x -> finite64 y -> (Rabs (val x - val y) <= h20)%R -> finite64 (nabs (nsub x y)) /\ (val (nabs (nsub x y)) <= h20)%R) as S.
  { intros x y Fx Fy Hd. assert (no_overflow (val x - val y)) as No. { apply rnd64_big. apply (Rle_trans _ h20); [exact Hd|]. apply bpow_le. lia. }
    destruct (sub_round x y Fx Fy No) as [Fs Vs]. destruct (nabs_val _ Fs) as [Fn Vn]. split; [exact Fn|]. rewrite Vn, Vs. apply rnd_abs; [exact h20_format|exact Hd]. }
  destruct (S _ _ A1 B1 (H x3 (or_introl eq_refl))) as [F1 V1]. destruct (S _ _ A2 B2 (H y3 (or_intror (or_introl eq_refl)))) as [F2 V2]. destruct (S _ _ A3 B3 (H z3 (or_intror (or_intror eq_refl)))) as [F3 V3].
  unfold Approx3, v3sub. cbn [x3 y3 z3]. destruct (nmax_val _ _ F1 F2) as [F4 V4]. destruct (nmax_val _ _ F4 F3) as [F5 V5].
  match goal with |- nltb ?u ?v = true => change (SFltb u v = true) end. rewrite SFltb_val by assumption. apply Rltb_true. rewrite V5, V4. apply (Rle_lt_trans _ h20); [|exact Ll]. apply Rmax_lub; [apply Rmax_lub|]; assumption.
Qed.
