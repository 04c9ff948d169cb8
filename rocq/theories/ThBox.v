(** Bounding boxes over the reals. *)
From Coq Require Import Reals Qreals Lra Bool List.
From Verif Require Import Outcome Num ModelCore SpecCore ThOutcome ThReal.
Import ListNotations.
Open Scope R_scope.

Ltac boxR :=
  unfold in_box, ordered, box_incl, le3 in *; simpl in *; unfold nmin, nmax in *; norm_R;
  rewrite ?Rmax_if, ?Rmin_if in *.

Lemma Rmin_le x y z : Rmin x y <= z <-> x <= z \/ y <= z.
Proof. unfold Rmin. destruct (Rle_dec x y); lra. Qed.
Lemma Rle_Rmin x y z : z <= Rmin x y <-> z <= x /\ z <= y.
Proof. unfold Rmin. destruct (Rle_dec x y); lra. Qed.
Lemma Rmax_le x y z : Rmax x y <= z <-> x <= z /\ y <= z.
Proof. unfold Rmax. destruct (Rle_dec x y); lra. Qed.
Lemma Rle_Rmax x y z : z <= Rmax x y <-> z <= x \/ z <= y.
Proof. unfold Rmax. destruct (Rle_dec x y); lra. Qed.

Ltac box_solve :=
  boxR; rewrite ?Rmin_le, ?Rle_Rmin, ?Rmax_le, ?Rle_Rmax in *;
  repeat match goal with H : _ /\ _ |- _ => destruct H end;
  repeat split; intros;
  repeat match goal with H : _ /\ _ |- _ => destruct H end;
  repeat split; simpl in *; rewrite ?Rmin_le, ?Rle_Rmin, ?Rmax_le, ?Rle_Rmax in *;
  repeat match goal with H : _ /\ _ |- _ => destruct H end; try lra.

Lemma box_make_ordered a b : ordered (BoundingBox_make a b).
Proof. box_solve. Qed.
Lemma box_make_left a b : in_box a (BoundingBox_make a b).
Proof. box_solve. Qed.
Lemma box_make_right a b : in_box b (BoundingBox_make a b).
Proof. box_solve. Qed.
Lemma box_make_least a b d : in_box a d -> in_box b d -> box_incl (BoundingBox_make a b) d.
Proof. intros H1 H2 p Hp. box_solve. Qed.

Lemma box_contains_spec b p : BoundingBox_Contains b p = true <-> in_box p b.
Proof.
  unfold BoundingBox_Contains. norm_R. rewrite !andb_true_iff, !Rleb_true. unfold in_box, le3. tauto.
Qed.
Lemma box_contains_box_spec b c : ordered c -> (BoundingBox_Contains_box b c = true <-> box_incl c b).
Proof.
  intros O. unfold BoundingBox_Contains_box. rewrite andb_true_iff, !box_contains_spec. split.
  - intros [H1 H2] p Hp. box_solve.
  - intros H. split; apply H; box_solve.
Qed.
Lemma box_center_in b : ordered b -> in_box (BoundingBox_Center b) b.
Proof.
  intros O. unfold BoundingBox_Center. unfold v3scale, v3add.
  boxR. replace (Q2R (1 # 2)) with (/2) by (unfold Q2R; simpl; lra).
  repeat split; simpl; lra.
Qed.
Lemma box_center_mid b a c : Min b = a -> Max b = c ->
  (let m := BoundingBox_Center b in x3 m - x3 a = x3 c - x3 m /\ y3 m - y3 a = y3 c - y3 m /\ z3 m - z3 a = z3 c - z3 m) /\
  BoundingBox_Length b = Vec3 (x3 c - x3 a) (y3 c - y3 a) (z3 c - z3 a).
Proof.
  intros <- <-. unfold BoundingBox_Center, BoundingBox_Length, v3scale, v3add, v3sub. cbn. norm_R.
  replace (Q2R (1 # 2)) with (/2) by (unfold Q2R; simpl; lra). repeat split; lra.
Qed.
Lemma box_length_nonneg b : ordered b -> le3 v3zero (BoundingBox_Length b).
Proof. intros O. boxR. repeat split; simpl; lra. Qed.

(** ExpandToInclude(point) as it is *)
Lemma box_expand_point b p :
  BoundingBox_ExpandToInclude b p = BBox (v3min (Min b) p) p.
Proof.
  destruct b as [[a1 a2 a3] [b1 b2 b3]], p as [p1 p2 p3]. unfold BoundingBox_ExpandToInclude, v3min, v3max. simpl.
  unfold nmin, nmax. norm_R. f_equal. f_equal.
  - destruct (Rltb_spec p1 a1); bool_R; lra.
  - destruct (Rltb_spec p2 a2); bool_R; lra.
  - destruct (Rltb_spec p3 a3); bool_R; lra.
Qed.
Lemma box_expand_contains b p : in_box p (BoundingBox_ExpandToInclude b p).
Proof. rewrite box_expand_point. box_solve. Qed.

(** ExpandToInclude(box) *)
Lemma box_join_left b c : box_incl b (BoundingBox_ExpandToInclude_box b c).
Proof. intros p H. box_solve. Qed.
Lemma box_join_right b c : box_incl c (BoundingBox_ExpandToInclude_box b c).
Proof. intros p H. box_solve. Qed.
Lemma box_join_least b c d : ordered b -> ordered c -> box_incl b d -> box_incl c d ->
  box_incl (BoundingBox_ExpandToInclude_box b c) d.
Proof.
  intros Ob Oc Hb Hc p Hp.
  assert (in_box (Min b) d /\ in_box (Max b) d) as [B1 B2] by (split; apply Hb; box_solve).
  assert (in_box (Min c) d /\ in_box (Max c) d) as [C1 C2] by (split; apply Hc; box_solve).
  clear Hb Hc. box_solve.
Qed.
Lemma v3min_comm (a b : vec3 R) : v3min a b = v3min b a.
Proof. unfold v3min, nmin. norm_R. rewrite !Rmin_if. f_equal; apply Rmin_comm. Qed.
Lemma v3max_comm (a b : vec3 R) : v3max a b = v3max b a.
Proof. unfold v3max, nmax. norm_R. rewrite !Rmax_if. f_equal; apply Rmax_comm. Qed.
Lemma v3min_assoc (a b c : vec3 R) : v3min a (v3min b c) = v3min (v3min a b) c.
Proof. unfold v3min, nmin. norm_R. rewrite !Rmin_if. simpl. f_equal; apply Rmin_assoc. Qed.
Lemma v3max_assoc (a b c : vec3 R) : v3max a (v3max b c) = v3max (v3max a b) c.
Proof. unfold v3max, nmax. norm_R. rewrite !Rmax_if. simpl. f_equal; apply Rmax_assoc. Qed.
Lemma v3min_idem (a : vec3 R) : v3min a a = a.
Proof. destruct a. unfold v3min, nmin. norm_R. rewrite !Rmin_if. simpl. unfold Rmin. f_equal; destruct Rle_dec; auto. Qed.
Lemma v3max_idem (a : vec3 R) : v3max a a = a.
Proof. destruct a. unfold v3max, nmax. norm_R. rewrite !Rmax_if. simpl. unfold Rmax. f_equal; destruct Rle_dec; auto. Qed.
Lemma box_join_comm (a b : bbox R) : BoundingBox_ExpandToInclude_box a b = BoundingBox_ExpandToInclude_box b a.
Proof. unfold BoundingBox_ExpandToInclude_box. f_equal; [apply v3min_comm|apply v3max_comm]. Qed.
Lemma box_join_assoc (a b c : bbox R) :
  BoundingBox_ExpandToInclude_box a (BoundingBox_ExpandToInclude_box b c)
  = BoundingBox_ExpandToInclude_box (BoundingBox_ExpandToInclude_box a b) c.
Proof. unfold BoundingBox_ExpandToInclude_box. simpl. f_equal; [apply v3min_assoc|apply v3max_assoc]. Qed.
Lemma box_join_idem (a : bbox R) : BoundingBox_ExpandToInclude_box a a = a.
Proof. destruct a. unfold BoundingBox_ExpandToInclude_box. simpl. f_equal; [apply v3min_idem|apply v3max_idem]. Qed.
Lemma box_volume (b : bbox R) : forall a c, Min b = a -> Max b = c ->
  (BoundingBox_Volume b = (x3 c - x3 a) * (y3 c - y3 a) * (z3 c - z3 a))%R.
Proof. intros a c <- <-. reflexivity. Qed.
