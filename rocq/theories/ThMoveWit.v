(** Witnesses for C108 and C109. *)
From Coq Require Import Reals ZArith QArith List Lia Lra Bool.
From Flocq Require Import Core.
From Flocq Require Import IEEE754.BinarySingleNaN.
From Verif Require Import Outcome Num ModelCore ModelCurve ModelSurface SpecBasis SpecCurve SpecSurface SpecMeta SpecMove ThB64 ThDecide ThCurveWit ThSurfWit ThMeta3 ThVec.
Import ListNotations.
Open Scope Z_scope.

Lemma affine_moved m t k p : moved_point m t k p (affine4 m t k p).
Proof. split; [reflexivity|]. intros _. reflexivity. Qed.
Lemma F2_map_r {A B} (Q : A -> B -> Prop) f l : (forall x, Q x (f x)) -> Forall2 Q l (map f l).
Proof. intros E. induction l; cbn [map]; constructor; auto. Qed.
Lemma C108_affine_lemma m t k c s : curve_by (moved_point m t k) c (affine_curve m t k c) /\ surface_by (moved_point m t k) s (affine_surface m t k s).
Proof.
  split.
  - split; [reflexivity|]. split; [reflexivity|]. apply F2_map_r. apply affine_moved.
  - repeat (split; [reflexivity|]). apply F2_map_r. apply affine_moved.
Qed.
Lemma transform_turned m p : turned_point m p (set_head3 p (m3mul m (head3 p))).
Proof. split; reflexivity. Qed.
Lemma C109_transform_lemma m c s : curve_by (turned_point m) c (Curve_Transform c m) /\ surface_by (turned_point m) s (Surface_Transform s m).
Proof.
  split.
  - split; [reflexivity|]. split; [reflexivity|]. apply F2_map_r. apply transform_turned.
  - repeat (split; [reflexivity|]). apply F2_map_r. apply transform_turned.
Qed.
(** a turn by the angle of the 3-4-5 triangle *)
Definition turn345 : mat3 R := (Mat3 (Vec3 (3 / 5) (- 4 / 5) 0) (Vec3 (4 / 5) (3 / 5) 0) (Vec3 0 0 1))%R.
Lemma turn345_ok : isometry turn345 /\ mat_apply turn345 (Vec3 5 0 0)%R = (Vec3 3 4 0)%R.
Proof. split; [intros [x y z]; unfold turn345, mat_apply; cbn [x3 y3 z3 row0 row1 row2]; field|]. unfold turn345, mat_apply. cbn [x3 y3 z3 row0 row1 row2]. f_equal; field. Qed.

(** knot removal is not invariant under translations *)
Definition near64 : curve b64 := Curve 1 (map dq [0; 0; 1 # 2; 1; 1]%Q) (map (fun x => Vec4 (dq x) (dq 0) (dq 0) (dq 1)) [-1; 1 # 32; 1]%Q).
Definition far64 : curve b64 := Curve 1 (map dq [0; 0; 1 # 2; 1; 1]%Q) (map (fun x => Vec4 (dq x) (dq 0) (dq 0) (dq 1)) [7; 257 # 32; 9]%Q).
Definition moved_by8 (p q : vec4 b64) : Prop := (val (x4 q) = val (x4 p) + 8)%R /\ y4 q = y4 p /\ z4 q = z4 p /\ w4 q = w4 p.
Lemma C109_translation_lemma : exists (c d : curve b64) u tol, curve_by moved_by8 c d /\ finite64 u /\ finite64 tol /\
  (exists e, Curve_RemoveKnot c u 1 tol = Ok (e, 1)) /\ (exists e, Curve_RemoveKnot d u 1 tol = Ok (e, 0)).
Proof.
  exists near64, far64, (dq (1 # 2)), (dq (1 # 10)). split; [|split; [vm_compute; split; reflexivity|]; split; [vm_compute; split; reflexivity|]; split].
  - split; [reflexivity|]. split; [reflexivity|]. unfold near64, far64. cbn [ControlPoints map]. do 3 (apply Forall2_cons; [split; [|repeat split; reflexivity]; cbn [x4];
      repeat match goal with |- context[dq ?a] => let v := eval vm_compute in (dq a) in replace (dq a) with v by (vm_compute; reflexivity) end; unfold val, SF2R, Defs.F2R; simpl; repeat match goal with |- context[IZR (Z.pow_pos 2 ?n)] => let v := eval vm_compute in (Z.pow_pos 2 n) in change (Z.pow_pos 2 n) with v end;
      repeat match goal with |- context[IZR (- ?n)] => let v := eval vm_compute in (- n) in change (- n) with v end; lra|]). constructor.
  - destruct (Curve_RemoveKnot near64 (dq (1 # 2)) 1 (dq (1 # 10))) as [[e t]| | | | |] eqn:E; vm_compute in E; try discriminate. exists e. injection E as _ <-. reflexivity.
  - destruct (Curve_RemoveKnot far64 (dq (1 # 2)) 1 (dq (1 # 10))) as [[e t]| | | | |] eqn:E; vm_compute in E; try discriminate. exists e. injection E as _ <-. reflexivity.
Qed.
