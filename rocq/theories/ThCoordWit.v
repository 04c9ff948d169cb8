(** A curve and a surface with damaged coordinates (C107). *)
From Coq Require Import Reals ZArith QArith List Lia Bool.
From Verif Require Import Outcome Num ModelCore ModelCurve ModelSurface SpecMove ThB64 ThDecide.
Import ListNotations.
Open Scope Z_scope.

Definition nan64 : b64 := SpecFloat.S754_nan.
(** a rational quadratic arc, and the same curve with its x coordinates in z and NaN in x and y *)
Definition arc64 : curve b64 := Curve 2 (map dq [0; 0; 0; 1 # 2; 1; 1; 1]%Q)
  [Vec4 (dq 0) (dq 1) (dq 2) (dq 1); Vec4 (dq 1) (dq 2) (dq 3) (dq 2); Vec4 (dq (1 # 4)) (dq 0) (dq 0) (dq 1); Vec4 (dq 3) (dq 5) (dq 5) (dq 3)].
Definition bad64 : curve b64 := Curve 2 (Knots arc64) (map (fun p => Vec4 nan64 nan64 (x4 p) (w4 p)) (ControlPoints arc64)).
Definition patch_arc : surface b64 := Surface 1 1 (map dq [0; 0; 1; 1]%Q) (map dq [0; 0; 1; 1]%Q) (Grid 2 2 (ControlPoints arc64)).
Definition bad_patch : surface b64 := Surface 1 1 (KnotsU patch_arc) (KnotsV patch_arc) (Grid 2 2 (ControlPoints bad64)).
Lemma C107_curve_lemma : curve_by (coord_point AX AZ) arc64 bad64 /\
  exists p q, Curve_Evaluate arc64 (dq (1 # 4)) = Ok p /\ Curve_Evaluate bad64 (dq (1 # 4)) = Ok q /\ x3 p = z3 q /\ x3 q = nan64 /\ x3 p <> nan64.
Proof.
  split; [split; [reflexivity|]; split; [reflexivity|]; repeat constructor|].
  destruct (Curve_Evaluate arc64 (dq (1 # 4))) as [p| | | | |] eqn:E1; [|vm_compute in E1; discriminate..].
  destruct (Curve_Evaluate bad64 (dq (1 # 4))) as [q| | | | |] eqn:E2; [|vm_compute in E2; discriminate..].
  exists p, q. split; [reflexivity|]. split; [reflexivity|]. vm_compute in E1, E2. injection E1 as <-. injection E2 as <-. repeat split. discriminate.
Qed.
Lemma C107_surface_lemma : surface_by (coord_point AX AZ) patch_arc bad_patch /\
  exists s t, Surface_InsertKnotU (Vec4 nan64 nan64 nan64 nan64) patch_arc (dq (1 # 2)) = Ok s /\ Surface_InsertKnotU (Vec4 nan64 nan64 nan64 nan64) bad_patch (dq (1 # 2)) = Ok t.
Proof.
  split; [repeat (split; [reflexivity|]); repeat constructor|].
  destruct (Surface_InsertKnotU (Vec4 nan64 nan64 nan64 nan64) patch_arc (dq (1 # 2))) as [p| | | | |] eqn:E1; [|vm_compute in E1; discriminate..].
  destruct (Surface_InsertKnotU (Vec4 nan64 nan64 nan64 nan64) bad_patch (dq (1 # 2))) as [q| | | | |] eqn:E2; [|vm_compute in E2; discriminate..].
  exists p, q. split; reflexivity.
Qed.
