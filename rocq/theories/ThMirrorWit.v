(** A quarter turn of the curve and the surface of ThCoordWit (C111). *)
From Coq Require Import Reals ZArith QArith List Lia Bool.
From Verif Require Import Outcome Num ModelCore ModelCurve ModelSurface SpecMove ThB64 ThDecide ThCoordWit ThMoveWit.
Import ListNotations.
Open Scope Z_scope.

Definition quarter (p : vec4 b64) : vec4 b64 := Vec4 (y4 p) (nopp (x4 p)) (z4 p) (w4 p).
Definition turned64 : curve b64 := Curve 2 (Knots arc64) (map quarter (ControlPoints arc64)).
Definition turned_patch : surface b64 := Surface 1 1 (KnotsU patch_arc) (KnotsV patch_arc) (Grid 2 2 (map quarter (Values (Net patch_arc)))).
Lemma quarter_opp l : Forall2 (coord_point_by opposite AX AY) l (map quarter l).
Proof. induction l as [|p l IH]; constructor; [|exact IH]. split; [left|]; reflexivity. Qed.
Lemma quarter_eq l : Forall2 (coord_point AY AX) l (map quarter l).
Proof. induction l as [|p l IH]; constructor; [|exact IH]. split; reflexivity. Qed.
Lemma C111_curve_lemma : curve_by (coord_point_by opposite AX AY) arc64 turned64 /\ curve_by (coord_point AY AX) arc64 turned64 /\
  exists p q, Curve_Evaluate arc64 (dq (1 # 3)) = Ok p /\ Curve_Evaluate turned64 (dq (1 # 3)) = Ok q /\ y3 q = nopp (x3 p) /\ x3 q = y3 p /\ nltb n0 (x3 p) = true /\ nltb n0 (y3 p) = true.
Proof.
  split; [split; [reflexivity|]; split; [reflexivity|]; apply quarter_opp|]. split; [split; [reflexivity|]; split; [reflexivity|]; apply quarter_eq|].
  destruct (Curve_Evaluate arc64 (dq (1 # 3))) as [p| | | | |] eqn:E1; [|vm_compute in E1; discriminate..].
  destruct (Curve_Evaluate turned64 (dq (1 # 3))) as [q| | | | |] eqn:E2; [|vm_compute in E2; discriminate..].
  exists p, q. split; [reflexivity|]. split; [reflexivity|]. vm_compute in E1, E2. injection E1 as <-. injection E2 as <-. repeat split; vm_compute; reflexivity.
Qed.
Lemma C111_surface_lemma : surface_by (coord_point_by opposite AX AY) patch_arc turned_patch.
Proof. repeat (split; [reflexivity|]). apply quarter_opp. Qed.
Definition flipx (p : vec4 b64) : vec4 b64 := Vec4 (nopp (x4 p)) (y4 p) (z4 p) (w4 p).
Lemma C111_remove_lemma : curve_by (flipped (fun a => match a with AX => true | _ => false end)) near64 (Curve 1 (Knots near64) (map flipx (ControlPoints near64))) /\
  exists e, Curve_RemoveKnot near64 (dq (1 # 2)) 1 (dq (1 # 10)) = Ok (e, 1).
Proof.
  split.
  - split; [reflexivity|]. split; [reflexivity|]. cbn [ControlPoints]. induction (ControlPoints near64) as [|p l IH]; constructor; [|exact IH].
    split; [reflexivity|]. intros []; [left|..]; reflexivity.
  - destruct (Curve_RemoveKnot near64 (dq (1 # 2)) 1 (dq (1 # 10))) as [[e t]| | | | |] eqn:E; vm_compute in E; try discriminate. exists e. injection E as _ <-. reflexivity.
Qed.
