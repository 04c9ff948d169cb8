(** Witnesses for C110 *)
From Coq Require Import Reals ZArith QArith List Lia Lra Bool.
From Verif Require Import Outcome Num ModelCore ModelBasis ModelAlgo ModelCurve SpecCore SpecBasis SpecCurve SpecMeta SpecMove ThDecide ThB64 ThCurveWit ThBoxMove.
Import ListNotations.
Open Scope Z_scope.

(** a valley, the same valley mirrored to an arch, and the valley traversed backwards *)
Definition flat64 (q : Q * Q) : vec4 b64 := Vec4 (dq (fst q)) (dq (snd q)) (dq 0) (dq 1).
Definition valley64 : curve b64 := Curve 2 (map dq [0; 0; 0; 1; 1; 1]%Q) (map flat64 [(0, 0); (1, -1); (2, 0)]%Q).
Definition arch64 : curve b64 := Curve 2 (map dq [0; 0; 0; 1; 1; 1]%Q) (map (fun p => Vec4 (x4 p) (nopp (y4 p)) (z4 p) (w4 p)) (map flat64 [(0, 0); (1, -1); (2, 0)]%Q)).
Lemma C110_mirror_lemma : exists (c d : curve b64) eps B C, curve_by mirrored c d /\ finite64 eps /\
  Curve_GetBoundingBox 9 c eps = Ok B /\ Curve_GetBoundingBox 9 d eps = Ok C /\ nltb (y3 (Max C)) (nopp (y3 (Min B))) = true.
Proof.
  destruct (Curve_GetBoundingBox 9 valley64 (dq (3 # 2))) as [B| | | | |] eqn:E1; vm_compute in E1; try discriminate.
  destruct (Curve_GetBoundingBox 9 arch64 (dq (3 # 2))) as [C| | | | |] eqn:E2; vm_compute in E2; try discriminate.
  exists valley64, arch64, (dq (3 # 2)), B, C. split; [|split; [vm_compute; split; reflexivity|split; [|split]]].
  - split; [reflexivity|]. split; [reflexivity|]. cbn [ControlPoints valley64 arch64 map]. repeat constructor.
  - injection E1 as <-. vm_compute. reflexivity.
  - injection E2 as <-. vm_compute. reflexivity.
  - injection E1 as <-. injection E2 as <-. vm_compute. reflexivity.
Qed.
Lemma C110_backwards_lemma : exists (c : curve b64) eps B C, finite64 eps /\ Knots c = map dq [0; 0; 0; 1; 1; 1]%Q /\
  Curve_GetBoundingBox 9 c eps = Ok B /\ Curve_GetBoundingBox 9 (Curve (Degree c) (Knots c) (rev (ControlPoints c))) eps = Ok C /\ nltb (y3 (Min B)) (y3 (Min C)) = true.
Proof.
  destruct (Curve_GetBoundingBox 9 valley64 (dq (3 # 2))) as [B| | | | |] eqn:E1; vm_compute in E1; try discriminate.
  destruct (Curve_GetBoundingBox 9 (Curve (Degree valley64) (Knots valley64) (rev (ControlPoints valley64))) (dq (3 # 2))) as [C| | | | |] eqn:E2; vm_compute in E2; try discriminate.
  exists valley64, (dq (3 # 2)), B, C. split; [vm_compute; split; reflexivity|]. split; [reflexivity|]. split; [|split].
  - injection E1 as <-. vm_compute. reflexivity.
  - injection E2 as <-. vm_compute. reflexivity.
  - injection E1 as <-. injection E2 as <-. vm_compute. reflexivity.
Qed.

(** the example: [curve_ex] with the axes turned around, moved and with heavier weights *)
Definition cyc (a : axis3) : axis3 := match a with AX => AY | AY => AZ | AZ => AX end.
Definition cyc_point (p : vec4 R) : vec4 R := (Vec4 (y4 p + 1) (z4 p + 2) (x4 p + 3) (5 * w4 p))%R.
Lemma C110_ex_lemma : (forall a a', cyc a = cyc a' -> a = a') /\ wf_curve curve_ex /\
  curve_by (axes_point cyc (Vec3 1 2 3)%R 5) curve_ex (Curve (Degree curve_ex) (Knots curve_ex) (map cyc_point (ControlPoints curve_ex))).
Proof.
  split; [intros [] []; cbn; congruence|]. split; [exact curve_ex_wf|]. split; [reflexivity|]. split; [reflexivity|]. cbn [ControlPoints].
  induction (ControlPoints curve_ex) as [|p l IH]; cbn [map]; constructor; [|exact IH]. split; [reflexivity|]. intros []; reflexivity.
Qed.
