(** Property theorems: the points and derivatives a caller obtains do not depend on
    which call they come from (C86).  The arithmetic is arbitrary: real numbers,
    doubles with their rounding, infinities and NaNs, or anything else. *)
From Coq Require Import Reals ZArith List Lia QArith.
From Verif Require Import Outcome Num ModelCore ModelBasis ModelCurve ModelSurface SpecCore ThB64 ThCoreWit ThDecide ThErrWit ThSame ThPrefix ThPrefix2.
Import ListNotations.
Open Scope Z_scope.

(** * C86: a list of derivatives extends the shorter ones, entry by entry *)
Theorem C86_curve_orders : forall T (N : Num T) (c : curve T) x n k l, 0 <= k <= n -> Curve_EvaluateAll c x n = Ok l ->
  len l = n + 1 /\ Curve_EvaluateAll c x k = Ok (firstn (Z.to_nat (k + 1)) l) /\
  Curve_EvaluateDerivative c x k = vget l k /\ Curve_Evaluate c x = vget l 0.
Proof. exact @C86_curve_lemma. Qed.
Print Assumptions C86_curve_orders.
Example C86_curve_ex : exists l, Curve_EvaluateAll err_curve (dq (1 # 3)) 3 = Ok l /\ Curve_EvaluateDerivative err_curve (dq (1 # 3)) 2 = vget l 2 /\ nth 0 l v3zero <> nth 2 l v3zero.
Proof. eexists. split; [vm_compute; reflexivity|]. split; [vm_compute; reflexivity|vm_compute; discriminate]. Qed.

(** The derivative of order 0 is the point, also when the call fails, and fails alike. *)
Theorem C86_curve_point : forall T (N : Num T) (c : curve T) x, Curve_EvaluateDerivative c x 0 = Curve_Evaluate c x.
Proof. exact @C86_curve_point_lemma. Qed.
Print Assumptions C86_curve_point.
Example C86_curve_point_ex : Curve_Evaluate err_curve (dq (1 # 3)) <> Curve_Evaluate nan_curve (dq (1 # 3)) /\
  Curve_Evaluate err_curve (dq 2) = AssertFail /\ Curve_EvaluateDerivative err_curve (dq 2) 0 = AssertFail.
Proof. split; [vm_compute; discriminate|]. split; vm_compute; reflexivity. Qed.

Theorem C86_surface_orders : forall T (N : Num T) (s : surface T) u v m n a b g, 0 <= a <= m -> 0 <= b <= n -> Surface_EvaluateAll s u v m n = Ok g ->
  UCount g = m + 1 /\ VCount g = n + 1 /\
  (exists g', Surface_EvaluateAll s u v a b = Ok g' /\ UCount g' = a + 1 /\ VCount g' = b + 1 /\
    forall i j, 0 <= i <= a -> 0 <= j <= b -> Grid_Get g' i j = Grid_Get g i j) /\
  Surface_EvaluateDerivative s u v a b = Grid_Get g a b /\ Surface_Evaluate s u v = Grid_Get g 0 0.
Proof. exact @C86_surface_lemma. Qed.
Print Assumptions C86_surface_orders.
Example C86_surface_ex : exists g, Surface_EvaluateAll err_surface (dq (1 # 3)) (dq (1 # 5)) 2 2 = Ok g /\
  Surface_EvaluateDerivative err_surface (dq (1 # 3)) (dq (1 # 5)) 2 1 = Grid_Get g 2 1.
Proof. eexists. split; [vm_compute; reflexivity|]. vm_compute. reflexivity. Qed.

Theorem C86_surface_point : forall T (N : Num T) (s : surface T) u v, Surface_EvaluateDerivative s u v 0 0 = Surface_Evaluate s u v.
Proof. exact @C86_surface_point_lemma. Qed.
Print Assumptions C86_surface_point.
Example C86_surface_point_ex : Surface_Evaluate err_surface (dq (1 # 3)) (dq 2) = AssertFail /\ exists q, Surface_Evaluate err_surface (dq (1 # 3)) (dq (1 # 5)) = Ok q.
Proof. split; [vm_compute; reflexivity|]. eexists. vm_compute. reflexivity. Qed.

(** The same for the basis functions: the rows do not depend on the order asked for. *)
Theorem C86_basis_orders : forall T (N : Num T) p (kn : list T) sp x n k M, 0 <= k <= n -> Basis_EvaluateAll p kn sp x n = Ok M ->
  exists M', Basis_EvaluateAll p kn sp x k = Ok M' /\ mrows M' = k + 1 /\ mcols M' = p + 1 /\ mrows M = n + 1 /\ mcols M = p + 1 /\
    forall i j, 0 <= i <= k -> 0 <= j <= p -> mget M' i j = mget M i j.
Proof. exact @C86_basis_lemma. Qed.
Print Assumptions C86_basis_orders.
Example C86_basis_ex : exists M, Basis_EvaluateAll 2 err_knots 2 (dq (1 # 3)) 3 = Ok M /\ mget M 1 0 <> mget M 1 2.
Proof. eexists. split; [vm_compute; reflexivity|]. vm_compute. discriminate. Qed.
