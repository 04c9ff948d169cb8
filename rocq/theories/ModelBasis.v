(** Model of src/Basis/BSplineBasis.cpp. *)
From Coq Require Import List ZArith Bool.
From Verif Require Import Outcome Num ModelCore.
Import ListNotations.
Open Scope Z_scope.

(** Eigen dynamic matrix [MatX] (storage order is not observable; here row by
    row).  Out-of-range access is undefined (an Eigen assertion in debug). *)
Record matrix (T : Type) := Mat { mrows : Z; mcols : Z; mdata : list T }.
Arguments Mat {T}. Arguments mrows {T}. Arguments mcols {T}. Arguments mdata {T}.

Definition in_range (r c i j : Z) : bool :=
  (0 <=? i) && (i <? r) && (0 <=? j) && (j <? c).

Definition mget {T} (m : matrix T) (i j : Z) : outcome T :=
  if in_range (mrows m) (mcols m) i j then vget (mdata m) (i * mcols m + j)
  else Undefined OutOfBounds.
Definition mset {T} (m : matrix T) (i j : Z) (x : T) : outcome (matrix T) :=
  if in_range (mrows m) (mcols m) i j then
    d <- vset (mdata m) (i * mcols m + j) x ;; Ok (Mat (mrows m) (mcols m) d)
  else Undefined OutOfBounds.

Section Basis.
  Context {T : Type} `{Num T}.

  (** [MatX::Zero(r, c)]: negative sizes violate an Eigen precondition. *)
  Definition mzero (r c : Z) : outcome (matrix T) :=
    if (r <? 0) || (c <? 0) then Undefined Precondition
    else Ok (Mat r c (repeat n0 (Z.to_nat (r * c)))).

  (** BSplineBasis.cpp:7-27 *)
  Definition Basis_Evaluate (degree : Z) (knots : list T) (index_span : Z) (x : T)
    : outcome (list T) :=
    result <- vmake (degree + 1) n0 ;;
    left <- vmake (degree + 1) n0 ;;
    right <- vmake (degree + 1) n0 ;;
    result <- vset result 0 n1 ;;
    '(result, _, _) <- for_up 1 (degree + 1) (fun j '(result, left, right) =>
        kl <- vget knots (index_span + 1 - j) ;;
        left <- vset left j (nsub x kl) ;;
        kr <- vget knots (index_span + j) ;;
        right <- vset right j (nsub kr x) ;;
        '(result, saved) <- for_up 0 j (fun r '(result, saved) =>
            res_r <- vget result r ;;
            right_r1 <- vget right (r + 1) ;;
            left_jr <- vget left (j - r) ;;
            temp <- ndiv res_r (nadd right_r1 left_jr) ;;
            result <- vset result r (nadd saved (nmul right_r1 temp)) ;;
            Ok (result, nmul left_jr temp)) (result, n0) ;;
        result <- vset result j saved ;;
        Ok (result, left, right)) (result, left, right) ;;
    Ok result.

  (** BSplineBasis.cpp:30-35 *)
  Definition Basis_Evaluate_kv (degree : Z) (knots : list T) (x : T) : outcome (list T) :=
    index_span <- KnotVector_FindSpanIndex knots degree x ;;
    Basis_Evaluate degree knots index_span x.

  (** BSplineBasis.cpp:55-75: the triangular table [ndu]. *)
  Definition Basis_ndu (degree : Z) (knots : list T) (index_span : Z) (x : T)
    : outcome (matrix T) :=
    left <- vmake (degree + 1) n0 ;;
    right <- vmake (degree + 1) n0 ;;
    ndu <- mzero (degree + 1) (degree + 1) ;;
    ndu <- mset ndu 0 0 n1 ;;
    '(ndu, _, _) <- for_up 1 (degree + 1) (fun j '(ndu, left, right) =>
        kl <- vget knots (index_span + 1 - j) ;;
        left <- vset left j (nsub x kl) ;;
        kr <- vget knots (index_span + j) ;;
        right <- vset right j (nsub kr x) ;;
        '(ndu, saved) <- for_up 0 j (fun r '(ndu, saved) =>
            right_r1 <- vget right (r + 1) ;;
            left_jr <- vget left (j - r) ;;
            ndu <- mset ndu j r (nadd right_r1 left_jr) ;;
            upper <- mget ndu r (j - 1) ;;
            lower <- mget ndu j r ;;
            temp <- ndiv upper lower ;;
            ndu <- mset ndu r j (nadd saved (nmul right_r1 temp)) ;;
            Ok (ndu, nmul left_jr temp)) (ndu, n0) ;;
        ndu <- mset ndu j j saved ;;
        Ok (ndu, left, right)) (ndu, left, right) ;;
    Ok ndu.

  (** BSplineBasis.cpp:85-114: the loop body for one [k] (row pair [a], rows
      [s1],[s2] alternate). *)
  Definition Basis_ders_step (degree : Z) (ndu : matrix T) (r k : Z)
      (st : matrix T * matrix T * Z * Z) : outcome (matrix T * matrix T * Z * Z) :=
    let '(result, a, s1, s2) := st in
    let d := n0 in
    let rk := r - k in
    let pk := degree - k in
    '(a, d) <- (if k <=? r then
        a_s1_0 <- mget a s1 0 ;;
        den <- mget ndu (pk + 1) rk ;;
        q <- ndiv a_s1_0 den ;;
        a <- mset a s2 0 q ;;
        b <- mget a s2 0 ;;
        n <- mget ndu rk pk ;;
        Ok (a, nmul b n)
      else Ok (a, d)) ;;
    let j1 := if -1 <=? rk then 1 else - rk in
    let j2 := if r - 1 <=? pk then k - 1 else degree - r in
    '(a, d) <- for_up j1 (j2 + 1) (fun j '(a, d) =>
        aj <- mget a s1 j ;;
        ajm1 <- mget a s1 (j - 1) ;;
        den <- mget ndu (pk + 1) (rk + j) ;;
        q <- ndiv (nsub aj ajm1) den ;;
        a <- mset a s2 j q ;;
        b <- mget a s2 j ;;
        n <- mget ndu (rk + j) pk ;;
        Ok (a, nadd d (nmul b n))) (a, d) ;;
    '(a, d) <- (if r <=? pk then
        akm1 <- mget a s1 (k - 1) ;;
        den <- mget ndu (pk + 1) r ;;
        q <- ndiv (nopp akm1) den ;;
        a <- mset a s2 k q ;;
        b <- mget a s2 k ;;
        n <- mget ndu r pk ;;
        Ok (a, nadd d (nmul b n))
      else Ok (a, d)) ;;
    result <- mset result k r d ;;
    Ok (result, a, s2, s1).

  (** [result.row(k) *= fac] *)
  Definition scale_row (m : matrix T) (k : Z) (fac : T) : outcome (matrix T) :=
    for_up 0 (mcols m) (fun j m => e <- mget m k j ;; mset m k j (nmul e fac)) m.

  (** BSplineBasis.cpp:53-125 *)
  Definition Basis_EvaluateAll (degree : Z) (knots : list T) (index_span : Z) (x : T) (order : Z)
    : outcome (matrix T) :=
    ndu <- Basis_ndu degree knots index_span x ;;
    result <- mzero (order + 1) (degree + 1) ;;
    (* result.row(0) = ndu.col(degree) *)
    result <- for_up 0 (degree + 1) (fun r result =>
        e <- mget ndu r degree ;; mset result 0 r e) result ;;
    a <- mzero 2 (degree + 1) ;;
    '(result, _) <- for_up 0 (degree + 1) (fun r '(result, a) =>
        a <- mset a 0 0 n1 ;;
        '(result, a, _, _) <- for_up 1 (order + 1) (Basis_ders_step degree ndu r)
                                (result, a, 0, 1) ;;
        Ok (result, a)) (result, a) ;;
    '(result, _) <- for_up 1 (order + 1) (fun k '(result, fac) =>
        result <- scale_row result k fac ;;
        Ok (result, nmul fac (nofZ (degree - k)))) (result, nofZ degree) ;;
    Ok result.

  (** BSplineBasis.cpp:127-132 *)
  Definition Basis_EvaluateAll_kv (degree : Z) (knots : list T) (x : T) (order : Z)
    : outcome (matrix T) :=
    index_span <- KnotVector_FindSpanIndex knots degree x ;;
    Basis_EvaluateAll degree knots index_span x order.

  (** BSplineBasis.cpp:46-50: row [order] of [EvaluateAll]. *)
  Definition Basis_EvaluateDerivative (degree : Z) (knots : list T) (index_span : Z) (x : T)
      (order : Z) : outcome (list T) :=
    m <- Basis_EvaluateAll degree knots index_span x order ;;
    tabulate 0 (mcols m) (fun j => mget m order j).

  (** BSplineBasis.cpp:38-43 *)
  Definition Basis_EvaluateDerivative_kv (degree : Z) (knots : list T) (x : T) (order : Z)
    : outcome (list T) :=
    index_span <- KnotVector_FindSpanIndex knots degree x ;;
    Basis_EvaluateDerivative degree knots index_span x order.
End Basis.
