(** Model of src/Curve/Curve.cpp (serialization is in ModelSerial.v) and
    src/Geometry/GeomSegment.cpp. *)
From Coq Require Import List ZArith QArith Bool.
From Verif Require Import Outcome Num ModelCore ModelBasis ModelAlgo.
Import ListNotations.
Open Scope Z_scope.

(** Curve.hpp:16-21 *)
Record curve (T : Type) := Curve { Degree : Z; Knots : list T; ControlPoints : list (vec4 T) }.
Arguments Curve {T}. Arguments Degree {T}. Arguments Knots {T}. Arguments ControlPoints {T}.

(** DBL_MAX = 2^1024 - 2^971 *)
Definition DBL_MAX {T} `{Num T} : T := nlit (Qmake (2 ^ 1024 - 2 ^ 971) 1).
(** number of trial steps of the line search, Curve.cpp:379 / Surface.cpp:489 *)
Definition LS_MAX : nat := 20.

Section CurveModel.
  Context {T : Type} `{Num T}.

  (** Curve.hpp:19-24 default members *)
  Definition Curve_default : curve T := Curve (-1) [] [].

  (** Curve.cpp:283-296 *)
  Definition Curve_Evaluate (c : curve T) (x : T) : outcome (vec3 T) :=
    assert_ (ngeb x n0 && nleb x n1) ;;;
    index_span <- KnotVector_FindSpanIndex (Knots c) (Degree c) x ;;
    basis <- Basis_Evaluate (Degree c) (Knots c) index_span x ;;
    assert_ (len basis =? Degree c + 1) ;;;
    result <- for_up 0 (Degree c + 1) (fun i result =>
        p <- vget (ControlPoints c) (index_span - Degree c + i) ;;
        b <- vget basis i ;;
        Ok (v4add result (v4scale b (ToHomo p)))) v4zero ;;
    v3div (head3 result) (w4 result).

  (** Curve.cpp:299-318 *)
  Definition Curve_HomogeneousDerivative (c : curve T) (x : T) (order : Z)
    : outcome (list (vec4 T)) :=
    assert_ (ngeb x n0 && nleb x n1) ;;;
    index_span <- KnotVector_FindSpanIndex (Knots c) (Degree c) x ;;
    basis <- Basis_EvaluateAll (Degree c) (Knots c) index_span x order ;;
    assert_ (mrows basis =? order + 1) ;;;
    assert_ (mcols basis =? Degree c + 1) ;;;
    tabulate 0 (order + 1) (fun k =>
        for_up 0 (Degree c + 1) (fun i tmp =>
            p <- vget (ControlPoints c) (index_span - Degree c + i) ;;
            b <- mget basis k i ;;
            Ok (v4add tmp (v4scale b (ToHomo p)))) v4zero).

  (** Curve.cpp:325-343 *)
  Definition Curve_EvaluateAll (c : curve T) (x : T) (order : Z) : outcome (list (vec3 T)) :=
    homo_ders <- Curve_HomogeneousDerivative c x order ;;
    result <- vmake (order + 1) v3zero ;;
    h0 <- vget homo_ders 0 ;;
    let Wders0 := w4 h0 in
    for_up 0 (order + 1) (fun k result =>
        hk <- vget homo_ders k ;;
        Aders <- for_up 1 (k + 1) (fun i Aders =>
            hi <- vget homo_ders i ;;
            let Wders := w4 hi in
            bin <- Binomial k i ;;
            rki <- vget result (k - i) ;;
            Ok (v3sub Aders (v3scale (nmul (nofZ bin) Wders) rki))) (head3 hk) ;;
        q <- v3div Aders Wders0 ;;
        vset result k q) result.

  (** Curve.cpp:320-323 *)
  Definition Curve_EvaluateDerivative (c : curve T) (x : T) (order : Z) : outcome (vec3 T) :=
    all <- Curve_EvaluateAll c x order ;;
    vget all order.

  (** Curve.cpp:345-357 *)
  Definition Curve_IsRational (c : curve T) : bool :=
    match ControlPoints c with
    | [] => false
    | p0 :: rest => existsb (fun p => nneb (w4 p) (w4 p0)) rest
    end.

  (** ** Parameter search *)

  (** Curve.cpp:382-394: the line-search loop with [n] trials left. [Rn u] is
      [Ri(u).norm()]. *)
  Fixpoint line_search (Rn : T -> outcome T) (u_last current_residual Hk gk : T)
      (n : nat) (alpha : T) : outcome T :=
    match n with
    | O =>
        let u_final := nsub u_last (nmul (nmul alpha Hk) gk) in
        Ok (nclamp u_final n0 n1)
    | S n' =>
        let u_trial := nclamp (nsub u_last (nmul (nmul alpha Hk) gk)) n0 n1 in
        rn <- Rn u_trial ;;
        if nleb rn (nsub current_residual
                      (nmul (nmul (nmul (nmul (nlit (1 # 10000)) alpha) gk) Hk) gk))
        then Ok u_trial
        else line_search Rn u_last current_residual Hk gk n' (nmul alpha (nlit (9 # 10)))
    end.

  (** Curve.cpp:397-420 (also Surface.cpp:588-610): the main loop. [fuel]
      bounds the number of iterations; [count] is the C++ counter. *)
  Fixpoint search_loop (Rn fi : T -> outcome T) (ls_max : nat) (epsilon max_iteration_count : T)
      (fuel : nat) (count : Z) (u_last current_residual Hk : T) : outcome T :=
    if nltb current_residual epsilon then Ok u_last
    else if nleb max_iteration_count (nofZ count) then Ok u_last
    else
      match fuel with
      | O => OutOfFuel
      | S fuel' =>
          gk <- fi u_last ;;
          u_new <- line_search Rn u_last current_residual Hk gk ls_max n1 ;;
          let sk := nsub u_new u_last in
          gk_new <- fi u_new ;;
          let yk := nsub gk_new gk in
          let yk_dot_sk := nmul yk sk in
          let '(Hk, yk_dot_sk) :=
            if nltb (nabs yk_dot_sk) (nlit (1 # 10000000000000000))
            then (n1, nlit (1 # 10000000000)) else (Hk, yk_dot_sk) in
          rho <- ndiv n1 yk_dot_sk ;;
          let Hk := nadd (nmul (nmul (nsub n1 (nmul (nmul rho yk) sk)) Hk)
                               (nsub n1 (nmul (nmul rho sk) yk)))
                         (nmul (nmul rho sk) sk) in
          res <- Rn u_new ;;
          search_loop Rn fi ls_max epsilon max_iteration_count fuel' (count + 1) u_new res Hk
      end.

  (** Curve.cpp:359-421 *)
  Definition Curve_SearchParameter (fuel : nat) (c : curve T) (point : vec3 T)
      (init epsilon max_iteration_count : T) : outcome T :=
    let Ri := fun u => e <- Curve_Evaluate c u ;; Ok (v3sub e point) in
    let Rn := fun u => r <- Ri u ;; Ok (v3norm r) in
    let fi := fun u => ri <- Ri u ;; Cu <- Curve_EvaluateDerivative c u 1 ;; Ok (v3dot ri Cu) in
    search_loop Rn fi LS_MAX epsilon max_iteration_count fuel 0 init DBL_MAX n1.

  (** Curve.cpp:433-468 (also Surface.cpp:630-672): the bisection loop. [go count]
      is the test [count < max_iteration_count]; [fuel] bounds the rounds. *)
  Fixpoint bisect_loop (Rn : T -> outcome T) (epsilon : T) (go : Z -> bool)
      (fuel : nat) (count : Z) (low high : T) : outcome T :=
    if negb (go count) then ndiv (nadd low high) (nofZ 2)
    else
      match fuel with
      | O => OutOfFuel
      | S fuel' =>
          mid <- ndiv (nadd low high) (nofZ 2) ;;
          mid_residual <- Rn mid ;;
          let left_mid := nsub mid epsilon in
          let right_mid := nadd mid epsilon in
          let left_mid := if nltb left_mid low then low else left_mid in
          let right_mid := if ngtb right_mid high then high else right_mid in
          left_residual <- Rn left_mid ;;
          right_residual <- Rn right_mid ;;
          if nltb left_residual mid_residual
          then bisect_loop Rn epsilon go fuel' (count + 1) low mid
          else if nltb right_residual mid_residual
          then bisect_loop Rn epsilon go fuel' (count + 1) mid high
          else if nltb (nabs (nsub high low)) epsilon || nltb mid_residual epsilon then Ok mid
          else bisect_loop Rn epsilon go fuel' (count + 1) left_mid right_mid
      end.

  (** Curve.cpp:423-469 *)
  Definition Curve_BinarySearchParameter (c : curve T) (point : vec3 T) (epsilon : T)
      (max_iteration_count : Z) : outcome T :=
    let Rn := fun u => e <- Curve_Evaluate c u ;; Ok (v3norm (v3sub e point)) in
    bisect_loop Rn epsilon (fun count => count <? max_iteration_count)
                (Z.to_nat max_iteration_count) 0 n0 n1.

  (** ** Knot insertion *)

  (** Curve.cpp:471-485 *)
  Definition Curve_InsertKnot (c : curve T) (knot_value : T) : outcome (curve T) :=
    '(new_knots, k) <- KnotVector_InsertKnot (Knots c) knot_value 1 ;;
    new_points <- vinsert (ControlPoints c) k 1 v4zero ;;
    let knots := Knots c in
    let degree := Degree c in
    new_points <- for_up (k - degree + 1) (k + 1) (fun i new_points =>
        ki <- vget knots i ;;
        kip <- vget knots (i + degree) ;;
        alpha <- ndiv (nsub knot_value ki) (nsub kip ki) ;;
        pi <- vget (ControlPoints c) i ;;
        pim1 <- vget (ControlPoints c) (i - 1) ;;
        q <- FromHomo (v4add (v4scale alpha (ToHomo pi)) (v4scale (nsub n1 alpha) (ToHomo pim1))) ;;
        vset new_points i q) new_points ;;
    Ok (Curve degree new_knots new_points).

  (** Curve.cpp:501-515: one round of the list version, on (knots, points). *)
  Definition insert_one (degree : Z) (st : list T * list (vec4 T)) (knot_value : T)
    : outcome (list T * list (vec4 T)) :=
    let '(knots, points) := st in
    k <- KnotVector_FindSpanIndex knots degree knot_value ;;
    pk <- vget points k ;;
    points <- vinsert points k 1 pk ;;
    p0 <- vget points (k - degree) ;;
    '(points, _) <- for_up (k - degree + 1) (k + 1) (fun i '(points, point_last) =>
        ki <- vget knots i ;;
        kip <- vget knots (i + degree) ;;
        alpha <- ndiv (nsub knot_value ki) (nsub kip ki) ;;
        pi <- vget points i ;;
        let point_i := ToHomo pi in
        point_new <- FromHomo (v4add (v4scale alpha point_i) (v4scale (nsub n1 alpha) point_last)) ;;
        points <- vset points i point_new ;;
        Ok (points, point_i)) (points, ToHomo p0) ;;
    knots <- vinsert knots (k + 1) 1 knot_value ;;
    Ok (knots, points).

  (** Curve.cpp:494-517 *)
  Definition Curve_InsertKnot_list (c : curve T) (knots_to_insert : list T) : outcome (curve T) :=
    '(knots, points) <- foldM (insert_one (Degree c)) knots_to_insert (Knots c, ControlPoints c) ;;
    Ok (Curve (Degree c) knots points).

  (** Curve.cpp:487-492 *)
  Definition Curve_InsertKnot_times (c : curve T) (knot_value : T) (times : Z) : outcome (curve T) :=
    l <- vmake times knot_value ;;
    Curve_InsertKnot_list c l.

  (** Curve.cpp:519-529 *)
  Definition Curve_RemoveKnot (c : curve T) (knot_remove : T) (times : Z) (tolerance : T)
    : outcome (curve T * Z) :=
    assert_ (ngtb knot_remove n0 && nltb knot_remove n1) ;;;
    assert_ (0 <? times) ;;;
    '(t, knots, points) <- KnotRemoval (Knots c) (ControlPoints c) (Degree c) knot_remove times tolerance ;;
    Ok (Curve (Degree c) knots points, t).

  (** Curve.cpp:531-538 *)
  Definition Curve_ElevateDegree (c : curve T) (times : Z) : outcome (curve T) :=
    assert_ (1 <=? times) ;;;
    '(degree, knots, points) <- NurbsDegreeElevation (Knots c) (ControlPoints c) (Degree c) times ;;
    Ok (Curve degree knots points).

  (** Curve.cpp:540-548 *)
  Definition Curve_Transform (c : curve T) (R : mat3 T) : curve T :=
    Curve (Degree c) (Knots c)
          (map (fun p => set_head3 p (m3mul R (head3 p))) (ControlPoints c)).

  (** ** Bezier extraction *)

  (** Curve.cpp:554-563: one round of the refinement loop. *)
  Definition extract_refine (degree : Z) (bezier : curve T) (item : knotpair T) : outcome (curve T) :=
    let u := kp_Value item in
    let mult := kp_Multiplicity item in
    if nleb u n0 || ngeb u n1 then Ok bezier
    else if degree <=? mult then Ok bezier
    else Curve_InsertKnot_times bezier u (degree - mult).

  (** Curve.cpp:570-581: the cutting loop at offset [i].  [i + p < ctrl.size()]
      compares as unsigned: a negative [i + p] is not smaller. *)
  Fixpoint extract_cut (fuel : nat) (p : Z) (ctrl : list (vec4 T)) (i : Z) : outcome (list (curve T)) :=
    if (0 <=? i + p) && (i + p <? len ctrl) then
      match fuel with
      | O => OutOfFuel
      | S fuel' =>
          knots <- KnotVector_Uniform p (2 * p + 2) ;;
          pts <- tabulate 0 (p + 1) (fun k => vget ctrl (i + k)) ;;
          rest <- extract_cut fuel' p ctrl (i + p) ;;
          Ok (Curve p knots pts :: rest)
      end
    else Ok [].

  (** Curve.cpp:550-583 *)
  Definition Curve_ExtractBezier (c : curve T) : outcome (list (curve T)) :=
    bezier <- foldM (extract_refine (Degree c)) (KnotVector_GetKnotPairs (Knots c)) c ;;
    extract_cut (length (ControlPoints bezier)) (Degree bezier) (ControlPoints bezier) 0.

  (** ** Bounding box *)

  (** Curve.cpp:650-656: next de Casteljau row (parameter 1/2, on the Cartesian
      4-vectors). *)
  Fixpoint midpoints (row : list (vec4 T)) : list (vec4 T) :=
    match row with
    | a :: ((b :: _) as rest) =>
        v4add (v4scale (nlit (1 # 2)) a) (v4scale (nlit (1 # 2)) b) :: midpoints rest
    | _ => []
    end.
  (** rows 0..p of the table [b_view] (Curve.cpp:643-656) *)
  Fixpoint casteljau_rows (n : nat) (row : list (vec4 T)) : list (list (vec4 T)) :=
    match n with
    | O => [row]
    | S n' => row :: casteljau_rows n' (midpoints row)
    end.
  (** Curve.cpp:657-662: L[r] = b[r][0], R[r] = b[p-r][r]. *)
  Definition subdivide (p : Z) (ctrlPts : list (vec4 T))
    : outcome (list (vec4 T) * list (vec4 T)) :=
    let rows := casteljau_rows (Z.to_nat p) ctrlPts in
    L <- tabulate 0 (p + 1) (fun r => row <- vget rows r ;; vget row 0) ;;
    R <- tabulate 0 (p + 1) (fun r => row <- vget rows (p - r) ;; vget row r) ;;
    Ok (L, R).

  (** Curve.cpp:610-621: (cpBox, epBox) of one control polygon. *)
  Definition polygon_boxes (ctrlPts : list (vec4 T)) : outcome (bbox T * bbox T) :=
    match ctrlPts with
    | [] => Undefined OutOfBounds
    | c0 :: rest =>
        let cpBox := fold_left (fun b q => BoundingBox_ExpandToInclude b (head3 q)) rest
                               (BoundingBox_make (head3 c0) (head3 c0)) in
        let epBox := BoundingBox_make (head3 c0) (head3 (last ctrlPts c0)) in
        Ok (cpBox, epBox)
    end.

  (** Curve.cpp:623-627 *)
  Definition polygon_accept (epsilon : T) (cpBox epBox : bbox T) : bool :=
    nleb (v3norm (BoundingBox_Length cpBox)) epsilon
    || (Approx3 (Min cpBox) (Min epBox) lit_1e_6 && Approx3 (Max cpBox) (Max epBox) lit_1e_6).

  (** Curve.cpp:631-639 ([None]: not initialized) *)
  Definition merge_box (global : option (bbox T)) (ep : bbox T) : option (bbox T) :=
    match global with
    | None => Some ep
    | Some g => Some (BoundingBox_ExpandToInclude_box g ep)
    end.

  (** Curve.cpp:605-665: the stack loop. *)
  Fixpoint bbox_loop (fuel : nat) (p : Z) (epsilon : T) (stack : list (list (vec4 T)))
      (global : option (bbox T)) : outcome (option (bbox T)) :=
    match stack with
    | [] => Ok global
    | ctrlPts :: stack' =>
        match fuel with
        | O => OutOfFuel
        | S fuel' =>
            '(cpBox, epBox) <- polygon_boxes ctrlPts ;;
            if polygon_accept epsilon cpBox epBox
            then bbox_loop fuel' p epsilon stack' (merge_box global epBox)
            else
              '(L, R) <- subdivide p ctrlPts ;;
              bbox_loop fuel' p epsilon (L :: R :: stack') global
        end
    end.

  (** Curve.cpp:585-668 *)
  Definition Curve_GetBoundingBox (fuel : nat) (c : curve T) (epsilon : T) : outcome (bbox T) :=
    segments <- Curve_ExtractBezier c ;;
    global <- foldM (fun global seg => bbox_loop fuel (Degree c) epsilon [ControlPoints seg] global)
                    segments None ;;
    Ok (match global with Some g => g | None => BoundingBox_default end).

  (** * GeomSegment.cpp:7-23 *)
  Definition GeomSegment_GetCurve (degree control_point_count : Z) (LeftPoint RightPoint : vec3 T)
    : outcome (curve T) :=
    assert_ (1 <=? degree) ;;;
    assert_ (degree + 1 <=? control_point_count) ;;;
    let knot_count := control_point_count + degree + 1 in
    knots <- KnotVector_Uniform degree knot_count ;;
    k <- v3div (v3sub RightPoint LeftPoint) (nofZ (control_point_count - 1)) ;;
    pts <- tabulate 0 control_point_count (fun i =>
        let h := v3add LeftPoint (v3scale (nofZ i) k) in
        Ok (Vec4 (x3 h) (y3 h) (z3 h) n1)) ;;
    Ok (Curve degree knots pts).
End CurveModel.
