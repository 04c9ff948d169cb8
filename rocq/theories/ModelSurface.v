(** Model of src/Surface/Surface.cpp (serialization is in ModelSerial.v) and
    src/Geometry/GeomRect.cpp. *)
From Coq Require Import List ZArith QArith Bool.
From Verif Require Import Outcome Num ModelCore ModelBasis ModelAlgo ModelCurve.
Import ListNotations.
Open Scope Z_scope.

(** Surface.hpp:10-17 *)
Record surface (T : Type) := Surface {
  DegreeU : Z; DegreeV : Z; KnotsU : list T; KnotsV : list T; Net : grid (vec4 T) }.
Arguments Surface {T}. Arguments DegreeU {T}. Arguments DegreeV {T}.
Arguments KnotsU {T}. Arguments KnotsV {T}. Arguments Net {T}.

(** Surface.hpp:94-99 *)
Inductive AlignAxis := XAxis | YAxis | ZAxis.
Definition axis_eqb (a b : AlignAxis) : bool :=
  match a, b with XAxis, XAxis | YAxis, YAxis | ZAxis, ZAxis => true | _, _ => false end.

Section SurfaceModel.
  Context {T : Type} `{Num T}.

  (** Surface.hpp:13-20 *)
  Definition Surface_default : surface T := Surface (-1) (-1) [] [] Grid_default.

  (** Surface.cpp:371-399 *)
  Definition Surface_Evaluate (s : surface T) (u v : T) : outcome (vec3 T) :=
    assert_ (ngeb u n0 && nleb u n1) ;;;
    assert_ (ngeb v n0 && nleb v n1) ;;;
    index_span_u <- KnotVector_FindSpanIndex (KnotsU s) (DegreeU s) u ;;
    index_span_v <- KnotVector_FindSpanIndex (KnotsV s) (DegreeV s) v ;;
    basis_u <- Basis_Evaluate (DegreeU s) (KnotsU s) index_span_u u ;;
    basis_v <- Basis_Evaluate (DegreeV s) (KnotsV s) index_span_v v ;;
    assert_ (len basis_u =? DegreeU s + 1) ;;;
    assert_ (len basis_v =? DegreeV s + 1) ;;;
    let index_pre_u := index_span_u - DegreeU s in
    let index_pre_v := index_span_v - DegreeV s in
    result <- for_up 0 (DegreeV s + 1) (fun j result =>
        let index_v := index_pre_v + j in
        tmp <- for_up 0 (DegreeU s + 1) (fun i tmp =>
            let index_u := index_pre_u + i in
            p <- Grid_Get (Net s) index_u index_v ;;
            b <- vget basis_u i ;;
            Ok (v4add tmp (v4scale b (ToHomo p)))) v4zero ;;
        b <- vget basis_v j ;;
        Ok (v4add result (v4scale b tmp))) v4zero ;;
    v3div (head3 result) (w4 result).

  (** Surface.cpp:1150-1185 *)
  Definition Surface_HomogeneousDerivative (s : surface T) (u v : T) (order_u order_v : Z)
    : outcome (grid (vec4 T)) :=
    assert_ (ngeb u n0 && nleb u n1) ;;;
    assert_ (ngeb v n0 && nleb v n1) ;;;
    index_span_u <- KnotVector_FindSpanIndex (KnotsU s) (DegreeU s) u ;;
    index_span_v <- KnotVector_FindSpanIndex (KnotsV s) (DegreeV s) v ;;
    basis_u <- Basis_EvaluateAll (DegreeU s) (KnotsU s) index_span_u u order_u ;;
    basis_v <- Basis_EvaluateAll (DegreeV s) (KnotsV s) index_span_v v order_v ;;
    assert_ (mcols basis_u =? DegreeU s + 1) ;;;
    assert_ (mcols basis_v =? DegreeV s + 1) ;;;
    let index_pre_u := index_span_u - DegreeU s in
    let index_pre_v := index_span_v - DegreeV s in
    result <- Grid_make (order_u + 1) (order_v + 1) v4zero ;;
    for_up 0 (order_v + 1) (fun l result =>
      for_up 0 (order_u + 1) (fun k result =>
        for_up 0 (DegreeV s + 1) (fun j result =>
          let index_v := index_pre_v + j in
          tmp <- for_up 0 (DegreeU s + 1) (fun i tmp =>
              let index_u := index_pre_u + i in
              p <- Grid_Get (Net s) index_u index_v ;;
              b <- mget basis_u k i ;;
              Ok (v4add tmp (v4scale b (ToHomo p)))) v4zero ;;
          old <- Grid_Get result k l ;;
          b <- mget basis_v l j ;;
          Grid_Set result k l (v4add old (v4scale b tmp))) result) result) result.

  (** Surface.cpp:406-444 *)
  Definition Surface_EvaluateAll (s : surface T) (u v : T) (order_u order_v : Z)
    : outcome (grid (vec3 T)) :=
    homo_ders <- Surface_HomogeneousDerivative s u v order_u order_v ;;
    result <- Grid_make (order_u + 1) (order_v + 1) v3zero ;;
    h00 <- Grid_Get homo_ders 0 0 ;;
    let Wders00 := w4 h00 in
    for_up 0 (order_u + 1) (fun ou result =>
      for_up 0 (order_v + 1) (fun ov result =>
        h <- Grid_Get homo_ders ou ov ;;
        Aders <- for_up 1 (ou + 1) (fun i Aders =>
            hi <- Grid_Get homo_ders i 0 ;;
            bin <- Binomial ou i ;;
            r <- Grid_Get result (ou - i) ov ;;
            Ok (v3sub Aders (v3scale (nmul (nofZ bin) (w4 hi)) r))) (head3 h) ;;
        Aders <- for_up 1 (ov + 1) (fun j Aders =>
            hj <- Grid_Get homo_ders 0 j ;;
            bin <- Binomial ov j ;;
            r <- Grid_Get result ou (ov - j) ;;
            Ok (v3sub Aders (v3scale (nmul (nofZ bin) (w4 hj)) r))) Aders ;;
        Aders <- for_up 1 (ou + 1) (fun i Aders =>
            bi <- Binomial ou i ;;
            for_up 1 (ov + 1) (fun j Aders =>
                hij <- Grid_Get homo_ders i j ;;
                bj <- Binomial ov j ;;
                prod <- int_ (bi * bj) ;;
                r <- Grid_Get result (ou - i) (ov - j) ;;
                Ok (v3sub Aders (v3scale (nmul (nofZ prod) (w4 hij)) r))) Aders) Aders ;;
        q <- v3div Aders Wders00 ;;
        Grid_Set result ou ov q) result) result.

  (** Surface.cpp:401-404 *)
  Definition Surface_EvaluateDerivative (s : surface T) (u v : T) (order_u order_v : Z)
    : outcome (vec3 T) :=
    all <- Surface_EvaluateAll s u v order_u order_v ;;
    Grid_Get all order_u order_v.

  (** Surface.cpp:446-456 *)
  Definition Surface_IsRational (s : surface T) : bool :=
    match Values (Net s) with
    | [] => false
    | p0 :: rest => existsb (fun p => nneb (w4 p) (w4 p0)) rest
    end.

  (** ** Parameter search *)
  (** Eigen 2-vectors and 2x2 matrices (by rows). *)
  Definition vec2 := (T * T)%type.
  Definition mat2 := ((T * T) * (T * T))%type.
  Definition v2sub (a b : vec2) : vec2 := (nsub (fst a) (fst b), nsub (snd a) (snd b)).
  Definition v2dot (a b : vec2) : T := nadd (nmul (fst a) (fst b)) (nmul (snd a) (snd b)).
  Definition v2scale (s : T) (a : vec2) : vec2 := (nmul s (fst a), nmul s (snd a)).
  Definition m2mulv (m : mat2) (v : vec2) : vec2 := (v2dot (fst m) v, v2dot (snd m) v).
  Definition m2scale (s : T) (m : mat2) : mat2 := (v2scale s (fst m), v2scale s (snd m)).
  Definition m2add (a b : mat2) : mat2 :=
    ((nadd (fst (fst a)) (fst (fst b)), nadd (snd (fst a)) (snd (fst b))),
     (nadd (fst (snd a)) (fst (snd b)), nadd (snd (snd a)) (snd (snd b)))).
  Definition m2sub (a b : mat2) : mat2 := (v2sub (fst a) (fst b), v2sub (snd a) (snd b)).
  Definition m2outer (a b : vec2) : mat2 := (v2scale (fst a) b, v2scale (snd a) b).
  Definition m2mul (a b : mat2) : mat2 :=
    let c0 := (fst (fst b), fst (snd b)) in
    let c1 := (snd (fst b), snd (snd b)) in
    ((v2dot (fst a) c0, v2dot (fst a) c1), (v2dot (snd a) c0, v2dot (snd a) c1)).
  Definition m2id : mat2 := ((n1, n0), (n0, n1)).
  Definition v2clamp (a : vec2) : vec2 := (nclamp (fst a) n0 n1, nclamp (snd a) n0 n1).

  (** Surface.cpp:484-508 *)
  Fixpoint line_search2 (Rn : vec2 -> outcome T) (uv_last : vec2) (current_residual : T)
      (Hk : mat2) (gk : vec2) (n : nat) (alpha : T) : outcome vec2 :=
    match n with
    | O => Ok (v2clamp (v2sub uv_last (m2mulv (m2scale alpha Hk) gk)))
    | S n' =>
        let trial := v2clamp (v2sub uv_last (m2mulv (m2scale alpha Hk) gk)) in
        rn <- Rn trial ;;
        if nleb rn (nsub current_residual
                      (nmul (nmul (nlit (1 # 10000)) alpha) (v2dot gk (m2mulv Hk gk))))
        then Ok trial
        else line_search2 Rn uv_last current_residual Hk gk n' (nmul alpha (nlit (9 # 10)))
    end.

  (** Surface.cpp:510-535 *)
  Fixpoint search_loop2 (Rn : vec2 -> outcome T) (Ki : vec2 -> outcome vec2)
      (epsilon max_iteration_count : T) (fuel : nat) (count : Z)
      (uv_last : vec2) (current_residual : T) (Hk : mat2) : outcome vec2 :=
    if nltb current_residual epsilon then Ok uv_last
    else if nleb max_iteration_count (nofZ count) then Ok uv_last
    else
      match fuel with
      | O => OutOfFuel
      | S fuel' =>
          gk <- Ki uv_last ;;
          uv_new <- line_search2 Rn uv_last current_residual Hk gk LS_MAX n1 ;;
          let sk := v2sub uv_new uv_last in
          gk_new <- Ki uv_new ;;
          let yk := v2sub gk_new gk in
          let yk_dot_sk := v2dot yk sk in
          let '(Hk, yk_dot_sk) :=
            if nltb (nabs yk_dot_sk) (nlit (1 # 10000000000000000))
            then (m2id, nlit (1 # 10000000000)) else (Hk, yk_dot_sk) in
          rho <- ndiv n1 yk_dot_sk ;;
          let Hk := m2add (m2mul (m2mul (m2sub m2id (m2outer (v2scale rho sk) yk)) Hk)
                                 (m2sub m2id (m2outer (v2scale rho yk) sk)))
                          (m2outer (v2scale rho sk) sk) in
          res <- Rn uv_new ;;
          search_loop2 Rn Ki epsilon max_iteration_count fuel' (count + 1) uv_new res Hk
      end.

  (** Surface.cpp:458-536 *)
  Definition Surface_SearchParameter (fuel : nat) (s : surface T) (point : vec3 T)
      (init_u init_v epsilon max_iteration_count : T) : outcome (T * T) :=
    assert_ (ngeb init_u n0 && nleb init_u n1) ;;;
    assert_ (ngeb init_v n0 && nleb init_v n1) ;;;
    let Ri := fun uv : vec2 => e <- Surface_Evaluate s (fst uv) (snd uv) ;; Ok (v3sub e point) in
    let Rn := fun uv => r <- Ri uv ;; Ok (v3norm r) in
    let Ki := fun uv : vec2 =>
        ri <- Ri uv ;;
        Su <- Surface_EvaluateDerivative s (fst uv) (snd uv) 1 0 ;;
        Sv <- Surface_EvaluateDerivative s (fst uv) (snd uv) 0 1 ;;
        Ok (v3dot ri Su, v3dot ri Sv) in
    search_loop2 Rn Ki epsilon max_iteration_count fuel 0 (init_u, init_v) DBL_MAX m2id.

  (** Surface.cpp:545-546: which parameter is the constant one. *)
  Definition on_uv (direction : Z) (constant val : T) : T * T :=
    (if direction =? 0 then constant else val, if direction =? 1 then constant else val).
  (** Surface.cpp:611-613 / 659-661 / 669-671 *)
  Definition on_result (direction : Z) (constant val : T) : T * T :=
    if direction =? 0 then (constant, val) else (val, constant).

  (** Surface.cpp:538-614; [max_line_search_iterations = 0] (line 570). *)
  Definition Surface_SearchParameterOn (fuel : nat) (s : surface T) (point : vec3 T)
      (direction : Z) (constant init_value epsilon max_iteration_count : T) : outcome (T * T) :=
    let Ri := fun val =>
        let '(u, v) := on_uv direction constant val in
        e <- Surface_Evaluate s u v ;; Ok (v3sub e point) in
    let Rn := fun val => r <- Ri val ;; Ok (v3norm r) in
    let fi := fun val =>
        let '(u, v) := on_uv direction constant val in
        ri <- Ri val ;;
        Cu <- (if direction =? 1 then Surface_EvaluateDerivative s u v 1 0
               else Surface_EvaluateDerivative s u v 0 1) ;;
        Ok (v3dot ri Cu) in
    val <- search_loop Rn fi 0%nat epsilon max_iteration_count fuel 0 init_value DBL_MAX n1 ;;
    Ok (on_result direction constant val).

  (** Surface.cpp:616-672.  The iteration bound is a double. *)
  Definition Surface_BinarySearchParameterOn (fuel : nat) (s : surface T) (point : vec3 T)
      (direction : Z) (constant epsilon max_iteration_count : T) : outcome (T * T) :=
    let Rn := fun val =>
        let '(u, v) := on_uv direction constant val in
        e <- Surface_Evaluate s u v ;; Ok (v3norm (v3sub e point)) in
    val <- bisect_loop Rn epsilon (fun count => nltb (nofZ count) max_iteration_count)
                       fuel 0 n0 n1 ;;
    Ok (on_result direction constant val).

  (** ** Knot insertion *)

  (** Surface.cpp:681-686: the list of blending factors. *)
  Definition insert_alphas (knots : list T) (degree k : Z) (knot_value : T) : outcome (list T) :=
    alphas <- vmake degree n0 ;;
    for_up (k - degree + 1) (k + 1) (fun i alphas =>
        let idx := i - k + degree - 1 in
        ki <- vget knots i ;;
        kip <- vget knots (i + degree) ;;
        alpha <- ndiv (nsub knot_value ki) (nsub kip ki) ;;
        vset alphas idx alpha) alphas.

  (** Surface.cpp:675-701; [junk] is the content of the memory added by the
      grid's [resize]. *)
  Definition Surface_InsertKnotU (junk : vec4 T) (s : surface T) (knot_value : T) : outcome (surface T) :=
    '(new_knots, k) <- KnotVector_InsertKnot (KnotsU s) knot_value 1 ;;
    net <- Grid_InsertU junk (Net s) k v4zero ;;
    let degree := DegreeU s in
    alpha_list <- insert_alphas (KnotsU s) degree k knot_value ;;
    net <- for_up 0 (VCount net) (fun j net =>
      for_up (k - degree + 1) (k + 1) (fun i net =>
        pi <- Grid_Get (Net s) i j ;;
        pim1 <- Grid_Get (Net s) (i - 1) j ;;
        alpha <- vget alpha_list (i - k + degree - 1) ;;
        q <- FromHomo (v4add (v4scale alpha (ToHomo pi)) (v4scale (nsub n1 alpha) (ToHomo pim1))) ;;
        Grid_Set net i j q) net) net ;;
    Ok (Surface (DegreeU s) (DegreeV s) new_knots (KnotsV s) net).

  (** Surface.cpp:709-717 *)
  Definition Surface_InsertKnotU_list (junk : vec4 T) (s : surface T) (l : list T) : outcome (surface T) :=
    foldM (fun s k => Surface_InsertKnotU junk s k) l s.
  (** Surface.cpp:703-707 *)
  Definition Surface_InsertKnotU_times (junk : vec4 T) (s : surface T) (knot_value : T) (times : Z)
    : outcome (surface T) :=
    l <- vmake times knot_value ;; Surface_InsertKnotU_list junk s l.

  (** Surface.cpp:719-746 *)
  Definition Surface_InsertKnotV (s : surface T) (knot_value : T) : outcome (surface T) :=
    '(new_knots, k) <- KnotVector_InsertKnot (KnotsV s) knot_value 1 ;;
    net <- Grid_InsertV (Net s) k v4zero ;;
    let degree := DegreeV s in
    alpha_list <- insert_alphas (KnotsV s) degree k knot_value ;;
    net <- for_up 0 (UCount net) (fun j net =>
      for_up (k - degree + 1) (k + 1) (fun i net =>
        pi <- Grid_Get (Net s) j i ;;
        pim1 <- Grid_Get (Net s) j (i - 1) ;;
        alpha <- vget alpha_list (i - k + degree - 1) ;;
        q <- FromHomo (v4add (v4scale alpha (ToHomo pi)) (v4scale (nsub n1 alpha) (ToHomo pim1))) ;;
        Grid_Set net j i q) net) net ;;
    Ok (Surface (DegreeU s) (DegreeV s) (KnotsU s) new_knots net).

  (** Surface.cpp:754-762 *)
  Definition Surface_InsertKnotV_list (s : surface T) (l : list T) : outcome (surface T) :=
    foldM Surface_InsertKnotV l s.
  (** Surface.cpp:748-752 *)
  Definition Surface_InsertKnotV_times (s : surface T) (knot_value : T) (times : Z)
    : outcome (surface T) :=
    l <- vmake times knot_value ;; Surface_InsertKnotV_list s l.

  (** ** Knot removal and degree elevation, row by row *)

  (** A fresh grid of uninitialised Vec4 (Grid.hpp:19-24), and its reading back
      once every cell has been written. *)
  Definition grid_uninit (u v : Z) : outcome (grid (option (vec4 T))) := Grid_make u v None.
  Definition grid_freeze (g : grid (option (vec4 T))) : outcome (grid (vec4 T)) :=
    vals <- freeze (Values g) ;; Ok (Grid (UCount g) (VCount g) vals).

  (** Surface.cpp:770-779: rows [it_v ..] of the loop, [n] rows left.
      [None] is the early [return {*this, 0}]. *)
  Fixpoint removeU_rows (s : surface T) (knot_remove : T) (times : Z) (tolerance : T)
      (n : nat) (it_v t : Z) (knotsU : list T) (net : grid (option (vec4 T)))
    : outcome (option (Z * list T * grid (option (vec4 T)))) :=
    match n with
    | O => Ok (Some (t, knotsU, net))
    | S n' =>
        points <- Grid_GetV (Net s) it_v ;;
        '(t_tmp, knots, points) <- KnotRemoval knotsU points (DegreeU s) knot_remove times tolerance ;;
        if (t_tmp =? 0) || (negb (it_v =? 0) && negb (t =? t_tmp)) then Ok None
        else
          let knotsU := if it_v =? VCount (Net s) - 1 then knots else knotsU in
          net <- Grid_SetV net it_v (map Some points) ;;
          removeU_rows s knot_remove times tolerance n' (it_v + 1) t_tmp knotsU net
    end.
  (** Surface.cpp:764-781 *)
  Definition Surface_RemoveKnotU (s : surface T) (knot_remove : T) (times : Z) (tolerance : T)
    : outcome (surface T * Z) :=
    net <- grid_uninit (UCount (Net s) - times) (VCount (Net s)) ;;
    r <- removeU_rows s knot_remove times tolerance (Z.to_nat (VCount (Net s))) 0 0 (KnotsU s) net ;;
    match r with
    | None => Ok (s, 0)
    | Some (t, knotsU, net) =>
        net <- grid_freeze net ;;
        Ok (Surface (DegreeU s) (DegreeV s) knotsU (KnotsV s) net, t)
    end.

  (** Surface.cpp:789-798 *)
  Fixpoint removeV_rows (s : surface T) (knot_remove : T) (times : Z) (tolerance : T)
      (n : nat) (it_u t : Z) (knotsV : list T) (net : grid (option (vec4 T)))
    : outcome (option (Z * list T * grid (option (vec4 T)))) :=
    match n with
    | O => Ok (Some (t, knotsV, net))
    | S n' =>
        points <- Grid_GetU (Net s) it_u ;;
        '(t_tmp, knots, points) <- KnotRemoval knotsV points (DegreeV s) knot_remove times tolerance ;;
        if (t_tmp =? 0) || (negb (it_u =? 0) && negb (t =? t_tmp)) then Ok None
        else
          let knotsV := if it_u =? UCount (Net s) - 1 then knots else knotsV in
          net <- Grid_SetU net it_u (map Some points) ;;
          removeV_rows s knot_remove times tolerance n' (it_u + 1) t_tmp knotsV net
    end.
  (** Surface.cpp:783-800 *)
  Definition Surface_RemoveKnotV (s : surface T) (knot_remove : T) (times : Z) (tolerance : T)
    : outcome (surface T * Z) :=
    net <- grid_uninit (UCount (Net s)) (VCount (Net s) - times) ;;
    r <- removeV_rows s knot_remove times tolerance (Z.to_nat (UCount (Net s))) 0 0 (KnotsV s) net ;;
    match r with
    | None => Ok (s, 0)
    | Some (t, knotsV, net) =>
        net <- grid_freeze net ;;
        Ok (Surface (DegreeU s) (DegreeV s) (KnotsU s) knotsV net, t)
    end.

  (** Surface.cpp:802-821 *)
  Definition Surface_ElevateDegreeU (s : surface T) (times : Z) : outcome (surface T) :=
    net <- grid_uninit (UCount (Net s) + times) (VCount (Net s)) ;;
    '(degreeU, knotsU, net) <- for_up 0 (VCount (Net s)) (fun it_v '(degreeU, knotsU, net) =>
        points <- Grid_GetV (Net s) it_v ;;
        '(degree, knots, points) <- NurbsDegreeElevation knotsU points degreeU times ;;
        let '(degreeU, knotsU) :=
          if it_v =? VCount (Net s) - 1 then (degree, knots) else (degreeU, knotsU) in
        net <- Grid_SetV net it_v (map Some points) ;;
        Ok (degreeU, knotsU, net)) (DegreeU s, KnotsU s, net) ;;
    net <- grid_freeze net ;;
    Ok (Surface degreeU (DegreeV s) knotsU (KnotsV s) net).

  (** Surface.cpp:823-842 *)
  Definition Surface_ElevateDegreeV (s : surface T) (times : Z) : outcome (surface T) :=
    net <- grid_uninit (UCount (Net s)) (VCount (Net s) + times) ;;
    '(degreeV, knotsV, net) <- for_up 0 (UCount (Net s)) (fun it_u '(degreeV, knotsV, net) =>
        points <- Grid_GetU (Net s) it_u ;;
        '(degree, knots, points) <- NurbsDegreeElevation knotsV points degreeV times ;;
        let '(degreeV, knotsV) :=
          if it_u =? UCount (Net s) - 1 then (degree, knots) else (degreeV, knotsV) in
        net <- Grid_SetU net it_u (map Some points) ;;
        Ok (degreeV, knotsV, net)) (DegreeV s, KnotsV s, net) ;;
    net <- grid_freeze net ;;
    Ok (Surface (DegreeU s) degreeV (KnotsU s) knotsV net).

  (** Surface.cpp:844-852 *)
  Definition Surface_Transform (s : surface T) (R : mat3 T) : surface T :=
    Surface (DegreeU s) (DegreeV s) (KnotsU s) (KnotsV s)
      (Grid (UCount (Net s)) (VCount (Net s))
            (map (fun p => set_head3 p (m3mul R (head3 p))) (Values (Net s)))).

  (** ** AlignParameterDomain, Surface.cpp:854-1147 *)
  Definition axis_value (p : vec3 T) (a : AlignAxis) : T :=
    match a with XAxis => x3 p | YAxis => y3 p | ZAxis => z3 p end.
  Definition axis_unit (a : AlignAxis) : vec3 T :=
    match a with
    | XAxis => Vec3 n1 n0 n0 | YAxis => Vec3 n0 n1 n0 | ZAxis => Vec3 n0 n0 n1
    end.
  (** Eigen [normalized()]: the vector itself when its squared norm is not positive *)
  Definition v3normalized (v : vec3 T) : outcome (vec3 T) :=
    let z := v3dot v v in
    if nltb n0 z then v3div v (nsqrt z) else Ok v.
  (** Surface.cpp:876-881: min/max of four corner coordinates *)
  Definition min4 (a b c d : T) : T := nmin (nmin (nmin a b) c) d.
  Definition max4 (a b c d : T) : T := nmax (nmax (nmax a b) c) d.
  (** Surface.cpp:883-885 *)
  Definition axis_extent (S00 S10 S01 S11 : vec3 T) (a : AlignAxis) : T :=
    nsub (max4 (axis_value S00 a) (axis_value S10 a) (axis_value S01 a) (axis_value S11 a))
         (min4 (axis_value S00 a) (axis_value S10 a) (axis_value S01 a) (axis_value S11 a)).

  (** Surface.cpp:1022-1052 *)
  Definition GetDominantAxis (vec : vec3 T) : AlignAxis * Z :=
    let max_abs := nmax (nmax (nabs (x3 vec)) (nabs (y3 vec))) (nabs (z3 vec)) in
    let axis := if neqb max_abs (nabs (x3 vec)) then XAxis
                else if neqb max_abs (nabs (y3 vec)) then YAxis else ZAxis in
    (axis, if ngeb (axis_value vec axis) n0 then 1 else -1).

  (** Surface.cpp:1093-1111 *)
  Definition transpose_net (g : grid (vec4 T)) : outcome (grid (vec4 T)) :=
    tg <- grid_uninit (VCount g) (UCount g) ;;
    tg <- for_up 0 (UCount g) (fun u tg =>
      for_up 0 (VCount g) (fun v tg =>
        p <- Grid_Get g u v ;; Grid_Set tg v u (Some p)) tg) tg ;;
    grid_freeze tg.
  (** [std::swap(grid.Get(u,v), grid.Get(u',v'))] *)
  Definition grid_swap (g : grid (vec4 T)) (u v u' v' : Z) : outcome (grid (vec4 T)) :=
    a <- Grid_Get g u v ;; b <- Grid_Get g u' v' ;;
    g <- Grid_Set g u v b ;; Grid_Set g u' v' a.
  (** Surface.cpp:1119-1126 *)
  Definition reverse_netU (g : grid (vec4 T)) : outcome (grid (vec4 T)) :=
    for_up 0 (VCount g) (fun v g =>
      for_up 0 (Z.quot (UCount g) 2) (fun u g => grid_swap g u v (UCount g - 1 - u) v) g) g.
  (** Surface.cpp:1135-1142 *)
  Definition reverse_netV (g : grid (vec4 T)) : outcome (grid (vec4 T)) :=
    for_up 0 (UCount g) (fun u g =>
      for_up 0 (Z.quot (VCount g) 2) (fun v g => grid_swap g u v u (VCount g - 1 - v)) g) g.

  (** Surface.cpp:1092-1146: carry out the decided operations. *)
  Definition align_apply (s : surface T) (need_swap reverse_u reverse_v : bool) : outcome (surface T) :=
    s <- (if need_swap then
            net <- transpose_net (Net s) ;;
            Ok (Surface (DegreeV s) (DegreeU s) (KnotsV s) (KnotsU s) net)
          else Ok s) ;;
    s <- (if reverse_u then
            net <- reverse_netU (Net s) ;;
            Ok (Surface (DegreeU s) (DegreeV s) (KnotVector_Reverse (KnotsU s)) (KnotsV s) net)
          else Ok s) ;;
    (if reverse_v then
       net <- reverse_netV (Net s) ;;
       Ok (Surface (DegreeU s) (DegreeV s) (KnotsU s) (KnotVector_Reverse (KnotsV s)) net)
     else Ok s).

  (** Surface.cpp:964-1056: current axes and signs of the u and v directions.
      [vectors] are the non-zero edge vectors with their two angles. *)
  Definition align_axes (major1 major2 : AlignAxis) (vectors : list (vec3 T * T * T))
    : outcome (AlignAxis * AlignAxis * Z * Z) :=
    if len vectors <? 4 then
      let '(c1, c2, du, dv) :=
        fold_left (fun '(c1, c2, du, dv) '(vec, angle1, angle2) =>
            if nltb angle1 angle2
            then (c1 + 1, c2, nadd du (axis_value vec major1), dv)
            else (c1, c2 + 1, du, nadd dv (axis_value vec major2))) vectors (0, 0, n0, n0) in
      let sgn x := if ngeb x n0 then 1 else -1 in
      if c2 <=? c1 then Ok (major1, major2, sgn du, sgn dv)
      else Ok (major2, major1, sgn dv, sgn du)
    else
      '(v0, _, _) <- vget vectors 0 ;;
      '(v1, _, _) <- vget vectors 1 ;;
      let '(ua, us) := GetDominantAxis v0 in
      let '(va, vs) := GetDominantAxis v1 in
      Ok (ua, va, us, vs).

  (** Surface.cpp:854-1147.  [acos_] is std::acos; [sort_] is std::sort of the
      three (extent, axis) pairs by decreasing extent (an external function
      modelled by its contract in the theorems). *)
  Definition Surface_AlignParameterDomain (acos_ : T -> T)
      (sort_ : list (T * AlignAxis) -> list (T * AlignAxis))
      (s : surface T) (u_axis v_axis : AlignAxis) : outcome (surface T) :=
    let g := Net s in
    if (UCount g <? 2) || (VCount g <? 2) then Ok s else
    let u_max := UCount g - 1 in
    let v_max := VCount g - 1 in
    p00 <- Grid_Get g 0 0 ;;
    p10 <- Grid_Get g u_max 0 ;;
    p01 <- Grid_Get g 0 v_max ;;
    p11 <- Grid_Get g u_max v_max ;;
    let S00 := head3 p00 in let S10 := head3 p10 in
    let S01 := head3 p01 in let S11 := head3 p11 in
    let ext := axis_extent S00 S10 S01 S11 in
    let extents := sort_ [(ext XAxis, XAxis); (ext YAxis, YAxis); (ext ZAxis, ZAxis)] in
    '(_, major1) <- vget extents 0 ;;
    '(_, major2) <- vget extents 1 ;;
    let compute_angle := fun vec axis =>
        n <- v3normalized vec ;;
        Ok (acos_ (nabs (v3dot n (axis_unit axis)))) in
    let add_vector_info := fun vectors vec =>
        if ngtb (v3norm vec) lit_1e_6 then
          a1 <- compute_angle vec major1 ;;
          a2 <- compute_angle vec major2 ;;
          Ok (vectors ++ [(vec, a1, a2)])
        else Ok vectors in
    vectors <- foldM add_vector_info
                 [v3sub S10 S00; v3sub S01 S00; v3sub S11 S10; v3sub S11 S01] [] ;;
    match vectors with
    | [] => Ok s
    | _ =>
        '(cu, cv, u_sign, v_sign) <- align_axes major1 major2 vectors ;;
        (* lines 1059-1075 *)
        if negb (axis_eqb cu u_axis) then
          if axis_eqb cv u_axis && axis_eqb cu v_axis then
            (* swap: lines 1066-1068, then 1077-1090 with swapped values *)
            align_apply s true (axis_eqb cv u_axis && (v_sign <? 0)) (axis_eqb cu v_axis && (u_sign <? 0))
          else Ok s
        else
          align_apply s false (axis_eqb cu u_axis && (u_sign <? 0)) (axis_eqb cv v_axis && (v_sign <? 0))
    end.

  (** * GeomRect.cpp:7-33.  [RightTopPoint] is a member but never read. *)
  Definition GeomRect_GetSurface (degU degV cntU cntV : Z)
      (LeftBottom RightBottom LeftTop RightTop : vec3 T) : outcome (surface T) :=
    assert_ (1 <=? degU) ;;;
    assert_ (1 <=? degV) ;;;
    assert_ (degU + 1 <=? cntU) ;;;
    assert_ (degV + 1 <=? cntV) ;;;
    ku <- KnotVector_Uniform degU (cntU + degU + 1) ;;
    kv <- KnotVector_Uniform degV (cntV + degV + 1) ;;
    net <- grid_uninit cntU cntV ;;
    k1 <- v3div (v3sub RightBottom LeftBottom) (nofZ (cntU - 1)) ;;
    k2 <- v3div (v3sub LeftTop LeftBottom) (nofZ (cntV - 1)) ;;
    net <- for_up 0 cntV (fun j net =>
      for_up 0 cntU (fun i net =>
        let h := v3add (v3add LeftBottom (v3scale (nofZ i) k1)) (v3scale (nofZ j) k2) in
        Grid_Set net i j (Some (Vec4 (x3 h) (y3 h) (z3 h) n1))) net) net ;;
    net <- grid_freeze net ;;
    Ok (Surface degU degV ku kv net).
End SurfaceModel.
