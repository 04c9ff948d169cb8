(** Tests, not proofs.  The expectations of the library's own unit tests
    (UnitTest/*.cpp, read as text) are evaluated on the binary64 instance of the
    model.  They check the transcription of the code, nothing more: no property
    relies on this file.  Every number is the decimal literal of the test source,
    rounded to the nearest double.  Not transcribed: the two bulk loading tests
    with 1000 and 2500 generated control points.  The slower tests store only the
    value the virtual machine found ([..._run]), so that rechecking the compiled file
    does not evaluate them again. *)
From Coq Require Import ZArith List Bool SpecFloat String Ascii.
From Verif Require Import Outcome Num ModelCore ModelBasis ModelAlgo ModelCurve ModelSurface ModelSerial.
Import ListNotations.
Open Scope string_scope.
Open Scope Z_scope.

(** ** Harness *)
Definition d (s : string) : b64 :=
  match parse_double (str s) with Some (f, []) => f | _ => S754_nan end.
Definition ds (l : list string) : list b64 := map d l.
Definition v3 (x y z : string) : vec3 b64 := Vec3 (d x) (d y) (d z).
Definition v4 (x y z w : string) : vec4 b64 := Vec4 (d x) (d y) (d z) (d w).
(** Catch::Approx: a margin of 0, or 100 times the epsilon of float, relative to the
    expected value. *)
Definition marg (a b m : b64) : bool := ngeb (nadd a m) b && ngeb (nadd b m) a.
Definition FLT_EPS100 : b64 := d "1.1920928955078125e-05".
Definition approx_eps (eps a e : b64) : bool := marg e a n0 || marg e a (nmul eps (nabs e)).
Definition approx : b64 -> b64 -> bool := approx_eps FLT_EPS100.
Definition approx3 (a b : vec3 b64) : bool :=
  approx (x3 a) (x3 b) && approx (y3 a) (y3 b) && approx (z3 a) (z3 b).
Definition eq3 (a b : vec3 b64) : bool := neqb (x3 a) (x3 b) && neqb (y3 a) (y3 b) && neqb (z3 a) (z3 b).
Definition eq4 (a b : vec4 b64) : bool := eq3 (head3 a) (head3 b) && neqb (w4 a) (w4 b).
Definition holds {A} (o : outcome A) (P : A -> bool) : bool := match o with Ok a => P a | _ => false end.
Definition approx_o (o : outcome b64) (s : string) : bool := holds o (fun x => approx x (d s)).
Definition approx3_o (o : outcome (vec3 b64)) (x y z : string) : bool := holds o (fun a => approx3 a (v3 x y z)).
Definition below (x : b64) (s : string) : bool := nltb (nabs x) (d s).
Definition near (x y : b64) (s : string) : bool := nltb (nabs (nsub x y)) (d s).

(** ** MathUnitTest.cpp *)
Example factorial : map Factorial [0; 1; 2; 3; 4; 5; 6; 7; 8; 9] =
  map Ok [1; 1; 2; 6; 24; 120; 720; 5040; 40320; 362880].
Proof. vm_compute. reflexivity. Qed.

(** ** GridUnitTest.cpp *)
Definition g9 : grid Z := Grid 3 3 [0; 3; 6; 1; 4; 7; 2; 5; 8].
Definition cell (g : outcome (grid Z)) u v : outcome Z := g <- g ;; Grid_Get g u v.
Example grid_fill : map (fun '(i, j) => Grid_Get g9 i j)
   [(0,0); (0,1); (0,2); (1,0); (1,1); (1,2); (2,0); (2,1); (2,2)] = map Ok [0; 1; 2; 3; 4; 5; 6; 7; 8].
Proof. vm_compute. reflexivity. Qed.
Example grid_insertV : let g := Grid_InsertV g9 2 (-1) in
  (cell g 0 2, cell g 1 2, cell g 2 2, cell g 0 0, cell g 1 1) = (Ok (-1), Ok (-1), Ok (-1), Ok 0, Ok 4).
Proof. vm_compute. reflexivity. Qed.
Example grid_insertU : let g := Grid_InsertU 77 g9 2 (-2) in
  (cell g 2 0, cell g 2 1, cell g 2 2, cell g 0 0, cell g 1 1) = (Ok (-2), Ok (-2), Ok (-2), Ok 0, Ok 4).
Proof. vm_compute. reflexivity. Qed.
Example grid_insertVU : let g := g <- Grid_InsertV g9 2 (-1) ;; Grid_InsertU 77 g 2 (-2) in
  (cell g 2 0, cell g 2 1, cell g 2 2, cell g 0 0, cell g 1 1) = (Ok (-2), Ok (-2), Ok (-2), Ok 0, Ok 4).
Proof. vm_compute. reflexivity. Qed.
Example grid_get : (Grid_GetU g9 1, Grid_GetV g9 1) = (Ok [3; 4; 5], Ok [1; 4; 7]).
Proof. vm_compute. reflexivity. Qed.
Example grid_set : ((g <- Grid_SetU g9 1 [-1; -2; -3] ;; Grid_GetU g 1), (g <- Grid_SetV g9 1 [-1; -2; -3] ;; Grid_GetV g 1)) =
  (Ok [-1; -2; -3], Ok [-1; -2; -3]).
Proof. vm_compute. reflexivity. Qed.

(** ** KnotVectorUnitTest.cpp *)
Definition kv6 := ds ["0.0"; "0.0"; "0.0"; "1.0"; "1.0"; "1.0"].
Definition kv7 := ds ["0.0"; "0.0"; "0.0"; "0.5"; "1.0"; "1.0"; "1.0"].
Definition kv4 := ds ["0.0"; "0.0"; "1.0"; "1.0"].
Definition no_throw {A} (o : outcome A) : bool := holds o (fun _ => true).
Definition invalid_arg {A} (o : outcome A) : bool := match o with Throw InvalidArgument => true | _ => false end.
Example knots_constructor :
  no_throw (KnotVector_make kv6) && no_throw (KnotVector_make kv7) && no_throw (KnotVector_make (ds ["0.0"; "1.0"])) &&
  no_throw (KnotVector_make kv4) &&
  invalid_arg (KnotVector_make (ds ["0.0"; "0.0"; "1.0"; "2.0"])) &&
  invalid_arg (KnotVector_make (ds ["0.0"; "0.0"; "2.0"; "1.0"])) = true.
Proof. vm_compute. reflexivity. Qed.
Fixpoint pairs_are (eq : b64 -> b64 -> bool) (l : list (knotpair b64)) (e : list (string * Z)) : bool :=
  match l, e with
  | [], [] => true
  | k :: l, (s, m) :: e => eq (kp_Value k) (d s) && (kp_Multiplicity k =? m) && pairs_are eq l e
  | _, _ => false
  end.
Example knots_uniform : holds (KnotVector_Uniform 3 10) (fun k => (len k =? 10) && KnotVector_IsUniform k &&
  pairs_are approx (KnotVector_GetKnotPairs k) [("0.0", 4); ("0.33333333333", 1); ("0.66666666666", 1); ("1.0", 4)]%string) = true.
Proof. vm_compute. reflexivity. Qed.
Example knots_isuniform : (KnotVector_IsUniform kv7, KnotVector_IsUniform kv6,
  KnotVector_IsUniform (ds ["0.0"; "0.0"; "0.0"; "0.1"; "0.3"; "1.0"; "1.0"; "1.0"])) = (true, true, false).
Proof. vm_compute. reflexivity. Qed.
Example knots_pairs : pairs_are neqb (KnotVector_GetKnotPairs kv7) [("0.0", 3); ("0.5", 1); ("1.0", 3)]%string = true.
Proof. vm_compute. reflexivity. Qed.
Example knots_span :
  map (KnotVector_FindSpanIndex (ds ["0.0"; "0.0"; "0.0"; "0.3"; "0.5"; "0.75"; "1.0"; "1.0"; "1.0"]) 2)
      (ds ["0.0"; "0.1"; "0.2"; "0.3"; "0.4"; "0.5"; "0.6"; "0.7"; "0.8"; "0.9"; "1.0"]) =
  map Ok [2; 2; 2; 3; 3; 4; 4; 4; 5; 5; 5].
Proof. vm_compute. reflexivity. Qed.
Example knots_span2 :
  map (KnotVector_FindSpanIndex (ds ["0.0"; "0.0"; "0.0"; "0.3"; "0.5"; "0.5"; "0.75"; "1.0"; "1.0"; "1.0"]) 2)
      (ds ["0.0"; "0.1"; "0.2"; "0.3"; "0.4"; "0.5"; "0.6"; "0.7"; "0.8"; "0.9"; "1.0"]) =
  map Ok [2; 2; 2; 3; 3; 5; 5; 5; 6; 6; 6].
Proof. vm_compute. reflexivity. Qed.
Definition insert_test (l : list b64) (x : string) (span : Z) (e : list (string * Z)) : bool :=
  holds (KnotVector_InsertKnot l (d x) 1) (fun '(k, i) =>
    (i =? span) && KnotVector_IsValid k && pairs_are neqb (KnotVector_GetKnotPairs k) e).
Example knots_insert :
  insert_test kv6 "0.5" 2 [("0.0", 3); ("0.5", 1); ("1.0", 3)] &&
  insert_test kv7 "0.5" 3 [("0.0", 3); ("0.5", 2); ("1.0", 3)] &&
  insert_test kv7 "0.6" 3 [("0.0", 3); ("0.5", 1); ("0.6", 1); ("1.0", 3)] &&
  insert_test (ds ["0.0"; "0.0"; "0.0"; "0.5"; "0.5"; "1.0"; "1.0"; "1.0"]) "0.3" 2
    [("0.0", 3); ("0.3", 1); ("0.5", 2); ("1.0", 3)] = true.
Proof. vm_compute. reflexivity. Qed.

(** ** BSplineBasisUnitTest.cpp *)
Definition basis_test x (e : list string) : bool :=
  holds (Basis_Evaluate_kv 2 kv7 (d x)) (fun l => (len l =? len e) && forallb (fun '(a, b) => approx a (d b)) (combine l e)).
Example basis_evaluate :
  basis_test "0.0" ["1.0"; "0.0"; "0.0"] && basis_test "1.0" ["0.0"; "0.0"; "1.0"] && basis_test "0.5" ["0.5"; "0.5"; "0.0"] = true.
Proof. vm_compute. reflexivity. Qed.
(** Two Gauss points; the entries of the element stiffness matrix.  The expected
    zeros (1,2) and (2,1) are compared as in the source, with no tolerance. *)
Definition gauss : outcome (list (list b64)) :=
  x1 <- ndiv (d "-1.0") (nsqrt (d "3")) ;;
  let conv x := nadd (nmul (d "0.25") x) (d "0.25") in
  a <- Basis_EvaluateDerivative_kv 2 kv7 (conv x1) 1 ;;
  b <- Basis_EvaluateDerivative_kv 2 kv7 (conv (nopp x1)) 1 ;;
  mapM (fun i => mapM (fun j =>
    ai <- vget a i ;; aj <- vget a j ;; bi <- vget b i ;; bj <- vget b j ;;
    ndiv (nadd (nmul ai aj) (nmul bi bj)) (d "8.0")) [0; 1; 2]) [0; 1; 2].
Definition gauss_expected : list (list string) :=
  [["1.333333"; "-1"; "-0.333333"]; ["-1"; "1"; "0"]; ["-0.333333"; "0"; "0.333333"]]%string.
Example basis_derivative : holds gauss (fun m => forallb (fun '(r, e) =>
  forallb (fun '(a, b) => approx a (d b)) (combine r e)) (combine m gauss_expected)) = true.
Proof. vm_compute. reflexivity. Qed.

(** ** GeomSegmentUnitTest.cpp, GeomRectUnitTest.cpp *)
Example segment : holds (GeomSegment_GetCurve 1 2 (v3 "0" "0" "0") (v3 "10" "10" "10")) (fun c =>
  (Degree c =? 1) && (len (ControlPoints c) =? 2) && (len (Knots c) =? 4) &&
  holds (Curve_Evaluate c (d "0.0")) (fun p => eq3 p (v3 "0" "0" "0")) &&
  holds (Curve_Evaluate c (d "1.0")) (fun p => eq3 p (v3 "10" "10" "10"))) = true.
Proof. vm_compute. reflexivity. Qed.
Definition rect_corners (s : surface b64) (lb rb lt rt : vec3 b64) : bool :=
  holds (Surface_Evaluate s (d "0.0") (d "0.0")) (eq3 lb) && holds (Surface_Evaluate s (d "1.0") (d "0.0")) (eq3 rb) &&
  holds (Surface_Evaluate s (d "0.0") (d "1.0")) (eq3 lt) && holds (Surface_Evaluate s (d "1.0") (d "1.0")) (eq3 rt).
Definition unit_rect degU degV cu cv :=
  GeomRect_GetSurface degU degV cu cv (v3 "0" "0" "0") (v3 "1" "0" "0") (v3 "0" "1" "0") (v3 "1" "1" "0").
Definition rect_test degU degV cu cv : bool := holds (unit_rect degU degV cu cv) (fun s =>
  (DegreeU s =? degU) && (DegreeV s =? degV) && (len (KnotsU s) =? cu + degU + 1) && (len (KnotsV s) =? cv + degV + 1) &&
  holds (Grid_Count (Net s)) (fun n => n =? cu * cv) &&
  rect_corners s (v3 "0" "0" "0") (v3 "1" "0" "0") (v3 "0" "1" "0") (v3 "1" "1" "0")).
Example rect_surface : rect_test 1 1 2 2 && rect_test 1 2 3 4 = true.
Proof. vm_compute. reflexivity. Qed.
Definition div3 (s : string) : b64 := match ndiv (d s) (d "3") with Ok x => x | _ => S754_nan end.
Example rect_points : holds (unit_rect 1 2 3 4) (fun s =>
  let row i x := forallb (fun '(j, y) => holds (Grid_Get (Net s) i j) (eq4 (Vec4 (d x) y n0 n1)))
      [(0, d "0"); (1, div3 "1.0"); (2, div3 "2.0"); (3, d "1.0")] in
  row 0 "0"%string && row 1 "0.5"%string && row 2 "1.0"%string) = true.
Proof. vm_compute. reflexivity. Qed.

(** ** CurveUnitTest.cpp *)
Definition c2 : curve b64 := Curve 2 kv6 [v4 "0" "0" "0" "1"; v4 "1" "0" "0" "1"; v4 "1" "1" "0" "1"].
Definition c3 : curve b64 := Curve 3 (ds ["0"; "0"; "0"; "0"; "0.23"; "0.67"; "1"; "1"; "1"; "1"])
  [v4 "0" "0" "0" "1"; v4 "1" "0" "0" "1"; v4 "1" "1" "0" "1"; v4 "2" "1" "0" "1"; v4 "2" "-2" "0" "1"; v4 "0" "-3" "0" "1"].
Definition arc : curve b64 := Curve 2 kv6 [v4 "0" "1" "0" "2"; v4 "1" "1" "0" "1"; v4 "1" "0" "0" "1"].
Definition ev (c : curve b64) x px py : bool := approx3_o (Curve_Evaluate c (d x)) px py "0.0".
Example curve_evaluate_p2 :
  ev c2 "0.0" "0.0" "0.0" && ev c2 "1.0" "1.0" "1.0" && ev c2 "0.5" "0.75" "0.25" && ev c2 "0.3" "0.51" "0.09" &&
  ev c2 "0.678" "0.896316" "0.459684" = true.
Proof. vm_compute. reflexivity. Qed.
Example curve_evaluate_p3 :
  ev c3 "0.0" "0.0" "0.0" && ev c3 "1.0" "0.0" "-3.0" && ev c3 "0.123" "0.911390003336650" "0.224002988190835" &&
  ev c3 "0.345" "1.24695646619324" "0.808711157707757" && ev c3 "0.5" "1.55856931399672" "0.748777149009726" &&
  ev c3 "0.789" "1.86924650801601" "-0.950119518113616" && ev c3 "0.987" "0.227165964922742" "-2.88053915042935" = true.
Proof. vm_compute. reflexivity. Qed.
Example curve_evaluate_arc :
  ev arc "0.0" "0.0" "1.0" && ev arc "1.0" "1.0" "0.0" && ev arc "0.123" "0.130499810923907" "0.991448334180266" &&
  ev arc "0.345" "0.399555641083956" "0.916708944909991" && ev arc "0.5" "0.600000000000000" "0.800000000000000" &&
  ev arc "0.789" "0.914753269680552" "0.404012939902596" && ev arc "0.987" "0.999662057112348" "0.0259956067424605" = true.
Proof. vm_compute. reflexivity. Qed.
Example curve_derivative :
  approx3_o (Curve_EvaluateDerivative (Curve 2 kv6 [v4 "-1" "0" "0" "1"; v4 "1" "1" "0" "1"; v4 "1" "0" "0" "1"]) (d "0.5") 1)
    "2.0" "0.0" "0.0" = true.
Proof. vm_compute. reflexivity. Qed.
Definition c4 : curve b64 := Curve 4 (ds ["0.0"; "0.0"; "0.0"; "0.0"; "0.0"; "0.333"; "0.667"; "1.0"; "1.0"; "1.0"; "1.0"; "1.0"])
  (map (fun x => v4 x "0" "0" "1") ["0.00"; "0.25"; "0.50"; "1.00"; "1.50"; "1.75"; "2.00"]%string).
Example curve_derivative2 :
  approx3_o (Curve_EvaluateDerivative c4 (d "0.0") 2) "-13.547321" "0.0" "0.0" &&
  approx3_o (Curve_EvaluateDerivative c4 (d "0.3050847") 2) "1.197402021" "0.0" "0.0" &&
  approx3_o (Curve_EvaluateDerivative c4 (d "0.5084745763") 2) "-0.057231905282" "0.0" "0.0" = true.
Proof. vm_compute. reflexivity. Qed.
Definition half_sqrt2 : b64 := match ndiv (nsqrt (d "2.0")) (d "2.0") with Ok x => x | _ => S754_nan end.
Definition circle : curve b64 := Curve 2
  (ds ["0"; "0"; "0"; "0.25"; "0.25"; "0.5"; "0.5"; "0.75"; "0.75"; "1"; "1"; "1"])
  (map (fun '(x, y, b) => Vec4 (d x) (d y) n0 (if b : bool then half_sqrt2 else n1))
     [("1", "0", false); ("1", "1", true); ("0", "1", false); ("-1", "1", true); ("-1", "0", false);
      ("-1", "-1", true); ("0", "-1", false); ("1", "-1", true); ("1", "0", false)]%string).
Example circle_derivative :
  approx3_o (Curve_EvaluateDerivative circle (d "0.0") 1) "0.0" "5.6568542495" "0.0" &&
  approx3_o (Curve_EvaluateDerivative circle (d "0.5") 1) "0.0" "-5.6568542495" "0.0" = true.
Proof. vm_compute. reflexivity. Qed.

Definition search c p := Curve_SearchParameter 600 c p (d "0.5") (d "1e-8") (d "512").
Definition binary c p := Curve_BinarySearchParameter c p (d "1e-8") 512.
Definition curve_search_run : bool := Eval vm_compute in (approx_o (search c2 (v3 "0" "0" "0")) "0.0" && approx_o (search c2 (v3 "1" "1" "0")) "1.0" &&
  approx_o (search c2 (v3 "0.75" "0.25" "0")) "0.5" && approx_o (search c2 (v3 "0.51" "0.09" "0")) "0.3" &&
  approx_o (search c2 (v3 "0.896316" "0.459684" "0")) "0.678" &&
  approx_o (p <- Curve_Evaluate c2 (d "0.00123") ;; search c2 p) "0.00123" &&
  holds (p <- Curve_Evaluate c2 (d "1e-15") ;; Curve_SearchParameter 600 c2 p (d "0") (d "1e-15") (d "512"))
    (fun u => near u (d "1e-15") "1e-2")).
Example curve_search : curve_search_run = true. Proof. reflexivity. Qed.
Definition curve_binary_run : bool := Eval vm_compute in (holds (binary c2 (v3 "0" "0" "0")) (fun u => below u "1e-20") && approx_o (binary c2 (v3 "1" "1" "0")) "1.0" &&
  approx_o (binary c2 (v3 "0.75" "0.25" "0")) "0.5" && approx_o (binary c2 (v3 "0.51" "0.09" "0")) "0.3" &&
  approx_o (binary c2 (v3 "0.896316" "0.459684" "0")) "0.678" &&
  approx_o (p <- Curve_Evaluate c2 (d "0.00123") ;; binary c2 p) "0.00123" &&
  holds (p <- Curve_Evaluate c2 (d "1e-15") ;; binary c2 p) (fun u => near u (d "1e-15") "1e-2")).
Example curve_binary : curve_binary_run = true. Proof. reflexivity. Qed.
Definition curve_binary_arc_run : bool := Eval vm_compute in (holds (p <- Curve_Evaluate arc (d "0.0") ;; binary arc p) (fun u => below u "1e-20") &&
  forallb (fun x => approx_o (p <- Curve_Evaluate arc (d x) ;; binary arc p) x)
    ["1.0"; "0.5"; "0.3"; "0.678"; "0.00123"]%string &&
  holds (p <- Curve_Evaluate arc (d "1e-15") ;; binary arc p) (fun u => near u (d "1e-15") "1e-2")).
Example curve_binary_arc : curve_binary_arc_run = true. Proof. reflexivity. Qed.

Definition xs12 := ds ["0.0"; "0.1"; "0.2"; "0.3"; "0.4"; "0.5"; "0.55"; "0.6"; "0.7"; "0.8"; "0.9"; "1.0"].
Definition ks10 := ds ["0.1"; "0.2"; "0.3"; "0.4"; "0.5"; "0.55"; "0.6"; "0.7"; "0.8"; "0.9"].
Definition same_curve (c c' : curve b64) : bool :=
  forallb (fun x => holds (Curve_Evaluate c x) (fun a => holds (Curve_Evaluate c' x) (fun b => approx3 a b))) xs12.
Definition same_o (c : curve b64) (o : outcome (curve b64)) : bool := holds o (same_curve c).
Definition curve_insert_run : bool := Eval vm_compute in (forallb (fun k => same_o c2 (Curve_InsertKnot c2 k)) ks10).
Example curve_insert : curve_insert_run = true. Proof. reflexivity. Qed.
Definition curve_insert2_run : bool := Eval vm_compute in (forallb (fun k => same_o circle (Curve_InsertKnot circle k)) ks10).
Example curve_insert2 : curve_insert2_run = true. Proof. reflexivity. Qed.
Definition curve_insert3_run : bool := Eval vm_compute in (forallb (fun k2 => forallb (fun k1 =>
  same_o circle (c <- Curve_InsertKnot circle k1 ;; Curve_InsertKnot c k2)) ks10) ks10).
Example curve_insert3 : curve_insert3_run = true. Proof. reflexivity. Qed.
Definition curve_insert_list_run : bool := Eval vm_compute in (forallb (fun l => same_o circle (Curve_InsertKnot_list circle (ds l)))
  [["0.2"; "0.8"]; ["0.2"; "0.2"]; ["0.2"; "0.2"; "0.2"]]%string).
Example curve_insert_list : curve_insert_list_run = true. Proof. reflexivity. Qed.
Example curve_insert_times : same_o circle (Curve_InsertKnot_times circle (d "0.2") 3) = true.
Proof. vm_compute. reflexivity. Qed.
Definition curve_remove_run : bool := Eval vm_compute in (holds (Curve_InsertKnot_times circle (d "0.2") 2) (fun c => same_curve circle c &&
  holds (Curve_RemoveKnot c (d "0.2") 1 (d "1e-12")) (fun '(r, t) => (t =? 1) && same_curve r c))).
Example curve_remove : curve_remove_run = true. Proof. reflexivity. Qed.
Example curve_elevate : same_o circle (Curve_ElevateDegree circle 1) = true.
Proof. vm_compute. reflexivity. Qed.

(** Loading.  The model keeps the class of the exception, not its message. *)
Definition curve_loads (s : string) (P : curve dbl -> bool) : bool :=
  match Curve_LoadFromFile Curve_default (str s) with (c, Ok _) => P c | _ => false end.
Definition curve_throws (s : string) : bool :=
  match Curve_LoadFromFile Curve_default (str s) with (_, Throw RuntimeError) => true | _ => false end.
Example curve_load_valid_txt_input :
  curve_loads "LIBNURBS TXT CURVE
*Degree: 3
*Knots:
0,0,0,1,2,3,4,4,4
*ControlPoints:
1.0 2.0 3.0 1.0,
4.0 5.0 6.0 1.0,
7.0 8.0 9.0 1.0,
" (fun c => (Degree c =? 3) && (len (Knots c) =? 9) && (len (ControlPoints c) =? 3)) = true.
Proof. vm_compute. reflexivity. Qed.
Example curve_load_missing_header : curve_throws "
*Degree: 3
*Knots:
0,0,0,1,2,3,4,4,4
*ControlPoints:
1.0 2.0 3.0 1.0,
4.0 5.0 6.0 1.0,
7.0 8.0 9.0 1.0,
" = true.
Proof. vm_compute. reflexivity. Qed.
Example curve_load_invalid_magic_number : curve_throws "INVALIDMAGIC TXT CURVE
*Degree: 3
*Knots:
0,0,0,1,2,3,4,4,4
*ControlPoints:
1.0 2.0 3.0 1.0,
4.0 5.0 6.0 1.0,
7.0 8.0 9.0 1.0,
" = true.
Proof. vm_compute. reflexivity. Qed.
Example curve_load_unknown_serialization_mode : curve_throws "LIBNURBS UNKNOWN CURVE
*Degree: 3
*Knots:
0,0,0,1,2,3,4,4,4
*ControlPoints:
1.0 2.0 3.0 1.0,
4.0 5.0 6.0 1.0,
7.0 8.0 9.0 1.0,
" = true.
Proof. vm_compute. reflexivity. Qed.
Example curve_load_type_mismatch : curve_throws "LIBNURBS TXT SURFACE
*Degree: 3
*Knots:
0,0,0,1,2,3,4,4,4
*ControlPoints:
1.0 2.0 3.0 1.0,
4.0 5.0 6.0 1.0,
7.0 8.0 9.0 1.0,
" = true.
Proof. vm_compute. reflexivity. Qed.
Example curve_load_invalid_degree_value : curve_throws "LIBNURBS TXT CURVE
*Degree: invalid
*Knots:
0,0,0,1,2,3,4,4,4
*ControlPoints:
1.0 2.0 3.0 1.0,
4.0 5.0 6.0 1.0,
" = true.
Proof. vm_compute. reflexivity. Qed.
Example curve_load_invalid_knot_values : curve_throws "LIBNURBS TXT CURVE
*Degree: 3
*Knots:
0,0,invalid,1,2,3,4,4,4
*ControlPoints:
1.0 2.0 3.0 1.0,
4.0 5.0 6.0 1.0,
" = true.
Proof. vm_compute. reflexivity. Qed.
Example curve_load_invalid_control_point_data : curve_throws "LIBNURBS TXT CURVE
*Degree: 3
*Knots:
0,0,0,1,2,3,4,4,4
*ControlPoints:
1.0 2.0 invalid 1.0,
4.0 5.0 6.0 1.0,
" = true.
Proof. vm_compute. reflexivity. Qed.
Example curve_load_extra_spaces_and_formatting :
  curve_loads "LIBNURBS     TXT    CURVE

    *Degree:   3

    *Knots:
    0,  0,0,   1,   2,3, 4,4,4

    *ControlPoints:
    1.0 2.0 3.0 1.0  ,
    4.0    5.0 6.0 1.0 ,
    7.0 8.0 9.0 1.0,
" (fun c => (Degree c =? 3) && (len (Knots c) =? 9) && (len (ControlPoints c) =? 3)) = true.
Proof. vm_compute. reflexivity. Qed.
Example curve_load_missing_key : curve_throws "LIBNURBS TXT CURVE
3
*Knots:
0,0,0,1,2,3,4,4,4
*ControlPoints:
1.0 2.0 3.0 1.0,
" = true.
Proof. vm_compute. reflexivity. Qed.
Example curve_load_binary_mode_not_implemented : curve_throws "LIBNURBS BIN CURVE
" = true.
Proof. vm_compute. reflexivity. Qed.
Example curve_load_control_points_with_missing_components : curve_throws "LIBNURBS TXT CURVE
*Degree: 3
*Knots:
0,0,0,1,2,3,4,4,4
*ControlPoints:
1.0 2.0 1.0,
4.0 5.0 6.0 1.0,
" = true.
Proof. vm_compute. reflexivity. Qed.
Example curve_load_multiple_degree_entries : curve_throws "LIBNURBS TXT CURVE
*Degree:
3
4
*Knots:
0,0,0,1,2,3,4,4,4
*ControlPoints:
1.0 2.0 3.0 1.0,
" = true.
Proof. vm_compute. reflexivity. Qed.
Example curve_load_unrecognized_key : curve_throws "LIBNURBS TXT CURVE
*Degree: 3
*UnknownKey:
SomeValue
*Knots:
0,0,0,1,2,3,4,4,4
*ControlPoints:
1.0 2.0 3.0 1.0,
" = true.
Proof. vm_compute. reflexivity. Qed.
Example curve_load_values_spanning_multiple_lines :
  curve_loads "LIBNURBS TXT CURVE
*Degree:
3
*Knots:
0,0,0,
1,2,3,
4,4,4
*ControlPoints:
1.0 2.0 3.0 1.0,
4.0 5.0 6.0 1.0,
7.0 8.0 9.0 1.0,
" (fun c => (Degree c =? 3) && (len (Knots c) =? 9) && (len (ControlPoints c) =? 3)) = true.
Proof. vm_compute. reflexivity. Qed.
Example curve_load_non_numeric_knot_values : curve_throws "LIBNURBS TXT CURVE
*Degree: 3
*Knots:
0,0,0,abc,2,3,4,4,4
*ControlPoints:
1.0 2.0 3.0 1.0,
" = true.
Proof. vm_compute. reflexivity. Qed.
Example curve_load_missing_colon_in_key : curve_throws "LIBNURBS TXT CURVE
*Degree
3
*Knots
0,0,0,1,2,3,4,4,4
*ControlPoints
1.0 2.0 3.0 1.0,
" = true.
Proof. vm_compute. reflexivity. Qed.
Example curve_load_empty_file : curve_throws "" = true.
Proof. vm_compute. reflexivity. Qed.
Definition db (s : string) : dbl := dbl_of_value (d s).
Definition p4 (x y z w : string) : vec4 dbl := Vec4 (db x) (db y) (db z) (db w).
Definition saved : curve dbl := Curve 3 (map db ["0"; "0"; "0"; "1"; "2"; "3"; "4"; "4"; "4"]%string)
  [p4 "1.0" "2.0" "3.0" "1.0"; p4 "4.0" "5.0" "6.0" "1.0"; p4 "7.0" "8.0" "9.0" "1.0"].
Example curve_round_trip : forall b : bool,
  Curve_LoadFromFile Curve_default (Curve_SaveToFile saved b) = (saved, Ok tt).
Proof. destruct b; vm_compute; reflexivity. Qed.

(** ** SurfaceUnitTest.cpp *)
Definition quarter : surface b64 := Surface 2 1 kv6 kv4 (Grid 3 2
  [v4 "1" "0" "0" "1"; v4 "1" "1" "0" "1"; v4 "0" "1" "0" "2"; v4 "1" "0" "1" "1"; v4 "1" "1" "1" "1"; v4 "0" "1" "1" "2"]).
Example surface_evaluate : approx3_o (Surface_Evaluate quarter (d "0.5") (d "0.5")) "0.6" "0.8" "0.5" = true.
Proof. vm_compute. reflexivity. Qed.
Definition sd u v i j x y z : bool := approx3_o (Surface_EvaluateDerivative quarter (d u) (d v) i j) x y z.
Example surface_derivative :
  sd "0.0" "0.0" 1 0 "0.0" "2.0" "0.0" && sd "0.0" "0.0" 0 1 "0.0" "0.0" "1.0" && sd "0.0" "0.0" 1 1 "0.0" "0.0" "0.0" &&
  sd "0.5" "0.5" 1 0 "-1.28" "0.96" "0.0" && sd "0.5" "0.5" 0 1 "0.0" "0.0" "1.0" &&
  sd "1.0" "1.0" 1 0 "-1.0" "0.0" "0.0" && sd "1.0" "1.0" 0 1 "0.0" "0.0" "1.0" = true.
Proof. vm_compute. reflexivity. Qed.
Definition ssearch s p := Surface_SearchParameter 600 s p (d "0.5") (d "0.5") (d "1e-8") (d "512").
Definition is_uv (o : outcome (b64 * b64)) (u v : string) : bool := holds o (fun '(a, b) => approx a (d u) && approx b (d v)).
Definition at_uv (s : surface b64) u v (f : vec3 b64 -> outcome (b64 * b64)) : outcome (b64 * b64) :=
  p <- Surface_Evaluate s (d u) (d v) ;; f p.
Definition surface_search_run : bool := Eval vm_compute in (is_uv (ssearch quarter (v3 "1.0" "0.0" "0.0")) "0.0" "0.0" && is_uv (ssearch quarter (v3 "0.0" "1.0" "1.0")) "1.0" "1.0" &&
  is_uv (ssearch quarter (v3 "0.6" "0.8" "0.5")) "0.5" "0.5" &&
  is_uv (at_uv quarter "0.00123" "0.123" (ssearch quarter)) "0.00123" "0.123" &&
  is_uv (at_uv quarter "0.00123" "0.999" (ssearch quarter)) "0.00123" "0.999").
Example surface_search : surface_search_run = true. Proof. reflexivity. Qed.
Definition rect1 du dv cu cv := GeomRect_GetSurface du dv cu cv (v3 "0" "0" "0") (v3 "1" "0" "0") (v3 "0" "2" "0") (v3 "1" "2" "0").
Definition rect2 du dv cu cv := GeomRect_GetSurface du dv cu cv (v3 "1" "0" "0") (v3 "2.0" "0" "0") (v3 "1" "2" "0") (v3 "2" "2" "0").
Definition edge_search deg n v iu iv : bool :=
  holds (s1 <- rect1 deg deg n n ;; s2 <- rect2 deg deg n n ;;
         p <- Surface_Evaluate s1 (d "1") (d v) ;; Surface_SearchParameter 600 s2 p (d iu) (d iv) (d "1e-8") (d "512"))
    (fun '(xi, eta) => near xi (d "1e-18") "1e-16" && approx eta (d v)).
Definition surface_search2_run : bool := Eval vm_compute in (edge_search 3 5 "0.0123" "0.5" "0.5" && edge_search 3 5 "0.33499526089999998" "0.5" "0.5").
Example surface_search2 : surface_search2_run = true. Proof. reflexivity. Qed.
Definition surface_search3_run : bool := Eval vm_compute in (edge_search 4 10 "0.11166508696666666" "0" "0.11" && edge_search 4 10 "0.33499526089999998" "0" "0.33").
Example surface_search3 : surface_search3_run = true. Proof. reflexivity. Qed.
Definition surface_search4_run : bool := Eval vm_compute in (let v := d "0.58611363116000004" in
  holds (s1 <- rect1 4 4 8 9 ;; s2 <- rect2 4 4 9 10 ;; p <- Surface_Evaluate s1 (d "1") v ;;
         r <- Surface_SearchParameter 600 s2 p (d "0") v (d "1E-12") (d "512") ;;
         q <- Surface_Evaluate s2 (fst r) (snd r) ;; Ok (fst r, p, q))
    (fun '(xi, p, q) => near xi (d "1e-18") "1e-16" &&
       approx_eps (d "1e-10") (x3 p) (x3 q) && approx_eps (d "1e-10") (y3 p) (y3 q) && approx_eps (d "1e-10") (z3 p) (z3 q))).
Example surface_search4 : surface_search4_run = true. Proof. reflexivity. Qed.
Definition son dir k p := Surface_SearchParameterOn 600 quarter p dir (d k) (d "0.5") (d "1e-8") (d "512").
Definition surface_search_on_run : bool := Eval vm_compute in (is_uv (son 0 "0" (v3 "1.0" "0.0" "0.0")) "0.0" "0.0" && is_uv (son 1 "0" (v3 "1.0" "0.0" "0.0")) "0.0" "0.0" &&
  is_uv (son 0 "0.5" (v3 "0.6" "0.8" "0.5")) "0.5" "0.5" &&
  is_uv (at_uv quarter "0" "0.123" (son 0 "0")) "0" "0.123" && is_uv (at_uv quarter "0.123" "0" (son 1 "0")) "0.123" "0").
Example surface_search_on : surface_search_on_run = true. Proof. reflexivity. Qed.
Definition bon dir k p := Surface_BinarySearchParameterOn 600 quarter p dir (d k) (d "1e-8") (d "512").
Definition zero_uv (o : outcome (b64 * b64)) : bool := holds o (fun '(a, b) => below a "1e-20" && below b "1e-20").
Definition surface_binary_on_run : bool := Eval vm_compute in (zero_uv (bon 0 "0" (v3 "1.0" "0.0" "0.0")) && zero_uv (bon 1 "0" (v3 "1.0" "0.0" "0.0")) &&
  is_uv (bon 0 "0.5" (v3 "0.6" "0.8" "0.5")) "0.5" "0.5" &&
  is_uv (at_uv quarter "0" "0.123" (bon 0 "0")) "0" "0.123" && is_uv (at_uv quarter "0.123" "0" (bon 1 "0")) "0.123" "0" &&
  is_uv (at_uv quarter "0.123" "1" (bon 1 "1")) "0.123" "1").
Example surface_binary_on : surface_binary_on_run = true. Proof. reflexivity. Qed.
Definition blade : surface b64 := Surface 3 3
  (ds ["0"; "0"; "0"; "0"; "0.2"; "0.4"; "0.6"; "0.8"; "1"; "1"; "1"; "1"])
  (ds ["0"; "0"; "0"; "0"; "0.19999999999999998"; "0.39999999999999997"; "0.6"; "0.7999999999999999"; "1"; "1"; "1"; "1"])
  (Grid 8 8
  [ (Vec4 (d "-0.0294261835515e-3") (d "0.1506999969482") (d "0.0941875") (d "1"))
  ; (Vec4 (d "4.9402571349272e-6") (d "0.1521587224039") (d "0.0753500315527") (d "1"))
  ; (Vec4 (d "0.0576485078669e-3") (d "0.1517236898364") (d "0.0376750417598") (d "1"))
  ; (Vec4 (d "0.0481794104219e-3") (d "0.1514366598289") (d "-0.0188374776592") (d "1"))
  ; (Vec4 (d "0.0190505260041e-3") (d "0.1322965328062") (d "-0.075349982688") (d "1"))
  ; (Vec4 (d "0.2702707795319e-6") (d "0.0802878958362") (d "-0.131862495488") (d "1"))
  ; (Vec4 (d "-0.0189456996064e-3") (d "0.0311588038952") (d "-0.1695374986589") (d "1"))
  ; (Vec4 (d "-0.0292324908078e-3") (d "0") (d "-0.188375") (d "1"))
  ; (Vec4 (d "-0.0294261835515e-3") (d "0.1306066640218") (d "0.0941875") (d "1"))
  ; (Vec4 (d "4.9402571349265e-6") (d "0.13187089275") (d "0.0753500315527") (d "1"))
  ; (Vec4 (d "0.0576485078669e-3") (d "0.1314938645249") (d "0.0376750417598") (d "1"))
  ; (Vec4 (d "0.0481794104219e-3") (d "0.1312451051851") (d "-0.0188374776592") (d "1"))
  ; (Vec4 (d "0.0190505260041e-3") (d "0.1146569950987") (d "-0.075349982688") (d "1"))
  ; (Vec4 (d "0.2702707795315e-6") (d "0.0695828430581") (d "-0.131862495488") (d "1"))
  ; (Vec4 (d "-0.0189456996064e-3") (d "0.0270042967092") (d "-0.1695374986589") (d "1"))
  ; (Vec4 (d "-0.0292324908078e-3") (d "0") (d "-0.188375") (d "1"))
  ; (Vec4 (d "-0.0294261835515e-3") (d "0.0904199981689") (d "0.0941875") (d "1"))
  ; (Vec4 (d "4.9402571349249e-6") (d "0.0912952334423") (d "0.0753500315527") (d "1"))
  ; (Vec4 (d "0.0576485078669e-3") (d "0.0910342139019") (d "0.0376750417598") (d "1"))
  ; (Vec4 (d "0.0481794104219e-3") (d "0.0908619958974") (d "-0.0188374776592") (d "1"))
  ; (Vec4 (d "0.0190505260041e-3") (d "0.0793779196837") (d "-0.075349982688") (d "1"))
  ; (Vec4 (d "0.2702707795307e-6") (d "0.0481727375017") (d "-0.131862495488") (d "1"))
  ; (Vec4 (d "-0.0189456996064e-3") (d "0.0186952823371") (d "-0.1695374986589") (d "1"))
  ; (Vec4 (d "-0.0292324908078e-3") (d "0") (d "-0.188375") (d "1"))
  ; (Vec4 (d "-0.0294261835515e-3") (d "0.0301399993896") (d "0.0941875") (d "1"))
  ; (Vec4 (d "4.9402571349226e-6") (d "0.0304317444808") (d "0.0753500315527") (d "1"))
  ; (Vec4 (d "0.0576485078669e-3") (d "0.0303447379673") (d "0.0376750417598") (d "1"))
  ; (Vec4 (d "0.0481794104219e-3") (d "0.0302873319658") (d "-0.0188374776592") (d "1"))
  ; (Vec4 (d "0.0190505260041e-3") (d "0.0264593065612") (d "-0.075349982688") (d "1"))
  ; (Vec4 (d "0.2702707795295e-6") (d "0.0160575791672") (d "-0.131862495488") (d "1"))
  ; (Vec4 (d "-0.0189456996064e-3") (d "6.2317607790403e-3") (d "-0.1695374986589") (d "1"))
  ; (Vec4 (d "-0.0292324908078e-3") (d "0") (d "-0.188375") (d "1"))
  ; (Vec4 (d "-0.0294261835515e-3") (d "-0.0301399993896") (d "0.0941875") (d "1"))
  ; (Vec4 (d "4.9402571349203e-6") (d "-0.0304317444808") (d "0.0753500315527") (d "1"))
  ; (Vec4 (d "0.0576485078669e-3") (d "-0.0303447379673") (d "0.0376750417598") (d "1"))
  ; (Vec4 (d "0.0481794104219e-3") (d "-0.0302873319658") (d "-0.0188374776592") (d "1"))
  ; (Vec4 (d "0.0190505260041e-3") (d "-0.0264593065612") (d "-0.075349982688") (d "1"))
  ; (Vec4 (d "0.2702707795283e-6") (d "-0.0160575791672") (d "-0.131862495488") (d "1"))
  ; (Vec4 (d "-0.0189456996064e-3") (d "-6.2317607790402e-3") (d "-0.1695374986589") (d "1"))
  ; (Vec4 (d "-0.0292324908078e-3") (d "0") (d "-0.188375") (d "1"))
  ; (Vec4 (d "-0.0294261835515e-3") (d "-0.0904199981689") (d "0.0941875") (d "1"))
  ; (Vec4 (d "4.9402571349179e-6") (d "-0.0912952334423") (d "0.0753500315527") (d "1"))
  ; (Vec4 (d "0.0576485078669e-3") (d "-0.0910342139019") (d "0.0376750417598") (d "1"))
  ; (Vec4 (d "0.0481794104219e-3") (d "-0.0908619958974") (d "-0.0188374776592") (d "1"))
  ; (Vec4 (d "0.0190505260041e-3") (d "-0.0793779196837") (d "-0.075349982688") (d "1"))
  ; (Vec4 (d "0.270270779527e-6") (d "-0.0481727375017") (d "-0.131862495488") (d "1"))
  ; (Vec4 (d "-0.0189456996064e-3") (d "-0.0186952823371") (d "-0.1695374986589") (d "1"))
  ; (Vec4 (d "-0.0292324908078e-3") (d "0") (d "-0.188375") (d "1"))
  ; (Vec4 (d "-0.0294261835515e-3") (d "-0.1306066640218") (d "0.0941875") (d "1"))
  ; (Vec4 (d "4.9402571349164e-6") (d "-0.13187089275") (d "0.0753500315527") (d "1"))
  ; (Vec4 (d "0.0576485078669e-3") (d "-0.1314938645249") (d "0.0376750417598") (d "1"))
  ; (Vec4 (d "0.0481794104219e-3") (d "-0.1312451051851") (d "-0.0188374776592") (d "1"))
  ; (Vec4 (d "0.0190505260041e-3") (d "-0.1146569950987") (d "-0.075349982688") (d "1"))
  ; (Vec4 (d "0.2702707795262e-6") (d "-0.0695828430581") (d "-0.131862495488") (d "1"))
  ; (Vec4 (d "-0.0189456996064e-3") (d "-0.0270042967092") (d "-0.1695374986589") (d "1"))
  ; (Vec4 (d "-0.0292324908078e-3") (d "0") (d "-0.188375") (d "1"))
  ; (Vec4 (d "-0.0294261835515e-3") (d "-0.1506999969482") (d "0.0941875") (d "1"))
  ; (Vec4 (d "4.9402571349156e-6") (d "-0.1521587224039") (d "0.0753500315527") (d "1"))
  ; (Vec4 (d "0.0576485078669e-3") (d "-0.1517236898364") (d "0.0376750417598") (d "1"))
  ; (Vec4 (d "0.0481794104219e-3") (d "-0.1514366598289") (d "-0.0188374776592") (d "1"))
  ; (Vec4 (d "0.0190505260041e-3") (d "-0.1322965328062") (d "-0.075349982688") (d "1"))
  ; (Vec4 (d "0.2702707795258e-6") (d "-0.0802878958362") (d "-0.131862495488") (d "1"))
  ; (Vec4 (d "-0.0189456996064e-3") (d "-0.0311588038952") (d "-0.1695374986589") (d "1"))
  ; (Vec4 (d "-0.0292324908078e-3") (d "0") (d "-0.188375") (d "1")) ]).
Definition blade_test u v dir k : bool :=
  holds (p <- Surface_Evaluate blade (d u) (d v) ;;
         r <- Surface_BinarySearchParameterOn 600 blade p dir (d k) (d "1e-10") (d "512") ;;
         q <- Surface_Evaluate blade (fst r) (snd r) ;; Ok (v3norm (v3sub p q))) (fun n => below n "1e-10").
Definition surface_binary_on2_run : bool := Eval vm_compute in (blade_test "0" "0" 0 "0" && blade_test "0" "0" 1 "0" && blade_test "1" "0" 0 "1" && blade_test "1" "0.1234567" 0 "1").
Example surface_binary_on2 : surface_binary_on2_run = true. Proof. reflexivity. Qed.

(** Knot insertion and removal.  The source samples all 12 x 12 parameter pairs; here
    4 of the 12 values are taken in each direction, and 4 of the 10 knots where two knots
    are inserted, to keep the build short. *)
Definition us4 := ds ["0.0"; "0.3"; "0.55"; "1.0"].
Definition sk10 := ds ["0.1"; "0.2"; "0.345"; "0.4"; "0.5"; "0.55"; "0.6"; "0.7"; "0.8"; "0.9"].
Definition sk4 := ds ["0.1"; "0.345"; "0.5"; "0.9"].
Definition junk : vec4 b64 := v4 "7" "-7" "77" "0".
Definition same_surface (s s' : surface b64) : bool :=
  forallb (fun u => forallb (fun v => holds (Surface_Evaluate s u v) (fun a =>
    holds (Surface_Evaluate s' u v) (fun b => approx3 a b))) us4) us4.
Definition same_s (s : surface b64) (o : outcome (surface b64)) : bool := holds o (same_surface s).
Definition surface_insert1_run : bool := Eval vm_compute in (holds (rect1 3 3 5 5) (fun s =>
  forallb (fun k => same_s s (Surface_InsertKnotU junk s k) && same_s s (Surface_InsertKnotV s k)) sk10)).
Example surface_insert1 : surface_insert1_run = true. Proof. reflexivity. Qed.
Definition surface_insert2_run : bool := Eval vm_compute in (forallb (fun k => same_s quarter (Surface_InsertKnotU junk quarter k) && same_s quarter (Surface_InsertKnotV quarter k)) sk10).
Example surface_insert2 : surface_insert2_run = true. Proof. reflexivity. Qed.
Definition surface_insert3_run : bool := Eval vm_compute in (forallb (fun a => forallb (fun b =>
  same_s quarter (s <- Surface_InsertKnotU junk quarter a ;; Surface_InsertKnotU junk s b) &&
  same_s quarter (s <- Surface_InsertKnotU junk quarter a ;; Surface_InsertKnotV s b) &&
  same_s quarter (s <- Surface_InsertKnotV quarter a ;; Surface_InsertKnotU junk s b)) sk4) sk4).
Example surface_insert3 : surface_insert3_run = true. Proof. reflexivity. Qed.
Definition surface_insert3V_run : bool := Eval vm_compute in (forallb (fun a => forallb (fun b =>
  same_s quarter (s <- Surface_InsertKnotV quarter a ;; Surface_InsertKnotV s b)) sk4) sk4).
Example surface_insert3V : surface_insert3V_run = true. Proof. reflexivity. Qed.
Definition remove_test k n m : bool :=
  holds (s <- Surface_InsertKnotU_times junk quarter k n ;; Surface_RemoveKnotU s k m (d "1e-12"))
    (fun '(s, t) => (t =? m) && same_surface quarter s).
Definition surface_remove_run : bool := Eval vm_compute in (forallb (fun k => remove_test k 1 1 && remove_test k 2 1 && remove_test k 2 2) sk10).
Example surface_remove : surface_remove_run = true. Proof. reflexivity. Qed.
Definition surface_elevate_run : bool := Eval vm_compute in (same_s quarter (Surface_ElevateDegreeU quarter 1) && same_s quarter (Surface_ElevateDegreeV quarter 1)).
Example surface_elevate : surface_elevate_run = true. Proof. reflexivity. Qed.

Definition surface_loads (s : string) (P : surface dbl -> bool) : bool :=
  match Surface_LoadFromFile Surface_default (str s) with (o, Ok _) => P o | _ => false end.
Definition surface_throws (s : string) : bool :=
  match Surface_LoadFromFile Surface_default (str s) with (_, Throw RuntimeError) => true | _ => false end.
Definition dims (s : surface dbl) : bool :=
  (len (KnotsU s) =? 8) && (len (KnotsV s) =? 4) && (UCount (Net s) =? 4) && (VCount (Net s) =? 3) && (len (Values (Net s)) =? 12).
Example surface_load_valid : surface_loads "LIBNURBS TXT SURFACE
*DegreeU: 3
*DegreeV: 2
*KnotsU:
0, 0, 0, 1, 2, 3, 3, 3
*KnotsV:
0, 0, 1, 1
*ControlPoints:
4 3
1.0 2.0 3.0 1.0
4.0 5.0 6.0 1.0
7.0 8.0 9.0 1.0
1.1 2.1 3.1 1.0
4.1 5.1 6.1 1.0
7.1 8.1 9.1 1.0
1.2 2.2 3.2 1.0
4.2 5.2 6.2 1.0
7.2 8.2 9.2 1.0
1.3 2.3 3.3 1.0
4.3 5.3 6.3 1.0
7.3 8.3 9.3 1.0
" (fun s =>
  dims s && (DegreeU s =? 3) && (DegreeV s =? 2) &&
  approx_o (p <- Grid_Get (Net s) 0 0 ;; Ok (dbl_value (x4 p))) "1.0" &&
  approx_o (p <- Grid_Get (Net s) 3 2 ;; Ok (dbl_value (z4 p))) "9.3") = true.
Proof. vm_compute. reflexivity. Qed.
Example surface_load_missing_header : surface_throws "*DegreeU: 3
*DegreeV: 2
" = true.
Proof. vm_compute. reflexivity. Qed.
Example surface_load_invalid_magic_number : surface_throws "INVALIDMAGIC TXT SURFACE
*DegreeU: 3
*DegreeV: 2
" = true.
Proof. vm_compute. reflexivity. Qed.
Example surface_load_unknown_serialization_mode : surface_throws "LIBNURBS UNKNOWN SURFACE
*DegreeU: 3
*DegreeV: 2
" = true.
Proof. vm_compute. reflexivity. Qed.
Example surface_load_type_mismatch : surface_throws "LIBNURBS TXT CURVE
*DegreeU: 3
*DegreeV: 2
" = true.
Proof. vm_compute. reflexivity. Qed.
Example surface_load_invalid_degrees : surface_throws "LIBNURBS TXT SURFACE
*DegreeU: invalid
*DegreeV: 2
" = true.
Proof. vm_compute. reflexivity. Qed.
Example surface_load_invalid_knot_values : surface_throws "LIBNURBS TXT SURFACE
*DegreeU: 3
*DegreeV: 2
*KnotsU:
0, 0, invalid, 1, 2, 3, 3, 3
" = true.
Proof. vm_compute. reflexivity. Qed.
Example surface_load_invalid_control_point_data : surface_throws "LIBNURBS TXT SURFACE
*DegreeU: 3
*DegreeV: 2
*ControlPoints:
2 2
1.0 2.0 invalid 1.0
4.0 5.0 6.0 1.0
" = true.
Proof. vm_compute. reflexivity. Qed.
Example surface_load_extra_spaces_and_formatting :
  surface_loads "LIBNURBS     TXT    SURFACE

    *DegreeU:   3

    *DegreeV:   2

    *KnotsU:
    0,  0,0,   1,   2,3, 3,3

    *KnotsV:
    0, 0, 1, 1

    *ControlPoints:
    4    3
    1.0 2.0 3.0 1.0
    4.0    5.0 6.0 1.0
    7.0 8.0 9.0 1.0
    1.1 2.1 3.1 1.0
    4.1 5.1 6.1 1.0
    7.1 8.1 9.1 1.0
    1.2 2.2 3.2 1.0
    4.2 5.2 6.2 1.0
    7.2 8.2 9.2 1.0
    1.3 2.3 3.3 1.0
    4.3 5.3 6.3 1.0
    7.3 8.3 9.3 1.0
" (fun s => dims s && (DegreeU s =? 3) && (DegreeV s =? 2)) = true.
Proof. vm_compute. reflexivity. Qed.
Example surface_load_missing_key : surface_throws "LIBNURBS TXT SURFACE
3
" = true.
Proof. vm_compute. reflexivity. Qed.
Example surface_load_unrecognized_key : surface_throws "LIBNURBS TXT SURFACE
*DegreeU: 3
*DegreeV: 2
*UnknownKey:
SomeValue
" = true.
Proof. vm_compute. reflexivity. Qed.
Example surface_load_values_spanning_multiple_lines :
  surface_loads "LIBNURBS TXT SURFACE
*DegreeU:
3
*DegreeV:
2
*KnotsU:
0,0,0,
1,2,3,
3,3
*KnotsV:
0,0,
1,1
*ControlPoints:
4 3
1.0 2.0 3.0 1.0
4.0 5.0 6.0 1.0
7.0 8.0 9.0 1.0
1.1 2.1 3.1 1.0
4.1 5.1 6.1 1.0
7.1 8.1 9.1 1.0
1.2 2.2 3.2 1.0
4.2 5.2 6.2 1.0
7.2 8.2 9.2 1.0
1.3 2.3 3.3 1.0
4.3 5.3 6.3 1.0
7.3 8.3 9.3 1.0
" (fun s => dims s && (DegreeU s =? 3) && (DegreeV s =? 2)) = true.
Proof. vm_compute. reflexivity. Qed.
Example surface_load_empty_file : surface_throws "" = true.
Proof. vm_compute. reflexivity. Qed.
Definition saved_s : surface dbl := Surface 3 2 (map db ["0"; "0"; "0"; "1"; "2"; "3"; "3"; "3"]%string)
  (map db ["0"; "0"; "1"; "1"]%string) (Grid 4 3
  [p4 "1.0" "2.0" "3.0" "1.0"; p4 "4.0" "5.0" "6.0" "1.0"; p4 "7.0" "8.0" "9.0" "1.0";
   p4 "1.1" "2.1" "3.1" "1.0"; p4 "4.1" "5.1" "6.1" "1.0"; p4 "7.1" "8.1" "9.1" "1.0";
   p4 "1.2" "2.2" "3.2" "1.0"; p4 "4.2" "5.2" "6.2" "1.0"; p4 "7.2" "8.2" "9.2" "1.0";
   p4 "1.3" "2.3" "3.3" "1.0"; p4 "4.3" "5.3" "6.3" "1.0"; p4 "7.3" "8.3" "9.3" "1.0"]).
Definition same_knots (a b : list dbl) : bool :=
  (len a =? len b) && forallb (fun '(x, y) => neqb (dbl_value x) (dbl_value y)) (combine a b).
Definition close4 (p q : vec4 dbl) : bool := let a f := approx (dbl_value (f p)) (dbl_value (f q)) in
  a x4 && a y4 && a z4 && a w4.
Definition surface_round_trip_test (b : bool) : bool := holds (Surface_SaveToFile saved_s b) (fun bs =>
  match Surface_LoadFromFile Surface_default bs with
  | (s, Ok _) => (DegreeU s =? 3) && (DegreeV s =? 2) && same_knots (KnotsU s) (KnotsU saved_s) &&
      same_knots (KnotsV s) (KnotsV saved_s) && dims s &&
      forallb (fun '(p, q) => close4 p q) (combine (Values (Net s)) (Values (Net saved_s)))
  | _ => false
  end).
Definition surface_round_trip_run : bool := Eval vm_compute in (surface_round_trip_test false && surface_round_trip_test true).
Example surface_round_trip : surface_round_trip_run = true. Proof. reflexivity. Qed.
