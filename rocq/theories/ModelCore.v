(** Model of include/libnurbs/Algorithm/MathUtils.hpp,
    include/libnurbs/Core/{Typedefs,Grid,BoundingBox,KnotVector}.hpp and
    src/Core/KnotVector.cpp. *)
From Coq Require Import List ZArith QArith Bool.
From Verif Require Import Outcome Num.
Import ListNotations.
Open Scope Z_scope.

(** * MathUtils.hpp *)

(** MathUtils.hpp:7-12 [Factorial]. *)
Definition Factorial (n : Z) : outcome Z :=
  let result_array := [1; 1; 2; 6; 24; 120; 720; 5040; 40320; 362880] in
  assert_ ((0 <=? n) && (n <=? 9)) ;;;
  vget result_array n.

(** MathUtils.hpp:14-17 [Approx(double,double,epsilon)]. *)
Definition Approx {T} `{Num T} (v1 v2 epsilon : T) : bool :=
  nltb (nabs (nsub v1 v2)) epsilon.

(** MathUtils.hpp:27-38 [Binomial]; [int] arithmetic is checked, division truncates. *)
Definition Binomial (n k : Z) : outcome Z :=
  if k >? n then Ok 0
  else for_up 1 (k + 1) (fun i result =>
         f <- int_ (n - i + 1) ;;
         prod <- int_ (result * f) ;;
         Ok (Z.quot prod i)) 1.

(** * Typedefs.hpp: vectors *)

Record vec3 (T : Type) := Vec3 { x3 : T; y3 : T; z3 : T }.
Record vec4 (T : Type) := Vec4 { x4 : T; y4 : T; z4 : T; w4 : T }.
Arguments Vec3 {T}. Arguments x3 {T}. Arguments y3 {T}. Arguments z3 {T}.
Arguments Vec4 {T}. Arguments x4 {T}. Arguments y4 {T}. Arguments z4 {T}. Arguments w4 {T}.

(** Typedefs.hpp:23 [Mat3x3], by rows. *)
Record mat3 (T : Type) := Mat3 { row0 : vec3 T; row1 : vec3 T; row2 : vec3 T }.
Arguments Mat3 {T}. Arguments row0 {T}. Arguments row1 {T}. Arguments row2 {T}.

(** Eigen fixed-size vector operations, component-wise.  Simplification: Eigen
    may evaluate reductions (dot, norm) in another order when vectorised; here
    they are summed left to right. *)
Section Vectors.
  Context {T : Type} `{Num T}.
  Local Open Scope num_scope.
  Definition v3zero : vec3 T := Vec3 n0 n0 n0.
  Definition v3add (a b : vec3 T) := Vec3 (x3 a + x3 b) (y3 a + y3 b) (z3 a + z3 b).
  Definition v3sub (a b : vec3 T) := Vec3 (x3 a - x3 b) (y3 a - y3 b) (z3 a - z3 b).
  Definition v3scale (s : T) (a : vec3 T) := Vec3 (s * x3 a) (s * y3 a) (s * z3 a).
  (** [v / s] *)
  Definition v3div (a : vec3 T) (s : T) : outcome (vec3 T) :=
    (x <- x3 a </? s ;; y <- y3 a </? s ;; z <- z3 a </? s ;; Ok (Vec3 x y z))%outcome.
  Definition v3dot (a b : vec3 T) : T := x3 a * x3 b + y3 a * y3 b + z3 a * z3 b.
  Definition v3norm (a : vec3 T) : T := nsqrt (v3dot a a).
  Definition v4zero : vec4 T := Vec4 n0 n0 n0 n0.
  Definition v4add (a b : vec4 T) := Vec4 (x4 a + x4 b) (y4 a + y4 b) (z4 a + z4 b) (w4 a + w4 b).
  Definition v4sub (a b : vec4 T) := Vec4 (x4 a - x4 b) (y4 a - y4 b) (z4 a - z4 b) (w4 a - w4 b).
  Definition v4scale (s : T) (a : vec4 T) := Vec4 (s * x4 a) (s * y4 a) (s * z4 a) (s * w4 a).
  Definition v4div (a : vec4 T) (s : T) : outcome (vec4 T) :=
    (x <- x4 a </? s ;; y <- y4 a </? s ;; z <- z4 a </? s ;; w <- w4 a </? s ;;
     Ok (Vec4 x y z w))%outcome.
  Definition v4norm (a : vec4 T) : T :=
    nsqrt (x4 a * x4 a + y4 a * y4 a + z4 a * z4 a + w4 a * w4 a).
  (** [v.head<3>()] *)
  Definition head3 (a : vec4 T) : vec3 T := Vec3 (x4 a) (y4 a) (z4 a).
  (** [v.head<3>() = h] *)
  Definition set_head3 (a : vec4 T) (h : vec3 T) : vec4 T := Vec4 (x3 h) (y3 h) (z3 h) (w4 a).
  (** Eigen 3x3 matrix times vector *)
  Definition m3mul (m : mat3 T) (v : vec3 T) : vec3 T :=
    Vec3 (v3dot (row0 m) v) (v3dot (row1 m) v) (v3dot (row2 m) v).
  (** Typedefs.hpp:34-39 [ToHomo] *)
  Definition ToHomo (p : vec4 T) : vec4 T :=
    Vec4 (x4 p * w4 p) (y4 p * w4 p) (z4 p * w4 p) (w4 p).
  (** Typedefs.hpp:41-46 [FromHomo] *)
  Definition FromHomo (p : vec4 T) : outcome (vec4 T) :=
    (h <- v3div (head3 p) (w4 p) ;; Ok (set_head3 p h))%outcome.
  (** component-wise min / max ([cwiseMin], [cwiseMax]) *)
  Definition v3min (a b : vec3 T) := Vec3 (nmin (x3 a) (x3 b)) (nmin (y3 a) (y3 b)) (nmin (z3 a) (z3 b)).
  Definition v3max (a b : vec3 T) := Vec3 (nmax (x3 a) (x3 b)) (nmax (y3 a) (y3 b)) (nmax (z3 a) (z3 b)).
  (** MathUtils.hpp:19-25 [Approx] for vectors: [(v1-v2).cwiseAbs().maxCoeff() < eps] *)
  Definition Approx3 (a b : vec3 T) (epsilon : T) : bool :=
    let d := v3sub a b in
    nmax (nmax (nabs (x3 d)) (nabs (y3 d))) (nabs (z3 d)) <? epsilon.
End Vectors.

(** * BoundingBox.hpp *)
Record bbox (T : Type) := BBox { Min : vec3 T; Max : vec3 T }.
Arguments BBox {T}. Arguments Min {T}. Arguments Max {T}.

Section BoundingBoxes.
  Context {T : Type} `{Num T}.
  Local Open Scope num_scope.
  (** BoundingBox.hpp:9-13 default members / default constructor *)
  Definition BoundingBox_default : bbox T := BBox v3zero v3zero.
  (** BoundingBox.hpp:15-19 *)
  Definition BoundingBox_make (a b : vec3 T) : bbox T := BBox (v3min a b) (v3max a b).
  (** BoundingBox.hpp:23-27: [Max] is recomputed from the new [Min]. *)
  Definition BoundingBox_ExpandToInclude (b : bbox T) (p : vec3 T) : bbox T :=
    let mn := v3min (Min b) p in
    let mx := v3max mn p in
    BBox mn mx.
  (** BoundingBox.hpp:29-33 *)
  Definition BoundingBox_ExpandToInclude_box (b c : bbox T) : bbox T :=
    BBox (v3min (Min b) (Min c)) (v3max (Max b) (Max c)).
  (** BoundingBox.hpp:35-39 *)
  Definition BoundingBox_Contains (b : bbox T) (p : vec3 T) : bool :=
    (ngeb (x3 p) (x3 (Min b)) && ngeb (y3 p) (y3 (Min b)) && ngeb (z3 p) (z3 (Min b))) &&
    ((x3 p <=? x3 (Max b)) && (y3 p <=? y3 (Max b)) && (z3 p <=? z3 (Max b))).
  (** BoundingBox.hpp:41-44 *)
  Definition BoundingBox_Contains_box (b c : bbox T) : bool :=
    BoundingBox_Contains b (Min c) && BoundingBox_Contains b (Max c).
  (** BoundingBox.hpp:46-49 *)
  Definition BoundingBox_Center (b : bbox T) : vec3 T :=
    v3scale (nlit (1 # 2)) (v3add (Min b) (Max b)).
  (** BoundingBox.hpp:51-54 *)
  Definition BoundingBox_Length (b : bbox T) : vec3 T := v3sub (Max b) (Min b).
  (** BoundingBox.hpp:56-60 *)
  Definition BoundingBox_Volume (b : bbox T) : T :=
    let l := BoundingBox_Length b in x3 l * y3 l * z3 l.
End BoundingBoxes.

(** * Grid.hpp *)
Record grid (A : Type) := Grid { UCount : Z; VCount : Z; Values : list A }.
Arguments Grid {A}. Arguments UCount {A}. Arguments VCount {A}. Arguments Values {A}.

Section Grids.
  Context {A : Type}.
  (** Grid.hpp:12-17 default members: INVALID_INDEX = -1 (Typedefs.hpp:13) *)
  Definition Grid_default : grid A := Grid (-1) (-1) [].
  (** Grid.hpp:26-31 (and 19-24 with a default element): [Values(u*v, init)].
      The int product is checked; a negative product converts to a huge size. *)
  Definition Grid_make (u v : Z) (init : A) : outcome (grid A) :=
    n <- int_ (u * v) ;;
    vals <- vmake n init ;;
    Ok (Grid u v vals).
  (** Grid.hpp:42-52.  The code asserts only upper bounds. *)
  Definition Grid_Get (g : grid A) (u v : Z) : outcome A :=
    assert_ ((u <? UCount g) && (v <? VCount g)) ;;;
    vget (Values g) (v * UCount g + u).
  (** Assignment through the reference returned by [Get] (Grid.hpp:42-46). *)
  Definition Grid_Set (g : grid A) (u v : Z) (x : A) : outcome (grid A) :=
    assert_ ((u <? UCount g) && (v <? VCount g)) ;;;
    vals <- vset (Values g) (v * UCount g + u) x ;;
    Ok (Grid (UCount g) (VCount g) vals).
  (** Grid.hpp:54-63 *)
  Definition Grid_GetU (g : grid A) (u : Z) : outcome (list A) :=
    assert_ (u <? UCount g) ;;;
    (if VCount g <? 0 then Throw LengthError else Ok tt) ;;;
    tabulate 0 (VCount g) (fun i => vget (Values g) (i * UCount g + u)).
  (** Grid.hpp:65-74 *)
  Definition Grid_GetV (g : grid A) (v : Z) : outcome (list A) :=
    assert_ (v <? VCount g) ;;;
    (if UCount g <? 0 then Throw LengthError else Ok tt) ;;;
    tabulate 0 (UCount g) (fun i => vget (Values g) (v * UCount g + i)).
  (** Grid.hpp:76-84 *)
  Definition Grid_SetU (g : grid A) (u : Z) (values : list A) : outcome (grid A) :=
    assert_ (u <? UCount g) ;;;
    assert_ (len values =? VCount g) ;;;
    vals <- for_up 0 (VCount g) (fun i vals =>
              x <- vget values i ;;
              vset vals (i * UCount g + u) x) (Values g) ;;
    Ok (Grid (UCount g) (VCount g) vals).
  (** Grid.hpp:86-94 *)
  Definition Grid_SetV (g : grid A) (v : Z) (values : list A) : outcome (grid A) :=
    assert_ (v <? VCount g) ;;;
    assert_ (len values =? UCount g) ;;;
    vals <- for_up 0 (UCount g) (fun i vals =>
              x <- vget values i ;;
              vset vals (v * UCount g + i) x) (Values g) ;;
    Ok (Grid (UCount g) (VCount g) vals).
  (** Grid.hpp:96-99 *)
  Definition Grid_Count (g : grid A) : outcome Z := int_ (UCount g * VCount g).
  (** Grid.hpp:101-107 *)
  Definition Grid_InsertV (g : grid A) (v_index : Z) (default_value : A) : outcome (grid A) :=
    assert_ ((0 <=? v_index) && (v_index <? VCount g)) ;;;
    vals <- vinsert (Values g) (v_index * UCount g) (UCount g) default_value ;;
    Ok (Grid (UCount g) (VCount g + 1) vals).
  (** Grid.hpp:109-132.  [resize] appends value-initialised elements: their
      content is the argument [junk] (Eigen leaves Vec4 uninitialised).  The
      moves are modelled as copies (element types with a destructive move are
      out of scope: the library only uses Grid<Vec3/Vec4>). *)
  Definition Grid_InsertU (junk : A) (g : grid A) (u_index : Z) (default_value : A)
    : outcome (grid A) :=
    assert_ ((0 <=? u_index) && (u_index <? UCount g)) ;;;
    let float_idx := UCount g * VCount g - 1 in
    let uc := UCount g + 1 in
    let vc := VCount g in
    (if uc * vc <? 0 then Throw LengthError else Ok tt) ;;;
    let vals := firstn (Z.to_nat (uc * vc)) (Values g)
                ++ repeat junk (Z.to_nat (uc * vc - len (Values g))) in
    '(vals, _) <- for_down (vc - 1) 0 (fun it_v '(vals, float_idx) =>
        let start_idx := it_v * uc in
        let insertion_idx := start_idx + u_index in
        let end_idx := (it_v + 1) * uc in
        let move_one := fun i '(vals, float_idx) =>
            x <- vget vals float_idx ;;
            vals <- vset vals i x ;;
            Ok (vals, float_idx - 1) in
        st <- for_down (end_idx - 1) (insertion_idx + 1) move_one (vals, float_idx) ;;
        '(vals, float_idx) <- for_down (insertion_idx - 1) start_idx move_one st ;;
        vals <- vset vals insertion_idx default_value ;;
        Ok (vals, float_idx)) (vals, float_idx) ;;
    Ok (Grid uc vc vals).
End Grids.

(** * KnotVector.hpp / KnotVector.cpp
    A [KnotVector] is its vector [m_Values]; its int size is assumed to fit. *)

(** KnotVector.hpp:87-97 *)
Record knotpair (T : Type) := KnotPair { kp_Index : Z; kp_Value : T; kp_Multiplicity : Z }.
Arguments KnotPair {T}. Arguments kp_Index {T}. Arguments kp_Value {T}. Arguments kp_Multiplicity {T}.
(** KnotVector.hpp:99-109 *)
Record knotspan (T : Type) := KnotSpan { ks_Index : Z; ks_Left : knotpair T; ks_Right : knotpair T }.
Arguments KnotSpan {T}. Arguments ks_Index {T}. Arguments ks_Left {T}. Arguments ks_Right {T}.

Section KnotVectors.
  Context {T : Type} `{Num T}.

  (** KnotVector.cpp:13-18: the loop of [ValidateKnots] (last_value is the accumulator). *)
  Fixpoint validate_loop (last_value : T) (knots : list T) : bool :=
    match knots with
    | [] => negb (nneb last_value n1)       (* KnotVector.cpp:19 *)
    | val :: rest => if nltb val last_value then false else validate_loop val rest
    end.
  (** KnotVector.cpp:10-21 *)
  Definition ValidateKnots (knots : list T) : bool :=
    match knots with
    | [] => false
    | _ => validate_loop n0 knots
    end.

  (** KnotVector.cpp:58-62 *)
  Definition KnotVector_make (values : list T) : outcome (list T) :=
    if ValidateKnots values then Ok values else Throw InvalidArgument.

  (** KnotVector.cpp:24-34: a multiplicity <= 0 contributes nothing. *)
  Definition KnotVector_of_pairs (knots : list (knotpair T)) : outcome (list T) :=
    let m_Values := flat_map (fun k => repeat (kp_Value k) (Z.to_nat (kp_Multiplicity k))) knots in
    if ValidateKnots m_Values then Ok m_Values else Throw InvalidArgument.

  (** KnotVector.cpp:36-56 *)
  Definition KnotVector_Uniform (degree knots_count : Z) : outcome (list T) :=
    let additional_knots_count := knots_count - (degree + 1) * 2 in
    assert_ (0 <=? additional_knots_count) ;;;
    (if knots_count <? 0 then Throw LengthError else Ok tt) ;;;  (* reserve *)
    let zeros := repeat n0 (Z.to_nat (degree + 1)) in
    t <- ndiv n1 (nofZ (additional_knots_count + 1)) ;;
    middle <- tabulate 1 (additional_knots_count + 1) (fun i => Ok (nmul (nofZ i) t)) ;;
    let ones := repeat n1 (Z.to_nat (degree + 1)) in
    KnotVector_make (zeros ++ middle ++ ones).

  (** KnotVector.cpp:71-82: the loop of [GetKnotPairs] at index [i]. *)
  Fixpoint pairs_loop (i : Z) (last_value : T) (multiplicity : Z) (rest : list T)
    : list (knotpair T) :=
    match rest with
    | [] => [KnotPair (i - multiplicity) last_value multiplicity]
    | val :: rest' =>
        if nneb val last_value
        then KnotPair i last_value multiplicity :: pairs_loop (i + 1) val 1 rest'
        else pairs_loop (i + 1) last_value (multiplicity + 1) rest'
    end.
  (** KnotVector.cpp:64-84 *)
  Definition KnotVector_GetKnotPairs (knots : list T) : list (knotpair T) :=
    match knots with
    | [] => []
    | k0 :: rest => pairs_loop 1 k0 1 rest
    end.

  (** KnotVector.cpp:91-94 *)
  Fixpoint nondecreasing_loop (prev : T) (rest : list T) : bool :=
    match rest with
    | [] => true
    | v :: rest' => if nltb v prev then false else nondecreasing_loop v rest'
    end.
  (** KnotVector.cpp:86-96 *)
  Definition KnotVector_IsValid (knots : list T) : bool :=
    if len knots <? 4 then false else
    match knots with
    | [] => false
    | front :: rest =>
        if nneb front n0 then false
        else if nneb (last knots front) n1 then false
        else nondecreasing_loop front rest
    end.

  (** KnotVector.cpp:101-104: first index whose value is not [v], starting at [i]. *)
  Fixpoint scan_up (v : T) (i : Z) (l : list T) : Z :=
    match l with
    | [] => i
    | a :: t => if nneb a v then i else scan_up v (i + 1) t
    end.
  (** KnotVector.cpp:105-108: last index whose value is not [v] (-1 if none);
      [l] is the reversed vector and [i] the index of its head. *)
  Fixpoint scan_down (v : T) (i : Z) (l : list T) : Z :=
    match l with
    | [] => i
    | a :: t => if nneb a v then i else scan_down v (i - 1) t
    end.
  (** KnotVector.cpp:98-110 *)
  Definition KnotVector_IsClamped (knots : list T) : bool :=
    let count0 := scan_up n0 0 knots in
    let count1 := scan_down n1 (len knots - 1) (rev knots) in
    Z.eqb count0 count1.

  (** KnotVector.cpp:114-122 *)
  Fixpoint uniform_loop (interval prev : T) (rest : list T) : bool :=
    match rest with
    | [] => true
    | val :: rest' =>
        let curr := nsub val prev in
        if neqb interval n0 then uniform_loop curr val rest'
        else if negb (Approx curr interval lit_1e_6) && nneb curr n0 then false
        else uniform_loop interval val rest'
    end.
  (** KnotVector.cpp:112-123 *)
  Definition KnotVector_IsUniform (knots : list T) : bool :=
    match knots with
    | [] => true
    | k0 :: rest => uniform_loop n0 k0 rest
    end.

  (** [std::upper_bound(begin, end, u)] as an index.  Its precondition is that
      the range is partitioned by [u < e]; otherwise the behaviour is undefined
      (the algorithm itself belongs to the standard library and is modelled by
      its contract). *)
  Fixpoint upper_bound (knots : list T) (u : T) : outcome Z :=
    match knots with
    | [] => Ok 0
    | e :: rest =>
        if nltb u e
        then if forallb (fun e' => nltb u e') rest then Ok 0 else Undefined Precondition
        else i <- upper_bound rest u ;; Ok (i + 1)
    end.

  (** KnotVector.cpp:125-138.  [back()]/[front()] of an empty vector would be
      undefined; the asserts before exclude it. *)
  Definition KnotVector_FindSpanIndex (knots : list T) (degree : Z) (u : T) : outcome Z :=
    assert_ (ngeb u n0 && nleb u n1) ;;;
    let index_first_span := degree in
    let index_last_span := len knots - degree - 2 in
    assert_ (0 <=? index_last_span) ;;;
    assert_ (index_first_span <=? index_last_span) ;;;
    back <- vget knots (len knots - 1) ;;
    if neqb u back then Ok index_last_span else
    front <- vget knots 0 ;;
    if neqb u front then Ok index_first_span else
    index_result <- upper_bound knots u ;;
    Ok (index_result - 1).

  (** KnotVector.hpp:89-93 default members *)
  Definition KnotPair_default : knotpair T := KnotPair (-1) (nofZ (-1)) (-1).
  (** KnotVector.cpp:145-153: the downward scan of [FindSpan] from index [i]. *)
  Fixpoint findspan_loop (pairs : list (knotpair T)) (u : T) (n : nat) (i : Z)
    : outcome (knotspan T) :=
    match n with
    | O => Ok (KnotSpan (-1) KnotPair_default KnotPair_default)
    | S n' =>
        pair <- vget pairs i ;;
        if nleb (kp_Value pair) u
        then next <- vget pairs (i + 1) ;; Ok (KnotSpan i pair next)
        else findspan_loop pairs u n' (i - 1)
    end.
  (** KnotVector.cpp:140-154 *)
  Definition KnotVector_FindSpan (knots : list T) (u : T) : outcome (knotspan T) :=
    assert_ (ngeb u n0 && nleb u n1) ;;;
    let pairs := KnotVector_GetKnotPairs knots in
    assert_ (2 <=? len pairs) ;;;
    findspan_loop pairs u (length pairs - 1)%nat (len pairs - 2).

  (** KnotVector.cpp:158-162 *)
  Fixpoint degree_loop (i : Z) (l : list T) : outcome Z :=
    match l with
    | [] => Throw OutOfRange
    | a :: t => if nneb a n0 then Ok (i - 1) else degree_loop (i + 1) t
    end.
  (** KnotVector.cpp:156-163 *)
  Definition KnotVector_DetectDegree (knots : list T) : outcome Z := degree_loop 0 knots.

  (** KnotVector.cpp:165-173 *)
  Definition KnotVector_GetMultiplicity (knots : list T) (u : T) : Z :=
    fold_left (fun result val => if Approx val u lit_1e_6 then result + 1 else result) knots 0.

  (** KnotVector.cpp:175-182: returns the new vector and the result. *)
  Definition KnotVector_InsertKnot (knots : list T) (value : T) (times : Z)
    : outcome (list T * Z) :=
    assert_ (ngtb value n0 && nltb value n1) ;;;
    i <- upper_bound knots value ;;
    knots' <- vinsert knots i times value ;;
    Ok (knots', i - 1).

  (** KnotVector.cpp:184-191 *)
  Definition KnotVector_Reverse (knots : list T) : list T :=
    map (fun t => nsub n1 t) (rev knots).
End KnotVectors.
