# Formal model of libnurbs in Rocq (Coq 8.16.1)

## 1. What is modelled

| C++ source | Rocq file |
|---|---|
| `Algorithm/MathUtils.hpp`, `Core/{Typedefs,Grid,BoundingBox,KnotVector}.hpp`, `src/Core/KnotVector.cpp` | `ModelCore.v` |
| `src/Basis/BSplineBasis.cpp` | `ModelBasis.v` |
| `src/Algorithm/{KnotRemoval,DegreeAlgo}.cpp` | `ModelAlgo.v` |
| `src/Curve/Curve.cpp`, `src/Geometry/GeomSegment.cpp` | `ModelCurve.v` |
| `src/Surface/Surface.cpp`, `src/Geometry/GeomRect.cpp` | `ModelSurface.v` |
| `src/Utils/Serialization.cpp`, `LoadFromFile`/`SaveToFile` of both classes | `ModelSerial.v` |

Every definition cites file and lines. Functions are total and computable in
Gallina. They return an `outcome` (`Outcome.v`): `Ok`, `Throw e`, `AssertFail`,
`Undefined u` (out-of-bounds access, read of an uninitialised Vec4, signed
overflow, broken precondition of a standard algorithm), `NotFinite` (exact
reading only: division by zero), `OutOfFuel` (loops without a static bound).

The arithmetic of `Numeric` (double) is an interface `Num T` (`Num.v`) with two
instances:

* `R` — exact real arithmetic. Used for geometric theorems ("the curve does
  not change"). The gap between binary64 rounding and exact arithmetic is *not*
  covered by these theorems, except for evaluation (C65-C67) and knot
  insertion into curves (C90, C91).
* `b64` — IEEE-754 binary64 from the standard library's `SpecFloat`
  (computable, axiom-free). Used for order-only facts, for refutation
  witnesses evaluated on real doubles, for rounding-error bounds of basis,
  curve and surface evaluation (through Flocq) and for memory safety with
  arbitrary control points.

The same model text is used at both instances.

### Not modelled
* Rounding error of anything but basis, curve and surface evaluation
  (derivatives, insertion, removal, elevation, searches, boxes).
* What an `NDEBUG` build does after a failing `assert`.
* Memory exhaustion; `int` overflow except in `Binomial`, in products of
  derivative binomials and in grid sizes.
* The exact remains of a read that fails inside a vector or number: when a
  load throws, the model keeps the object as it was before the failing read
  (the C++ leaves resized vectors or a zeroed number). The C72 witnesses throw
  before such a read.
* File-system access (`LoadFromFile(filename)`/`SaveToFile(filename)` are the
  stream functions after opening a file). Stream formatting state set by the
  caller, locales other than "C".
* `std::sort`, `std::upper_bound`, `std::acos`, iostream number conversion:
  modelled by their contracts (see comments at the definitions).
* Eigen's evaluation order of fixed-size reductions.

## 2. Trusted base

* Coq 8.16.1 kernel (including `vm_compute`).
* `Print Assumptions` is run below every property theorem. Theorems about `R`
  depend only on axioms of the standard library's `Reals`
  (`ClassicalDedekindReals.sig_forall_dec`, `ClassicalDedekindReals.sig_not_dec`,
  `FunctionalExtensionality.functional_extensionality_dep`, and, through
  analysis lemmas, `Classical_Prop.classic`); the rest are closed under the
  global context. Section 5 lists them per file.
* No axiom, parameter, functor, module type or plugin is added. Coquelicot and
  Flocq are used as libraries (they add no axioms).
* The reading of the C++ text into `Model*.v`.

## 3. Files

* `Model*.v`: definitions only.
* `Spec*.v`: small specifications independent of the model (Cox–de Boor
  basis functions, rational points, boxes, run-length coding, ...).
* `Th*.v`: lemmas. Groups: `ThVec/ThGrid/ThOutcome/ThMath/ThKnots` (containers,
  loops, knots), `ThB64/ThRound` (binary64 against reals), `ThBasis/ThSpline/
  ThSum` (basis functions, blossoms), `ThInsert*/ThRemove*/ThSurf*` (knots),
  `ThDerivs*`, `ThBBox*/ThBezier*`, `ThAlign*`, `ThSearch*`, `ThElev*/ThPolar*`
  (degree elevation), `ThSerial/ThText*` (files), `ThErr*` (rounding errors),
  `ThSafe*` (memory safety), `ThLoad` (loading arbitrary bytes),
  `ThOrder*/ThUnique/ThSmooth/ThLocal/ThMeta*` (relations between calls), `ThIter/ThConv` (the searches as quasi-Newton methods, convergence on lines), `ThSame/ThPrefix*` (two runs of the same code related step by step, any arithmetic), `*Wit` (concrete cases and counterexamples).
* `Prop*.v`: property theorems only; each closed by `exact`, with
  `Print Assumptions` beneath and an `Example` that meets the hypotheses.
* `TestRepo.v`: tests, not proofs. The expectations of the library's own unit
  tests (`UnitTest/*.cpp`, read as text) evaluated on the binary64 model, as a
  check of the transcription. No theorem uses this file.

A statement that fails for the faithful model is kept as a `..._refuted`
theorem (negation with a concrete witness), with what does hold beside it.

## 4. Plan per property

Spline theory is done with blossoms (polar forms): a symmetric multi-affine
function agreeing with the control points on consecutive knots determines the
polynomial piece; de Boor's recursion evaluates it. Evaluation, knot insertion,
removal, Bezier extraction and degree elevation are related through it.

| Id | Model | Proof plan |
|---|---|---|
| C01 | `KnotVector_make` | induction on the list; NaN case refuted at `b64` |
| C02 | `GetKnotPairs`, `KnotVector_of_pairs` | induction on the run accumulator |
| C03 | `GetKnotPairs` | refuted by a witness; exact characterisation of what `Index` is |
| C04 | `Uniform` | list computation over `R` |
| C05 | `IsValid` | induction |
| C06 | `IsClamped` | refuted; characterised (equality of two scan positions) |
| C07 | `IsUniform` | induction with the first non-zero gap |
| C08 | `FindSpanIndex` | order lemma for `upper_bound`; for `R` and binary64 |
| C09 | `FindSpan` | loop invariant on the downward scan over pairs |
| C10 | `DetectDegree` | induction |
| C11 | `GetMultiplicity` | induction |
| C12 | KnotVector `InsertKnot` | `upper_bound` lemma, permutation |
| C13 | `Reverse` | list reversal; involution over `R`; refuted for binary64 |
| C14 | `Basis_Evaluate` | invariant of A2.2 against Cox–de Boor |
| C15 | same | from C14's invariant |
| C16 | `Basis_EvaluateAll` | A2.3 invariants; derivative of Cox–de Boor via Coquelicot |
| C17 | same | index invariants of A2.3 |
| C18, C19 | `Factorial`, `Binomial` | computation / induction with overflow bound |
| C20–C23 | `Grid_*` | index arithmetic `v*U+u`; loop invariants |
| C24–C26 | `BoundingBox_*` | order reasoning; C25 refuted |
| C27–C30 | `Curve_Evaluate`, `Transform` | C14 + sums |
| C31 | `Curve_EvaluateAll` | Leibniz rule and strong induction |
| C32 | `IsRational` | list reasoning |
| C33, C34 | `Curve_InsertKnot*` | blossom; C34 for 0/1 refuted |
| C35–C39 | `RemoveKnot` | sweep inverse to insertion; C36, C37, C39 refuted |
| C40, C41 | `ElevateDegree` | polar form of the elevated spline; invariants of A5.9 (knots written, points written, removal passes); refuted for large t, degree 0, knots closer than 1e-6, growing multiplicities |
| C42 | `ExtractBezier` | repeated insertion + blossom |
| C43 | `GetBoundingBox` | refuted (consequence of C25) |
| C44, C45, C54 | searches | loop invariants |
| C46–C50 | surface evaluation, derivatives, insertion | tensor product of the curve results |
| C51, C52 | surface removal / elevation | row-wise; C52 refuted for multi-span |
| C53 | `AlignParameterDomain` | grid symmetries + reversal symmetry of the basis |
| C55, C56 | `GeomSegment`, `GeomRect` | evaluation + linear precision; C56 refuted |
| C57–C63 | Load/Save | parser/printer inverse proofs over bytes |
| C64 | `TrimString` | list reasoning |
| C65–C67 | evaluation in binary64 | relative error counters `(1+2u)^k` plus an underflow term, propagated through A2.2 and the sums |
| C68, C69 | evaluation, insertion, searches in binary64 | every access in range, knots handled exactly, control points arbitrary |
| C70–C72 | Load of arbitrary bytes | case analysis of every read; refuted for announced sizes above INT_MAX, inconsistent contents, truncated files |
| C73 | insertions in another order | two insertions commute (coefficients of the polar form), then induction on permutations |
| C74 | `Curve_Evaluate` | linear independence of the basis pieces by differentiation |
| C75 | evaluation | the code reads no other points; one basis function times a displacement |
| C76 | `Curve_EvaluateDerivative` | adjacent pieces share their polar form on the repeated knot |
| C77, C78 | evaluation, insertion | sums exchanged; insertion characterised uniquely |
| C79 | `Curve_InsertKnot` | new points are convex combinations |
| C80 | `Curve_EvaluateDerivative` | derivative of the end piece, quotient rule |
| C81, C83 | `Curve_SearchParameter`, `Surface_SearchParameterOn`, `search_loop`, `line_search` | induction on the fuel; slope = derivative in the span (C31, C49), uniqueness of the run |
| C82 | `Surface_SearchParameter`, `search_loop2`, `line_search2`, 2x2 algebra | the same with symmetric matrices and their quadratic forms |
| C84 | the same | a zero slope keeps the iterate; witness by computation |
| C85 | `SpecIter` runs on a quadratic | first step overshoots or lands, the secant through two points of a line is exact; short lines: every step is degenerate |
| C86 | none: two calls compared | simulation: the loops of the longer run split into the shorter run and a tail that leaves its cells alone |
| C87 | `dist3` of two evaluated points | every accepted attempt is an exact removal after moving one homogeneous control point by at most TOL; partition of unity bounds the sum of the moves |
| C88 | `side`, `alternating` of `SpecVar` | insert every parameter up to the degree, so that the sampled points become control points; each insertion only blends neighbours |
| C89 | order along a direction | two samples out of order would alternate around a plane between them (C88) |
| C90 | the exact insertion; `near_point`, `weights_in`, `within3` of `SpecErrIns` | rounding errors of the blending factor, of the blended homogeneous point relative to the larger weight, of the final division; a rational sum whose points and weights move a little |
| C91 | `curve_point`; C66 | induction over the list with the bounds on coordinates and weights growing by each insertion |
| C92 | `line_u`, `line_v` (cells of the net along one direction, SpecRows) | both loops set exactly the cells of a rectangle to values that depend on the old net only; on doubles no operation fails |
| C93 | `surf_point`; C67 | C92 turns it into C91 on every line; a surface point is a weighted mean of the points of its lines |
| C94 | `separated` (SpecRemove), `count`, `in_span`; control points unrestricted | every loop of the removal keeps indices in range exactly under the four conditions; the first sweep already fails when they do not hold |
| C95 | `line_u`, `line_v`; Curve_RemoveKnot on each line | the rows loop stops at the first line that disagrees; the knots a removal returns do not depend on the points |
| C96 | `distinct_knots`, `interior_multiplicity_le`; the knot list 0..0 1..1 written out | the refinement loop is one list of insertions in any arithmetic (C93's shape lemma); the cutting loop yields windows |
| C97 | `curve_point` of the exact curve, `within3`, `near3` | accuracy of a list of insertions (C91), then the exact segment identity of C42, then C66 on the segment |
| C98 | `finite_box`, `ordered`, `in_box_enlarged`, `halvable_box` | consecutive differences obey d' <= d/2 + p e with e the rounding of one midpoint; below 2^-20/p the flatness test accepts; depth at most 51 |
| C99 | `wider`, `visible`, `leaning`, `backwards`, `reparameterised` | angles compare as coordinates; the sorted extents name the axes; counting by induction over the edges |
| C100 | `clamped`, `uniform_knot`, `at_` | two roundings per knot stay below a quarter of the spacing; IsUniform by induction over the loop |
| C101 | `small3`, `near3`, `lerp`, `sound_curve`, `apart` | four roundings per coordinate, then C66 on a nearly linear net |
| C102 | `small3`, `near3`, `lerp2`, `sound_surface`, `apart` | as C101 in two directions, then C67 |
| C103 | `in_unit_interval`, `on_grid53`, `sound_knots` | rounding of 1 - k on the unit interval: error at most 2^-54, predecessor of 1 is 1 - 2^-53 |
| C104 | `turned`, `full_grid`, `square_sym`, `clearly_dominated`, `clearly_long` | loops over the net for any number type; the choice transferred to the exact edges by relative errors; then C53 over the reals and C67 |
| C105 | `sound_curve`, `sound_surface`, `gains`, `spread`, `spans` | a simulation of the whole algorithm between two number types whose knots correspond, with arbitrary points; then the exact elevation of a constant curve (also the new proof of C41) |
| C106 | `sound_curve`, `sound_surface`, `spread`, `spans`, `interior_multiplicity_le` | success from C105; too short buffers by simulation against a run with longer ones, whose last write index is known; binomial overflow by growth of the middle coefficient; too many copies by an invariant that the loop cannot get past that knot |
| C107 | `same_outcome`, `coord_point`, `coord_vec`, `curve_by`, `surface_by`, `grid_by` | two-run (relational) rules for every construct of the model; the relation is closed under the vector operations |
| C108 | `moved_point`, `moved_derivative(s)`, `moved_grid`, `affine3` | same rules with the relation "homogeneous image"; for derivatives an invariant that follows the translation part until the last term of the Leibniz sum cancels it |
| C109 | `isometry`, `turned_point`, `moved_point` | residuals and gradients of the two searches are equal functions (polarization); knot removal by the two-run rules; the counterexample by computation |
| C110 | `axes_point`, `axes_vec`, `axes_box`, `mirrored`, `same_outcome` | two-run rules for extraction and for the stack loop; acceptance tests only see differences of coordinates |
| C111 | `opposite`, `coord_point_by`, `coord_vec_by`, `flipped`, `same_outcome` | symmetry of round-to-nearest for each operation of SpecFloat; two-run rules; equal squares for the norms of knot removal |
| C112 | `coded`, `expand64`, `how_many`, `spaced_within`, `count`, `indices_from` | comparisons of finite doubles are comparisons of values; monotone rounding against the neighbours of the tolerance; the relative error of a difference |
| C113 | `small_mat`, `mat_val`, `mat_apply`, `near3`, `tame`, `curve_point`, `surf_point` | rounding error of a three-term dot product; the moved control points are again tame, so C66/C67 apply; a curve moves no more than its control points |
| C114 | `small_box`, `nan3`, `side_ok`, `mid_ok`, `in_box`, `box_incl`, `ordered` | comparison of finite doubles is comparison of values; monotone rounding; additions never underflow |
| C115 | `plain_end`, `ordinary`, `mild`, `spot` | induction over the degree: the only basis value that is not exactly zero is 1 or 1-2^-53, since d*(1/d) rounds to one of them and (1-2^-53) is a fixed point; then rounding a*(1-2^-53) and dividing back returns a, by cases on the binade |
| C116 | `end_of`, `undone`, `plain_end`, `ordinary`, `mild` | both basis vectors have one entry 1 or 1-2^-53 and zeros elsewhere, so each of the two nested sums picks one term; if one factor is 1 the other is undone as in C115 |
| C117 | `sturdy`, `within3`, `end_of`, `mild` | both nested sums pick one term (as in C116); the factor 1 or 1-2^-53 cancels in the quotient; four (six) relative rounding errors remain |
| C118 | `net_row`, `net_column`, `end_of`, `undone`, `apart`, `tame` | the basis vector across the edge has one entry 1 and zeros elsewhere, so one of the nested sums picks a term, equal up to the sign of zeros; that relation passes through the remaining sum and the final division |
| C119 | `on_edge`, `net_row`, `net_column`, `undone`, `apart`, `tame` | both surfaces agree with the same curve of doubles along the edge (C118) |
| C120 | `joint`, `plain_end`, `ordinary`, `mild` | the knots left of x within reach equal x, so the left differences are exactly zero and only the first basis value is not; it is 1 or 1-2^-53 (induction over the degree), which the final division undoes |

## 5. Assumptions per theorem (output of `Print Assumptions`)

F = `ClassicalDedekindReals.sig_forall_dec`, N = `ClassicalDedekindReals.sig_not_dec`,
E = `FunctionalExtensionality.functional_extensionality_dep`, C = `Classical_Prop.classic`
(all from the standard library); none = closed under the global context.

| File | Axioms | Theorems |
|---|---|---|
| `PropAlign.v` | C, E, F, N | `C53_jump_refuted`, `C53_opposite_refuted`, `C53_collapsed_refuted` |
| `PropAlign.v` | E, F, N | `C53_reparameterise_partial`, `C53_direction_partial`, `C53_corner_partial` |
| `PropBezier.v` | C, E, F, N | `C43_upper_refuted`, `C43_rational_refuted`, `C43_endless_refuted` |
| `PropBezier.v` | E, F | `C42_degree_zero_refuted` |
| `PropBezier.v` | E, F, N | `C42_extract_partial`, `C43_terminates_partial`, `C43_box_partial` |
| `PropBoxMove.v` | E, F, N | `C110_box` |
| `PropBoxMove.v` | none | `C110_mirror_refuted`, `C110_backwards_refuted` |
| `PropBoxOps64.v` | C, E, F, N | `C114_make`, `C114_contains`, `C114_contains_box`, `C114_join`, `C114_expand`, `C114_center`, `C114_length`, `C114_volume`, `C114_volume_zero` |
| `PropBoxOps64.v` | E, F | `C114_center_overflow` |
| `PropCoord.v` | none | `C107_evaluate`, `C107_evaluate_all`, `C107_derivative`, `C107_insert`, `C107_insert_list`, `C107_insert_times`, `C107_elevate`, `C107_extract`, `C107_surface_evaluate`, `C107_surface_evaluate_all`, `C107_surface_derivative`, `C107_insertV`, `C107_insertV_times`, `C107_elevateU`, `C107_elevateV`, `C107_insertU`, `C107_insertU_times` |
| `PropCore.v` | C, E, F, N | `C01_constructor_b64`, `C05_isvalid_b64`, `C08_findspan_b64`, `C12_insert_b64` |
| `PropCore.v` | E, F, N | `C01_constructor`, `C02_pairs`, `C02_of_pairs`, `C02_roundtrip`, `C03_index_refuted`, `C03_actual_index`, `C04_uniform`, `C04_too_few`, `C05_isvalid`, `C06_isclamped_refuted`, `C06_actual`, `C07_isuniform`, `C08_findspan`, `C09_findspan`, `C09_outside`, `C10_detectdegree`, `C11_multiplicity`, `C12_insert`, `C13_reverse`, `C24_make`, `C24_contains`, `C24_contains_box`, `C24_center_length_volume`, `C24_midpoint`, `C25_expand_refuted`, `C25_contains_point_partial`, `C25_actual`, `C26_join`, `C26_semilattice`, `C32_curve`, `C32_surface` |
| `PropCore.v` | none | `C01_nan_refuted`, `C03_index_b64_refuted`, `C13_b64_not_involutive`, `C18_factorial`, `C18_assert`, `C19_binomial`, `C19_negative_and_overflow_refuted`, `C19_overflow`, `C20_make`, `C20_get`, `C20_set`, `C20_getU`, `C20_getV`, `C20_setU`, `C20_setV`, `C20_setget_identity`, `C20_assert_above`, `C20_negative_refuted`, `C21_insertV`, `C21_outside`, `C22_insertU`, `C22_outside`, `C23_count_partial`, `C23_default_refuted`, `C64_trim`, `C64_idempotent` |
| `PropCorner64.v` | C, E, F, N | `C116_corner`, `C116_power`, `C116_two_spans` |
| `PropCurve.v` | E, F | `C33_degree_0_refuted`, `C34_end_knot_refuted` |
| `PropCurve.v` | E, F, N | `C14_basis`, `C15_partition_of_unity`, `C27_evaluate`, `C28_end_points`, `C29_half_space`, `C29_box`, `C30_transform`, `C33_insert_partial`, `C34_list`, `C34_times`, `C34_outside` |
| `PropDeriv.v` | C, E, F, N | `C16_derivatives`, `C31_derivatives`, `C49_partials_partial` |
| `PropDeriv.v` | E, F | `C31_order_bound_sharp`, `C49_overflow_refuted` |
| `PropDeriv.v` | E, F, N | `C16_row0`, `C16_single`, `C17_above_degree` |
| `PropDeriv.v` | none | `C49_small_orders` |
| `PropEdge64.v` | C, E, F, N | `C118_row`, `C118_column`, `C118_span` |
| `PropElev64.v` | C, E, F, N | `C105_elevate_partial`, `C105_elevateU_partial`, `C105_elevateV_partial`, `C105_several_spansU`, `C105_several_spansV`, `C105_buffer_refuted` |
| `PropElev64.v` | none | `C105_points_irrelevant` |
| `PropElevExact.v` | C, E, F, N | `C106_exact`, `C106_fails`, `C106_exactU`, `C106_exactV` |
| `PropElevate.v` | C, E, F, N | `C40_overflow_refuted`, `C40_degree_zero_refuted`, `C40_close_refuted`, `C40_pattern_refuted`, `C41_buffer_refuted`, `C41_jump_refuted`, `C52_two_spans_refuted` |
| `PropElevate.v` | E, F, N | `C40_elevate_partial`, `C40_by_one_partial`, `C41_elevate_partial`, `C52_elevateU_partial`, `C52_elevateV_partial`, `C52_manyU_partial`, `C52_manyV_partial` |
| `PropEnd64.v` | C, E, F, N | `C115_start`, `C115_finish`, `C115_weight`, `C115_tiny` |
| `PropEndRel.v` | C, E, F, N | `C117_curve`, `C117_surface` |
| `PropErr.v` | C, E, F, N | `C65_basis_accuracy`, `C66_curve_accuracy`, `C67_surface_accuracy`, `C68_evaluate_safe`, `C68_insert_safe`, `C68_insert_list_safe`, `C68_search_safe`, `C69_evaluate_safe`, `C69_insert_list_safe`, `C69_search_safe` |
| `PropErrIns.v` | C, E, F, N | `C90_points`, `C90_curve`, `C91_curve`, `C91_evaluate` |
| `PropExtract64.v` | C, E, F, N | `C96_segments`, `C96_windows`, `C97_segments`, `C98_safe`, `C98_stops`, `C98_box`, `C98_hull` |
| `PropFan.v` | E, F, N | `C99_decision`, `C99_all_collapsed`, `C99_collapsed_v`, `C99_collapsed_u_refuted` |
| `PropGeom64.v` | C, E, F, N | `C100_uniform_doubles`, `C101_segment_doubles_partial`, `C101_right_end_refuted`, `C102_rect_doubles_partial`, `C102_corner_refuted` |
| `PropGeom64.v` | none | `C101_overflow_refuted` |
| `PropIter.v` | C, E, F, N | `C81_curve_search_run`, `C82_surface_search_run`, `C83_surface_search_on_run`, `C84_stationary_curve`, `C84_stationary_surface`, `C84_on_target`, `C84_on_target_surface`, `C84_farther_refuted`, `C84_farther_surface_refuted`, `C85_straight_curve_partial`, `C85_segment_partial`, `C85_straight_on_partial`, `C85_stall`, `C85_short_refuted` |
| `PropIter.v` | E, F | `C82_secant` |
| `PropJoint64.v` | C, E, F, N | `C120_joint` |
| `PropLoad.v` | none | `C70_curve_load_safe`, `C70_surface_load_partial`, `C70_surface_load_refuted`, `C71_loaded_grid_partial`, `C71_loaded_usable_refuted`, `C72_failed_load_refuted` |
| `PropMeta.v` | C, E, F, N | `C74_points_determine_curve`, `C76_smooth`, `C76_smooth_ends`, `C76_continuous`, `C80_start`, `C80_end` |
| `PropMeta.v` | E, F, N | `C73_curve_insertion_order`, `C73_surface_insertion_order_U`, `C73_surface_insertion_order_V`, `C73_surface_directions_commute`, `C74_multiplicity_bound_needed`, `C75_moving_one_point`, `C76_jump_at_full_multiplicity`, `C77_fixed_v`, `C77_fixed_u`, `C77_boundary_v0`, `C77_boundary_v1`, `C77_boundary_u0`, `C77_boundary_u1`, `C78_evaluate`, `C78_surface_evaluate`, `C78_insert`, `C79_half_spaces`, `C79_weights`, `C79_polynomial` |
| `PropMeta.v` | none | `C75_curve_locality`, `C75_surface_locality` |
| `PropMirror.v` | none | `C111_evaluate`, `C111_evaluate_all`, `C111_derivative`, `C111_insert`, `C111_insert_list`, `C111_insert_times`, `C111_elevate`, `C111_extract`, `C111_surface_evaluate`, `C111_surface_evaluate_all`, `C111_surface_derivative`, `C111_insertV`, `C111_insertV_times`, `C111_elevateU`, `C111_elevateV`, `C111_insertU`, `C111_insertU_times`, `C111_remove`, `C111_removeU`, `C111_removeV` |
| `PropMove.v` | E, F | `C109_translation_refuted` |
| `PropMove.v` | E, F, N | `C108_evaluate`, `C108_evaluate_all`, `C108_derivative`, `C108_insert`, `C108_insert_list`, `C108_insert_times`, `C108_elevate`, `C108_extract`, `C108_surface_evaluate`, `C108_surface_evaluate_all`, `C108_surface_derivative`, `C108_insertV`, `C108_insertV_times`, `C108_elevateU`, `C108_elevateV`, `C108_insertU`, `C108_insertU_times`, `C109_search`, `C109_binary_search`, `C109_surface_search`, `C109_search_on`, `C109_binary_search_on`, `C109_remove`, `C109_removeU`, `C109_removeV`, `C109_transform` |
| `PropMove.v` | F | `C108_images` |
| `PropQuery.v` | C, E, F, N | `C112_clamped`, `C112_degree`, `C112_pairs`, `C112_of_pairs`, `C112_findspan`, `C112_multiplicity`, `C112_uniform` |
| `PropQuery.v` | E, F | `C112_signed_zero` |
| `PropQuery.v` | E, F, N | `C112_multiplicity_edge` |
| `PropRemove.v` | C, E, F, N | `C35_roundtrip_refuted`, `C36_refused_refuted`, `C37_count_refuted`, `C38_weights_refuted`, `C39_not_a_knot_refuted` |
| `PropRemove.v` | E, F, N | `C35_roundtrip_partial`, `C35_roundtrip_times_partial`, `C36_refused_partial`, `C38_exact_partial`, `C39_not_a_knot_partial` |
| `PropRemove.v` | none | `C37_count_partial` |
| `PropReverse64.v` | C, E, F, N | `C103_reverse_doubles`, `C103_clamped_iff`, `C103_exact_grid`, `C103_clamped_refuted`, `C104_evaluate_partial`, `C104_direction_partial`, `C104_tie_refuted` |
| `PropReverse64.v` | none | `C104_align_doubles` |
| `PropRows.v` | C, E, F, N | `C92_double`, `C92_list`, `C93_surface`, `C93_evaluate` |
| `PropRows.v` | none | `C92_linesU`, `C92_linesV` |
| `PropSafeRem.v` | C, E, F, N | `C94_safe`, `C94_out`, `C94_knot`, `C95_doubleU`, `C95_doubleV` |
| `PropSafeRem.v` | none | `C95_linesU`, `C95_linesV` |
| `PropSame.v` | none | `C86_curve_orders`, `C86_curve_point`, `C86_surface_orders`, `C86_surface_point`, `C86_basis_orders` |
| `PropSeam64.v` | C, E, F, N | `C119_seam` |
| `PropSearch.v` | C | `C54_search_b64` |
| `PropSearch.v` | C, E, F, N | `C44_search`, `C44_nan_refuted`, `C45_binary_search_b64`, `C54_search`, `C54_search_on`, `C54_early_stop_refuted`, `C54_binary_search_b64`, `C54_nan_refuted` |
| `PropSearch.v` | E, F, N | `C45_binary_search_partial`, `C45_zero_epsilon`, `C45_zero_epsilon_refuted`, `C54_binary_search_on_partial` |
| `PropSearch.v` | none | `C44_search_b64` |
| `PropSerial.v` | none | `C57_curve_binary_roundtrip`, `C58_surface_binary_roundtrip_partial`, `C58_default_refuted`, `C59_truncated_curve_rejected`, `C59_truncated_surface_rejected`, `C62_binary_replaces`, `C62_text_refuted`, `C62_text_appends_partial`, `C63_bad_header_rejected`, `C63_types_exclusive`, `C63_good_header_accepted` |
| `PropSurfRemove.v` | C, E, F, N | `C51_count_refuted`, `C51_not_a_knot_refuted` |
| `PropSurfRemove.v` | E, F, N | `C51_roundtripU_partial`, `C51_roundtripV_partial`, `C51_exactU_partial`, `C51_exactV_partial` |
| `PropSurfRemove.v` | none | `C51_all_or_nothingU_partial`, `C51_all_or_nothingV_partial` |
| `PropSurface.v` | E, F | `C50_degree_0_refuted` |
| `PropSurface.v` | E, F, N | `C46_evaluate`, `C46_corners`, `C47_half_space`, `C47_box`, `C48_transform`, `C50_insert_partial`, `C50_insertU_list_partial`, `C50_insertV_list_partial`, `C50_times_partial`, `C55_segment`, `C56_rect_partial`, `C56_corner_refuted` |
| `PropText.v` | C, E, F, N | `C60_curve_text_roundtrip`, `C60_curve_text_exact`, `C61_surface_text_roundtrip`, `C61_surface_text_exact` |
| `PropText.v` | E, F | `C60_small_number_lost` |
| `PropText.v` | none | `C60_nonfinite_not_reloaded` |
| `PropTol.v` | C, E, F, N | `C87_refuted` |
| `PropTol.v` | E, F, N | `C87_polynomial_partial`, `C87_rational_partial` |
| `PropTrans64.v` | C, E, F, N | `C113_points`, `C113_net`, `C113_curve`, `C113_surface` |
| `PropVar.v` | E, F, N | `C88_variation`, `C88_insertion`, `C89_monotone` |
