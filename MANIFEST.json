{"claims": [
{"property": "C01", "status": "partial", "theorems": ["C01_constructor", "C01_constructor_b64", "C01_nan_refuted"], "note": "REFUTED for NaN: [0,NaN,1] is accepted (C01_nan_refuted). Exact characterisation proved for all real lists and for all NaN-free binary64 lists."},
{"property": "C02", "status": "proved", "theorems": ["C02_pairs", "C02_of_pairs", "C02_roundtrip"], "note": "Exact arithmetic, lists of any length."},
{"property": "C03", "status": "partial", "theorems": ["C03_index_refuted", "C03_index_b64_refuted", "C03_actual_index"], "note": "REFUTED: on [0,0,1,1] the first pair has Index 2, which holds 1. C03_actual_index states the indices really returned (one past the run, except for the last pair)."},
{"property": "C04", "status": "proved", "theorems": ["C04_uniform", "C04_too_few"], "note": "Exact arithmetic."},
{"property": "C05", "status": "proved", "theorems": ["C05_isvalid", "C05_isvalid_b64"], "note": "Reals, and finite binary64 by transfer."},
{"property": "C06", "status": "partial", "theorems": ["C06_isclamped_refuted", "C06_actual"], "note": "REFUTED in both directions: false on [0,0,1,1], true on [0,0,1/2,1]. C06_actual: for a valid vector it decides 'exactly one interior knot'."},
{"property": "C07", "status": "proved", "theorems": ["C07_isuniform"], "note": "Exact arithmetic."},
{"property": "C08", "status": "proved", "theorems": ["C08_findspan", "C08_findspan_b64"], "note": "Reals and binary64 (NaN and infinities included)."},
{"property": "C09", "status": "proved", "theorems": ["C09_findspan", "C09_outside"], "note": "Exact arithmetic."},
{"property": "C10", "status": "proved", "theorems": ["C10_detectdegree"], "note": "Exact arithmetic."},
{"property": "C11", "status": "proved", "theorems": ["C11_multiplicity"], "note": "Exact arithmetic."},
{"property": "C12", "status": "proved", "theorems": ["C12_insert", "C12_insert_b64"], "note": "Reals and binary64."},
{"property": "C13", "status": "proved", "theorems": ["C13_reverse", "C13_b64_not_involutive"], "note": "Exact arithmetic; in binary64 it is not an involution."},
{"property": "C14", "status": "proved", "theorems": ["C14_basis"], "note": "Exact arithmetic; Ok outcome means no division by zero and no out-of-range access."},
{"property": "C15", "status": "proved", "theorems": ["C15_partition_of_unity"], "note": "Exact arithmetic."},
{"property": "C16", "status": "proved", "theorems": ["C16_derivatives", "C16_row0", "C16_single"], "note": "piece_derivative also covers the one-sided derivative at the ends of the span."},
{"property": "C17", "status": "proved", "theorems": ["C17_above_degree"], "note": ""},
{"property": "C18", "status": "proved", "theorems": ["C18_factorial", "C18_assert"], "note": ""},
{"property": "C19", "status": "partial", "theorems": ["C19_binomial", "C19_negative_and_overflow_refuted", "C19_overflow"], "note": "Positive part proved; REFUTED: k<0 gives 1, and Binomial(30,16) overflows int (undefined behaviour)."},
{"property": "C20", "status": "partial", "theorems": ["C20_make", "C20_get", "C20_set", "C20_getU", "C20_getV", "C20_setU", "C20_setV", "C20_setget_identity", "C20_assert_above", "C20_negative_refuted"], "note": "Everything proved except that negative indices fail the assertion, which is REFUTED: Get(-1,1) on a 2x2 grid returns another cell."},
{"property": "C21", "status": "proved", "theorems": ["C21_insertV", "C21_outside"], "note": ""},
{"property": "C22", "status": "proved", "theorems": ["C22_insertU", "C22_outside"], "note": "Independent of the value a moved-from cell keeps."},
{"property": "C23", "status": "partial", "theorems": ["C23_count_partial", "C23_default_refuted"], "note": "REFUTED for the default-constructed grid (Count()=1, no values); proved for every grid built by the sized constructor and any sequence of modifiers."},
{"property": "C24", "status": "proved", "theorems": ["C24_make", "C24_contains", "C24_contains_box", "C24_center_length_volume", "C24_midpoint"], "note": ""},
{"property": "C25", "status": "partial", "theorems": ["C25_expand_refuted", "C25_contains_point_partial", "C25_actual"], "note": "REFUTED: ExpandToInclude(point) sets Max to the point, losing the old Max."},
{"property": "C26", "status": "proved", "theorems": ["C26_join", "C26_semilattice"], "note": ""},
{"property": "C27", "status": "proved", "theorems": ["C27_evaluate"], "note": "Exact arithmetic."},
{"property": "C28", "status": "proved", "theorems": ["C28_end_points"], "note": "Exact arithmetic."},
{"property": "C29", "status": "proved", "theorems": ["C29_half_space", "C29_box"], "note": "Half-space version over the control points with non-zero basis function, and its box corollary."},
{"property": "C30", "status": "proved", "theorems": ["C30_transform"], "note": "Exact arithmetic."},
{"property": "C31", "status": "proved", "theorems": ["C31_derivatives", "C31_order_bound_sharp"], "note": "C31_order_bound_sharp: order 30 overflows an int."},
{"property": "C32", "status": "proved", "theorems": ["C32_curve", "C32_surface"], "note": ""},
{"property": "C33", "status": "partial", "theorems": ["C33_insert_partial", "C33_degree_0_refuted"], "note": "Proved for every degree >= 1. REFUTED for degree 0: the new control point has weight 0 and evaluation gives NaN (C33_degree_0_refuted)."},
{"property": "C34", "status": "partial", "theorems": ["C34_list", "C34_times", "C34_outside", "C34_end_knot_refuted"], "note": "Proved for every list of knots in (0,1) and every degree, with agreement with repeated single insertion for degree >= 1. REFUTED for the last sentence: knot 1 is accepted and makes Evaluate(1) NaN (C34_end_knot_refuted)."},
{"property": "C35", "status": "partial", "theorems": ["C35_roundtrip_partial", "C35_roundtrip_times_partial", "C35_roundtrip_refuted"], "note": "Proved in exact arithmetic for every well-formed curve of degree >= 1 when the multiplicity after insertion is at most degree+1 (also for n-fold insertion and removal). REFUTED outside: for degree 0, or when u already has multiplicity degree+2, RemoveKnot reads out of bounds."},
{"property": "C36", "status": "partial", "theorems": ["C36_refused_refuted", "C36_refused_partial"], "note": "REFUTED: on refusal the control points are returned in homogeneous form (KnotRemoval.cpp:99 returns before lines 123-126), so a rational curve changes. Proved: degree and knots are kept, points are the homogeneous ones, curves with all weights 1 are unchanged."},
{"property": "C37", "status": "partial", "theorems": ["C37_count_refuted", "C37_count_partial"], "note": "REFUTED: on partial success both containers shrink by `times` instead of the reported count. Proved for every number type: 0 <= t <= times, no size change for t=0, shrinkage by `times` otherwise (so the claim holds for t=0 and t=times)."},
{"property": "C38", "status": "partial", "theorems": ["C38_exact_partial", "C38_weights_refuted"], "note": "Proved: knots clamped, counts match, exactly `times` copies of u removed, same point at every parameter (all multiplicities <= degree+1, times-fold removal). REFUTED part: the weights of the result can be non-positive, so the result need not be well-formed."},
{"property": "C39", "status": "partial", "theorems": ["C39_not_a_knot_refuted", "C39_not_a_knot_partial"], "note": "REFUTED twice: out-of-bounds read for a value in the first span; a non-knot can be reported removed and the curve changes. Proved: no undefined behaviour for degree >= 2 and a span that is neither first nor last."},
{"property": "C40", "status": "partial", "theorems": ["C40_elevate_partial", "C40_by_one_partial", "C40_overflow_refuted", "C40_degree_zero_refuted", "C40_close_refuted", "C40_pattern_refuted"], "note": "Proved for exact arithmetic when 1 <= degree, degree+t <= 29, interior multiplicities are at most the degree, distinct knots are at least 1e-6 apart, multiplicities do not jump up by more than one (or the degree is small, always so up to 9) and the buffer of 2(n+t) points suffices (always so for t=1). REFUTED in full generality: int overflow for degree+t >= 30, LengthError for degree 0, knots closer than 1e-6 merged, and wrong points from degree 10 on when a knot follows one of lower multiplicity."},
{"property": "C41", "status": "partial", "theorems": ["C41_elevate_partial", "C41_buffer_refuted", "C41_jump_refuted"], "note": "Proved for arbitrary control points and weights and without the condition on jumping multiplicities (the other conditions of C40 remain). REFUTED in general: the buffer of 2(n+t) points is too small for many spans when t >= 2; index -1 is written at an interior knot of multiplicity degree+1."},
{"property": "C42", "status": "partial", "theorems": ["C42_extract_partial", "C42_degree_zero_refuted"], "note": "Full statement for every degree >= 1 in exact arithmetic: number of segments, their shape and their points. REFUTED for degree 0: the cutting loop advances by the degree and never ends."},
{"property": "C43", "status": "partial", "theorems": ["C43_terminates_partial", "C43_box_partial", "C43_upper_refuted", "C43_rational_refuted", "C43_endless_refuted"], "note": "Exact arithmetic, degree >= 1: termination for every epsilon; points at the knots are in the box; for weights 1 nothing is below the box by more than max(epsilon, 1e-6) and the box is inside every box containing the curve. REFUTED: points above the box by more than epsilon (Max is reset by ExpandToInclude), points below it for rational curves, endless subdivision in binary64 far from the origin; degree 0 never gets past ExtractBezier (C42)."},
{"property": "C44", "status": "partial", "theorems": ["C44_search", "C44_search_b64", "C44_nan_refuted"], "note": "Exact arithmetic: proved in full (domain, at most max_iteration_count iterations, early stop within epsilon for epsilon <= DBL_MAX, bound <= 0 returns init; evaluation outside [0,1] would be AssertFail). binary64: every returned value is in [0,1] and the iteration bound holds for all bit patterns. REFUTED in binary64: 'never evaluates outside' fails for a far target (gradients inf - inf = NaN, clamp(NaN) = NaN)."},
{"property": "C45", "status": "partial", "theorems": ["C45_binary_search_partial", "C45_binary_search_b64", "C45_zero_epsilon", "C45_zero_epsilon_refuted"], "note": "Domain and iteration bound for all epsilon >= 0 (also in binary64); bracketing of the minimiser proved for epsilon > 0. REFUTED for epsilon = 0: the first round collapses the interval to 1/2, which is returned for every curve and target."},
{"property": "C46", "status": "proved", "theorems": ["C46_evaluate", "C46_corners"], "note": "Exact arithmetic; parameters outside the unit square fail the assertion."},
{"property": "C47", "status": "proved", "theorems": ["C47_half_space", "C47_box"], "note": "Stronger than stated: only control points whose basis function does not vanish need to lie in the half-space."},
{"property": "C48", "status": "proved", "theorems": ["C48_transform"], "note": ""},
{"property": "C49", "status": "partial", "theorems": ["C49_partials_partial", "C49_small_orders", "C49_overflow_refuted"], "note": "Proved, including the one-sided derivatives at knots, for all orders whose binomial products fit an int; every pair with sum <= 29 does (C49_small_orders). REFUTED beyond: orders (18,18) overflow an int (C49_overflow_refuted)."},
{"property": "C50", "status": "partial", "theorems": ["C50_insert_partial", "C50_insertU_list_partial", "C50_insertV_list_partial", "C50_times_partial", "C50_degree_0_refuted"], "note": "Proved for every degree >= 1 of the direction, single, list and repeated insertion. REFUTED for degree 0: a row of zero-weight points is inserted and evaluation gives NaN (C50_degree_0_refuted)."},
{"property": "C51", "status": "partial", "theorems": ["C51_all_or_nothingU_partial", "C51_all_or_nothingV_partial", "C51_roundtripU_partial", "C51_roundtripV_partial", "C51_exactU_partial", "C51_exactV_partial", "C51_count_refuted", "C51_not_a_knot_refuted"], "note": "Proved for every number type and every run: t=0 returns the surface itself, otherwise knots and grid shrink consistently by `times`. Proved in exact arithmetic: inserting a knot n times and removing it n times restores the surface; an accepted removal with tolerance 0 changes no point. REFUTED: after a partial success (0<t<times) the sizes shrink by `times`, not by the reported t; and a value that is not a knot causes an out-of-bounds read."},
{"property": "C52", "status": "partial", "theorems": ["C52_elevateU_partial", "C52_elevateV_partial", "C52_manyU_partial", "C52_manyV_partial", "C52_two_spans_refuted"], "note": "Proved for a direction with a single span (degree+1 points). REFUTED otherwise: with more than one span the call always ends in a failed assertion."},
{"property": "C53", "status": "partial", "theorems": ["C53_reparameterise_partial", "C53_direction_partial", "C53_corner_partial", "C53_jump_refuted", "C53_opposite_refuted", "C53_collapsed_refuted"], "note": "REFUTED in full generality: reversal at an interior knot of multiplicity above the degree exchanges one-sided values (C53_jump_refuted); opposite net edges running against each other leave an edge pointing the wrong way (C53_opposite_refuted); with a collapsed edge the u/v roles are ignored (C53_collapsed_refuted). Proved over exact reals: the result is always well formed and equals the original under one fixed symmetry of the square away from such knots, and all four net edges point the requested way when the edges are longer than 1e-6, the axes match and opposite edges agree. std::acos and std::sort are parameters (any function / any rearrangement)."},
{"property": "C54", "status": "partial", "theorems": ["C54_search", "C54_search_on", "C54_binary_search_on_partial", "C54_early_stop_refuted", "C54_search_b64", "C54_binary_search_b64", "C54_nan_refuted"], "note": "SearchParameter and SearchParameterOn proved in full in exact arithmetic; BinarySearchParameterOn: domain, bound and fixed direction proved, early stop characterised. REFUTED: BinarySearchParameterOn may stop early although the target is farther than epsilon (interval shorter than epsilon); in binary64 a far target makes both searches evaluate at NaN."},
{"property": "C55", "status": "proved", "theorems": ["C55_segment"], "note": ""},
{"property": "C56", "status": "partial", "theorems": ["C56_rect_partial", "C56_corner_refuted"], "note": "Proved for the corners (0,0),(1,0),(0,1) and the whole bilinear patch. REFUTED for the fourth corner: RightTopPoint is never read, the corner is RightBottom+LeftTop-LeftBottom (C56_corner_refuted)."},
{"property": "C57", "status": "proved", "theorems": ["C57_curve_binary_roundtrip"], "note": "Bit for bit for every curve whose degree and sizes fit an int, every receiver and any bytes following the file. Closed under the global context."},
{"property": "C58", "status": "partial", "theorems": ["C58_surface_binary_roundtrip_partial", "C58_default_refuted"], "note": "Proved for every surface with a positive-size grid (sizes fit int). REFUTED for the default-constructed surface: UCount = VCount = -1 makes cp_count 1 and Values[0] of an empty vector is read; a 0x0 grid is saved but its file is rejected."},
{"property": "C59", "status": "proved", "theorems": ["C59_truncated_curve_rejected", "C59_truncated_surface_rejected"], "note": "Every strict prefix throws std::runtime_error, for every curve (sizes fit int) and every surface with a positive-size grid."},
{"property": "C60", "status": "proved", "theorems": ["C60_curve_text_roundtrip", "C60_curve_text_exact", "C60_small_number_lost", "C60_nonfinite_not_reloaded"], "note": "For a receiver without knots and control points; IEEE values spelt out in SpecText on the bit patterns. The two last theorems show the restrictions (finite, at least 1/16 or a multiple of 2^-17 for exactness) are needed. The iostream formatting itself is modelled as correctly rounded."},
{"property": "C61", "status": "proved", "theorems": ["C61_surface_text_roundtrip", "C61_surface_text_exact"], "note": "Positive-size grid with U*V fitting int; receiver without knots."},
{"property": "C62", "status": "partial", "theorems": ["C62_binary_replaces", "C62_text_refuted", "C62_text_appends_partial"], "note": "Proved for binary files. REFUTED for text files: knots and curve control points are appended to the previous content. Proved for every text stream: exactly appended, outcome independent of the old lists."},
{"property": "C63", "status": "proved", "theorems": ["C63_bad_header_rejected", "C63_types_exclusive", "C63_good_header_accepted"], "note": "Against an independent description of headers (SpecSerial.good_header)."},
{"property": "C64", "status": "proved", "theorems": ["C64_trim", "C64_idempotent"], "note": ""},
{"property": "C65", "status": "proved", "theorems": ["C65_basis_accuracy"], "note": "Binary64 with Flocq's rounding; knots at least 2^-900 apart, degree at most 50."},
{"property": "C66", "status": "proved", "theorems": ["C66_curve_accuracy"], "note": "Binary64; bound 45(p+1)2^-53 M + 2^-450 per coordinate."},
{"property": "C67", "status": "proved", "theorems": ["C67_surface_accuracy"], "note": "Binary64; bound 45(pu+pv+1)2^-53 M + 2^-450 per coordinate."},
{"property": "C68", "status": "proved", "theorems": ["C68_evaluate_safe", "C68_insert_safe", "C68_insert_list_safe", "C68_search_safe"], "note": "Binary64; control points unrestricted."},
{"property": "C69", "status": "proved", "theorems": ["C69_evaluate_safe", "C69_insert_list_safe", "C69_search_safe"], "note": "Binary64; control points unrestricted."},
{"property": "C70", "status": "partial", "theorems": ["C70_curve_load_safe", "C70_surface_load_partial", "C70_surface_load_refuted"], "note": "Curves proved for every stream. REFUTED for surfaces: a file announcing UCount x VCount > INT_MAX points overflows int; that is the only way to fail."},
{"property": "C71", "status": "partial", "theorems": ["C71_loaded_grid_partial", "C71_loaded_usable_refuted"], "note": "REFUTED: degrees, knots and points are not checked against each other and an empty text body is accepted. The grid of a surface is complete after a binary load, or when it was complete before."},
{"property": "C72", "status": "partial", "theorems": ["C72_failed_load_refuted"], "note": "REFUTED: a truncated file leaves a valid curve or surface in a state where Evaluate or SaveToFile reads out of range. Nothing is changed when the header is rejected (C63)."},
{"property": "C73", "status": "proved", "theorems": ["C73_curve_insertion_order", "C73_surface_insertion_order_U", "C73_surface_insertion_order_V", "C73_surface_directions_commute"], "note": "Exact arithmetic; surfaces need degree >= 1 in the direction of insertion."},
{"property": "C74", "status": "proved", "theorems": ["C74_points_determine_curve", "C74_multiplicity_bound_needed"], "note": "Exact arithmetic."},
{"property": "C75", "status": "proved", "theorems": ["C75_curve_locality", "C75_surface_locality", "C75_moving_one_point"], "note": "Locality holds for every arithmetic; the movement bound is exact arithmetic."},
{"property": "C76", "status": "proved", "theorems": ["C76_smooth", "C76_smooth_ends", "C76_continuous", "C76_jump_at_full_multiplicity"], "note": "Exact arithmetic; derivative orders up to 29 (int binomials)."},
{"property": "C77", "status": "proved", "theorems": ["C77_fixed_v", "C77_fixed_u", "C77_boundary_v0", "C77_boundary_v1", "C77_boundary_u0", "C77_boundary_u1"], "note": "Exact arithmetic."},
{"property": "C78", "status": "proved", "theorems": ["C78_evaluate", "C78_surface_evaluate", "C78_insert"], "note": "Exact arithmetic; insertion for curves."},
{"property": "C79", "status": "proved", "theorems": ["C79_half_spaces", "C79_weights", "C79_polynomial"], "note": "Exact arithmetic; curves."},
{"property": "C80", "status": "proved", "theorems": ["C80_start", "C80_end"], "note": "Exact arithmetic."},
{"property": "C81", "status": "proved", "theorems": ["C81_curve_search_run"], "note": "Exact arithmetic."},
{"property": "C82", "status": "proved", "theorems": ["C82_surface_search_run", "C82_secant"], "note": "Exact arithmetic."},
{"property": "C83", "status": "proved", "theorems": ["C83_surface_search_on_run"], "note": "Exact arithmetic."},
{"property": "C84", "status": "partial", "theorems": ["C84_stationary_curve", "C84_stationary_surface", "C84_on_target", "C84_on_target_surface", "C84_farther_refuted", "C84_farther_surface_refuted"], "note": "Stationary starts: proved. REFUTED: with the default arguments the search on a polyline starts at distance 1 and ends at distance 2 (the first step is accepted unconditionally because the residual starts at DBL_MAX)."},
{"property": "C85", "status": "partial", "theorems": ["C85_straight_curve_partial", "C85_segment_partial", "C85_straight_on_partial", "C85_stall", "C85_short_refuted"], "note": "Proved for straight evenly parameterised curves and isolines of length 1 to 10^4 (no upper bound for SearchParameterOn) and eps >= 1e-8: two iterations suffice. REFUTED for short curves: below length 1/1024 an iteration moves the parameter by at most twice the squared length, so the default 512 iterations from the middle of a segment of length 1/1024 do not find its start. Exact arithmetic."},
{"property": "C86", "status": "proved", "theorems": ["C86_curve_orders", "C86_curve_point", "C86_surface_orders", "C86_surface_point", "C86_basis_orders"], "note": "Any arithmetic, so bit for bit on doubles; no well-formedness assumed."},
{"property": "C87", "status": "partial", "theorems": ["C87_polynomial_partial", "C87_rational_partial", "C87_refuted"], "note": "REFUTED in general: the tolerance is compared with homogeneous norms, so small weights let the curve move by 256 times the tolerance. Proved for curves with unit weights; for rational curves a bound that also depends on the size of the control polygon. Missing: partial removals (fewer knots reported than requested), where the code's result is wrong anyway (C37)."},
{"property": "C88", "status": "proved", "theorems": ["C88_variation", "C88_insertion"], "note": "Exact arithmetic; every degree, knot multiplicities up to any order, parameters 0 and 1 included."},
{"property": "C89", "status": "proved", "theorems": ["C89_monotone"], "note": "Exact arithmetic, rational curves included."},
{"property": "C90", "status": "proved", "theorems": ["C90_points", "C90_curve"], "note": "Binary64 against exact arithmetic; the factor rho is inherent: moving a blending factor by one rounding moves the blended point in proportion to the ratio of the weights."},
{"property": "C91", "status": "proved", "theorems": ["C91_curve", "C91_evaluate"], "note": "Binary64; C91_evaluate also needs neighbouring distinct knots 2^-900 apart and degree <= 50, as C66 does."},
{"property": "C92", "status": "proved", "theorems": ["C92_linesU", "C92_linesV", "C92_double", "C92_list"], "note": "C92_linesU/V hold for every instance of the number class; C92_double and C92_list in binary64 with arbitrary control points. Degree 0 is excluded (the surface code asserts where the curve code does not)."},
{"property": "C93", "status": "proved", "theorems": ["C93_surface", "C93_evaluate"], "note": "Binary64; C93_evaluate also needs neighbouring distinct knots 2^-900 apart and degrees <= 50, as C67 does."},
{"property": "C94", "status": "proved", "theorems": ["C94_safe", "C94_out", "C94_knot"], "note": "Binary64, knots at least 1e-6 away from u or equal to it (the library counts copies with a tolerance of 1e-6). For times = 1 C94_safe and C94_out together decide every call; for times > 1 a call whose first attempts fit and whose last does not depends on how many attempts succeed and is left open."},
{"property": "C95", "status": "proved", "theorems": ["C95_linesU", "C95_linesV", "C95_doubleU", "C95_doubleV"], "note": "C95_linesU/V hold for every instance of the number class; the surface functions do not assert 0 < u < 1 and times > 0 as the curve function does, hence the two hypotheses."},
{"property": "C96", "status": "proved", "theorems": ["C96_segments", "C96_windows"], "note": "Doubles; any control points. Degree 0 is excluded: there the cutting loop never ends (C42_degree_zero_refuted)."},
{"property": "C97", "status": "proved", "theorems": ["C97_segments"], "note": "Doubles; M <= 2^98, weights in [2^-99,2^99] with quotient at most rho <= 2^29; the evaluation part needs degree <= 50."},
{"property": "C98", "status": "proved", "theorems": ["C98_safe", "C98_stops", "C98_box", "C98_hull"], "note": "Doubles. C43_endless_refuted shows that termination needs a bound on the coordinates; C43_upper_refuted that the box need not contain the whole curve."},
{"property": "C99", "status": "partial", "theorems": ["C99_decision", "C99_all_collapsed", "C99_collapsed_v", "C99_collapsed_u_refuted"], "note": "Reals. REFUTED for a collapsed u edge: the majority of the remaining edges are v edges, so the requested axes always come out exchanged."},
{"property": "C100", "status": "proved", "theorems": ["C100_uniform_doubles"], "note": "Doubles."},
{"property": "C101", "status": "partial", "theorems": ["C101_segment_doubles_partial", "C101_right_end_refuted", "C101_overflow_refuted"], "note": "Doubles, coordinates up to 2^98. REFUTED for the right end point, which is met only up to rounding (Left.x = 1, Right.x = 2^-60 gives 0), and for coordinates whose difference overflows: the whole curve is then NaN."},
{"property": "C102", "status": "partial", "theorems": ["C102_rect_doubles_partial", "C102_corner_refuted"], "note": "Doubles, coordinates up to 2^98. REFUTED for the exact corners other than left-bottom."},
{"property": "C103", "status": "proved", "theorems": ["C103_reverse_doubles", "C103_clamped_iff", "C103_exact_grid", "C103_clamped_refuted"], "note": "Doubles. C103_clamped_refuted shows the condition of C103_clamped_iff is needed: an interior knot 2^-60 becomes an end knot."},
{"property": "C104", "status": "partial", "theorems": ["C104_align_doubles", "C104_evaluate_partial", "C104_direction_partial", "C104_tie_refuted"], "note": "Doubles. Success and the exact rearrangement are unconditional. The evaluation bound is for knots that are multiples of 2^-53 (others are perturbed by the reversal, C103) and outside jumps (C53_jump_refuted). REFUTED for the directions when an axis dominates by less than the rounding error; proved with a margin of 2^-50 and corner edges of at least 2e-6."},
{"property": "C105", "status": "partial", "theorems": ["C105_elevate_partial", "C105_points_irrelevant", "C105_elevateU_partial", "C105_elevateV_partial", "C105_several_spansU", "C105_several_spansV", "C105_buffer_refuted"], "note": "Independence of the control points is proved without conditions. Success with a sound result is proved under the listed conditions on the knots and buffers. REFUTED without the buffer condition (four linear spans raised by 2 write out of range)."},
{"property": "C106", "status": "proved", "theorems": ["C106_exact", "C106_fails", "C106_exactU", "C106_exactV"], "note": "Control points may be any bit patterns. Knots closer than 1e-6 but different are outside the claim."},
{"property": "C107", "status": "proved", "theorems": ["C107_evaluate", "C107_evaluate_all", "C107_derivative", "C107_insert", "C107_insert_list", "C107_insert_times", "C107_elevate", "C107_extract", "C107_surface_evaluate", "C107_surface_evaluate_all", "C107_surface_derivative", "C107_insertV", "C107_insertV_times", "C107_elevateU", "C107_elevateV", "C107_insertU", "C107_insertU_times"], "note": "Relational: two runs on objects that agree in one coordinate and the weights. RemoveKnot, searches and boxes measure lengths over all coordinates and are outside. InsertKnotU: the memory added by resize must agree in the same way."},
{"property": "C108", "status": "proved", "theorems": ["C108_images", "C108_evaluate", "C108_evaluate_all", "C108_derivative", "C108_insert", "C108_insert_list", "C108_insert_times", "C108_elevate", "C108_extract", "C108_surface_evaluate", "C108_surface_evaluate_all", "C108_surface_derivative", "C108_insertV", "C108_insertV_times", "C108_elevateU", "C108_elevateV", "C108_insertU", "C108_insertU_times"], "note": "Exact arithmetic, all outcomes. Points of weight zero have no position and are compared by weight only. InsertKnotU: likewise for the memory added by resize."},
{"property": "C109", "status": "proved", "theorems": ["C109_search", "C109_binary_search", "C109_surface_search", "C109_search_on", "C109_binary_search_on", "C109_remove", "C109_removeU", "C109_removeV", "C109_transform", "C109_translation_refuted"], "note": "Exact arithmetic; the translation counterexample for knot removal is on doubles. SearchParameter is compared at equal fuel."},
{"property": "C110", "status": "proved", "theorems": ["C110_box", "C110_mirror_refuted", "C110_backwards_refuted"], "note": "Exact arithmetic; the two counterexamples (mirror, reversal) that delimit the claim are on doubles."},
{"property": "C111", "status": "proved", "theorems": ["C111_evaluate", "C111_evaluate_all", "C111_derivative", "C111_insert", "C111_insert_list", "C111_insert_times", "C111_elevate", "C111_extract", "C111_surface_evaluate", "C111_surface_evaluate_all", "C111_surface_derivative", "C111_insertV", "C111_insertV_times", "C111_elevateU", "C111_elevateV", "C111_insertU", "C111_insertU_times", "C111_remove", "C111_removeU", "C111_removeV"], "note": "Relational, on the IEEE model without NaN payloads. InsertKnotU: the memory added by resize must be mirrored, too. GetBoundingBox is not mirror symmetric (C110)."},
{"property": "C112", "status": "proved", "theorems": ["C112_clamped", "C112_degree", "C112_pairs", "C112_of_pairs", "C112_signed_zero", "C112_findspan", "C112_multiplicity", "C112_multiplicity_edge", "C112_uniform"], "note": "Binary64 counterparts of C02, C03, C06, C07, C09, C10, C11. IsUniform: nothing is claimed between 1e-6-1e-15 and 1e-6+1e-15, nor for knots outside [0,1]."},
{"property": "C113", "status": "proved", "theorems": ["C113_points", "C113_net", "C113_curve", "C113_surface"], "note": "Binary64 counterpart of the affine invariance under Transform. The bound is absolute in K*M, as it must be: a small image coordinate can come from cancellation."},
{"property": "C114", "status": "proved", "theorems": ["C114_make", "C114_contains", "C114_contains_box", "C114_join", "C114_expand", "C114_center", "C114_center_overflow", "C114_length", "C114_volume", "C114_volume_zero"], "note": "Binary64 counterpart of C24-C26. The bounds of Volume do not depend on the order in which Eigen multiplies the three sides, the model multiplies from the left."},
{"property": "C115", "status": "proved", "theorems": ["C115_start", "C115_finish", "C115_weight", "C115_tiny"], "note": "Binary64 counterpart of the end-point interpolation of C28. No tolerance: the values are equal (a zero coordinate may change its sign bit)."},
{"property": "C116", "status": "proved", "theorems": ["C116_corner", "C116_power", "C116_two_spans"], "note": "Surface counterpart of C115. The values are equal, a zero coordinate may change its sign bit."},
{"property": "C117", "status": "proved", "theorems": ["C117_curve", "C117_surface"], "note": "Complements C115 and C116, where the weight is 1 and the result is exact; C115_weight shows that it need not be exact here. The general accuracy theorems (C65, C66) have bounds that grow with the degree and with the largest coordinate."},
{"property": "C118", "status": "proved", "theorems": ["C118_row", "C118_column", "C118_span"], "note": "Along-the-edge counterpart of C116. The values are equal, a zero coordinate may change its sign bit."},
{"property": "C119", "status": "proved", "theorems": ["C119_seam"], "note": "C118_span shows the proviso on the span across the edge cannot be dropped. A zero coordinate may differ in its sign bit."},
{"property": "C120", "status": "proved", "theorems": ["C120_joint"], "note": "Extends C115_start from the first knot to every knot of full multiplicity, e.g. after inserting a knot degree times. A zero coordinate may change its sign bit."}
]}
