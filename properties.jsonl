{"id": "C01", "title": "Knot-vector constructor accepts exactly the ordered vectors ending in 1", "statement": "KnotVector(values) succeeds and stores exactly the given values if and only if the list is non-empty, non-decreasing, starts at a value >= 0 and ends in exactly 1.0; in every other case it throws invalid_argument. (For binary64 inputs that contain a NaN this must also mean rejection.)", "quantifier": "every finite list of Numeric values of any length, exact or binary64, including NaN", "why_tests_cant": "unit tests check six hand-picked vectors; acceptance is a predicate over lists of unbounded length", "anchors": ["src/Core/KnotVector.cpp:10 ValidateKnots", "src/Core/KnotVector.cpp:58 KnotVector::KnotVector(vector<Numeric>)"]}
{"id": "C02", "title": "Pair constructor and GetKnotPairs are mutually inverse run-length codings", "statement": "GetKnotPairs lists the distinct knot values in order with their multiplicities (>=1, strictly increasing values, multiplicities summing to Count); KnotVector(pairs) expands the pairs; building a knot vector from GetKnotPairs of a constructed knot vector gives the same knot vector back.", "quantifier": "every knot vector of any length, and every list of (index,value,multiplicity) pairs", "why_tests_cant": "round-trip over unbounded lists and multiplicities", "anchors": ["src/Core/KnotVector.cpp:24 KnotVector::KnotVector(vector<KnotPair>)", "src/Core/KnotVector.cpp:64 KnotVector::GetKnotPairs"]}
{"id": "C03", "title": "KnotPair.Index locates the value in the knot vector", "statement": "For every pair returned by GetKnotPairs, Index is a position in the knot vector holding that pair's Value (the same convention for all pairs).", "quantifier": "every knot vector and every returned pair", "why_tests_cant": "no unit test reads Index; a convention must hold for every vector", "anchors": ["src/Core/KnotVector.cpp:64 KnotVector::GetKnotPairs", "include/libnurbs/Core/KnotVector.hpp KnotPair::Index"]}
{"id": "C04", "title": "Uniform produces a clamped, equally spaced, valid knot vector", "statement": "KnotVector::Uniform(degree, count) with count >= 2*(degree+1) and degree >= 0 returns exactly count knots: degree+1 zeros, then i/(k+1) for i=1..k with k=count-2(degree+1), then degree+1 ones; it never throws, the result satisfies IsValid (count>=4), is accepted as clamped for that degree, IsUniform returns true and DetectDegree returns degree. With fewer knots the assertion fires.", "quantifier": "all degrees and knot counts", "why_tests_cant": "unbounded family of parameters", "anchors": ["src/Core/KnotVector.cpp:36 KnotVector::Uniform"]}
{"id": "C05", "title": "IsValid decides validity", "statement": "IsValid returns true iff the vector has at least 4 knots, the first is exactly 0, the last exactly 1 and the sequence is non-decreasing.", "quantifier": "every knot vector (any length, any values)", "why_tests_cant": "decision procedure over unbounded lists", "anchors": ["src/Core/KnotVector.cpp:86 KnotVector::IsValid"]}
{"id": "C06", "title": "IsClamped decides clampedness", "statement": "For a valid knot vector, IsClamped returns true iff the first and last knots have equal multiplicity greater than one (the usual meaning of a clamped/open knot vector), in particular true for every vector made by Uniform with degree >= 1.", "quantifier": "every valid knot vector", "why_tests_cant": "no unit test calls IsClamped; the property quantifies over all vectors", "anchors": ["src/Core/KnotVector.cpp:98 KnotVector::IsClamped"]}
{"id": "C07", "title": "IsUniform decides equal spacing of distinct knots", "statement": "IsUniform returns true iff every non-zero gap between consecutive knots is within 1e-6 of the first non-zero gap.", "quantifier": "every knot vector", "why_tests_cant": "unit tests check five vectors", "anchors": ["src/Core/KnotVector.cpp:112 KnotVector::IsUniform"]}
{"id": "C08", "title": "FindSpanIndex returns the unique non-empty span containing the parameter", "statement": "For a knot vector clamped for the given degree and every u in [0,1], FindSpanIndex returns i with degree <= i <= Count-degree-2 and U[i] <= u < U[i+1], or, for u = 1, the last non-empty span U[i] < u = U[i+1]. It never reads out of range. For u outside [0,1] (NaN included) the assertion fires.", "quantifier": "every clamped knot vector, every degree, every u; exact and binary64", "why_tests_cant": "a continuum of parameters and unboundedly many vectors; boundary behaviour at every knot multiplicity", "anchors": ["src/Core/KnotVector.cpp:125 KnotVector::FindSpanIndex"]}
{"id": "C09", "title": "FindSpan returns the distinct-knot interval containing the parameter", "statement": "For a knot vector starting at 0, ending at 1 and with at least two distinct knots, and every u in [0,1], FindSpan returns neighbouring distinct knots Left, Right with Left.Value <= u < Right.Value (u <= Right.Value when Right is the last knot) and Index the rank of Left among distinct knots.", "quantifier": "every knot vector, every u", "why_tests_cant": "continuum of u and unbounded vectors", "anchors": ["src/Core/KnotVector.cpp:140 KnotVector::FindSpan"]}
{"id": "C10", "title": "DetectDegree inverts clamping", "statement": "DetectDegree returns (number of leading zero knots) - 1, hence returns p for every knot vector clamped for degree p; it throws out_of_range iff all knots are 0 (or there are none).", "quantifier": "every knot vector", "why_tests_cant": "no unit test calls it", "anchors": ["src/Core/KnotVector.cpp:156 KnotVector::DetectDegree"]}
{"id": "C11", "title": "GetMultiplicity counts the knots within 1e-6", "statement": "GetMultiplicity(u) is the number of positions whose knot differs from u by less than 1e-6; when distinct knots are at least 1e-6 apart from u or equal to it, it is the exact multiplicity of u.", "quantifier": "every knot vector and u", "why_tests_cant": "unbounded lists", "anchors": ["src/Core/KnotVector.cpp:165 KnotVector::GetMultiplicity", "include/libnurbs/Algorithm/MathUtils.hpp:14 Approx"]}
{"id": "C12", "title": "KnotVector::InsertKnot is sorted multiset insertion and reports the old span", "statement": "For a sorted knot vector with first knot 0 and last 1 and 0<value<1, InsertKnot(value,times) keeps it sorted and valid, adds exactly `times` copies of value and changes nothing else, and returns the index i in the original vector with U[i] <= value < U[i+1]. value outside (0,1) triggers the assertion.", "quantifier": "every sorted knot vector, value and times; exact and binary64 (finite)", "why_tests_cant": "unit tests check four cases", "anchors": ["src/Core/KnotVector.cpp:175 KnotVector::InsertKnot"]}
{"id": "C13", "title": "KnotVector::Reverse mirrors the parameter domain", "statement": "Reverse replaces U[i] by 1-U[m-i]; it preserves validity and clampedness, and in exact arithmetic is an involution.", "quantifier": "every knot vector", "why_tests_cant": "unbounded lists", "anchors": ["src/Core/KnotVector.cpp:184 KnotVector::Reverse"]}
{"id": "C14", "title": "BSplineBasis::Evaluate computes the Cox-de Boor basis", "statement": "For every clamped knot vector and x in [0,1], Evaluate(degree,knots,x) returns degree+1 numbers, the r-th being the Cox-de Boor B-spline basis function N_{i-degree+r,degree}(x) with i the span containing x; every other basis function of that degree is 0 at x. No division by zero and no out-of-range access occurs.", "quantifier": "every degree >= 0, every clamped knot vector (any interior multiplicities), every x in [0,1]; exact arithmetic", "why_tests_cant": "tests compare a few values for degree 2", "anchors": ["src/Basis/BSplineBasis.cpp:7 BSplineBasis::Evaluate", "src/Basis/BSplineBasis.cpp:30"]}
{"id": "C15", "title": "Basis functions are non-negative and sum to one", "statement": "The values returned by BSplineBasis::Evaluate are >= 0 and sum to 1.", "quantifier": "every degree, clamped knot vector and x in [0,1]; exact arithmetic", "why_tests_cant": "a universally quantified inequality over a continuum", "anchors": ["src/Basis/BSplineBasis.cpp:7 BSplineBasis::Evaluate"]}
{"id": "C16", "title": "EvaluateAll row k is the k-th derivative of the basis", "statement": "Row 0 of BSplineBasis::EvaluateAll equals Evaluate, and row k (k <= order) holds the k-th derivatives of the basis functions on the span containing x (the one-sided derivative from inside the span at knots). EvaluateDerivative(order) is row `order`.", "quantifier": "every degree, clamped knot vector, x, order; exact arithmetic", "why_tests_cant": "derivative identities over a continuum, all orders", "anchors": ["src/Basis/BSplineBasis.cpp:53 BSplineBasis::EvaluateAll", "src/Basis/BSplineBasis.cpp:46 EvaluateDerivative"]}
{"id": "C17", "title": "Derivatives above the degree are zero and are computed without out-of-range access", "statement": "For order > degree EvaluateAll still touches only valid entries and rows degree+1..order are all zero.", "quantifier": "every degree and order", "why_tests_cant": "tests never request order > degree", "anchors": ["src/Basis/BSplineBasis.cpp:53 BSplineBasis::EvaluateAll"]}
{"id": "C18", "title": "Factorial table", "statement": "Factorial(n) = n! for 0<=n<=9; any other n fails the assertion.", "quantifier": "every int n", "why_tests_cant": "range check on all ints", "anchors": ["include/libnurbs/Algorithm/MathUtils.hpp:7 Factorial"]}
{"id": "C19", "title": "Binomial computes binomial coefficients", "statement": "Binomial(n,k) = C(n,k) for all 0<=k, 0<=n whenever no intermediate product exceeds INT_MAX, in particular for every n <= 29; it is 0 for k>n. (For k<0 it should be 0.) Larger n must not silently overflow.", "quantifier": "all int pairs", "why_tests_cant": "no unit test; signed overflow is undefined behaviour", "anchors": ["include/libnurbs/Algorithm/MathUtils.hpp:27 Binomial"]}
{"id": "C20", "title": "Grid get/set coherence", "statement": "In a UxV grid, Get(u,v) addresses a distinct cell for each (u,v) in range; GetU(u)[v]=GetV(v)[u]=Get(u,v); SetU/SetV replace exactly one column/row and leave every other cell unchanged; SetU after GetU is the identity; wrong sizes or indices fail the assertion.", "quantifier": "all grid sizes, indices and contents of any element type", "why_tests_cant": "tests use one 3x3 grid", "anchors": ["include/libnurbs/Core/Grid.hpp Get/GetU/GetV/SetU/SetV"]}
{"id": "C21", "title": "Grid::InsertV inserts one row", "statement": "InsertV(k,d) yields a U x (V+1) grid whose row k is constantly d, rows below k unchanged and rows k.. shifted by one.", "quantifier": "all grids and 0<=k<V", "why_tests_cant": "unbounded sizes", "anchors": ["include/libnurbs/Core/Grid.hpp:101 InsertV"]}
{"id": "C22", "title": "Grid::InsertU inserts one column in place", "statement": "InsertU(k,d) yields a (U+1) x V grid whose column k is constantly d, columns below k unchanged and columns k.. shifted by one; the in-place backward moves never overwrite a cell before it has been read and never leave the buffer.", "quantifier": "all grids and 0<=k<U", "why_tests_cant": "in-place move algorithm with aliasing; unbounded sizes", "anchors": ["include/libnurbs/Core/Grid.hpp:109 InsertU"]}
{"id": "C23", "title": "Grid::Count is the number of stored elements", "statement": "Count() equals the number of stored values, for every grid reachable through the API (including the default-constructed one).", "quantifier": "all reachable grids", "why_tests_cant": "quantifies over every construction history", "anchors": ["include/libnurbs/Core/Grid.hpp:96 Count"]}
{"id": "C24", "title": "BoundingBox construction and containment", "statement": "BoundingBox(a,b) has Min<=Max component-wise, contains a and b, and is the smallest such box; Contains(point) decides component-wise membership; Contains(box) decides set inclusion for ordered boxes; Center lies in the box, Length is non-negative, Volume is the product of lengths.", "quantifier": "all points and boxes", "why_tests_cant": "no unit tests for BoundingBox", "anchors": ["include/libnurbs/Core/BoundingBox.hpp"]}
{"id": "C25", "title": "ExpandToInclude(point) grows the box to contain the point", "statement": "After box.ExpandToInclude(p) the box contains p and everything it contained before (it is the smallest such box).", "quantifier": "all boxes and points", "why_tests_cant": "no unit tests for BoundingBox", "anchors": ["include/libnurbs/Core/BoundingBox.hpp:23 ExpandToInclude(Vec3)"]}
{"id": "C26", "title": "ExpandToInclude(box) is the join", "statement": "After a.ExpandToInclude(b), a is the smallest box containing both; the operation is commutative, associative and idempotent.", "quantifier": "all ordered boxes", "why_tests_cant": "no unit tests for BoundingBox", "anchors": ["include/libnurbs/Core/BoundingBox.hpp:29 ExpandToInclude(BoundingBox)"]}
{"id": "C27", "title": "Curve::Evaluate is the rational B-spline point", "statement": "For a well-formed curve (clamped knots, matching control-point count, positive weights) and x in [0,1], Evaluate(x) = sum_i N_i(x) w_i P_i / sum_i N_i(x) w_i over all control points with Cox-de Boor basis functions; the denominator is positive, nothing is read out of range. x outside [0,1] fails the assertion.", "quantifier": "every well-formed curve of every degree, every x; exact arithmetic", "why_tests_cant": "tests compare a handful of points", "anchors": ["src/Curve/Curve.cpp:283 Curve::Evaluate"]}
{"id": "C28", "title": "Curves interpolate their end points", "statement": "Evaluate(0) is the first control point and Evaluate(1) the last.", "quantifier": "every well-formed curve", "why_tests_cant": "universally quantified", "anchors": ["src/Curve/Curve.cpp:283 Curve::Evaluate"]}
{"id": "C29", "title": "Convex-hull property of curves", "statement": "Every half-space (hence every axis-aligned box) containing all control points that influence x contains Evaluate(x).", "quantifier": "every well-formed curve with positive weights, every x, every half-space", "why_tests_cant": "inequality over a continuum", "anchors": ["src/Curve/Curve.cpp:283 Curve::Evaluate"]}
{"id": "C30", "title": "Curve::Transform commutes with evaluation", "statement": "Transform(R).Evaluate(x) = R * Evaluate(x) for every 3x3 matrix, degree, knots and weights unchanged.", "quantifier": "every well-formed curve, matrix and x; exact arithmetic", "why_tests_cant": "no unit test for Transform", "anchors": ["src/Curve/Curve.cpp:540 Curve::Transform"]}
{"id": "C31", "title": "Curve::EvaluateAll returns the true derivatives of the rational curve", "statement": "EvaluateAll(x,order)[k] is the k-th derivative of t -> Evaluate(t) at x, for x in the interior of a knot span and every k<=order<=29; entry 0 is Evaluate(x); EvaluateDerivative(x,k) is entry k.", "quantifier": "every well-formed curve, order, x; exact arithmetic", "why_tests_cant": "differential identity over a continuum and all orders", "anchors": ["src/Curve/Curve.cpp:325 Curve::EvaluateAll", "src/Curve/Curve.cpp:320", "src/Curve/Curve.cpp:299"]}
{"id": "C32", "title": "IsRational detects unequal weights", "statement": "IsRational (curve and surface) returns true iff some two control points carry different weights; false for no control points.", "quantifier": "every curve/surface", "why_tests_cant": "no unit tests", "anchors": ["src/Curve/Curve.cpp:345 Curve::IsRational", "src/Surface/Surface.cpp:446 Surface::IsRational"]}
{"id": "C33", "title": "Curve::InsertKnot(value) does not change the curve", "statement": "For a well-formed curve and 0<u<1, InsertKnot(u) succeeds, the result is well-formed with one more knot (u) and one more control point, same degree, and evaluates to the same point for every x in [0,1].", "quantifier": "every well-formed curve, every u of any existing multiplicity, every x; exact arithmetic", "why_tests_cant": "functional equality of two curves over a continuum", "anchors": ["src/Curve/Curve.cpp:471 Curve::InsertKnot(Numeric)"]}
{"id": "C34", "title": "Curve::InsertKnot(list / times) does not change the curve", "statement": "Inserting any list of knots in (0,1), or one knot any number of times, keeps the curve point-wise unchanged, adds exactly those knots, and agrees with repeated single insertion. Knots 0 and 1 must not be accepted if they would break the curve.", "quantifier": "every well-formed curve, every list of knots, every x; exact arithmetic", "why_tests_cant": "unbounded histories of insertions", "anchors": ["src/Curve/Curve.cpp:487", "src/Curve/Curve.cpp:494 Curve::InsertKnot(span)"]}
{"id": "C35", "title": "RemoveKnot undoes InsertKnot", "statement": "For a well-formed curve c and 0<u<1, c.InsertKnot(u).RemoveKnot(u,1,tol) succeeds with count 1 and returns c (same knots, same control points).", "quantifier": "every well-formed curve, u (separated from other knots by 1e-6), tol>=0; exact arithmetic", "why_tests_cant": "universal round-trip", "anchors": ["src/Curve/Curve.cpp:519 Curve::RemoveKnot", "src/Algorithm/KnotRemoval.cpp:23 KnotRemoval"]}
{"id": "C36", "title": "A refused removal leaves the curve unchanged", "statement": "If RemoveKnot reports 0 removed knots, the returned curve is the original curve.", "quantifier": "every curve for which removal is refused", "why_tests_cant": "tests never exercise refusal", "anchors": ["src/Algorithm/KnotRemoval.cpp:99", "src/Curve/Curve.cpp:519"]}
{"id": "C37", "title": "RemoveKnot removes exactly the number of knots it reports", "statement": "If RemoveKnot(u,times) reports t, the result has exactly t fewer knots and t fewer control points, for every 0<=t<=times.", "quantifier": "every curve, times and tolerance", "why_tests_cant": "partial success is never exercised by tests", "anchors": ["src/Algorithm/KnotRemoval.cpp:113-120"]}
{"id": "C38", "title": "An exactly removable knot is removed without changing the curve", "statement": "With tolerance 0, whenever RemoveKnot(u,1,0) reports 1 for an interior knot u, the returned curve is well-formed, has one knot fewer and evaluates to the same point everywhere.", "quantifier": "every well-formed curve and interior knot, every x; exact arithmetic", "why_tests_cant": "functional equality over a continuum", "anchors": ["src/Algorithm/KnotRemoval.cpp:23 KnotRemoval"]}
{"id": "C39", "title": "RemoveKnot of a value that is not a knot is harmless", "statement": "Asking to remove a value that is not a knot reports 0 and performs no out-of-range access.", "quantifier": "every well-formed curve and every u that is not a knot", "why_tests_cant": "tests only remove existing knots", "anchors": ["src/Algorithm/KnotRemoval.cpp:34-51"]}
{"id": "C40", "title": "ElevateDegree does not change the curve", "statement": "ElevateDegree(t) of a well-formed curve returns a well-formed curve of degree p+t in which each distinct knot's multiplicity has grown by t, and which evaluates to the same point for every x in [0,1].", "quantifier": "every well-formed curve, t>=1, x; exact arithmetic", "why_tests_cant": "functional equality over a continuum; tests use one curve", "anchors": ["src/Algorithm/DegreeAlgo.cpp:8 NurbsDegreeElevation", "src/Curve/Curve.cpp:531"]}
{"id": "C41", "title": "Degree elevation never writes outside its buffers", "statement": "ElevateDegree(t) performs no out-of-range vector access for any well-formed curve and t>=1.", "quantifier": "every well-formed curve and t", "why_tests_cant": "memory safety for unbounded numbers of spans; out-of-range writes may go unnoticed in a test", "anchors": ["src/Algorithm/DegreeAlgo.cpp:56-59"]}
{"id": "C42", "title": "ExtractBezier decomposes the curve", "statement": "For a well-formed curve whose interior knots have multiplicity at most its degree, ExtractBezier returns one Bezier curve per non-empty knot span, and the j-th segment evaluated at s equals the curve evaluated at a+(b-a)s with [a,b] the j-th span.", "quantifier": "every such curve, every segment, every s in [0,1]; exact arithmetic", "why_tests_cant": "functional equality over a continuum, no unit tests", "anchors": ["src/Curve/Curve.cpp:550 Curve::ExtractBezier"]}
{"id": "C43", "title": "GetBoundingBox contains the curve", "statement": "Every point Evaluate(x) lies in GetBoundingBox(epsilon) enlarged by epsilon; the subdivision terminates for every curve and epsilon.", "quantifier": "every well-formed curve, every x, every epsilon", "why_tests_cant": "containment over a continuum; no unit tests", "anchors": ["src/Curve/Curve.cpp:585 Curve::GetBoundingBox"]}
{"id": "C44", "title": "SearchParameter stays in the domain and stops", "statement": "Curve::SearchParameter started in [0,1] returns a parameter in [0,1] after at most max_iteration_count iterations, never evaluating outside [0,1]; if it stops early the curve point is within epsilon of the target; with max_iteration_count <= 0 it returns init.", "quantifier": "every well-formed curve, target point, epsilon, iteration bound", "why_tests_cant": "iterative optimiser; unboundedly many runs", "anchors": ["src/Curve/Curve.cpp:359 Curve::SearchParameter"]}
{"id": "C45", "title": "BinarySearchParameter stays in the domain, stops, and brackets the minimiser", "statement": "BinarySearchParameter with epsilon >= 0 returns a value in [0,1] after at most max_iteration_count rounds; if the distance to the target is strictly unimodal with minimiser m then m stays inside the search interval, whose width at least halves (or drops to 2*epsilon) each round, so the result is within max(epsilon, 2^-(rounds+1)) of m or within epsilon of the target.", "quantifier": "every curve, target, epsilon>=0, iteration bound", "why_tests_cant": "iterative search over a continuum", "anchors": ["src/Curve/Curve.cpp:423 Curve::BinarySearchParameter"]}
{"id": "C46", "title": "Surface::Evaluate is the tensor-product rational point", "statement": "For a well-formed surface and (u,v) in [0,1]^2, Evaluate(u,v) = sum_ij N_i(u) N_j(v) w_ij P_ij / sum_ij N_i(u) N_j(v) w_ij over the whole control grid; corners are interpolated; nothing is read out of range.", "quantifier": "every well-formed surface and (u,v); exact arithmetic", "why_tests_cant": "tests check a few points", "anchors": ["src/Surface/Surface.cpp:371 Surface::Evaluate"]}
{"id": "C47", "title": "Convex-hull property of surfaces", "statement": "Every half-space containing all control points contains Evaluate(u,v).", "quantifier": "every well-formed surface with positive weights, (u,v), half-space", "why_tests_cant": "inequality over a continuum", "anchors": ["src/Surface/Surface.cpp:371 Surface::Evaluate"]}
{"id": "C48", "title": "Surface::Transform commutes with evaluation", "statement": "Transform(R).Evaluate(u,v) = R * Evaluate(u,v).", "quantifier": "every well-formed surface, matrix, (u,v); exact arithmetic", "why_tests_cant": "no unit test", "anchors": ["src/Surface/Surface.cpp:844 Surface::Transform"]}
{"id": "C49", "title": "Surface::EvaluateAll returns the mixed partial derivatives", "statement": "EvaluateAll(u,v,a,b).Get(k,l) is the mixed partial derivative d^(k+l)/du^k dv^l of the surface at span-interior (u,v); Get(0,0) is Evaluate(u,v).", "quantifier": "every well-formed surface, orders, span-interior (u,v); exact arithmetic", "why_tests_cant": "differential identity over a continuum", "anchors": ["src/Surface/Surface.cpp:406 Surface::EvaluateAll", "src/Surface/Surface.cpp:1150 HomogeneousDerivative"]}
{"id": "C50", "title": "Surface::InsertKnotU/V do not change the surface", "statement": "For 0<k<1, InsertKnotU(k) / InsertKnotV(k) (single, repeated, list) return a well-formed surface with the knots added that evaluates to the same point for all (u,v).", "quantifier": "every well-formed surface, knots, (u,v); exact arithmetic", "why_tests_cant": "functional equality over a continuum", "anchors": ["src/Surface/Surface.cpp:675 InsertKnotU", "src/Surface/Surface.cpp:719 InsertKnotV"]}
{"id": "C51", "title": "Surface::RemoveKnotU/V are all-or-nothing", "statement": "RemoveKnotU/V either reports 0 and returns the surface unchanged, or reports t>0 and returns a surface whose grid and knot counts shrank by t consistently; removing a just-inserted knot restores the surface.", "quantifier": "every well-formed surface, knot, times, tolerance", "why_tests_cant": "refusal and partial success are not tested", "anchors": ["src/Surface/Surface.cpp:764 RemoveKnotU", "src/Surface/Surface.cpp:783 RemoveKnotV"]}
{"id": "C52", "title": "Surface::ElevateDegreeU/V do not change the surface", "statement": "ElevateDegreeU(t)/ElevateDegreeV(t) of every well-formed surface succeed and evaluate to the same point for all (u,v).", "quantifier": "every well-formed surface, t>=1, (u,v); exact arithmetic", "why_tests_cant": "tests use a single-span surface only", "anchors": ["src/Surface/Surface.cpp:802 ElevateDegreeU", "src/Surface/Surface.cpp:823 ElevateDegreeV"]}
{"id": "C53", "title": "AlignParameterDomain only re-parameterises", "statement": "The result of AlignParameterDomain evaluates at (u,v) to the original surface at one fixed symmetry of the unit square applied to (u,v) (swap and/or reversal), is well-formed, and when the dominant axes can be matched the control-net edges point in the positive requested axis directions.", "quantifier": "every well-formed surface and pair of axes", "why_tests_cant": "no unit test; functional equality over a continuum", "anchors": ["src/Surface/Surface.cpp:854 Surface::AlignParameterDomain"]}
{"id": "C54", "title": "Surface parameter searches stay in the domain and respect the fixed direction", "statement": "SearchParameter / SearchParameterOn / BinarySearchParameterOn return parameters in [0,1]^2 after at most max_iteration_count iterations; for the ...On variants with direction 0 (1) the returned u (v) is exactly the given constant; early stop means the point is within epsilon.", "quantifier": "every well-formed surface, target, start, epsilon, iteration bound", "why_tests_cant": "iterative optimiser", "anchors": ["src/Surface/Surface.cpp:458 SearchParameter", "src/Surface/Surface.cpp:538 SearchParameterOn", "src/Surface/Surface.cpp:616 BinarySearchParameterOn"]}
{"id": "C55", "title": "GeomSegment::GetCurve is the segment", "statement": "GetCurve returns a well-formed curve with the requested degree and control-point count, Evaluate(0)=LeftPoint, Evaluate(1)=RightPoint, every point on the straight segment, and Evaluate(t)=Left+t(Right-Left) when ControlPointCount = Degree+1.", "quantifier": "all end points, degrees >=1, counts >= degree+1, t in [0,1]; exact arithmetic", "why_tests_cant": "tests check one segment", "anchors": ["src/Geometry/GeomSegment.cpp:7"]}
{"id": "C56", "title": "GeomRect::GetSurface interpolates its four corners", "statement": "GetSurface returns a well-formed surface whose corners (0,0),(1,0),(0,1),(1,1) are LeftBottom, RightBottom, LeftTop, RightTop.", "quantifier": "all corner points, degrees and counts", "why_tests_cant": "tests use parallelograms only", "anchors": ["src/Geometry/GeomRect.cpp:7"]}
{"id": "C57", "title": "Binary save/load round trip for curves", "statement": "For every curve with fewer than 2^31 knots/points and int degree, LoadFromFile(SaveToFile(binary)) succeeds whatever the previous content of the receiving object and restores degree, knots and control points bit for bit (NaN payloads included).", "quantifier": "all curves, all prior states of the receiver, all bit patterns", "why_tests_cant": "unbounded data, all bit patterns", "anchors": ["src/Curve/Curve.cpp:29 Curve::LoadFromFile", "src/Curve/Curve.cpp:223 Curve::SaveToFile", "src/Utils/Serialization.cpp"]}
{"id": "C58", "title": "Binary save/load round trip for surfaces", "statement": "For every surface reachable through the API (the default-constructed one included) binary SaveToFile performs no out-of-range access, and loading the bytes restores degrees, knots and grid bit for bit.", "quantifier": "all surfaces, all prior states of the receiver", "why_tests_cant": "unbounded data", "anchors": ["src/Surface/Surface.cpp:25 Surface::LoadFromFile", "src/Surface/Surface.cpp:281 Surface::SaveToFile"]}
{"id": "C59", "title": "Truncated binary files are rejected", "statement": "Loading any strict prefix of a binary curve or surface file throws; it never returns normally.", "quantifier": "all curves/surfaces and all truncation points", "why_tests_cant": "every crash/truncation point", "anchors": ["src/Utils/Serialization.cpp", "src/Curve/Curve.cpp:66"]}
{"id": "C60", "title": "Text save/load round trip for curves", "statement": "Saving a curve with finite coordinates in text mode and loading it into a fresh object restores the degree exactly and every number to the nearest binary64 of its 17-decimal rendering, hence exactly whenever its magnitude is at least 1/16 (or it is a multiple of 2^-17).", "quantifier": "all curves with finite numbers", "why_tests_cant": "text formatting over all doubles", "anchors": ["src/Curve/Curve.cpp:253-273", "src/Curve/Curve.cpp:90-200"]}
{"id": "C61", "title": "Text save/load round trip for surfaces", "statement": "Same for surfaces with a positive-size grid.", "quantifier": "all surfaces with finite numbers", "why_tests_cant": "text formatting over all doubles", "anchors": ["src/Surface/Surface.cpp:317-361", "src/Surface/Surface.cpp:93-256"]}
{"id": "C62", "title": "Loading replaces the previous content", "statement": "The state after a successful LoadFromFile depends only on the stream, not on what the object held before (text and binary).", "quantifier": "all streams and all prior object states", "why_tests_cant": "tests always load into fresh objects", "anchors": ["src/Curve/Curve.cpp:110-150", "src/Surface/Surface.cpp:128-207"]}
{"id": "C63", "title": "Bad headers are rejected without touching the object", "statement": "LoadFromFile throws, leaving the object unchanged, whenever the header line is missing, has the wrong magic, an unknown mode or the wrong object type; curve files are never accepted as surfaces and vice versa.", "quantifier": "all byte streams", "why_tests_cant": "all possible headers", "anchors": ["src/Curve/Curve.cpp:29-64", "src/Surface/Surface.cpp:25-60"]}
{"id": "C64", "title": "TrimString removes exactly the surrounding white space", "statement": "TrimString(s) is the unique factor t of s = a ++ t ++ b with a, b white space only and t empty or starting and ending with non-space; it is idempotent.", "quantifier": "all strings", "why_tests_cant": "all strings of any length", "anchors": ["src/Utils/Serialization.cpp:67 TrimString"]}
{"id": "C65", "title": "Basis functions are computed accurately in binary64", "statement": "In IEEE-754 binary64, for finite clamped knots whose different neighbours are at least 2^-900 apart, a degree of at most 50 and a finite parameter in [0,1], FindSpanIndex and BSplineBasis::Evaluate return p+1 finite numbers >= 0, each within 18 p 2^-53 (relative) plus 2^-900 of the exact Cox-de Boor value; every basis function outside the span is exactly 0.", "quantifier": "all degrees <= 50, all such knot vectors, all parameters", "why_tests_cant": "rounding errors depend on every bit of the input", "anchors": ["src/Basis/BSplineBasis.cpp Evaluate"]}
{"id": "C66", "title": "Curve::Evaluate is accurate in binary64", "statement": "In binary64, for finite clamped knots as in C65, weights in [2^-100,2^100] and finite coordinates of absolute value at most M <= 2^100, Evaluate(x) returns a finite point each coordinate of which is within 45 (p+1) 2^-53 M + 2^-450 of the exact rational point.", "quantifier": "all such curves, all parameters in [0,1]", "why_tests_cant": "rounding errors depend on every bit of the input", "anchors": ["src/Curve/Curve.cpp Evaluate"]}
{"id": "C67", "title": "Surface::Evaluate is accurate in binary64", "statement": "In binary64, under the hypotheses of C66 in both directions, Evaluate(u,v) returns a finite point each coordinate of which is within 45 (pu+pv+1) 2^-53 M + 2^-450 of the exact tensor-product rational point.", "quantifier": "all such surfaces, all parameter pairs in [0,1]^2", "why_tests_cant": "rounding errors depend on every bit of the input", "anchors": ["src/Surface/Surface.cpp Evaluate"]}
{"id": "C68", "title": "Curves are memory safe in binary64 whatever the control points hold", "statement": "For a curve with finite clamped knots and a matching number of control points, whose coordinates and weights may be any bit pattern including NaN and infinities: Evaluate, EvaluateAll and EvaluateDerivative (order <= 29) return exactly when the parameter passes 0 <= x <= 1 and fail their assertion otherwise (NaN included); InsertKnot of interior values returns a curve that is again of this kind with exactly the given knots added; BinarySearchParameter always returns a parameter in [0,1]; SearchParameter returns or fails an assertion. No out-of-range access, no other undefined behaviour.", "quantifier": "all such curves, all parameters, all lists of inserted knots", "why_tests_cant": "all bit patterns of all inputs", "anchors": ["src/Curve/Curve.cpp Evaluate", "src/Curve/Curve.cpp:359-517"]}
{"id": "C69", "title": "Surfaces are memory safe in binary64 whatever the control points hold", "statement": "The analogue of C68 for surfaces: Evaluate, EvaluateAll and EvaluateDerivative (orders whose binomial products fit in int), InsertKnotU/V (which leave the other direction's knots alone), SearchParameter, SearchParameterOn and BinarySearchParameterOn.", "quantifier": "all such surfaces, all parameters, all lists of inserted knots", "why_tests_cant": "all bit patterns of all inputs", "anchors": ["src/Surface/Surface.cpp Evaluate", "src/Surface/Surface.cpp:458-762"]}
{"id": "C70", "title": "Loading arbitrary bytes never has undefined behaviour", "statement": "For every byte stream and every previous content of the receiver, Curve::LoadFromFile and Surface::LoadFromFile either return normally or throw runtime_error.", "quantifier": "all byte streams, all prior states of the receiver", "why_tests_cant": "all possible (also malicious) files", "anchors": ["src/Curve/Curve.cpp:29 Curve::LoadFromFile", "src/Surface/Surface.cpp:25 Surface::LoadFromFile", "src/Surface/Surface.cpp:189"]}
{"id": "C71", "title": "A successfully loaded object can be used", "statement": "After LoadFromFile returned normally the control grid of a surface holds exactly UCount*VCount > 0 points, and Evaluate on [0,1] and SaveToFile neither abort nor leave the object's arrays.", "quantifier": "all byte streams accepted by LoadFromFile", "why_tests_cant": "all accepted files", "anchors": ["src/Curve/Curve.cpp:29-201", "src/Surface/Surface.cpp:25-258"]}
{"id": "C72", "title": "A failed load leaves a usable object", "statement": "When LoadFromFile throws, the object is unchanged, or at least every operation that was safe before is still safe.", "quantifier": "all objects and all rejected streams", "why_tests_cant": "every failure point of every file", "anchors": ["src/Curve/Curve.cpp:66-88", "src/Surface/Surface.cpp:174-196"]}
{"id": "C73", "title": "The order of knot insertions does not matter", "statement": "For a well-formed curve and inner knots, InsertKnot of a list gives the same curve (knots, points, weights) for every order of the list; likewise InsertKnotU and InsertKnotV of a surface, and an insertion in U commutes with one in V.", "quantifier": "all well-formed curves/surfaces, all lists of inner knots, all permutations", "why_tests_cant": "all permutations of arbitrary lists", "anchors": ["src/Curve/Curve.cpp Curve::InsertKnot", "src/Surface/Surface.cpp Surface::InsertKnotU/InsertKnotV"]}
{"id": "C74", "title": "A curve is determined by the points Evaluate returns", "statement": "Two well-formed curves with the same degree, knots and weights whose Evaluate agrees on [0,1] have the same control points, provided no inner knot occurs more than degree+1 times; with more occurrences this fails.", "quantifier": "all pairs of well-formed curves", "why_tests_cant": "needs agreement at infinitely many parameters", "anchors": ["src/Curve/Curve.cpp Curve::Evaluate"]}
{"id": "C75", "title": "Control points act locally", "statement": "Evaluate, EvaluateAll and EvaluateDerivative depend, bit for bit and in any arithmetic, only on the degree+1 control points (grid of points) of the span FindSpanIndex returns. In exact arithmetic, moving control point m leaves the curve alone outside [t_m, t_(m+p+1)], and elsewhere moves each point by a factor in [0,1] times the displacement.", "quantifier": "all curves and surfaces, all changes to the other control points", "why_tests_cant": "all values of the unused points", "anchors": ["src/Curve/Curve.cpp Curve::Evaluate/EvaluateAll", "src/Surface/Surface.cpp Surface::Evaluate/EvaluateAll"]}
{"id": "C76", "title": "Smoothness at knots", "statement": "At an inner parameter occurring s times among the knots, EvaluateDerivative of every order k <= degree-s is continuous and is the k-th derivative of the curve; at 0 and 1 every order is continuous from inside. Evaluate is continuous on [0,1] when no inner knot occurs more than degree times; with degree+1 occurrences it can jump.", "quantifier": "all well-formed curves, all parameters, orders up to 29", "why_tests_cant": "limits; all parameters", "anchors": ["src/Curve/Curve.cpp Curve::EvaluateDerivative"]}
{"id": "C77", "title": "Isoparametric and boundary curves of a surface", "statement": "For fixed v the surface is the curve over the U knots whose control points are the points of the column curves at v (weight: their denominators); for fixed u symmetrically. On the boundary these are the curves of the first and last row and column of the net.", "quantifier": "all well-formed surfaces, all parameters", "why_tests_cant": "all parameters", "anchors": ["src/Surface/Surface.cpp Surface::Evaluate"]}
{"id": "C78", "title": "Affine invariance", "statement": "Applying an affine map to the control points and multiplying all weights by k>0 applies that map to every evaluated point of curves and surfaces, and commutes with knot insertion.", "quantifier": "all affine maps, k>0, well-formed curves/surfaces", "why_tests_cant": "all maps and parameters", "anchors": ["src/Curve/Curve.cpp Curve::Evaluate/InsertKnot", "src/Surface/Surface.cpp Surface::Evaluate"]}
{"id": "C79", "title": "Knot insertion stays in the hull of the control polygon", "statement": "Every half-space containing the control points contains those after InsertKnot; weights stay between the smallest and the largest weight; a curve with equal weights keeps IsRational false.", "quantifier": "all well-formed curves, lists of inner knots, half-spaces", "why_tests_cant": "all half-spaces and lists", "anchors": ["src/Curve/Curve.cpp Curve::InsertKnot"]}
{"id": "C80", "title": "End tangents", "statement": "EvaluateDerivative(0,1) is p/t_(p+1) * w1/w0 * (P1-P0), and EvaluateDerivative(1,1) is p/(1-t_n) * w_(n-1)/w_n * (P_n-P_(n-1)).", "quantifier": "all well-formed curves of degree at least 1", "why_tests_cant": "all curves", "anchors": ["src/Curve/Curve.cpp Curve::EvaluateDerivative"]}
{"id": "C81", "title": "SearchParameter on a curve is a projected secant method", "statement": "Every iterate of Curve::SearchParameter is a step of projected quasi-Newton descent on half the squared distance: the slope is the derivative of the objective in the knot span of the iterate, the step is the first of 20 backtracked steps passing the sufficient-decrease test, the inverse slope satisfies the secant equation, with the restart rule for small curvature.", "quantifier": "all well-formed curves, targets, starts in [0,1], tolerances, iteration bounds", "why_tests_cant": "an equivalence over all runs", "anchors": ["src/Curve/Curve.cpp Curve::SearchParameter"]}
{"id": "C82", "title": "SearchParameter on a surface is projected BFGS", "statement": "Every iterate of Surface::SearchParameter is a projected BFGS step: the slopes are the partial derivatives of half the squared distance, the matrix is symmetric and changes by the BFGS form, so that it satisfies the secant equation and stays positive definite for positive curvature.", "quantifier": "all well-formed surfaces, targets, starts in the unit square", "why_tests_cant": "an equivalence over all runs", "anchors": ["src/Surface/Surface.cpp Surface::SearchParameter"]}
{"id": "C83", "title": "SearchParameterOn is a projected secant method without backtracking", "statement": "Surface::SearchParameterOn with direction 0 or 1 runs the secant method of C81 on the isoparametric line with full steps only and returns the constant in the right place.", "quantifier": "all well-formed surfaces, directions, constants, starts", "why_tests_cant": "an equivalence over all runs", "anchors": ["src/Surface/Surface.cpp Surface::SearchParameterOn"]}
{"id": "C84", "title": "Stationary starts are kept; a search does not end farther away", "statement": "A search started at a stationary point of the distance, in particular on the target, returns the start. A search never ends farther from the target than it started.", "quantifier": "all well-formed curves/surfaces, targets, starts", "why_tests_cant": "all curves; the default arguments", "anchors": ["src/Curve/Curve.cpp Curve::SearchParameter"]}
{"id": "C85", "title": "SearchParameter finds points of straight curves", "statement": "A search with the default arguments for a point on a straight, evenly parameterised curve or isoline returns a parameter whose point is within epsilon of it.", "quantifier": "all straight curves/isolines, targets on them, starts", "why_tests_cant": "all lengths and starts; convergence", "anchors": ["src/Curve/Curve.cpp Curve::SearchParameter", "src/Surface/Surface.cpp Surface::SearchParameterOn"]}
{"id": "C86", "title": "Derivatives do not depend on the requested order", "statement": "EvaluateAll with a smaller order returns exactly the leading entries of EvaluateAll with a larger one, for curves, surfaces and basis functions; EvaluateDerivative returns the entry of its order, and the derivative of order zero is exactly Evaluate, failing exactly when it does.", "quantifier": "all curves/surfaces/knot vectors, well formed or not, all parameters and orders, any arithmetic (bit for bit on doubles)", "why_tests_cant": "bitwise agreement of separately coded algorithms (Basis::Evaluate against the table of EvaluateAll) for all inputs including NaN and infinities", "anchors": ["src/Curve/Curve.cpp Curve::EvaluateAll", "src/Curve/Curve.cpp Curve::EvaluateDerivative", "src/Surface/Surface.cpp Surface::EvaluateAll", "src/Basis/BSplineBasis.cpp BSplineBasis::EvaluateAll"]}
{"id": "C87", "title": "Knot removal stays within its tolerance", "statement": "When RemoveKnot(u, times, tolerance) reports times removals, no point of the curve moves by more than times * tolerance.", "quantifier": "all well-formed curves, parameters, interior knots, tolerances >= 0", "why_tests_cant": "the deviation is a supremum over all parameters and all curves; the tolerance is applied to homogeneous control points, not to points of the curve", "anchors": ["src/Algorithm/KnotRemoval.cpp CalcTOL", "src/Algorithm/KnotRemoval.cpp KnotRemoval", "src/Curve/Curve.cpp:519 Curve::RemoveKnot"]}
{"id": "C88", "title": "Variation diminishing", "statement": "A plane is crossed by the curve no more often than by its control polygon: whenever the points Evaluate returns at increasing parameters lie alternately on the two sides of a plane, as many control points, in order, lie on the same sides. Inserting knots adds no crossings to the control polygon.", "quantifier": "all well-formed curves (any degree, positive weights, any knot multiplicities), planes and finite sequences of parameters; all lists of inner knots", "why_tests_cant": "a statement about all planes and all finite samples of a curve", "anchors": ["src/Curve/Curve.cpp Curve::Evaluate", "src/Curve/Curve.cpp Curve::InsertKnot"]}
{"id": "C89", "title": "A curve does not go back where its control points do not", "statement": "If the control points are ordered along some direction, the points Evaluate returns are ordered along it in the order of their parameters, whatever the positive weights.", "quantifier": "all well-formed curves, directions and pairs of parameters", "why_tests_cant": "all pairs of parameters; all weights", "anchors": ["src/Curve/Curve.cpp Curve::Evaluate"]}
{"id": "C90", "title": "Knot insertion in doubles is accurate", "statement": "InsertKnot(u) in double precision gives the knots of the exact insertion, control points within 150*rho*M/2^53 of the exactly inserted ones and weights within 64*rho/2^53 relatively, where M bounds the coordinates and rho is the largest ratio of two weights. No point of the curve moves by more than 280*rho*M/2^53.", "quantifier": "all curves of degree >= 1 with finite clamped knots, finite control points, weights between 2^-99 and 2^99 with ratio up to 2^30, all inner doubles u (no distance from existing knots is assumed)", "why_tests_cant": "a bound on rounding errors over all curves and knots, including knots one unit in the last place apart", "anchors": ["src/Curve/Curve.cpp Curve::InsertKnot", "include/libnurbs/Core/Typedefs.hpp ToHomo/FromHomo"]}
{"id": "C91", "title": "Refining a curve in doubles does not spoil it", "statement": "Inserting a list of n knots in double precision moves no point of the exact curve by more than 1200*n*rho*M/2^53, and Evaluate in double precision on the refined curve agrees with Evaluate on the original up to (1200*n*rho + 135*(degree+1))*M/2^53.", "quantifier": "all such curves, all lists of inner doubles with n*rho <= 2^43, all parameters", "why_tests_cant": "errors of arbitrarily many insertions over all curves", "anchors": ["src/Curve/Curve.cpp Curve::InsertKnot", "src/Curve/Curve.cpp Curve::Evaluate"]}
{"id": "C92", "title": "Surface knot insertion is curve knot insertion on every line of the net", "statement": "InsertKnotU(u) turns every line of the net along u into exactly what Curve::InsertKnot(u) makes of that line, and InsertKnotV likewise along v, whatever the arithmetic: if the curve insertion succeeds on every line, the surface insertion succeeds, adds one control point to each line and leaves the other direction's knots alone. On doubles with sound knots no line can fail, NaN and infinite control points included, and the same holds for lists of knots. Curve::InsertKnot of a list gives, bit for bit, what inserting its knots one after the other gives.", "quantifier": "any number type; all full nets; all knots; on doubles all surfaces with finite clamped knots and any control points, all lists of inner doubles", "why_tests_cant": "bit-for-bit equality of different code paths over all inputs", "anchors": ["src/Surface/Surface.cpp:675 InsertKnotU", "src/Surface/Surface.cpp:719 InsertKnotV", "src/Curve/Curve.cpp:471 InsertKnot"]}
{"id": "C93", "title": "Refining a surface in doubles does not spoil it", "statement": "Inserting a list of n knots in one direction of a surface in double precision moves no point of the exact surface by more than 1600*n*rho*M/2^53, where M bounds the coordinates and rho is the largest ratio of two weights, and Evaluate in double precision on the refined surface agrees with Evaluate on the original up to (1600*n*rho + 135*(degreeU+degreeV+1))*M/2^53.", "quantifier": "all surfaces with finite clamped knots, finite control points, weights between 2^-99 and 2^99, degree >= 1 in the refined direction, all lists of inner doubles with n*rho <= 2^35, all parameters", "why_tests_cant": "errors of arbitrarily many insertions over all surfaces", "anchors": ["src/Surface/Surface.cpp:675 InsertKnotU", "src/Surface/Surface.cpp:719 InsertKnotV", "src/Surface/Surface.cpp Surface::Evaluate"]}
{"id": "C94", "title": "Exactly which knot removals on doubles are memory safe", "statement": "On a curve of doubles with sound knots, whose control points may hold any bits (NaN and infinities included), let p be the degree, n the last control point index, r the knot span of u, s the number of copies of u. RemoveKnot(u, times, tol) stays inside its arrays and returns whenever s <= p+2, p+times <= r, r-s+times <= n and 2*times <= p+s; it then reports a count between 0 and times, leaves the knots alone when it reports 0, and otherwise deletes exactly the knots r-times+1..r and shrinks the points by times. If these conditions already fail with 1 in place of times, the call reads or writes outside an array. Removing at most s copies of a knot that is there, with 2*times <= p+s, always returns a sound curve whose knots are the old ones without times copies of u.", "quantifier": "all curves of doubles with finite clamped knots, any control points, all inner u at least 1e-6 away from the other knots, any tolerance (NaN included), all times >= 1", "why_tests_cant": "out-of-bounds accesses depend on degree, multiplicity and position; a run that happens to read a neighbouring cell looks fine", "anchors": ["src/Algorithm/KnotRemoval.cpp:23 KnotRemoval", "src/Curve/Curve.cpp:519 Curve::RemoveKnot"]}
{"id": "C95", "title": "Surface knot removal is curve knot removal on every line, or nothing", "statement": "If Curve::RemoveKnot returns on every line of the net, then RemoveKnotU (RemoveKnotV) returns, whatever the arithmetic. It reports t different from 0 exactly when every line reports that same t; the result then consists of exactly the curves that removal makes of the lines, with one common knot vector. Otherwise it reports 0 and returns the surface unchanged. On doubles with sound knots and any control points, removing copies of a knot that is there never fails and returns a sound surface.", "quantifier": "any number type; all full nets with at most INT_MAX cells; all knots strictly between 0 and 1, all times >= 1 and tolerances", "why_tests_cant": "agreement of all lines over all surfaces and bit patterns", "anchors": ["src/Surface/Surface.cpp:764 RemoveKnotU", "src/Surface/Surface.cpp:783 RemoveKnotV", "src/Algorithm/KnotRemoval.cpp:23 KnotRemoval"]}
{"id": "C96", "title": "Bezier extraction on doubles never fails and only cuts the refined curve", "statement": "On doubles, ExtractBezier of a curve of degree at least 1 with finite clamped knots returns normally whatever bits the control points hold; every segment has the same degree, knots 0 and 1 repeated degree+1 times and degree+1 control points. If interior multiplicities are at most the degree there is one segment per non-empty knot span, and segment j holds, bit by bit, the control points j*p .. j*p+p of the curve obtained by inserting knots until every distinct knot occurs p times.", "quantifier": "every such curve of doubles, NaN and infinite control points included", "why_tests_cant": "quantifies over all curves of doubles", "anchors": ["src/Curve/Curve.cpp:550 Curve::ExtractBezier"]}
{"id": "C97", "title": "Bezier segments computed in doubles trace the curve up to rounding", "statement": "For coordinates at most M, weights whose quotient is at most rho and n inserted knots (n*rho <= 2^43), segment j of ExtractBezier on doubles at s is within 1200*n*rho/2^53*M + 2^-390 of the exact curve at a+(b-a)s, [a,b] the j-th span; evaluating the segment with the library stays within (1200*n*rho+90*(p+1))/2^53*M + 2^-380.", "quantifier": "every such curve of doubles, every segment, every s in [0,1]", "why_tests_cant": "error bound over a continuum and all doubles", "anchors": ["src/Curve/Curve.cpp:550 Curve::ExtractBezier", "src/Curve/Curve.cpp Curve::Evaluate"]}
{"id": "C98", "title": "GetBoundingBox on doubles: no failure, termination, contents", "statement": "On doubles GetBoundingBox never fails while it runs, whatever the control points and epsilon. If the coordinates are at most 2^26/p^2 it stops after at most 2^52 polygons per segment; its box is finite and ordered, contains exactly the end points of every Bezier segment and up to rounding the curve points at the knots, and stays inside every box with non-subnormal corners that contains the segments' control points.", "quantifier": "every curve of doubles of degree at least 1, every epsilon, NaN included", "why_tests_cant": "termination and containment over all doubles", "anchors": ["src/Curve/Curve.cpp:585 Curve::GetBoundingBox"]}
{"id": "C99", "title": "AlignParameterDomain on patches with collapsed edges", "statement": "If between one and three of the four border edges (corner to corner) are longer than 1e-6, AlignParameterDomain takes the two axes along which the corners spread most and treats the one to which more of these edges lean as the u axis, with the sign of their sum; a patch with one collapsed v edge is thereby aligned as requested; the same holds with one collapsed u edge; if all four are collapsed nothing changes.", "quantifier": "every well-formed surface whose corner extents differ, every pair of axes, every decreasing acos and every sorting function", "why_tests_cant": "no unit test; functional equality over a continuum, unbounded nets", "anchors": ["src/Surface/Surface.cpp:854 Surface::AlignParameterDomain"]}
{"id": "C100", "title": "KnotVector::Uniform on doubles", "statement": "For 0 <= degree and 2(degree+1) <= count <= 2^31, KnotVector::Uniform on doubles succeeds: count finite knots, clamped for the degree (end knots exactly 0 and 1, each exactly degree+1 times), the knots from index degree to count-degree-1 strictly increasing, every knot within 2^-52 of the exact uniform knot; IsValid (count >= 4) and IsUniform hold and DetectDegree returns the degree.", "quantifier": "every degree and every count that fits an int", "why_tests_cant": "rounding of i*(1/(k+1)) for billions of counts", "anchors": ["src/Core/KnotVector.cpp:36 KnotVector::Uniform", "src/Core/KnotVector.cpp:112 KnotVector::IsUniform"]}
{"id": "C101", "title": "GeomSegment::GetCurve on doubles is the segment up to rounding", "statement": "For finite end points GetCurve on doubles returns a curve that interpolates both of them, and every point it evaluates to is within a few ulps of a point of the segment: with coordinates at most M the control points are within 8/2^53*M + 2^-1000 of the exact ones (the first is exact) and every evaluated point is within (45(p+1)+9)/2^53*M + 2^-449 of Left + s(Right-Left) for some s in [0,1], with s = x if the count is degree+1.", "quantifier": "all finite end points, degrees 1 to 50, all counts", "why_tests_cant": "error bounds over all doubles", "anchors": ["src/Geometry/GeomSegment.cpp:7"]}
{"id": "C102", "title": "GeomRect::GetSurface on doubles is the parallelogram up to rounding", "statement": "For finite corners with coordinates at most M, GetSurface on doubles returns a surface whose left-bottom, right-bottom and left-top corners are the given ones, whose control points are within 17/2^53*M + 2^-1000 of the exact ones, and whose every evaluated point is within (135(p+q+1)+18)/2^53*M + 2^-449 of a + x(b-a) + y(d-a) for some x,y in [0,1], equal to the parameters for a single span.", "quantifier": "all such corners, degrees 1 to 50, all counts", "why_tests_cant": "error bounds over all doubles", "anchors": ["src/Geometry/GeomRect.cpp:7"]}
{"id": "C103", "title": "KnotVector::Reverse on doubles", "statement": "For finite nondecreasing knots in [0,1] the reversed vector of doubles is finite, of the same length, nondecreasing, and knot i is within 2^-54 of 1 minus knot count-1-i. If the vector is clamped for degree p (end knots 0 and 1, p+1 times each and no more) the reversed one is clamped for p exactly when the first interior knot is above 2^-54. If all knots are multiples of 2^-53 the reversal is exact and reversing twice gives the same values.", "quantifier": "all finite knot vectors of doubles in [0,1], all degrees", "why_tests_cant": "the boundary case lies at one double among 2^62; tests use knots such as 0.5", "anchors": ["src/Core/KnotVector.cpp:184 KnotVector::Reverse"]}
{"id": "C104", "title": "AlignParameterDomain on doubles", "statement": "For every surface of doubles with a full control net (NaN and infinities included) AlignParameterDomain succeeds and returns the surface with its directions exchanged or reversed: degrees exchanged, knots exchanged and subtracted from one, every control point carried over bit for bit. For sound surfaces the result evaluates to the original at the mirrored parameters within 45(p+q+1)/2^53*M + 2^-450 (outside jumps). If the two corner edges at (0,0) are dominated by the two requested axes, no corner edge is shorter than 1e-6 and opposite edges agree, then all edges of the result run forward along the requested axes.", "quantifier": "every surface of doubles, every acos, every sort that permutes", "why_tests_cant": "the choice depends on rounded edge vectors; one wrong index corrupts the net silently", "anchors": ["src/Surface/Surface.cpp:854 Surface::AlignParameterDomain"]}
{"id": "C105", "title": "Degree elevation on doubles: success, failure and knots never depend on the control points", "statement": "ElevateDegree(t) of a curve of doubles behaves the same (same outcome, same knots, same number of points) for any two sets of control points, NaN and infinities included. On clamped finite knots with degree >= 1, interior multiplicities at most the degree, distinct knots 1e-6 apart and degree+t <= 29 it succeeds, when its buffers suffice, with a clamped result of degree p+t in which every distinct knot gained exactly t copies. ElevateDegreeU/V of a surface of doubles do the same when that direction is a single span and stop at an assertion otherwise.", "quantifier": "every curve and surface of doubles with such knots, every bit pattern of the control points, every t", "why_tests_cant": "all bit patterns of control points, knots and weights; data-dependent branches of the removal loop", "anchors": ["src/Algorithm/DegreeAlgo.cpp:8 NurbsDegreeElevation", "src/Curve/Curve.cpp:531", "src/Surface/Surface.cpp:800-842"]}
{"id": "C106", "title": "Exactly when degree elevation succeeds on doubles", "statement": "For a clamped curve of doubles whose distinct knots are 1e-6 apart, ElevateDegree(t) returns a curve if and only if the degree p and t are at least 1, p+t <= 29, no interior knot is repeated more than p times, and the number of points of the result, n + t*spans, is at most 2(n-1+t). Otherwise: t < 1 stops at the assertion; p+t >= 30 overflows int; p = 0 throws std::length_error; a knot repeated more than p times and a too long result are undefined behaviour (the latter an out-of-range write). ElevateDegreeU/V of a surface, when the net size fits an int, succeeds if and only if p, t >= 1, p+t <= 29 and that direction is a single span.", "quantifier": "every sound curve and surface of doubles with such knots, every bit pattern of the control points, every t", "why_tests_cant": "both directions of an equivalence over all knot vectors, degrees and t; out-of-range writes usually go unnoticed when run", "anchors": ["src/Algorithm/DegreeAlgo.cpp:8 NurbsDegreeElevation", "src/Curve/Curve.cpp:531", "src/Surface/Surface.cpp:800-842"]}
{"id": "C107", "title": "Coordinates are computed independently and alike, bit for bit", "statement": "On doubles, coordinate a of the result of Evaluate, EvaluateAll, EvaluateDerivative, InsertKnot (all forms), ElevateDegree and ExtractBezier, of curves and surfaces, depends only on coordinate a of the control points, the weights, the knots and the degree; the same function is applied to x, y and z. So NaN, infinities or garbage in one coordinate never reach another one, permuting the axes commutes with every operation, and whether and how a call fails does not depend on the coordinates at all.", "quantifier": "all pairs of curves/surfaces of doubles that agree in one coordinate and the weights, well-formed or not; all parameters, orders, knots and counts; all outcomes", "why_tests_cant": "a relation between two runs over all bit patterns; a swapped coordinate in one branch shows only on inputs reaching it", "anchors": ["src/Curve/Curve.cpp Curve::Evaluate, EvaluateAll, InsertKnot, ElevateDegree, ExtractBezier", "src/Surface/Surface.cpp Surface::Evaluate, EvaluateAll, InsertKnotU, InsertKnotV, ElevateDegreeU, ElevateDegreeV", "src/Algorithm/DegreeAlgo.cpp"]}
{"id": "C108", "title": "Affine maps and weight scaling commute with every geometric operation", "statement": "Let d be c after an affine map x -> m x + b (any matrix) with all weights multiplied by k <> 0. Then every evaluation of d is the image of the evaluation of c, every derivative of order at least one is m times that of c, and knot insertion (single, list, repeated), degree elevation and Bezier extraction of d give the image of the result for c, with identical knots; each call fails on d exactly when and how it fails on c. The same for surfaces, mixed derivatives included.", "quantifier": "all affine maps, all k <> 0 (negative included), all curves and surfaces, malformed ones included, all parameters and all outcomes; exact arithmetic", "why_tests_cant": "all maps, all inputs, all failure modes", "anchors": ["src/Curve/Curve.cpp", "src/Surface/Surface.cpp", "src/Algorithm/DegreeAlgo.cpp"]}
{"id": "C109", "title": "Searches and knot removal under rigid motions", "statement": "Moving a curve or surface by a rigid motion (rotation or reflection, translation, and weight scaling) and moving the target point along with it leaves the outcome of SearchParameter, BinarySearchParameter, SearchParameterOn and BinarySearchParameterOn unchanged, failures included. RemoveKnot/RemoveKnotU/RemoveKnotV of an object turned by an isometry about the origin removes the same number of knots and returns the turned result. Knot removal is not invariant under translations: its tolerance shrinks with the distance from the origin.", "quantifier": "all isometries, translations, k <> 0, curves and surfaces (malformed included), all targets, tolerances, iteration limits, all outcomes; exact arithmetic (the counterexample is on doubles)", "why_tests_cant": "iterative searches compared over all motions", "anchors": ["src/Curve/Curve.cpp Curve::SearchParameter, BinarySearchParameter, RemoveKnot", "src/Surface/Surface.cpp Surface::SearchParameter, SearchParameterOn, BinarySearchParameterOn, RemoveKnotU, RemoveKnotV", "src/Algorithm/KnotRemoval.cpp"]}
{"id": "C110", "title": "GetBoundingBox moves with the curve", "statement": "Translating a curve, renaming its coordinate axes and multiplying all weights by k <> 0 moves GetBoundingBox(epsilon) accordingly and leaves failures and the course of the subdivision unchanged; only a curve without segments gets the default box at the origin wherever it is. The box is not symmetric under mirroring (a mirrored curve does not get the mirrored box) nor under reversal of the curve, because ExpandToInclude(point) keeps the old minimum but not the old maximum.", "quantifier": "all curves (malformed included), translations, permutations of the axes, k <> 0, epsilon; all outcomes; exact arithmetic (counterexamples on doubles)", "why_tests_cant": "two runs of an adaptive subdivision compared over all curves and motions", "anchors": ["src/Curve/Curve.cpp:585-668 Curve::GetBoundingBox", "include/libnurbs/Core/BoundingBox.hpp:23-27"]}
{"id": "C111", "title": "Mirror images and quarter turns are computed exactly on doubles", "statement": "On doubles, negating a coordinate of all control points (and possibly exchanging axes) negates that coordinate of every evaluated point and derivative and of every control point produced by knot insertion, degree elevation and Bezier extraction, bit for bit up to the sign of zero, for curves and surfaces; each call ends the same way. Knot removal (RemoveKnot, RemoveKnotU, RemoveKnotV) of a mirrored object removes the same number of knots and returns the mirror image.", "quantifier": "all curves and surfaces of doubles (malformed, infinite and NaN included), all axes, parameters, orders, knots, counts, tolerances; all outcomes", "why_tests_cant": "a relation between two runs over all bit patterns", "anchors": ["src/Curve/Curve.cpp", "src/Surface/Surface.cpp", "src/Algorithm/DegreeAlgo.cpp", "src/Algorithm/KnotRemoval.cpp"]}
{"id": "C112", "title": "Knot-vector queries on doubles", "statement": "On knot vectors of finite doubles: IsClamped, DetectDegree, GetKnotPairs, the constructor from pairs and FindSpan give the answers of exact arithmetic on the values of the knots; each pair carries one of the stored knots, its exact multiplicity, and FindSpan asserts exactly when the parameter is not a finite number in [0,1]. The round trip through pairs keeps all values, but may lose the sign of a negative zero. GetMultiplicity counts every knot within 1e-6(1-1e-15) and none at 1e-6 or farther, nothing infinite or NaN, and is the exact multiplicity when other knots are 1e-6 or more away; a knot at the double nearest to 1e-6 is not counted although it is nearer than 1e-6. IsUniform on knots in [0,1] answers true when all non-zero gaps are within 1e-6-1e-15 of the first one and false when one is off by 1e-6+1e-15 or more.", "quantifier": "all lists of doubles, all parameters (NaN and infinities included)", "why_tests_cant": "all bit patterns, including cancellation, overflow of a difference and the boundary of the tolerance", "anchors": ["src/Core/KnotVector.cpp", "include/libnurbs/Algorithm/MathUtils.hpp"]}
{"id": "C113", "title": "Transform on doubles", "statement": "For a matrix of finite doubles of absolute value at most K and control points of absolute value at most M with weights between 2^-100 and 2^100 and K*M at most 2^97, Curve::Transform and Surface::Transform keep degrees, knots, grid sizes and weights bit for bit, and each control point lands within 9*2^-53*K*M + 2^-1000 of the exact image. The transformed curve (surface), evaluated in doubles at any parameter in [0,1], gives a finite point within (180(p+1)+9)*2^-53*K*M + 2^-449 (with p+q in place of p) of the exact image of the exact point.", "quantifier": "all matrices, curves and surfaces of degree at most 50 with non-zero knot gaps of at least 2^-900, all parameters in [0,1]", "why_tests_cant": "all bit patterns of matrix, control points, knots and parameter; the bound covers cancellation in the products and in the basis", "anchors": ["src/Curve/Curve.cpp", "src/Surface/Surface.cpp"]}
{"id": "C114", "title": "BoundingBox operations on doubles", "statement": "On finite doubles: BoundingBox(a,b) is finite, ordered, contains a and b and is the smallest box that does; Contains(point) and Contains(box) decide membership and inclusion of the values, and Contains is false as soon as any coordinate is NaN; ExpandToInclude(box) is the smallest box containing both; ExpandToInclude(point) contains the point but its upper corner is the point. For corners up to 2^1022 Center is finite, lies in the box and is the midpoint up to rounding, and each Length is finite, non-negative, zero exactly for equal corners and has relative error at most 2^-53; near the largest double Center overflows and leaves the box. For corners up to 2^300 Volume is finite, non-negative and within 15*2^-53 times the exact volume plus 2^-700 of it, but it may be zero for a box with positive sides.", "quantifier": "all boxes and points of doubles", "why_tests_cant": "all bit patterns, including subnormals, overflow and NaN", "anchors": ["include/libnurbs/Core/BoundingBox.hpp"]}
{"id": "C115", "title": "End points of a curve of doubles", "statement": "On doubles, Curve::Evaluate at parameter 0 returns exactly the first control point, and at parameter 1 exactly the last one, for every degree and every clamped knot vector (the first positive knot at least 2^-900), provided that control point has weight 1 and each of its coordinates is zero or at least 2^-1021 in absolute value, and every control point and weighted control point is finite. Both provisos are needed: with a first weight of 3, or with a coordinate of 2^-1022, there is a curve whose start is not its first control point.", "quantifier": "all degrees, clamped knot vectors of doubles and control points meeting the provisos", "why_tests_cant": "the basis value computed at the end is sometimes 1 - 2^-53, and that the division cancels it is a fact about every double", "anchors": ["src/Curve/Curve.cpp", "src/Basis/BSplineBasis.cpp"]}
{"id": "C116", "title": "Corners of a surface of doubles", "statement": "On doubles, Surface::Evaluate at each of the four corners of the parameter square returns exactly the corner control point, for all degrees and clamped knot vectors (a first positive knot at least 2^-900), provided that control point has weight 1 and each of its coordinates is zero or at least 2^-1021 in absolute value, every control point and weighted control point is finite, and in at least one direction the length d of the knot span at that end satisfies d*(1/d) = 1 in double arithmetic, as every power of two does. Without the last proviso it is false: a spline surface of degree 1 by 1 with first spans 49/64 in both directions misses its corner (3,0,0).", "quantifier": "all degrees, clamped knot vectors of doubles and control nets meeting the provisos, all four corners", "why_tests_cant": "most knot vectors and most coordinates hide the double rounding; exactness is a claim about every double", "anchors": ["src/Surface/Surface.cpp", "src/Basis/BSplineBasis.cpp"]}
{"id": "C117", "title": "Relative accuracy at the ends and corners, whatever the weights", "statement": "On doubles, at either end of the parameter interval Curve::Evaluate returns, coordinate by coordinate, the end control point with relative error at most 5*2^-53, and at each corner of the parameter square Surface::Evaluate returns the corner control point with relative error at most 7*2^-53 (a zero coordinate stays zero). The bounds depend neither on the degree nor on the knots, the other control points or the weights, which may be of either sign, as long as the weight, the non-zero coordinates and the weighted non-zero coordinates of that point are at least 2^-1021 in absolute value, the coordinates at most 2^1022, all control points and weighted control points are finite, and the first positive knot is at least 2^-900.", "quantifier": "all degrees, clamped knot vectors of doubles and control points meeting the provisos", "why_tests_cant": "a relative bound for all doubles, all degrees and all weights", "anchors": ["src/Curve/Curve.cpp", "src/Surface/Surface.cpp", "src/Basis/BSplineBasis.cpp"]}
{"id": "C118", "title": "Boundary curves of a surface of doubles", "statement": "On doubles, Surface::Evaluate on the edges v = 0 and v = 1 returns exactly the point Curve::Evaluate returns for the curve built from the first or last row of the control net over the U knots, and on u = 0 and u = 1 the point of the first or last column over the V knots: no rounding error is added by the other direction. This holds for every parameter in [0,1] along the edge, for clamped knots with gaps zero or at least 2^-900, degree at most 50 along the edge (any degree across it), coordinates up to 2^100 and weights between 2^-100 and 2^100, provided the length d of the knot span across the edge satisfies d*(1/d) = 1 in double arithmetic. Without the last proviso it is false: with a first V span of 49/64 the edge v = 0 differs from the row's curve at u = 1/7.", "quantifier": "all degrees, clamped knot vectors of doubles and control nets meeting the provisos, all four edges, all parameters along them", "why_tests_cant": "an exact equality of two floating-point computations for every double parameter and every net; sampled knot vectors rarely hit a span that breaks it", "anchors": ["src/Surface/Surface.cpp", "src/Curve/Curve.cpp"]}
{"id": "C119", "title": "Surfaces of doubles that share an edge meet without a crack", "statement": "If an edge of one surface and an edge of another (any of the four of each) carry the same control points, the same degree and the same knot vector along the edge, then Surface::Evaluate on doubles returns points of exactly equal coordinates on both for every parameter in [0,1] along the edge, whatever the rest of the two nets, knots and degrees are. Provisos: clamped knots, gaps along the edge zero or at least 2^-900, degree along the edge at most 50, coordinates up to 2^100, weights between 2^-100 and 2^100, and across each edge a knot span of length d with d*(1/d) = 1 in double arithmetic (every power of two, so every Bezier direction).", "quantifier": "all pairs of surfaces meeting the provisos, all pairs of edges, all parameters along them", "why_tests_cant": "two different nested loops must round alike for every double parameter and whatever the interior control points", "anchors": ["src/Surface/Surface.cpp", "src/Curve/Curve.cpp"]}
{"id": "C120", "title": "A curve of doubles passes exactly through the control point of a full-multiplicity knot", "statement": "On doubles, for a curve of degree p >= 1 over clamped knots, Curve::Evaluate at a knot x that fills p consecutive places k+1..k+p of the knot vector (a joint of Bezier pieces, or the start) returns exactly control point k, provided that point has weight 1 and coordinates that are zero or at least 2^-1021 in absolute value, all control points and weighted control points are finite, and the next knot is at least 2^-900 further on. No condition is put on how the differences of knots round.", "quantifier": "all degrees >= 1, clamped knot vectors of doubles with a knot of full multiplicity, control points meeting the provisos", "why_tests_cant": "exactness for every double knot and coordinate; the intermediate factor is often 1-2^-53 and must cancel", "anchors": ["src/Curve/Curve.cpp", "src/Basis/BSplineBasis.cpp"]}
