# Formal model of cfnptr/math — design

## 1. What is being built

A Rocq (Coq 8.16.1) model of the library's functions, written function by
function from the text of /repo, and theorems about that model for the
properties in `properties.jsonl`.  The code is never run; the only link from
model to code is the citation (file and lines) above every model definition.

    rocq/theories/Model/   the model: one file per source header/translation unit
    rocq/theories/Spec/    small specifications, independent of the model's helpers
    rocq/theories/Proofs/  lemmas
    rocq/theories/Props/   the property theorems only: each closed by `exact lemma.`,
                           `Print Assumptions` beneath, and a non-vacuity Example

## 2. Modelling decisions

* **Scalars.** Floating-point code is modelled once, polymorphically over a class
  `Scalar` (literals, + - * / neg abs sqrt fma, `<`, `<=`, `==`).  Operation order
  is kept exactly as in the source.  Two instances:
  * `R` — exact real arithmetic.  Theorems at this instance are *idealised*: they
    say the algorithm is right when rounding is ignored.  Division by zero and
    sqrt of a negative are excluded by explicit hypotheses, never used as facts.
  * `F32` — IEEE-754 binary32 with round-to-nearest-even from Flocq
    (`b32_plus`, `b32_mult`, `b32_fma`, ...), bit-exact and executable.  Theorems
    about rounding, NaN, min/max containment and all float counterexamples
    (`_refuted`) are at this instance.
* **Code paths.** SSE, NEON and scalar branches are separate definitions where they
  differ in more than instruction selection (inverse4x4, transpose, unsigned
  compare, min/max operand order).  `MATH_SIMD_FMA` is a parameter (fused or not).
* **Integers** are `Z` with the wrap (`mod 2^32`) written out; signed overflow,
  out-of-range float-to-int conversion, out-of-bounds access and a division by
  zero are a distinct `UB` outcome; `abort()` is `Abort`; `assert` is off unless the
  theorem says otherwise (release build).
* **Memory** of a SIMD vector is modelled where code relies on it (bin and node
  counters stored in the bits of the w lane, memcmp orders, packed vectors).
* **Transcendental functions** (sin, cos, tan, acos, pow) of the C library are the
  real functions at instance R.  At F32 their rounding is unspecified: theorems there
  either take any function of a stated accuracy (C118) or do not mention them.  The
  library's own SIMD exp, log, pow, sin and cos are modelled bit by bit (Transc.v).
  std::log2 in calcMipCount is taken to be correctly rounded.
* **Loops** become structural recursion or fuel recursion; running out of fuel is a
  distinct outcome that the theorems exclude.

## 3. Trusted base

* Coq 8.16.1's kernel (and `vm_compute`), the reading of /repo recorded in comments.
* Axioms: only those of Coq's standard library, listed by `Print Assumptions` under
  every theorem (real numbers: `ClassicalDedekindReals.sig_forall_dec`,
  `ClassicalDedekindReals.sig_not_dec`, `functional_extensionality_dep`, and
  `Classical_Prop.classic` through Flocq).  No axiom is added by this project.
* Flocq 4's definition of binary32 as the meaning of `float` on an IEEE-754 target
  without fast-math, FTZ/DAZ or x87 excess precision.
* The model does not contract `a * b + c` into a fused operation where the source does
  not ask for one.
* What is modelled and what is not: the table in section 6.

## 4. Plan per property

| Ids | Model | Method |
|----|-------|--------|
| C01–C04, C07, C08 | Bvh.v | the build loop over index-addressed arrays with an arbitrary split function; loop invariant (pending ranges, permutation by swaps, tree shape); fuel bound 2n; traversal refined to a fold over the tree |
| C05, C06, C10 | BvhSplit.v, Bvh.v | binary32 witnesses by kernel computation; bit-level facts about counters stored in a float lane |
| C09, C23, C24 | Bvh.v, Aabb.v, Geometry.v | corner convexity; monotonicity of rounding in binary32 |
| C11–C19, C56 | Aabb.v, IntVec.v | order reasoning for any totally ordered scalar (reals and non-NaN binary32); witnesses |
| C20, C21, C86 | Aabb.v, Geometry.v | slab lemma over the reals, case analysis per axis |
| C22 | Geometry.v | soundness by axis algebra, completeness by Fourier–Motzkin elimination (Proofs/Fm2.v, Sat*.v) |
| C25–C32 | Geometry.v, Aabb.v | field / nra, witnesses |
| C33–C38, C117 | Matrix.v, MatrixMore.v | ring / field on entries; bit-exact by computation on lanes where no rounding is reordered |
| C39–C52 | Transform.v, Quaternion.v, Trig.v | ring / field under unit hypotheses, trigonometric identities |
| C53, C54, C57, C58, C60, C88–C90 | IntVec.v, Simd.v, SimdInt.v, Lanes.v | integers modulo 2^32, bit lemmas, Flocq's conversions |
| C55, C68, C91, C96 | IntVec.v, Color.v, Hex.v | lexicographic byte order, induction on strings |
| C59 | IntVec.v | log2 as a correctly rounded function, integer bounds on powers of two |
| C61–C65, C85, C114 | Hex.v, Version.v, Flags.v, Packed.v | bit lemmas, list induction, heap with aliasing |
| C66, C67, C92–C95, C118, C119 | Color.v, ColorLinear.v | all 256 channels by kernel computation lifted with forallb_forall; rounding-error calculus (Proofs/Approx.v) |
| C69, C70–C75, C97–C100 | Numeric.v, Lanes.v | testbit reasoning, real analysis, rounding-error bounds |
| C76–C80, C99, C101–C105 | Ibl.v, Sh.v, Numeric.v | polynomial identities, integrals by antiderivatives, arctangent identities |
| C81, C106–C111 | Transc.v | binary32 error analysis: exact range reduction, Taylor bounds on the polynomials, rounding-error calculus |
| C82–C84, C87 | Vec.v, Simd.v, Lanes.v, Quaternion.v | ring / nra; order laws of binary32 |
| C112, C113 | BvhSplit.v | list sweeps against their specification; invariant of the build with the concrete split search |
| C115, C116 | Shapes.v | sets of points; bit equality against numeric equality |
| C120 | Vec.v, Simd.v | binary32; standard model of rounding errors for sums of products, square root and quotient, two witnesses at the ends of the range |
| C121 | SimdInt.v, IntVec.v | case analysis on the paths and on the operators, bit extensionality |
| C122 | Matrix.v | binary32; rounding-error calculus with fused and unfused multiply-add, induction on the chain |
| C123 | Quaternion.v, QuatF32.v, Transc.v | binary32; Euclidean norm of four-dimensional space, multiplicativity of the norm, rounding-error calculus, induction on the product |
| C124 | FloatVec.v | binary32; extended reals, case analysis on the denotation of both lanes, monotonicity of rounding for the ends of the integer ranges |
| C125 | LaneAccess.v | case analysis on paths and indices; induction on the sequence of writes against four independent cells |
| C126 | LaneAccess.v, IntVec.v, SimdInt.v | lifting the one-lane meaning to vectors; agreement of the instruction paths with the plain vectors |
| C127 | Aabb.v, Geometry.v, Simd.v, Matrix.v | binary32; rounding errors of products of inexact factors, affine functions on boxes reach their maximum at a corner |
| C128 | Matrix.v | binary32; error calculus applied lane-wise to the code and to its exact run in parallel; Cramer's rule |
| C129 | Guards.v | binary32; assertions as boolean guards, invariant over call sequences |
| C130 | Aabb.v | binary32; relative errors of difference, reciprocal and product moved into the faces; exact slab argument for the moved box |
| C131 | LineMore.v | parameter of the foot on the line; counterexample to the documented meaning |
| C132 | Geometry.v, LineMore.v | binary32; error of the parameter, then of each lane; exact nearest points from Euclid.v |
| C133 | Text.v | digit loops against an independent reader; exact rational rounding of "%f" |
| C134 | Transform.v, Matrix.v | binary32; relative-error calculus for the entries, monotonicity of rounding for the order; two witnesses by computation |
| C135 | Sh.v | binary32; the two-cycle of the iteration by computation, induction on the number of steps |
| C136 | Sh.v | quadratic minimum on an interval, Cauchy-Schwarz, Lipschitz bound of the norm; Newton step in closed form; NaN propagation |
| C137 | Numeric.v | bitwise extensionality of the reversal; exactness of scaling by powers of two |
| C138 | Geometry.v, Aabb.v | binary32; relative error of the squared distance and of the squared radius, square roots of the two-sided bound |
| C139 | Geometry.v | binary32; coordinates on a grid make all rounding errors relative; each of the 13 tests decides the exact axis up to a margin; separating axis theorem of C22; sliver found by search |
| C140 | Geometry.v | binary32; rounding is monotone, so each lane of a cross product of exact differences keeps its sign; in general relative errors on a grid; centroid found by search |
| C141 | Geometry.v | binary32; relative errors of the five dot products and three minors on a grid, normal reciprocal, Lagrange's identity for the area |
| C142 | Transform.v, Matrix.v | binary32; every lane is one rounded product plus an offset, monotone in the coordinate; relative errors of the coefficients; one witness |
| C143 | Aabb.v, Simd.v | binary32; monotone rounding for containment, exact doubling and halving, sums exact or with relative error; three witnesses |
| C144 | Transform.v, Quaternion.v | binary32; absolute errors, the chosen component is within rounding of the largest one and hence at least 0.48; Cauchy's inequality for the matrix entries |
| C145 | Transform.v, Matrix.v, Quaternion.v | binary32; sums with a single non-zero term are exact up to one rounding, so the product of the three matrices rounds once per entry; C122 and C144 for the rest |
| C146 | Transform.v, Matrix.v, Simd.v | binary32; Euclidean norms of the errors through normalisation and cross product, conditioned on the angle to the up vector |
| C147 | Directions.v, Geometry.v, Aabb.v, Transform.v | binary32; exact representable results of sums and products with 0, 1, -1, no range limit |
| C148 | Numeric.v | binary32; relative error calculus for positive values, linear bounds for the matrices; black refuted |
| C149 | Setters.v, Shapes.v, Geometry.v, Aabb.v | any scalar type; induction over the sequence of calls |
| C150 | Transform.v, Matrix.v, Quaternion.v | binary32; rounding errors of the two products and the translation, Gram matrix of a rotation |
| C151 | Numeric.v | binary32; factors close to one, pi from PiBounds |
| C152 | Ibl.v | binary32; rounding errors of the texel coordinates, normalisation from NormProofs |
| C153 | Numeric.v | binary32; relative errors with an underflow term, factors close to one |
| C154 | Sh.v, Ibl.v | binary32; absolute errors of the recurrences, exact steps by the calculus of DirProofs |
| C155 | Ibl.v | binary32; monotone rounding for the quotient at most one, relative errors for the cosine |
| C156 | Ibl.v | binary32; mean value theorem for the rectangle, multiples of 2^-24 for the refutation |
| C157 | Ibl.v | binary32; C156 with the strips by which the edges move, telescoping sum of C101 |
| C158 | Sh.v | binary32; Lipschitz bound of the sine, absolute errors of C154 |
| C159 | Sh.v | binary32; C105 for the constants, one rounding for each product |

## 5. Findings

Properties that the code violates.  Each `_refuted` theorem proves the negation with a
witness; `_actual` theorems say what the code does instead.

* **C05 BVH build is memory safe for every input.** Witness: finite boxes whose centroids make the partition index underflow. (`C05_memory_safe_refuted`)
* **C06 BVH split cost counts primitives.** The counter is stored in the bits of a float lane initialised to -FLT_MAX; _empty_bin_counts gives the real values. (`C06_split_count_refuted`)
* **C10 Building over zero primitives is rejected or harmless.** Zero primitives: node array of 2^32-1 elements and a partition of an empty array. (`C10_zero_primitives_refuted`)
* **C16 Scaling a box keeps it valid.** Holds for positive factors (exact arithmetic) and validity is kept for factors >= 0 in binary32; a negative factor gives an empty box. (`C16_scale_refuted`)
* **C17 Box-box intersection test.** _actual: the test is min(a) = max(b) in every lane. (`C17_isIntersected_refuted`)
* **C18 trySet rejects invalid corners.** _actual: trySet always sets and returns true. (`C18_trySet_refuted`)
* **C19 The full box contains every finite point.** Aabb::full starts at FLT_MIN. (`C19_full_refuted`)
* **C21 Ray-box test with an ordinary ray.** Head-on hits along z are missed on every path, boxes beside an x-axis ray are hit on SSE/generic, distances are divided by |1/d| (_actual). (`C21_raycast_refuted`, `C21_false_hit_refuted`, `C21_distance_refuted`)
* **C27 Plane through a triangle.** _actual: every vertex has distance 2 n.p0; right only for planes through the origin. (`C27_planeOfTriangle_refuted`)
* **C28 Closest point on a triangle's plane.** _actual: right when the triangle's plane contains the origin and the foot of the perpendicular is not on the extension of edge p1p2. (`C28_closestPointTriangle_refuted`)
* **C29 Barycentric coordinates reconstruct the point.** Only the isInside part fails: it accepts the whole line through p1 and p2 (_actual); the barycentric part is proved. Exact arithmetic. (`C29_isInsideTriangle_refuted`)
* **C30 Closest point on a segment.** Only the degenerate part fails (NaN); minimality is proved for every segment of non-zero length in exact arithmetic. (`C30_degenerate_refuted`)
* **C31 Sphere tests.** Only closestPoint at the centre fails (NaN); every other part is proved in exact arithmetic. (`C31_centre_refuted`)
* **C32 Ray parallel flags are set on construction.** _actual: the constructor never flags an axis. (`C32_parallel_flags_refuted`)
* **C36 2x2 and 3x3 inverses.** 2x2 returns the transposed inverse (_actual); 3x3 turns the identity into a singular matrix. (`C36_inverse2_refuted`, `C36_inverse3_refuted`)
* **C37 Row vector times matrix.** _actual gives the value computed. (`C37_row_vector_refuted`)
* **C46 Euler angle construction composes axis rotations.** Construction is proved correct; extractPitch returns a wrong angle when its singularity test (an 'or' where 'and' is meant) fires away from gimbal lock. C46_extract_actual is the round trip where it does not fire. Real trigonometry. (`C46_extract_refuted`)
* **C48 lookAtQuat gives the look rotation.** _actual: the second column is always zero, so the matrix is not a rotation. (`C48_lookAtQuat_refuted`)
* **C49 Rigid inverse.** _iff: right exactly when the translation is zero; _actual: the last row is (t, 1). (`C49_inverseTransRot_refuted`)
* **C50 Scale extraction.** _actual: the squares of the scales; extractScale2 mixes a square and a length; extractRotation divides by the square. (`C50_extractScale_refuted`)
* **C56 isBinaryLess distinguishes boxes.** _actual: boxes are equivalent exactly when they agree in min (four lanes) and in max.x, max.y: max.z is never compared. (`C56_boxes_refuted`)
* **C57 Vector constructors store what they are given.** Two constructors are wrong: int3(int2, z) stores x in z; the pointer constructors of u32x4/i32x4/f32x4 broadcast the first element on the generic path. All others are proved right. (`C57_int3_refuted`, `C57_loadPtr_refuted`)
* **C59 Mip count and mip size.** std::log2 taken as correctly rounded. Wrong at 2^21-1 and within 2^-21 below larger powers of two; proved right for all sizes up to 2^21-2, for powers of two, and at relative distance 2^-20 or more. calcSizeAtMip is right below mip 32; the SIMD version is wrong on SSE4.1 for lanes >= 2^31 at mip 0. (`C59_mipCount_refuted`, `C59_sizeAtMip3_simd_refuted`)
* **C60 SIMD unsigned comparisons.** SSE compares the lanes as signed numbers (and SSE4.1 min/max likewise); right on the other paths and on lanes on the same side of 2^31. (`C60_compare_refuted`, `C60_minmax_refuted`)
* **C63 Flag set operations.** Only the hasOneFlag part fails (it tests 'no other flag', not 'this flag'); |,&,^,~ and hasAnyFlag parts are proved. (`C63_hasOneFlag_refuted`)
* **C65 Packed vector copies are independent.** The implicit copy constructor copies the raw pointer; _actual shows both objects access the same buffer. (`C65_copy_refuted`)
* **C69 Hammersley points.** In exact arithmetic it holds; in binary32 the second coordinate of index 2^25-1 is 1.0. Proved: correct below 2^24 indices, first coordinate below 1 for counts up to 2^23. (`C69_refuted`)
* **C70 repeat stays in the unit interval.** repeat of a negative integer and of tiny negative numbers is 1, not 0; otherwise it holds (_actual), up to one rounding for negative arguments. (`C70_refuted`, `C70_tiny_refuted`)
* **C71 lerp endpoints and monotonicity.** Exact arithmetic: holds. binary32: scalar lerp(1, 2^-30, 1) = 0, lerp(-3*2^126, 3*2^126, 0) is NaN; vector lerp(a, a, t) can differ from a. Proved instead: vector end points, and error bounds for both forms. (`C71_end1_refuted`, `C71_end0_refuted`, `C71_between_refuted`)
* **C73 sRGB transfer functions are inverse and monotone.** rgbToSrgb decreases at the seam between its branches (_refuted); round trips, monotonicity of srgbToRgb and monotonicity away from the seam are proved (exact arithmetic with the code's binary32 constants, real powers). (`C73_srgb_mono_refuted`)
* **C79 Spherical-harmonic rotation.** Band 2 is proved right (exactly for an exact 1/sqrt 2, within 1.25e-7 for the code's constant, exact arithmetic otherwise). Band 1 is wrong: its constants are written column by column for a constructor that takes rows; _actual: it computes the dot products with the columns of the matrix. (`C79_band1_refuted`)
* **C81 Fast SIMD exp and log handle special values.** exp(NaN) is +0, log(NaN) is a number (89.1 for the default NaN) and log(+inf) is -inf; the other special cases are proved (_actual). (`C81_refuted`)
* **C85 Growing a packed vector zero fills.** Stale sub-byte elements reappear. (`C85_regrow_refuted`)
* **C88 Mask reductions mean the same on every code path.** _actual: SSE tests the top bit of each byte. On comparison masks all paths agree. (`C88_reductions_refuted`)
* **C89 Integer to float lane conversion.** Wrong on SSE for every lane >= 2^31 and on the generic path (bits copied); right otherwise. (`C89_fromUnsigned_refuted`, `C89_generic_refuted`)
* **C90 Float to unsigned lane conversion.** On SSE lanes >= 2^31 all convert to 2^31; right otherwise. (`C90_toUnsigned_refuted`)
* **C91 Parsing hexadecimal strings.** toInt32 with a 64-bit unsigned long drops the upper digits of numbers from 2^32 to 2^64 (_actual says exactly what happens for every string). toInt64 is proved right. (`C91_toInt32_refuted`)
* **C93 setNorm rounds like the constructor.** setNorm truncates: up to one channel below (_actual). (`C93_setNorm_refuted`)
* **C94 NaN intensities.** Undefined in the scalar constructors, setNorm and on NEON/generic; 255 on SSE. (`C94_nan_refuted`)
* **C95 Colour comparison operators.** The lane-wise meaning is proved; totality is false: different colours can be incomparable, so !(a<b) is not a>=b. (`C95_total_refuted`)
* **C96 Colour from any string.** With assertions off a string shorter than five characters is read out of bounds; proved defined otherwise (with assertions on every other length than 6 and 8 aborts). (`C96_refuted`)
* **C98 White stays white.** rgbToSrgb(1) is 1 - 2^-24 on every path; srgbToRgb(1) = 1. (`C98_refuted`)
* **C100 Rounding to integers.** round breaks ties to even on SSE4.1/AVX2/NEON and away from zero otherwise (_refuted, _actual); everything else holds, and all paths agree away from ties. (`C100_ties_refuted`)
* **C104 Deringing leaves lighting that does not ring unchanged.** The final cutoff is always 3 or 4.25, whatever the minima are, because the cutoff is lowered inside the bisection loop (_actual, exact and binary32): band 2 keeps at most 21 percent. Memory safety is proved for every minimum function that is itself safe, and for the code's. (`C104_refuted`)
* **C107 SIMD logarithm is accurate.** One coefficient of the polynomial is repeated (line 1207), so the error reaches 3.5e-5; on NEON the exponent is converted as an unsigned number, so log(0.5) is about 3e9. _actual: within 6e-5 for every positive value, on NEON for values from 1 on. (`C107_refuted`, `C107_neon_refuted`)
* **C108 SIMD sine and cosine are accurate.** sinCos(2^40) is not finite on any path; accuracy is proved for |x| <= 8192 (_actual). (`C108_refuted`)
* **C110 fastPow special cases.** fastPow(0, -1) = 0 and fastPow(-2, 0.5) is a positive number; the cases e = 0 and b = 0 are described for all inputs. (`C110_refuted`)
* **C111 Fast gamma correction.** On NEON half grey becomes +inf. Proved on the SSE2, SSE4.1 and AVX2 paths (_actual). (`C111_refuted`)
* **C114 Packed vector bounds checks guard the access.** For 4-bit elements the assertion divides by 8 instead of 2, so indices up to four times the capacity pass and read out of bounds; size() is inherited and counts bytes. Proved for 1 and 2 bits. (`C114_get_refuted`, `C114_size_refuted`)
* **C115 Operators of lines, triangles and rays move their points.** Adding a vector to a ray (and subtracting one) also adds it to the direction, so the ray turns; _actual: the points move correctly exactly when the new direction is a positive multiple of the old. Lines, triangles and scaling of rays are proved. Exact arithmetic. (`C115_ray_add_refuted`, `C115_ray_sub_refuted`)
* **C116 Equality operators compare values.** SIMD vectors and matrices compare as numbers on every path (proved). The shapes and the plain matrices compare bytes: +0 and -0 differ, NaN equals itself, unused fourth lanes and the stale parallel flags of rays count; _actual: == is equality of all bits. (`C116_shapes_refuted`, `C116_padding_refuted`, `C116_rays_refuted`)
* **C117 4x3 matrices, conversions, and operators with a number.** The fourth column of a float4x3 is rejected by the assertion of [], and the default bottom row of conversions from 4x3 is zero instead of (0,0,0,1), so products drop the inner translation. Everything else is proved; arithmetic is exact, conversions are for every scalar type. (`C117_compose_default_refuted`, `C117_column_refuted`)
* **C120 Normalising gives a unit vector.** The squared length of a vector of length 2^-80 underflows and the lanes become infinite; that of one of length 2^70 overflows and all lanes become 0. Proved for squared lengths between 2^-100 and 2^100; dot and cross products have their own, wider ranges. (`C120_tiny_refuted`, `C120_huge_refuted`)
* **C131 The t that closestPoint(line, point, t) hands out is the distance to the closest point.** C131_parameter_actual says what t is. (`C131_distance_refuted`)
* **C133 The text of a vector or colour determines its value.** Only the float part fails (six decimals lose small differences, C133_float_refuted); C133_float_actual is the accuracy, and the integer and colour parts are proved. std::to_string is modelled after the C++17/20 wording (printf formats). (`C133_float_refuted`)
* **C134 Visible points get depths in [0, 1] that order them by distance.** Only the projections with a far plane fail: C134_range_refuted (near 0.1f, far 10, points on the planes) and C134_standard_order_refuted (near 1, far 3, neighbouring floats). C134_infinite and C134_infinite_order prove the property for the infinite projection, C134_reversed_order the order for the reversed one, and C134_reversed and C134_standard_actual the accuracy. (`C134_standard_order_refuted`, `C134_range_refuted`)
* **C135 The deringing minimum search terminates.** The hypothesis on the power function is met by any std::pow that is finite on [0, 1] (C135_a_power gives an instance); a is exactly zero on this light, so the power is multiplied by zero. (`C135_terminates_refuted`)
* **C136 shmin is negative whenever the lighting is negative somewhere.** C136_missed_refuted and C136_concave_refuted are over the reals (the former also computed in binary32, C136_missed_binary32), C136_vertical_refuted is for all binary32 lights with s2 = s3 = 0. C136_bound_actual and C136_zonal_actual say for which lights the answer is right. (`C136_missed_refuted`, `C136_concave_refuted`, `C136_vertical_refuted`)
* **C139 The triangle-box test never misses a triangle that passes through the box.** C139_actual is the two-sided accuracy for triangles that are no slivers (the conditioning is that of the corners relative to the box after their single rounding). (`C139_refuted`)
* **C140 A point of a triangle is never reported outside it.** C140_exact_actual and C140_margin_actual say when the answer is right. (`C140_refuted`)
* **C142 Orthographic projections keep the order of points and are accurate in binary32.** The accuracy and order parts are proved (C142_screen, C142_depth, C142_order); C142_corner_refuted shows the corner of the box [1, 7] clipped, C142_symmetric_actual and C142_zero_near_actual give the boxes whose points are never clipped. (`C142_corner_refuted`)
* **C143 Centre, extent and moves of a box in binary32.** Containment of the centre, of the position and of moved points is proved (C143_centre, C143_around, C143_move); reading back and rebuilding hold within rounding (C143_back_actual, C143_rebuild_actual). (`C143_rebuild_refuted`, `C143_extent_refuted`, `C143_overflow_refuted`)
* **C144 A rotation survives the way through a matrix in binary32.** Only the sign fails (C144_sign_refuted); all bounds are proved (C144_matrix, C144_extract, C144_round_trip, C144_same_turn, C144_model). (`C144_sign_refuted`)
* **C146 A view matrix shows points where the camera's axes say, in binary32.** C146_pole_refuted: looking along the up vector gives NaN. The bounds for every other camera are proved (C146_frame, C146_sees, C146_ends). (`C146_pole_refuted`)
* **C148 Colours survive the trip through XYZ and Yxy in binary32.** black (0, 0, 0) has the channel sum 0, 1 / 0 is infinite and 0 * infinity NaN, on every path (C148_black_refuted); C148_round_trip_actual has the bound for colours with light. (`C148_black_refuted`)
* **C151 Degrees and radians in binary32.** its last sentence is false: the four-lane radians multiplies by pi before dividing by 180, so it returns infinity for 2^127 degrees, where the scalar form returns a finite value (C151_same_range_refuted). The other sentences are proved. (`C151_same_range_refuted`)
* **C153 GGX and reflectance in binary32.** for a = 2^-13 and n = 1 the factor f rounds to 0 and ggx returns infinity instead of 2.1e7 (C153_finite_refuted). C153_ggx_actual proves the bound for roughness from 1/512; the sentence on iorToReflectance is proved as stated. (`C153_finite_refuted`)
* **C155 GGX importance sampling in binary32.** for a = 16773340 * 2^-36 (about 0.000244) and u.y = 8888441 * 2^-24 the squared cosine rounds to 1 + 2^-23, sqrt(1 - cosTheta2) is NaN and so are x and y of the half vector (C155_number_refuted). C155_unit_actual proves finiteness and length for roughness from 1/1024, C155_quantile_actual the cosine for roughness from 1/512. (`C155_number_refuted`)
* **C156 Texel solid angles in binary32.** for n = 8192 the corner texel gets zero, a negative number or at least four times its solid angle, whatever atan2 returns within one unit in the last place (C156_large_refuted): the four terms lie in [1/2, 1), so the result is a multiple of 2^-24, and the solid angle is below 2^-26. The sentence on n up to 512 and positivity there are proved (C156_texel_actual). (`C156_large_refuted`)

Found while reading, not stated as a property of its own:

* `PackedVector::set` does not compile when instantiated (it returns the result of the
  void `unsafeSet`).
* `pbr-colors.hpp` does not compile: `Color` is used outside its namespace.
* On the generic path `select` of i32x4 and f32x4 does not compile, and `(i32x4)f32x4`
  goes through uint4, so negative lanes are undefined.
* `equal(float2, float4)` and `notEqual(float2, float4)` take a float4 as second argument.
* `calcMipCount(0)` converts minus infinity to an integer.
* `toHex` is undefined for lengths whose top shift reaches the operand width (C61).
* The byte offsets of the BVH loops are uint32 and wrap above 4 GiB of input.
* `closestPoint(line, point, t)` documents `t` as a distance; it is the unclamped parameter
  along the line (C131).
* `closestPoint(ray, point)` recomputes the direction as `(origin + direction) - origin`, which
  rounds to zero for rays far from the coordinate origin; the result is then NaN (C132).
* Rays that run exactly in a face of a box are missed or hit depending on the face (C130).
* Standard perspective depth is not monotone in binary32, and points exactly on the near or far plane
  of `calcPerspProjRevZ` can get depths outside [0, 1] (C134).
* `shmin` (the deringing filter) can loop for ever on finite coefficients, returns NaN for every light
  whose linear part is straight up or down, returns a maximum when the quadratic is concave, and misses
  negative light from the side because band 1 is rotated wrongly (C135, C136).
* `lerpDelta` is documented with `t == 0` giving `a`; factor 0 gives `b` (C97).
* C139: `isAabbIntersected` (aabb.cpp:18-93) rejects slivers that pass through the middle of the box: the cross product of two nearly parallel edges is rounding noise, and the plane test uses it without a tolerance. Triangle (-7208, 10762, 25203), (0, 0, 0), (5478, -8179, -19154) against the box of half size 25000 around the origin.
* C140: `isInside(Triangle)` (triangle.hpp:73-81) rejects the centroid of the triangle (-3992020, 12071682, 14541432), (14130184, -13302560, 2782682), (15730836, -15543751, 1744084), at (8623000, -5591543, 6356066): the differences do not fit in 24 bits. With representable differences no point of a triangle is ever rejected. For a point off the plane the test is not that of its projection: the squared offset enters, weighted by the angle between the edges.
* C142: with `calcOrthoProj` for the view box from 1 to 7 on every axis (projection.hpp:92-114), the corner of the box at 7 is computed at x > 1, y < -1 and depth > 1 (depth < 0 when reversed), so it is clipped; boxes symmetric to the axis and near planes at zero never clip their own points.
* C143: `setExtent` with extent 2^-25 at position 2 makes a box whose `getExtent` is 0; `setExtent(getExtent(), getPosition())` of the box [1, 1 + 2^-23] gives a box that ends at 1 (aabb.hpp:146-172); `getPosition` of a box with both corners at FLT_MAX is infinite.
* C144: `extractQuat(rotate(q))` for q = (0, 0, 0, -1) is (0, 0, 0, 1) (transform.hpp:128-140, 201-242): the rotation comes back, the sign of the quaternion does not.

## 6. Modelled and not modelled

| Source | Model | Not modelled |
|--------|-------|--------------|
| aabb.hpp, source/aabb.cpp | Aabb.v, Geometry.v, Shapes.v | — |
| angles.hpp, common.hpp, color-space.hpp, tone-mapping.hpp | Numeric.v, Transc.v | — |
| brdf.hpp, ibl.hpp, sh.hpp | Ibl.v, Sh.v, Numeric.v | the pixel callbacks are parameters |
| bvh.hpp, source/bvh.cpp | Bvh.v, BvhSplit.v | pointer arithmetic beyond 4 GiB of input |
| color.hpp | Color.v, ColorLinear.v, Text.v | — |
| flags.hpp, hex.hpp, version.hpp, packed-vector.hpp | Flags.v, Hex.v, Version.v, Packed.v | signed flag types; PackedVector::set (does not compile) |
| line.hpp, plane.hpp, ray.hpp, sphere.hpp, triangle.hpp | Geometry.v, LineMore.v, Aabb.v, Shapes.v | — |
| matrix/float.hpp, simd/matrix/float.hpp | Matrix.v, MatrixMore.v | NEON/SSE instruction encodings (lane semantics only) |
| matrix/projection.hpp, matrix/transform.hpp, quaternion.hpp | Transform.v, Quaternion.v, QuatF32.v | binary32 rounding of std::tan, sin, cos, asin, atan2, acos |
| vector/float.hpp | Vec.v, Lanes.v, Numeric.v, FloatVec.v, Text.v | the per-lane wrappers of <cmath> (1397–1537) |
| vector/int.hpp, vector/uint.hpp | IntVec.v, LaneAccess.v, Text.v | — |
| simd/vector/float.hpp | Simd.v, Lanes.v, Transc.v, SimdInt.v, FloatVec.v, LaneAccess.v, Text.v | generic path of exp, log, sinCos |
| simd/vector/int.hpp, simd/vector/uint.hpp | SimdInt.v, Simd.v, LaneAccess.v, Text.v | — |
| pbr-colors.hpp, tests, scripts, CMake | — | all |

### 6.1 Source lines no model definition cites

Lines holding a call, declaration or definition (anything with a parenthesis) that no definition in
`Model/` cites. Generated from the citations; a line listed here is not claimed to be modelled, even where the
table above names a model file for its header. A short name such as float.hpp in a citation is matched to every file it ends,
so vector/float.hpp, matrix/float.hpp and the simd files may have a few more uncited lines than listed.

* `aabb.hpp`: 259, 438
* `bvh.hpp`: 119, 129, 133, 138, 142, 146, 150, 163, 173, 183
* `common.hpp`: 38, 46, 54, 62, 68
* `matrix/float.hpp`: 61, 121, 134–136, 171, 176, 232, 252–254, 271, 283, 292, 297, 307, 309–310, 316, 318–319, 419–420, 505, 520–522
* `packed-vector.hpp`: 88, 90–96
* `plane.hpp`: 56, 102
* `quaternion.hpp`: 37, 44, 53, 60, 103
* `ray.hpp`: 75, 91
* `sh.hpp`: 192
* `simd/matrix/float.hpp`: 65, 259, 266
* `simd/vector/float.hpp`: 50–51, 61, 610–611, 970, 973, 975, 977, 1371
* `simd/vector/int.hpp`: 31, 131, 556–560, 562–565, 674, 679, 681, 691, 694, 696, 712, 714
* `simd/vector/uint.hpp`: 37, 47, 56, 58, 529–532, 713, 716
* `vector/float.hpp`: 99, 116–119, 263, 274–283, 496, 816, 830, 832, 892, 900, 921, 923, 929, 934, 1076, 1078, 1122, 1185, 1224, 1368, 1377, 1379, 1397–1418, 1421, 1423, 1425–1439, 1441, 1443–1448, 1451, 1453, 1455, 1457, 1459, 1461, 1463, 1465, 1467, 1469, 1471, 1473, 1475, 1477, 1479, 1481, 1483, 1485, 1487, 1489, 1491, 1493, 1495, 1497, 1499, 1501, 1503, 1505, 1507, 1509, 1511, 1513, 1515, 1517, 1519, 1521, 1523, 1525, 1527, 1529, 1531, 1533, 1535, 1537
* `vector/int.hpp`: 80, 84, 107–109, 130–132, 236, 240, 244, 248, 271–273, 294–297, 299, 301, 303, 305, 307, 309, 311, 535–537, 677, 679, 687, 689, 879
* `vector/uint.hpp`: 79, 125, 221, 267, 270, 272, 274, 276, 278, 280, 282, 284, 715
* `source/bvh.cpp`: 240, 243, 245, 247

## 7. The wrong-program log

`seeded/LOG.jsonl` has one line per edited copy of the model. `failed` lists the property theorems whose proof no longer
goes through, directly or because a lemma they use fails. A failing proof is evidence, not proof, that the theorem is false
of the edited program; where the edit was found to be equivalent the claim field says so ("none: …"). Claims beginning
"open:" are attempts no property theorem caught, or where the shortened run reached lemmas only. "inconclusive:" means the
edit broke a later statement or definition. "not tested:" means the tool could not apply it. `tightened` lists theorems
added or restated after an attempt that nothing caught, checked against the statements in the revision it ran on. The claim of
a caught edit is the title of the properties whose theorems failed.
