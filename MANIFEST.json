{
 "claims": [
  {
   "property": "C01",
   "status": "proved",
   "theorems": [
    "C01_leaves_partition"
   ],
   "note": "For every build that returns Ok, any scalar type, any split function; the build being Ok is C04/C05's subject."
  },
  {
   "property": "C02",
   "status": "proved",
   "theorems": [
    "C02_full_binary_tree"
   ],
   "note": ""
  },
  {
   "property": "C03",
   "status": "proved",
   "theorems": [
    "C03_box_overload",
    "C03_box_overload_tight",
    "C03_triangle_overload"
   ],
   "note": "Box overload for non-NaN binary32 boxes bit-exactly (containment and tightness); triangle overload for finite vertices."
  },
  {
   "property": "C04",
   "status": "proved",
   "theorems": [
    "C04_build_terminates"
   ],
   "note": "Fuel bound 2n proved sufficient: the out-of-fuel outcome is never returned."
  },
  {
   "property": "C05",
   "status": "proved",
   "theorems": [
    "C05_memory_safe_refuted"
   ],
   "note": "REFUTED \u2014 the code violates the property; the _refuted theorem proves its negation. Witness: finite boxes whose centroids make the partition index underflow."
  },
  {
   "property": "C06",
   "status": "proved",
   "theorems": [
    "C06_split_count_refuted",
    "C06_empty_bin_counts",
    "C06_full_bins_actual",
    "C06_bin_count_actual",
    "C06_counter_store",
    "C06_counter_range"
   ],
   "note": "REFUTED \u2014 the code violates the property; the _refuted theorem proves its negation. The counter is stored in the bits of a float lane initialised to -FLT_MAX; _empty_bin_counts gives the real values."
  },
  {
   "property": "C07",
   "status": "proved",
   "theorems": [
    "C07_traverse"
   ],
   "note": ""
  },
  {
   "property": "C08",
   "status": "proved",
   "theorems": [
    "C08_collect_exact"
   ],
   "note": ""
  },
  {
   "property": "C09",
   "status": "proved",
   "theorems": [
    "C09_boxes_never_dropped",
    "C09_triangles_never_dropped"
   ],
   "note": "Bit-exact binary32, using correctly rounded monotone arithmetic."
  },
  {
   "property": "C10",
   "status": "proved",
   "theorems": [
    "C10_zero_primitives_refuted",
    "C10_node_array_size"
   ],
   "note": "REFUTED \u2014 the code violates the property; the _refuted theorem proves its negation. Zero primitives: node array of 2^32-1 elements and a partition of an empty array."
  },
  {
   "property": "C11",
   "status": "proved",
   "theorems": [
    "C11_closestPoint"
   ],
   "note": "For the reals and for every non-NaN binary32 box and point (infinities included)."
  },
  {
   "property": "C12",
   "status": "proved",
   "theorems": [
    "C12_isInside_point",
    "C12_isInside_box"
   ],
   "note": "All four lanes are compared by the code; inBox4 says so."
  },
  {
   "property": "C13",
   "status": "proved",
   "theorems": [
    "C13_extend_least",
    "C13_extend_point",
    "C13_extend_order",
    "C13_extend_idempotent"
   ],
   "note": "Reals and non-NaN binary32; any finite sequence of extensions."
  },
  {
   "property": "C14",
   "status": "proved",
   "theorems": [
    "C14_shrink",
    "C14_shrink_point"
   ],
   "note": ""
  },
  {
   "property": "C15",
   "status": "proved",
   "theorems": [
    "C15_size",
    "C15_extent",
    "C15_translate",
    "C15_area_volume",
    "C15_untranslate",
    "C15_unscale",
    "C15_constants"
   ],
   "note": "Exact arithmetic."
  },
  {
   "property": "C16",
   "status": "proved",
   "theorems": [
    "C16_scale_positive",
    "C16_scale_binary32",
    "C16_scale_refuted"
   ],
   "note": "REFUTED \u2014 the code violates the property; the _refuted theorem proves its negation. Holds for positive factors (exact arithmetic) and validity is kept for factors >= 0 in binary32; a negative factor gives an empty box."
  },
  {
   "property": "C17",
   "status": "proved",
   "theorems": [
    "C17_isIntersected_refuted",
    "C17_isIntersected_actual"
   ],
   "note": "REFUTED \u2014 the code violates the property; the _refuted theorem proves its negation. _actual: the test is min(a) = max(b) in every lane."
  },
  {
   "property": "C18",
   "status": "proved",
   "theorems": [
    "C18_trySet_refuted",
    "C18_trySet_actual"
   ],
   "note": "REFUTED \u2014 the code violates the property; the _refuted theorem proves its negation. _actual: trySet always sets and returns true."
  },
  {
   "property": "C19",
   "status": "proved",
   "theorems": [
    "C19_full_refuted",
    "C19_full_actual"
   ],
   "note": "REFUTED \u2014 the code violates the property; the _refuted theorem proves its negation. Aabb::full starts at FLT_MIN."
  },
  {
   "property": "C20",
   "status": "proved",
   "theorems": [
    "C20_raycastI_exact"
   ],
   "note": "Exact arithmetic; points at parameters up to FLT_MAX. The ray's flags must mark exactly the zero components."
  },
  {
   "property": "C21",
   "status": "proved",
   "theorems": [
    "C21_raycast_refuted",
    "C21_false_hit_refuted",
    "C21_distance_refuted",
    "C21_raycast2_actual",
    "C21_raycast1_actual"
   ],
   "note": "REFUTED \u2014 the code violates the property; the _refuted theorem proves its negation. Head-on hits along z are missed on every path, boxes beside an x-axis ray are hit on SSE/generic, distances are divided by |1/d| (_actual)."
  },
  {
   "property": "C22",
   "status": "proved",
   "theorems": [
    "C22_isAabbIntersected"
   ],
   "note": "Exact arithmetic, soundness and completeness of the 13 axes, degenerate triangles and flat boxes included."
  },
  {
   "property": "C23",
   "status": "proved",
   "theorems": [
    "C23_behind_frustum",
    "C23_behind_frustum_monotone",
    "C23_behind_frustum_binary32",
    "C23_behind_frustum_monotone_binary32"
   ],
   "note": "Exact arithmetic both ways; binary32 soundness and monotonicity for finite inputs."
  },
  {
   "property": "C24",
   "status": "proved",
   "theorems": [
    "C24_isBehindFrustumModel",
    "C24_affine_points"
   ],
   "note": "Exact arithmetic, equivalence for every matrix; for affine matrices the tested points are the transformed box."
  },
  {
   "property": "C25",
   "status": "proved",
   "theorems": [
    "C25_extractFrustumPlanes"
   ],
   "note": "Exact arithmetic, every matrix."
  },
  {
   "property": "C26",
   "status": "proved",
   "theorems": [
    "C26_normalizePlane",
    "C26_closestPointPlane",
    "C26_setNormal_keeps",
    "C26_setNormal_unit"
   ],
   "note": "Exact arithmetic."
  },
  {
   "property": "C27",
   "status": "proved",
   "theorems": [
    "C27_planeOfTriangle_refuted",
    "C27_planeOfTriangle_actual"
   ],
   "note": "REFUTED \u2014 the code violates the property; the _refuted theorem proves its negation. _actual: every vertex has distance 2 n.p0; right only for planes through the origin."
  },
  {
   "property": "C28",
   "status": "proved",
   "theorems": [
    "C28_closestPointTriangle_refuted",
    "C28_closestPointTriangle_actual"
   ],
   "note": "REFUTED \u2014 the code violates the property; the _refuted theorem proves its negation. _actual: right when the triangle's plane contains the origin and the foot of the perpendicular is not on the extension of edge p1p2."
  },
  {
   "property": "C29",
   "status": "proved",
   "theorems": [
    "C29_calcBarycentric",
    "C29_isInsideTriangle_actual",
    "C29_isInsideTriangle_refuted"
   ],
   "note": "REFUTED \u2014 the code violates the property; the _refuted theorem proves its negation. Only the isInside part fails: it accepts the whole line through p1 and p2 (_actual); the barycentric part is proved. Exact arithmetic."
  },
  {
   "property": "C30",
   "status": "proved",
   "theorems": [
    "C30_closestPointSegment",
    "C30_degenerate_refuted"
   ],
   "note": "REFUTED \u2014 the code violates the property; the _refuted theorem proves its negation. Only the degenerate part fails (NaN); minimality is proved for every segment of non-zero length in exact arithmetic."
  },
  {
   "property": "C31",
   "status": "proved",
   "theorems": [
    "C31_isInsideSphere",
    "C31_isIntersectedSpheres",
    "C31_isIntersectedSphereBox",
    "C31_closestPointSphere",
    "C31_centre_refuted"
   ],
   "note": "REFUTED \u2014 the code violates the property; the _refuted theorem proves its negation. Only closestPoint at the centre fails (NaN); every other part is proved in exact arithmetic."
  },
  {
   "property": "C32",
   "status": "proved",
   "theorems": [
    "C32_parallel_flags_refuted",
    "C32_parallel_flags_actual"
   ],
   "note": "REFUTED \u2014 the code violates the property; the _refuted theorem proves its negation. _actual: the constructor never flags an axis."
  },
  {
   "property": "C33",
   "status": "proved",
   "theorems": [
    "C33_product4",
    "C33_product3",
    "C33_product2",
    "C33_action4",
    "C33_action3",
    "C33_action2",
    "C33_algebra4",
    "C33_algebra4_plain",
    "C33_algebra3",
    "C33_algebra2"
   ],
   "note": "Exact arithmetic."
  },
  {
   "property": "C34",
   "status": "proved",
   "theorems": [
    "C34_entries4",
    "C34_entries3",
    "C34_entries2",
    "C34_involution",
    "C34_reverses_products"
   ],
   "note": "Entry laws and involution bit-exact for every scalar type; product reversal in exact arithmetic."
  },
  {
   "property": "C35",
   "status": "proved",
   "theorems": [
    "C35_inverse4x4",
    "C35_paths_agree"
   ],
   "note": "Exact arithmetic; determinant by Laplace expansion in the specification."
  },
  {
   "property": "C36",
   "status": "proved",
   "theorems": [
    "C36_inverse2_refuted",
    "C36_inverse2_actual",
    "C36_inverse3_actual",
    "C36_inverse3_refuted"
   ],
   "note": "REFUTED \u2014 the code violates the property; the _refuted theorem proves its negation. 2x2 returns the transposed inverse (_actual); 3x3 turns the identity into a singular matrix."
  },
  {
   "property": "C37",
   "status": "proved",
   "theorems": [
    "C37_row_vector_refuted",
    "C37_row_vector_actual"
   ],
   "note": "REFUTED \u2014 the code violates the property; the _refuted theorem proves its negation. _actual gives the value computed."
  },
  {
   "property": "C38",
   "status": "proved",
   "theorems": [
    "C38_matrix_exact",
    "C38_vector_exact",
    "C38_matrix",
    "C38_vector",
    "C38_block",
    "C38_block_vector",
    "C38_block_exact",
    "C38_fourth_column_differs"
   ],
   "note": "Bit-exact on the paths without fused multiply-add; exact arithmetic on all. The fourth column of multiply3x3 differs between paths (theorem)."
  },
  {
   "property": "C39",
   "status": "proved",
   "theorems": [
    "C39_calcModel",
    "C39_fast_path"
   ],
   "note": "Exact arithmetic, every path; rotation specified by Hamilton's product."
  },
  {
   "property": "C40",
   "status": "proved",
   "theorems": [
    "C40_translate_right",
    "C40_translate_left",
    "C40_scale_right",
    "C40_scale_left"
   ],
   "note": "Exact arithmetic; the translate overloads are characterised by equivalences (affine bottom row or zero translation), the scale overloads hold for every matrix."
  },
  {
   "property": "C41",
   "status": "proved",
   "theorems": [
    "C41_orthogonal",
    "C41_determinant",
    "C41_matrix_vector",
    "C41_hamilton",
    "C41_dot",
    "C41_cross",
    "C41_length"
   ],
   "note": "Exact arithmetic."
  },
  {
   "property": "C42",
   "status": "proved",
   "theorems": [
    "C42_associative",
    "C42_identity",
    "C42_norm",
    "C42_hamilton",
    "C42_composes",
    "C42_matrix"
   ],
   "note": "Exact arithmetic."
  },
  {
   "property": "C43",
   "status": "proved",
   "theorems": [
    "C43_inverse",
    "C43_conjugate",
    "C43_undo"
   ],
   "note": "Exact arithmetic."
  },
  {
   "property": "C44",
   "status": "proved",
   "theorems": [
    "C44_round_trip"
   ],
   "note": "Exact arithmetic; the divisor is at least 1/2."
  },
  {
   "property": "C45",
   "status": "proved",
   "theorems": [
    "C45_endpoints",
    "C45_unit",
    "C45_constant_speed",
    "C45_near_unit",
    "C45_symmetric"
   ],
   "note": "Exact arithmetic with real sine and arccosine; also constant angular speed and the norm bound of the lerp branch."
  },
  {
   "property": "C46",
   "status": "proved",
   "theorems": [
    "C46_product",
    "C46_unit",
    "C46_rotates",
    "C46_extract_actual",
    "C46_extract_refuted",
    "C46_pitch_actual"
   ],
   "note": "REFUTED \u2014 the code violates the property; the _refuted theorem proves its negation. Construction is proved correct; extractPitch returns a wrong angle when its singularity test (an 'or' where 'and' is meant) fires away from gimbal lock. C46_extract_actual is the round trip where it does not fire. Real trigonometry."
  },
  {
   "property": "C47",
   "status": "proved",
   "theorems": [
    "C47_lookAt",
    "C47_rotateFront",
    "C47_rotateLook",
    "C47_rotate_affine"
   ],
   "note": "Exact arithmetic; also handedness and the up direction, and both rotate overloads."
  },
  {
   "property": "C48",
   "status": "proved",
   "theorems": [
    "C48_lookAtQuat_refuted",
    "C48_lookAtQuat_actual"
   ],
   "note": "REFUTED \u2014 the code violates the property; the _refuted theorem proves its negation. _actual: the second column is always zero, so the matrix is not a rotation."
  },
  {
   "property": "C49",
   "status": "proved",
   "theorems": [
    "C49_inverseTransRot_refuted",
    "C49_inverseTransRot_iff",
    "C49_inverseTransRot_actual"
   ],
   "note": "REFUTED \u2014 the code violates the property; the _refuted theorem proves its negation. _iff: right exactly when the translation is zero; _actual: the last row is (t, 1)."
  },
  {
   "property": "C50",
   "status": "proved",
   "theorems": [
    "C50_extractScale_refuted",
    "C50_extractScale_actual",
    "C50_extractRotation_actual",
    "C50_extractTransform2"
   ],
   "note": "REFUTED \u2014 the code violates the property; the _refuted theorem proves its negation. _actual: the squares of the scales; extractScale2 mixes a square and a length; extractRotation divides by the square."
  },
  {
   "property": "C51",
   "status": "proved",
   "theorems": [
    "C51_defined",
    "C51_depth",
    "C51_depth_reversed",
    "C51_depth_infinite",
    "C51_field_of_view"
   ],
   "note": "Exact arithmetic with the real tangent."
  },
  {
   "property": "C52",
   "status": "proved",
   "theorems": [
    "C52_box",
    "C52_corners"
   ],
   "note": "Exact arithmetic."
  },
  {
   "property": "C53",
   "status": "proved",
   "theorems": [
    "C53_compare2",
    "C53_compare3",
    "C53_compare4",
    "C53_reduce2",
    "C53_reduce3",
    "C53_reduce4",
    "C53_getTrues2",
    "C53_getTrues3",
    "C53_getTrues4",
    "C53_select2",
    "C53_select3",
    "C53_select4",
    "C53_equality",
    "C53_inequality",
    "C53_simd_equality",
    "C53_simd_inequality"
   ],
   "note": "Comparison operators and reductions of 2-, 3- and 4-lane vectors, the latter on every path."
  },
  {
   "property": "C54",
   "status": "proved",
   "theorems": [
    "C54_duality2",
    "C54_duality3",
    "C54_duality4",
    "C54_allTrue2",
    "C54_allTrue3",
    "C54_allTrue4",
    "C54_allFalse2",
    "C54_allFalse3",
    "C54_allFalse4"
   ],
   "note": "Negation holds on every path; the exact meaning on arbitrary lanes for two and three lanes and for four on the generic and NEON paths (SSE: see C88)."
  },
  {
   "property": "C55",
   "status": "proved",
   "theorems": [
    "C55_color",
    "C55_color_lex",
    "C55_uint2",
    "C55_uint3",
    "C55_uint4",
    "C55_int2",
    "C55_int3",
    "C55_int4",
    "C55_float2",
    "C55_float3",
    "C55_float4"
   ],
   "note": "Lexicographic order of the little-endian bytes (or of the 64-bit word); floats are ordered by bit pattern. Color is in C68's file."
  },
  {
   "property": "C56",
   "status": "proved",
   "theorems": [
    "C56_boxes_refuted",
    "C56_boxes_actual",
    "C56_strict"
   ],
   "note": "REFUTED \u2014 the code violates the property; the _refuted theorem proves its negation. _actual: boxes are equivalent exactly when they agree in min (four lanes) and in max.x, max.y: max.z is never compared."
  },
  {
   "property": "C57",
   "status": "proved",
   "theorems": [
    "C57_constructors",
    "C57_int3_refuted",
    "C57_int3_actual",
    "C57_loadPtr_refuted",
    "C57_loadPtr_actual",
    "C57_signed_unsigned"
   ],
   "note": "REFUTED \u2014 the code violates the property; the _refuted theorem proves its negation. Two constructors are wrong: int3(int2, z) stores x in z; the pointer constructors of u32x4/i32x4/f32x4 broadcast the first element on the generic path. All others are proved right."
  },
  {
   "property": "C58",
   "status": "proved",
   "theorems": [
    "C58_unsigned_lane",
    "C58_signed_lane",
    "C58_uint2",
    "C58_int2",
    "C58_uint3",
    "C58_int3",
    "C58_uint4",
    "C58_int4",
    "C58_uint2_ring",
    "C58_uint3_ring",
    "C58_uint4_ring",
    "C58_negation",
    "C58_complement",
    "C58_simd_unsigned",
    "C58_simd_signed",
    "C58_simd_shift",
    "C58_clamp"
   ],
   "note": "C++17 rules; SIMD paths agree with the scalar vectors wherever those are defined."
  },
  {
   "property": "C59",
   "status": "proved",
   "theorems": [
    "C59_mipCount_refuted",
    "C59_mipCount_small",
    "C59_mipCount_pow2",
    "C59_mipCount_actual",
    "C59_mipCount_zero",
    "C59_sizeAtMip",
    "C59_sizeAtMip2",
    "C59_sizeAtMip3",
    "C59_sizeAtMip3_simd",
    "C59_sizeAtMip3_simd_refuted",
    "C59_mip_chain"
   ],
   "note": "REFUTED \u2014 the code violates the property; the _refuted theorem proves its negation. std::log2 taken as correctly rounded. Wrong at 2^21-1 and within 2^-21 below larger powers of two; proved right for all sizes up to 2^21-2, for powers of two, and at relative distance 2^-20 or more. calcSizeAtMip is right below mip 32; the SIMD version is wrong on SSE4.1 for lanes >= 2^31 at mip 0."
  },
  {
   "property": "C60",
   "status": "proved",
   "theorems": [
    "C60_compare_refuted",
    "C60_compare_actual",
    "C60_compare_sse_actual",
    "C60_minmax_refuted",
    "C60_minmax_actual",
    "C60_reduce4",
    "C60_reduce3"
   ],
   "note": "REFUTED \u2014 the code violates the property; the _refuted theorem proves its negation. SSE compares the lanes as signed numbers (and SSE4.1 min/max likewise); right on the other paths and on lanes on the same side of 2^31."
  },
  {
   "property": "C61",
   "status": "proved",
   "theorems": [
    "C61_toHex_digits",
    "C61_toHex_too_long_UB",
    "C61_roundtrip32",
    "C61_roundtrip64"
   ],
   "note": "toHex is also shown undefined for lengths whose top shift reaches the operand width."
  },
  {
   "property": "C62",
   "status": "proved",
   "theorems": [
    "C62_pack_unpack",
    "C62_unpack_pack",
    "C62_order",
    "C62_string_injective",
    "C62_strings",
    "C62_index",
    "C62_constructor"
   ],
   "note": "Also: toString is injective."
  },
  {
   "property": "C63",
   "status": "proved",
   "theorems": [
    "C63_set_operations",
    "C63_closed",
    "C63_hasAnyFlag",
    "C63_hasOneFlag_refuted",
    "C63_hasOneFlag_actual",
    "C63_not",
    "C63_assign"
   ],
   "note": "REFUTED \u2014 the code violates the property; the _refuted theorem proves its negation. Only the hasOneFlag part fails (it tests 'no other flag', not 'this flag'); |,&,^,~ and hasAnyFlag parts are proved."
  },
  {
   "property": "C64",
   "status": "proved",
   "theorems": [
    "C64_fresh_zero",
    "C64_get_set",
    "C64_get_defined",
    "C64_resize",
    "C64_history"
   ],
   "note": "Through ptr; the checked set() does not compile when instantiated and is not modelled."
  },
  {
   "property": "C65",
   "status": "proved",
   "theorems": [
    "C65_copy_refuted",
    "C65_copy_actual"
   ],
   "note": "REFUTED \u2014 the code violates the property; the _refuted theorem proves its negation. The implicit copy constructor copies the raw pointer; _actual shows both objects access the same buffer."
  },
  {
   "property": "C66",
   "status": "proved",
   "theorems": [
    "C66_roundtrip"
   ],
   "note": "All 256 values by computation in the kernel, bit-exact in binary32, on every path."
  },
  {
   "property": "C67",
   "status": "proved",
   "theorems": [
    "C67_roundtrip"
   ],
   "note": ""
  },
  {
   "property": "C68",
   "status": "proved",
   "theorems": [
    "C68_u32",
    "C68_u32_back",
    "C68_hex",
    "C68_hex_digits"
   ],
   "note": ""
  },
  {
   "property": "C69",
   "status": "proved",
   "theorems": [
    "C69_reversal",
    "C69_reversal_unique",
    "C69_distinct",
    "C69_exact",
    "C69_refuted",
    "C69_nearest",
    "C69_actual",
    "C69_actual_distinct",
    "C69_actual_first"
   ],
   "note": "REFUTED \u2014 the code violates the property; the _refuted theorem proves its negation. In exact arithmetic it holds; in binary32 the second coordinate of index 2^25-1 is 1.0. Proved: correct below 2^24 indices, first coordinate below 1 for counts up to 2^23."
  },
  {
   "property": "C70",
   "status": "proved",
   "theorems": [
    "C70_refuted",
    "C70_tiny_refuted",
    "C70_actual",
    "C70_exact"
   ],
   "note": "REFUTED \u2014 the code violates the property; the _refuted theorem proves its negation. repeat of a negative integer and of tiny negative numbers is 1, not 0; otherwise it holds (_actual), up to one rounding for negative arguments."
  },
  {
   "property": "C71",
   "status": "proved",
   "theorems": [
    "C71_exact",
    "C71_exact_mono",
    "C71_simd",
    "C71_end1_refuted",
    "C71_end0_refuted",
    "C71_between_refuted",
    "C71_vector_ends",
    "C71_scalar_error",
    "C71_vector_error"
   ],
   "note": "REFUTED \u2014 the code violates the property; the _refuted theorem proves its negation. Exact arithmetic: holds. binary32: scalar lerp(1, 2^-30, 1) = 0, lerp(-3*2^126, 3*2^126, 0) is NaN; vector lerp(a, a, t) can differ from a. Proved instead: vector end points, and error bounds for both forms."
  },
  {
   "property": "C72",
   "status": "proved",
   "theorems": [
    "C72_range",
    "C72_fixed",
    "C72_mono",
    "C72_inverse",
    "C72_symmetric",
    "C72_quadratic",
    "C72_vector"
   ],
   "note": "Exact arithmetic with real powers."
  },
  {
   "property": "C73",
   "status": "proved",
   "theorems": [
    "C73_lanes",
    "C73_roundtrip",
    "C73_roundtrip_seam",
    "C73_back",
    "C73_linear_mono",
    "C73_srgb_mono_refuted",
    "C73_srgb_mono_actual",
    "C73_range",
    "C73_meaning"
   ],
   "note": "REFUTED \u2014 the code violates the property; the _refuted theorem proves its negation. rgbToSrgb decreases at the seam between its branches (_refuted); round trips, monotonicity of srgbToRgb and monotonicity away from the seam are proved (exact arithmetic with the code's binary32 constants, real powers)."
  },
  {
   "property": "C74",
   "status": "proved",
   "theorems": [
    "C74_yxy",
    "C74_xyz",
    "C74_rgb",
    "C74_luminance"
   ],
   "note": "Exact arithmetic with the code's binary32 matrix entries."
  },
  {
   "property": "C75",
   "status": "proved",
   "theorems": [
    "C75_inverse",
    "C75_halfturn",
    "C75_pi"
   ],
   "note": "Exact arithmetic with the code's binary32 pi, whose distance from pi is bounded."
  },
  {
   "property": "C76",
   "status": "proved",
   "theorems": [
    "C76_direction",
    "C76_abort",
    "C76_one_face",
    "C76_distinct"
   ],
   "note": "Exact arithmetic; faces and texel coordinates follow the cube map tables of OpenGL and Vulkan."
  },
  {
   "property": "C77",
   "status": "proved",
   "theorems": [
    "C77_range",
    "C77_injective",
    "C77_onto",
    "C77_defined"
   ],
   "note": "Memory safety for every scalar type."
  },
  {
   "property": "C78",
   "status": "proved",
   "theorems": [
    "C78_basis"
   ],
   "note": "Exact arithmetic."
  },
  {
   "property": "C79",
   "status": "proved",
   "theorems": [
    "C79_band1_refuted",
    "C79_band1_actual",
    "C79_projection",
    "C79_band2",
    "C79_band2_close",
    "C79_bands"
   ],
   "note": "REFUTED \u2014 the code violates the property; the _refuted theorem proves its negation. Band 2 is proved right (exactly for an exact 1/sqrt 2, within 1.25e-7 for the code's constant, exact arithmetic otherwise). Band 1 is wrong: its constants are written column by column for a constructor that takes rows; _actual: it computes the dot products with the columns of the matrix."
  },
  {
   "property": "C80",
   "status": "proved",
   "theorems": [
    "C80_unit",
    "C80_distribution",
    "C80_density"
   ],
   "note": "Exact arithmetic with real trigonometry; also that the samples follow the ggx density."
  },
  {
   "property": "C81",
   "status": "proved",
   "theorems": [
    "C81_refuted",
    "C81_exp_actual",
    "C81_log_actual"
   ],
   "note": "REFUTED \u2014 the code violates the property; the _refuted theorem proves its negation. exp(NaN) is +0, log(NaN) is a number (89.1 for the default NaN) and log(+inf) is -inf; the other special cases are proved (_actual)."
  },
  {
   "property": "C82",
   "status": "proved",
   "theorems": [
    "C82_dot",
    "C82_dot_simd",
    "C82_dot_symmetric",
    "C82_dot_linear",
    "C82_dot_homogeneous",
    "C82_cauchy_schwarz",
    "C82_cross",
    "C82_cross_simd",
    "C82_cross_facts",
    "C82_length",
    "C82_length_simd",
    "C82_norm_zero",
    "C82_norm_homogeneous",
    "C82_norm_triangle",
    "C82_distance",
    "C82_distance_simd",
    "C82_normalize",
    "C82_normalize_simd",
    "C82_fourth_lane",
    "C82_fallback"
   ],
   "note": "Exact arithmetic; lane independence and fallback for every scalar type."
  },
  {
   "property": "C83",
   "status": "proved",
   "theorems": [
    "C83_min",
    "C83_max",
    "C83_min_plain",
    "C83_max_plain",
    "C83_min4",
    "C83_max4",
    "C83_min3",
    "C83_max3",
    "C83_three_arguments",
    "C83_clamp",
    "C83_clamp_idempotent",
    "C83_clamp_scalar",
    "C83_clamp_scalar_idempotent",
    "C83_clamp_plain4",
    "C83_clamp_plain3",
    "C83_clamp_plain2",
    "C83_select",
    "C83_select_masks",
    "C83_select_short"
   ],
   "note": ""
  },
  {
   "property": "C84",
   "status": "proved",
   "theorems": [
    "C84_sign",
    "C84_signBits",
    "C84_signBits_simd",
    "C84_abs",
    "C84_one"
   ],
   "note": "Bit-level on the SSE and NEON paths; every binary32 value including NaN for sign and signBits, every number for abs."
  },
  {
   "property": "C85",
   "status": "proved",
   "theorems": [
    "C85_regrow_refuted"
   ],
   "note": "REFUTED \u2014 the code violates the property; the _refuted theorem proves its negation. Stale sub-byte elements reappear."
  },
  {
   "property": "C86",
   "status": "proved",
   "theorems": [
    "C86_closestPointRay"
   ],
   "note": "Exact arithmetic."
  },
  {
   "property": "C87",
   "status": "proved",
   "theorems": [
    "C87_unit",
    "C87_rodrigues"
   ],
   "note": "Exact arithmetic with real sine and cosine (sinCos itself is a polynomial approximation, not modelled here)."
  },
  {
   "property": "C88",
   "status": "proved",
   "theorems": [
    "C88_masks_agree",
    "C88_reductions_refuted",
    "C88_sse_allTrue_actual",
    "C88_sse2_allFalse_actual"
   ],
   "note": "REFUTED \u2014 the code violates the property; the _refuted theorem proves its negation. _actual: SSE tests the top bit of each byte. On comparison masks all paths agree."
  },
  {
   "property": "C89",
   "status": "proved",
   "theorems": [
    "C89_fromUnsigned_refuted",
    "C89_generic_refuted",
    "C89_fromUnsigned_actual",
    "C89_fromUnsigned_sse_actual",
    "C89_fromSigned_actual"
   ],
   "note": "REFUTED \u2014 the code violates the property; the _refuted theorem proves its negation. Wrong on SSE for every lane >= 2^31 and on the generic path (bits copied); right otherwise."
  },
  {
   "property": "C90",
   "status": "proved",
   "theorems": [
    "C90_toUnsigned_refuted",
    "C90_toUnsigned_actual",
    "C90_toUnsigned_sse_actual"
   ],
   "note": "REFUTED \u2014 the code violates the property; the _refuted theorem proves its negation. On SSE lanes >= 2^31 all convert to 2^31; right otherwise."
  },
  {
   "property": "C91",
   "status": "proved",
   "theorems": [
    "C91_toInt64",
    "C91_reads_unique",
    "C91_toInt32_actual",
    "C91_toInt32_refuted"
   ],
   "note": "REFUTED \u2014 the code violates the property; the _refuted theorem proves its negation. toInt32 with a 64-bit unsigned long drops the upper digits of numbers from 2^32 to 2^64 (_actual says exactly what happens for every string). toInt64 is proved right."
  },
  {
   "property": "C92",
   "status": "proved",
   "theorems": [
    "C92_total",
    "C92_monotone"
   ],
   "note": ""
  },
  {
   "property": "C93",
   "status": "proved",
   "theorems": [
    "C93_setNorm_refuted",
    "C93_setNorm_actual"
   ],
   "note": "REFUTED \u2014 the code violates the property; the _refuted theorem proves its negation. setNorm truncates: up to one channel below (_actual)."
  },
  {
   "property": "C94",
   "status": "proved",
   "theorems": [
    "C94_nan_refuted"
   ],
   "note": "REFUTED \u2014 the code violates the property; the _refuted theorem proves its negation. Undefined in the scalar constructors, setNorm and on NEON/generic; 255 on SSE."
  },
  {
   "property": "C95",
   "status": "proved",
   "theorems": [
    "C95_lanes",
    "C95_total_refuted"
   ],
   "note": "REFUTED \u2014 the code violates the property; the _refuted theorem proves its negation. The lane-wise meaning is proved; totality is false: different colours can be incomparable, so !(a<b) is not a>=b."
  },
  {
   "property": "C96",
   "status": "proved",
   "theorems": [
    "C96_refuted",
    "C96_actual",
    "C96_debug"
   ],
   "note": "REFUTED \u2014 the code violates the property; the _refuted theorem proves its negation. With assertions off a string shorter than five characters is read out of bounds; proved defined otherwise (with assertions on every other length than 6 and 8 aborts)."
  },
  {
   "property": "C97",
   "status": "proved",
   "theorems": [
    "C97_compose",
    "C97_rate",
    "C97_still",
    "C97_between",
    "C97_ends"
   ],
   "note": "Exact arithmetic with real powers. The documentation's 't == 0 gives a' is the opposite of what factor 0 does (C97_ends)."
  },
  {
   "property": "C98",
   "status": "proved",
   "theorems": [
    "C98_refuted",
    "C98_back",
    "C98_black"
   ],
   "note": "REFUTED \u2014 the code violates the property; the _refuted theorem proves its negation. rgbToSrgb(1) is 1 - 2^-24 on every path; srgbToRgb(1) = 1."
  },
  {
   "property": "C99",
   "status": "proved",
   "theorems": [
    "C99_ggx",
    "C99_positive",
    "C99_peak",
    "C99_reflectance"
   ],
   "note": "Exact arithmetic with the code's constants."
  },
  {
   "property": "C100",
   "status": "proved",
   "theorems": [
    "C100_floor_ceil_trunc",
    "C100_round_nearest",
    "C100_ties_refuted",
    "C100_ties_actual",
    "C100_agree_off_half",
    "C100_special"
   ],
   "note": "REFUTED \u2014 the code violates the property; the _refuted theorem proves its negation. round breaks ties to even on SSE4.1/AVX2/NEON and away from zero otherwise (_refuted, _actual); everything else holds, and all paths agree away from ties."
  },
  {
   "property": "C101",
   "status": "proved",
   "theorems": [
    "C101_solid_angle",
    "C101_positive",
    "C101_face_total",
    "C101_sphere_total"
   ],
   "note": "Exact arithmetic with the real arctangent."
  },
  {
   "property": "C102",
   "status": "proved",
   "theorems": [
    "C102_orthogonal",
    "C102_lobes",
    "C102_ki"
   ],
   "note": "Integrals over the sphere in spherical coordinates; exact arithmetic with the code's binary32 constants."
  },
  {
   "property": "C103",
   "status": "proved",
   "theorems": [
    "C103_each_once",
    "C103_constant",
    "C103_unit",
    "C103_cut"
   ],
   "note": "Placement for every scalar type; the factors in exact arithmetic with the real sine."
  },
  {
   "property": "C104",
   "status": "proved",
   "theorems": [
    "C104_refuted",
    "C104_actual",
    "C104_actual_binary32",
    "C104_defined",
    "C104_minimum_defined"
   ],
   "note": "REFUTED \u2014 the code violates the property; the _refuted theorem proves its negation. The final cutoff is always 3 or 4.25, whatever the minima are, because the cutoff is lowered inside the bisection loop (_actual, exact and binary32): band 2 keeps at most 21 percent. Memory safety is proved for every minimum function that is itself safe, and for the code's."
  },
  {
   "property": "C105",
   "status": "proved",
   "theorems": [
    "C105_each_once",
    "C105_constants"
   ],
   "note": "Exact arithmetic with the code's binary32 constants."
  },
  {
   "property": "C106",
   "status": "proved",
   "theorems": [
    "C106_exp_accurate"
   ],
   "note": "binary32, the four SIMD paths; the generic path is not modelled. No claim between the normal range and the cut-offs at -104 and 104 except the special values of C81."
  },
  {
   "property": "C107",
   "status": "proved",
   "theorems": [
    "C107_refuted",
    "C107_neon_refuted",
    "C107_log_actual"
   ],
   "note": "REFUTED \u2014 the code violates the property; the _refuted theorem proves its negation. One coefficient of the polynomial is repeated (line 1207), so the error reaches 3.5e-5; on NEON the exponent is converted as an unsigned number, so log(0.5) is about 3e9. _actual: within 6e-5 for every positive value, on NEON for values from 1 on."
  },
  {
   "property": "C108",
   "status": "proved",
   "theorems": [
    "C108_refuted",
    "C108_sincos_actual"
   ],
   "note": "REFUTED \u2014 the code violates the property; the _refuted theorem proves its negation. sinCos(2^40) is not finite on any path; accuracy is proved for |x| <= 8192 (_actual)."
  },
  {
   "property": "C109",
   "status": "proved",
   "theorems": [
    "C109_positive_base",
    "C109_integer_exponent"
   ],
   "note": "binary32, the four SIMD paths; on NEON for |b| >= 1 only, see C107."
  },
  {
   "property": "C110",
   "status": "proved",
   "theorems": [
    "C110_zero_exponent",
    "C110_zero_base",
    "C110_refuted"
   ],
   "note": "REFUTED \u2014 the code violates the property; the _refuted theorem proves its negation. fastPow(0, -1) = 0 and fastPow(-2, 0.5) is a positive number; the cases e = 0 and b = 0 are described for all inputs."
  },
  {
   "property": "C111",
   "status": "proved",
   "theorems": [
    "C111_refuted",
    "C111_gamma_actual",
    "C111_inverse_gamma"
   ],
   "note": "REFUTED \u2014 the code violates the property; the _refuted theorem proves its negation. On NEON half grey becomes +inf. Proved on the SSE2, SSE4.1 and AVX2 paths (_actual)."
  },
  {
   "property": "C112",
   "status": "proved",
   "theorems": [
    "C112_search_best",
    "C112_bounds",
    "C112_area",
    "C112_node_cost",
    "C112_triangle_centroid"
   ],
   "note": "The counters are those of the code (wrong for empty bins, see C06); C06_full_bins_actual shows when they are the numbers of primitives."
  },
  {
   "property": "C113",
   "status": "proved",
   "theorems": [
    "C113_boxes",
    "C113_triangles"
   ],
   "note": "For every build that returns Ok; costs as computed in binary32."
  },
  {
   "property": "C114",
   "status": "proved",
   "theorems": [
    "C114_get_refuted",
    "C114_get_actual",
    "C114_get",
    "C114_size_refuted",
    "C114_size_actual"
   ],
   "note": "REFUTED \u2014 the code violates the property; the _refuted theorem proves its negation. For 4-bit elements the assertion divides by 8 instead of 2, so indices up to four times the capacity pass and read out of bounds; size() is inherited and counts bytes. Proved for 1 and 2 bits."
  },
  {
   "property": "C115",
   "status": "proved",
   "theorems": [
    "C115_lines",
    "C115_line_direction",
    "C115_triangles",
    "C115_rays_scale",
    "C115_ray_normalize",
    "C115_ray_add_refuted",
    "C115_ray_sub_refuted",
    "C115_ray_add_actual"
   ],
   "note": "REFUTED \u2014 the code violates the property; the _refuted theorem proves its negation. Adding a vector to a ray (and subtracting one) also adds it to the direction, so the ray turns; _actual: the points move correctly exactly when the new direction is a positive multiple of the old. Lines, triangles and scaling of rays are proved. Exact arithmetic."
  },
  {
   "property": "C116",
   "status": "proved",
   "theorems": [
    "C116_simd_vectors",
    "C116_simd_matrices",
    "C116_shapes_refuted",
    "C116_shapes_actual",
    "C116_nan_actual",
    "C116_padding_refuted",
    "C116_rays_refuted"
   ],
   "note": "REFUTED \u2014 the code violates the property; the _refuted theorem proves its negation. SIMD vectors and matrices compare as numbers on every path (proved). The shapes and the plain matrices compare bytes: +0 and -0 differ, NaN equals itself, unused fourth lanes and the stale parallel flags of rays count; _actual: == is equality of all bits."
  },
  {
   "property": "C117",
   "status": "proved",
   "theorems": [
    "C117_action",
    "C117_action_as_4x4",
    "C117_points",
    "C117_identity",
    "C117_conversions",
    "C117_parts",
    "C117_three_columns",
    "C117_compose",
    "C117_compose_default_refuted",
    "C117_default_row_actual",
    "C117_number_ops",
    "C117_number_action",
    "C117_columns",
    "C117_column_refuted",
    "C117_column_actual"
   ],
   "note": "REFUTED \u2014 the code violates the property; the _refuted theorem proves its negation. The fourth column of a float4x3 is rejected by the assertion of [], and the default bottom row of conversions from 4x3 is zero instead of (0,0,0,1), so products drop the inner translation. Everything else is proved; arithmetic is exact, conversions are for every scalar type."
  },
  {
   "property": "C118",
   "status": "proved",
   "theorems": [
    "C118_roundtrip",
    "C118_fastPow_suffices",
    "C118_accurate"
   ],
   "note": "binary32 with round to nearest; std::pow is a parameter restricted only by its accuracy, C118_fastPow_suffices shows that the library's own fastPow meets the requirement."
  },
  {
   "property": "C119",
   "status": "proved",
   "theorems": [
    "C119_right",
    "C119_left",
    "C119_names"
   ],
   "note": "grey is 0x7F7F7F."
  },
  {
   "property": "C120",
   "status": "proved",
   "theorems": [
    "C120_dot_plain",
    "C120_dot_simd",
    "C120_cross",
    "C120_length",
    "C120_normalize_actual",
    "C120_isNormalized_actual",
    "C120_tiny_refuted",
    "C120_huge_refuted"
   ],
   "note": "REFUTED \u2014 the code violates the property; the _refuted theorem proves its negation. The squared length of a vector of length 2^-80 underflows and the lanes become infinite; that of one of length 2^70 overflows and all lanes become 0. Proved for squared lengths between 2^-100 and 2^100; dot and cross products have their own, wider ranges."
  },
  {
   "property": "C121",
   "status": "proved",
   "theorems": [
    "C121_shift_vector",
    "C121_shift_number",
    "C121_negate",
    "C121_not",
    "C121_complement",
    "C121_equality",
    "C121_bic",
    "C121_select",
    "C121_minmax",
    "C121_reduce",
    "C121_clamp"
   ],
   "note": "Integers as Z with explicit wrap-around; shifts and negation where int4's own result is defined. The generic select does not compile (it passes the condition as an int4) and is given the meaning of int4's select."
  },
  {
   "property": "C122",
   "status": "proved",
   "theorems": [
    "C122_action",
    "C122_product",
    "C122_chain4",
    "C122_chain3",
    "C122_product_chain",
    "C122_compose"
   ],
   "note": "binary32 with round to nearest, including underflow (the 2^-124 in the magnitudes); the hypotheses exclude only overflow."
  },
  {
   "property": "C123",
   "status": "proved",
   "theorems": [
    "C123_product",
    "C123_chain",
    "C123_normalize",
    "C123_conjugate",
    "C123_inverse",
    "C123_rotate",
    "C123_rotate_back",
    "C123_axis",
    "C123_axis_rotates",
    "C123_euler_rotates"
   ],
   "note": "binary32 with round to nearest and the library's own sine and cosine. Sine and cosine on the generic path come from the C library, which is not modelled, so the two constructors from angles are stated for the four SIMD paths. The comparison is with real unit quaternions and Rodrigues' formula."
  },
  {
   "property": "C124",
   "status": "proved",
   "theorems": [
    "C124_compare2",
    "C124_compare3",
    "C124_compare4",
    "C124_compare_simd",
    "C124_equal_float2_actual",
    "C124_compare_number",
    "C124_number_compare",
    "C124_mirror",
    "C124_nan",
    "C124_equality",
    "C124_equality_number",
    "C124_inequality",
    "C124_self_equality",
    "C124_arithmetic",
    "C124_arithmetic_number",
    "C124_number_arithmetic",
    "C124_to_signed",
    "C124_to_unsigned",
    "C124_from_integer",
    "C124_roundtrip",
    "C124_roundtrip_signed_actual",
    "C124_roundtrip_unsigned_actual",
    "C124_constants",
    "C124_max_is_greatest",
    "C124_epsilon_is_gap",
    "C124_min_is_precise",
    "C124_directions"
   ],
   "note": "binary32 lanes; conversions follow C++17, where a truncated value that does not fit is undefined. equal and notEqual of float2 are declared with a float4 second operand and are modelled as declared."
  },
  {
   "property": "C125",
   "status": "proved",
   "theorems": [
    "C125_four_values",
    "C125_three_values",
    "C125_fourth_value",
    "C125_plain_roundtrip",
    "C125_index",
    "C125_getters",
    "C125_store",
    "C125_swizzle",
    "C125_history",
    "C125_history_out_of_bounds"
   ],
   "note": "Lanes of any type. Reinterpreting casts inside the SSE constructors keep the bits and are left out; indices are unsigned (psize)."
  },
  {
   "property": "C126",
   "status": "proved",
   "theorems": [
    "C126_uint_number",
    "C126_int_number",
    "C126_number_uint",
    "C126_number_int",
    "C126_assignment",
    "C126_compare_number",
    "C126_simd_uint_number",
    "C126_simd_int_number",
    "C126_simd_number_uint",
    "C126_simd_number_int",
    "C126_constants2",
    "C126_constants3",
    "C126_opposites",
    "C126_unsigned_constants"
   ],
   "note": "The SIMD theorems assume no lane is undefined for the plain vectors; what the instructions do elsewhere is C121 and DESIGN.md section 5."
  },
  {
   "property": "C127",
   "status": "proved",
   "theorems": [
    "C127_plane_distance",
    "C127_boxes",
    "C127_matrix",
    "C127_clip_planes",
    "C127_visible",
    "C127_normalized",
    "C127_pipeline",
    "C127_model"
   ],
   "note": "The slack is 4.1 to 8.2 units of 2^-24 of the sum of magnitudes of the plane equation's terms, plus a multiple of 2^-150 for underflow; normalised planes need normals between 2^-49 and 2^49."
  },
  {
   "property": "C128",
   "status": "proved",
   "theorems": [
    "C128_inverse",
    "C128_residual",
    "C128_round_trip",
    "C128_range"
   ],
   "note": "Bounds of Cramer's rule; the constants are not sharp. C128_range records that outside the stated range the result can be infinite although the exact inverse is representable (a scale of 2^-43)."
  },
  {
   "property": "C129",
   "status": "proved",
   "theorems": [
    "C129_constructor",
    "C129_setters",
    "C129_sizes",
    "C129_history",
    "C129_no_abort",
    "C129_operators",
    "C129_infinite_box",
    "C129_unseen"
   ],
   "note": "binary32. C129_unseen records what the assertions miss: an infinite position, *= with a negative factor (the operator * does catch it), shrinking to nothing."
  },
  {
   "property": "C130",
   "status": "proved",
   "theorems": [
    "C130_moved_box",
    "C130_grown_and_shrunk",
    "C130_inverted",
    "C130_in_face"
   ],
   "note": "binary32. C130_in_face shows why rays running in a face are excepted: 0 times infinity is NaN, and the min/max instructions then keep one operand or the other."
  },
  {
   "property": "C131",
   "status": "proved",
   "theorems": [
    "C131_distance_refuted",
    "C131_parameter_actual"
   ],
   "note": "REFUTED \u2014 the code violates the property; the _refuted theorem proves its negation.  C131_parameter_actual says what t is."
  },
  {
   "property": "C132",
   "status": "proved",
   "theorems": [
    "C132_segment",
    "C132_overload",
    "C132_ray",
    "C132_ray_far",
    "C132_plane",
    "C132_normalized_plane",
    "C132_sphere"
   ],
   "note": "binary32. C132_ray_far is the witness for the O/L term of the ray: the code recomputes the direction as (origin + direction) - origin. The plane's bound needs a normal of length one up to 16/2^24, which C132_normalized_plane shows normalize to establish."
  },
  {
   "property": "C133",
   "status": "proved",
   "theorems": [
    "C133_int",
    "C133_uint",
    "C133_color",
    "C133_canonical",
    "C133_float_refuted",
    "C133_float_actual",
    "C133_apart",
    "C133_exact",
    "C133_special"
   ],
   "note": "REFUTED \u2014 the code violates the property; the _refuted theorem proves its negation.  Only the float part fails (six decimals lose small differences, C133_float_refuted); C133_float_actual is the accuracy, and the integer and colour parts are proved. std::to_string is modelled after the C++17/20 wording (printf formats)."
  },
  {
   "property": "C134",
   "status": "proved",
   "theorems": [
    "C134_infinite",
    "C134_infinite_order",
    "C134_reversed",
    "C134_reversed_order",
    "C134_standard_actual",
    "C134_standard_order_refuted",
    "C134_range_refuted"
   ],
   "note": "REFUTED \u2014 the code violates the property; the _refuted theorem proves its negation.  Only the projections with a far plane fail: C134_range_refuted (near 0.1f, far 10, points on the planes) and C134_standard_order_refuted (near 1, far 3, neighbouring floats). C134_infinite and C134_infinite_order prove the property for the infinite projection, C134_reversed_order the order for the reversed one, and C134_reversed and C134_standard_actual the accuracy."
  },
  {
   "property": "C135",
   "status": "proved",
   "theorems": [
    "C135_terminates_refuted"
   ],
   "note": "REFUTED \u2014 the code violates the property; the _refuted theorem proves its negation.  The hypothesis on the power function is met by any std::pow that is finite on [0, 1] (C135_a_power gives an instance); a is exactly zero on this light, so the power is multiplied by zero."
  },
  {
   "property": "C136",
   "status": "proved",
   "theorems": [
    "C136_missed_refuted",
    "C136_missed_binary32",
    "C136_concave_refuted",
    "C136_vertical_refuted",
    "C136_bound_actual",
    "C136_zonal_actual"
   ],
   "note": "REFUTED \u2014 the code violates the property; the _refuted theorem proves its negation.  C136_missed_refuted and C136_concave_refuted are over the reals (the former also computed in binary32, C136_missed_binary32), C136_vertical_refuted is for all binary32 lights with s2 = s3 = 0. C136_bound_actual and C136_zonal_actual say for which lights the answer is right."
  },
  {
   "property": "C137",
   "status": "proved",
   "theorems": [
    "C137_net",
    "C137_strata"
   ],
   "note": "binary32, exact below 2^24 samples; above that C69_refuted shows a coordinate rounding to 1."
  },
  {
   "property": "C138",
   "status": "proved",
   "theorems": [
    "C138_inside",
    "C138_spheres",
    "C138_box",
    "C138_range"
   ],
   "note": "binary32. C138_range records the behaviour outside the range as part of the property."
  },
  {
   "property": "C139",
   "status": "proved",
   "theorems": [
    "C139_refuted",
    "C139_actual"
   ],
   "note": "REFUTED \u2014 the code violates the property; the _refuted theorem proves its negation.  C139_actual is the two-sided accuracy for triangles that are no slivers (the conditioning is that of the corners relative to the box after their single rounding)."
  },
  {
   "property": "C140",
   "status": "proved",
   "theorems": [
    "C140_refuted",
    "C140_exact_actual",
    "C140_margin_actual"
   ],
   "note": "REFUTED \u2014 the code violates the property; the _refuted theorem proves its negation.  C140_exact_actual and C140_margin_actual say when the answer is right."
  },
  {
   "property": "C141",
   "status": "proved",
   "theorems": [
    "C141_bary"
   ],
   "note": "binary32."
  },
  {
   "property": "C142",
   "status": "proved",
   "theorems": [
    "C142_screen",
    "C142_depth",
    "C142_order",
    "C142_symmetric_actual",
    "C142_zero_near_actual",
    "C142_corner_refuted"
   ],
   "note": "REFUTED \u2014 the code violates the property; the _refuted theorem proves its negation.  The accuracy and order parts are proved (C142_screen, C142_depth, C142_order); C142_corner_refuted shows the corner of the box [1, 7] clipped, C142_symmetric_actual and C142_zero_near_actual give the boxes whose points are never clipped."
  },
  {
   "property": "C143",
   "status": "proved",
   "theorems": [
    "C143_centre",
    "C143_around",
    "C143_move",
    "C143_back_actual",
    "C143_rebuild_actual",
    "C143_rebuild_refuted",
    "C143_extent_refuted",
    "C143_overflow_refuted"
   ],
   "note": "REFUTED \u2014 the code violates the property; the _refuted theorem proves its negation.  Containment of the centre, of the position and of moved points is proved (C143_centre, C143_around, C143_move); reading back and rebuilding hold within rounding (C143_back_actual, C143_rebuild_actual)."
  },
  {
   "property": "C144",
   "status": "proved",
   "theorems": [
    "C144_matrix",
    "C144_extract",
    "C144_round_trip",
    "C144_same_turn",
    "C144_model",
    "C144_sign_refuted"
   ],
   "note": "REFUTED \u2014 the code violates the property; the _refuted theorem proves its negation.  Only the sign fails (C144_sign_refuted); all bounds are proved (C144_matrix, C144_extract, C144_round_trip, C144_same_turn, C144_model)."
  },
  {
   "property": "C145",
   "status": "proved",
   "theorems": [
    "C145_matrix",
    "C145_places"
   ],
   "note": "binary32."
  },
  {
   "property": "C146",
   "status": "proved",
   "theorems": [
    "C146_pole_refuted",
    "C146_frame",
    "C146_sees",
    "C146_ends"
   ],
   "note": "REFUTED \u2014 the code violates the property; the _refuted theorem proves its negation.  C146_pole_refuted: looking along the up vector gives NaN. The bounds for every other camera are proved (C146_frame, C146_sees, C146_ends)."
  },
  {
   "property": "C147",
   "status": "proved",
   "theorems": [
    "C147_names",
    "C147_planes",
    "C147_rays",
    "C147_hand",
    "C147_view"
   ],
   "note": "Exact equalities of values; the sign of a zero lane is not claimed."
  },
  {
   "property": "C148",
   "status": "proved",
   "theorems": [
    "C148_black_refuted",
    "C148_round_trip_actual",
    "C148_xyz",
    "C148_xyz_back",
    "C148_yxy",
    "C148_yxy_back"
   ],
   "note": "REFUTED \u2014 the code violates the property; the _refuted theorem proves its negation. black (0, 0, 0) has the channel sum 0, 1 / 0 is infinite and 0 * infinity NaN, on every path (C148_black_refuted); C148_round_trip_actual has the bound for colours with light."
  },
  {
   "property": "C149",
   "status": "proved",
   "theorems": [
    "C149_sphere",
    "C149_sphere_parts",
    "C149_plane",
    "C149_ray",
    "C149_kept"
   ],
   "note": "The flags follow the vector passed to setDirection, not the normalized one. Writing through operator*= and the like leaves the flags alone (see the ray operators)."
  },
  {
   "property": "C150",
   "status": "proved",
   "theorems": [
    "C150_back",
    "C150_model"
   ],
   "note": "x, y and z only: the fourth lane of the result is not 1, because the last row of the inverse holds the translation (C49_inverseTransRot_refuted)."
  },
  {
   "property": "C151",
   "status": "proved",
   "theorems": [
    "C151_radians",
    "C151_degrees",
    "C151_back",
    "C151_order",
    "C151_same_range_refuted"
   ],
   "note": "REFUTED \u2014 the code violates the property; the _refuted theorem proves its negation. its last sentence is false: the four-lane radians multiplies by pi before dividing by 180, so it returns infinity for 2^127 degrees, where the scalar form returns a finite value (C151_same_range_refuted). The other sentences are proved."
  },
  {
   "property": "C152",
   "status": "proved",
   "theorems": [
    "C152_direction",
    "C152_distinct"
   ],
   "note": "The selection table is that of the OpenGL and Vulkan specifications (Spec/IblSpec.v)."
  },
  {
   "property": "C153",
   "status": "proved",
   "theorems": [
    "C153_finite_refuted",
    "C153_ggx_actual",
    "C153_reflectance"
   ],
   "note": "REFUTED \u2014 the code violates the property; the _refuted theorem proves its negation. for a = 2^-13 and n = 1 the factor f rounds to 0 and ggx returns infinity instead of 2.1e7 (C153_finite_refuted). C153_ggx_actual proves the bound for roughness from 1/512; the sentence on iorToReflectance is proved as stated."
  },
  {
   "property": "C154",
   "status": "proved",
   "theorems": [
    "C154_basis",
    "C154_texel"
   ],
   "note": "Unnormalised harmonics with the Condon-Shortley sign, as in C78."
  },
  {
   "property": "C155",
   "status": "proved",
   "theorems": [
    "C155_number_refuted",
    "C155_unit_actual",
    "C155_quantile_actual"
   ],
   "note": "REFUTED \u2014 the code violates the property; the _refuted theorem proves its negation. for a = 16773340 * 2^-36 (about 0.000244) and u.y = 8888441 * 2^-24 the squared cosine rounds to 1 + 2^-23, sqrt(1 - cosTheta2) is NaN and so are x and y of the half vector (C155_number_refuted). C155_unit_actual proves finiteness and length for roughness from 1/1024, C155_quantile_actual the cosine for roughness from 1/512."
  },
  {
   "property": "C156",
   "status": "proved",
   "theorems": [
    "C156_large_refuted",
    "C156_texel_actual"
   ],
   "note": "REFUTED \u2014 the code violates the property; the _refuted theorem proves its negation. for n = 8192 the corner texel gets zero, a negative number or at least four times its solid angle, whatever atan2 returns within one unit in the last place (C156_large_refuted): the four terms lie in [1/2, 1), so the result is a multiple of 2^-24, and the solid angle is below 2^-26. The sentence on n up to 512 and positivity there are proved (C156_texel_actual)."
  },
  {
   "property": "C157",
   "status": "proved",
   "theorems": [
    "C157_texel",
    "C157_sphere"
   ],
   "note": "The sum is the exact sum of the binary32 weights; the rounding of a caller's own accumulation is not included."
  },
  {
   "property": "C158",
   "status": "proved",
   "theorems": [
    "C158_factor",
    "C158_windowing"
   ],
   "note": "The hypothesis on the sine is C158_ex_sin's for the correctly rounded sine; what a given C library provides is outside the model."
  },
  {
   "property": "C159",
   "status": "proved",
   "theorems": [
    "C159_light"
   ],
   "note": "The shader's own evaluation is taken exactly (it runs on the GPU, outside the repository); most of the bound is the error of the decimal constants in the code (C105)."
  }
 ]
}
