{
 "claims": [
  {
   "property": "C01",
   "status": "partial",
   "theorems": [
    "C01_load_float2",
    "C01_load_float3",
    "C01_load_float3_aligned",
    "C01_load_float4",
    "C01_store_float",
    "C01_store_float2",
    "C01_store_float3",
    "C01_store_float4",
    "C01_roundtrip_vectors",
    "C01_load_float3x3_scalar",
    "C01_load_float3x3_sse_partial",
    "C01_load_float3x3_sse_refuted",
    "C01_load_float4x3",
    "C01_load_float3x4",
    "C01_load_float4x4",
    "C01_store_float3x3",
    "C01_store_float4x3",
    "C01_store_float3x4",
    "C01_store_float4x4"
   ],
   "note": "Proved for every structure and both backends except the SSE XMLoadFloat3x3, whose row 1 goes through an addition with zero: bit-exact only without NaN and -0.0 in that row (partial), refuted otherwise."
  },
  {
   "property": "C02",
   "status": "proved",
   "theorems": [
    "C02_get_set_by_index",
    "C02_get_by_index",
    "C02_set_twice_keeps_last",
    "C02_write_back_is_identity",
    "C02_by_name_is_by_index",
    "C02_backends_agree",
    "C02_bad_index_panics"
   ],
   "note": ""
  },
  {
   "property": "C03",
   "status": "proved",
   "theorems": [
    "C03_swizzle",
    "C03_swizzle_illegal_panics",
    "C03_permute",
    "C03_permute_avx_agrees",
    "C03_permute_illegal_panics",
    "C03_permute_tuple",
    "C03_swizzle_tuple",
    "C03_shift_left",
    "C03_rotate_left",
    "C03_rotate_right",
    "C03_rotate_right_undoes_left",
    "C03_shift_rotate_illegal_panics",
    "C03_merge",
    "C03_splat",
    "C03_insert"
   ],
   "note": ""
  },
  {
   "property": "C04",
   "status": "partial",
   "theorems": [
    "C04_select",
    "C04_select_control",
    "C04_binary_constant_scalar_partial",
    "C04_binary_constant_scalar_debug_refuted",
    "C04_binary_constant_sse_refuted"
   ],
   "note": "Select and SelectControl (documented arguments 0/1) proved. XMVectorSetBinaryConstant is only right in the scalar body without overflow checks; the SSE mask and the checked scalar body are refuted."
  },
  {
   "property": "C05",
   "status": "proved",
   "theorems": [
    "C05_float_relations",
    "C05_int_relations",
    "C05_in_bounds",
    "C05_near_equal"
   ],
   "note": ""
  },
  {
   "property": "C06",
   "status": "partial",
   "theorems": [
    "C06_lane_records",
    "C06_dims_sse",
    "C06_dims_equal_same",
    "C06_dims_order_same_partial",
    "C06_dims_order_scalar_nan_refuted",
    "C06_in_bounds_sse",
    "C06_in_bounds_scalar_refuted"
   ],
   "note": "Records proved against the lanes for every comparison; refuted where the code departs: SSE 2D/3D InBoundsR and the Greater*R records with NaN lanes."
  },
  {
   "property": "C07",
   "status": "proved",
   "theorems": [
    "C07_all_lanes",
    "C07_in_bounds",
    "C07_near_equal",
    "C07_not_equal",
    "C07_nan_infinite"
   ],
   "note": ""
  },
  {
   "property": "C08",
   "status": "partial",
   "theorems": [
    "C08_minmax_same",
    "C08_minmax_which",
    "C08_minmax_bounds",
    "C08_clamp",
    "C08_clamp_panics",
    "C08_saturate_partial",
    "C08_saturate_same_refuted"
   ],
   "note": "Proved except Saturate of NaN, where the backends differ (refuted)."
  },
  {
   "property": "C09",
   "status": "proved",
   "theorems": [
    "C09_vector",
    "C09_matrix",
    "C09_is_identity"
   ],
   "note": ""
  },
  {
   "property": "C10",
   "status": "partial",
   "theorems": [
    "C10_round_sse2",
    "C10_round_sse4",
    "C10_round_scalar_partial",
    "C10_round_scalar_refuted",
    "C10_round_scalar_every_lane",
    "C10_truncate_scalar",
    "C10_truncate_sse2",
    "C10_truncate_sse4",
    "C10_floor_scalar",
    "C10_floor_sse2",
    "C10_floor_sse4",
    "C10_ceiling_scalar",
    "C10_ceiling_sse2",
    "C10_ceiling_sse4",
    "C10_backends_agree"
   ],
   "note": "Every bit pattern, every lane, bit-level model of the scalar, SSE2 and SSE4.1 code. Truncate, Floor and Ceiling hold on all backends, Round on SSE2 and SSE4.1. On the scalar backend Round reads lane 0 for every lane: proved for lane 0, refuted for the others, and what it returns instead is proved."
  },
  {
   "property": "C11",
   "status": "partial",
   "theorems": [
    "C11_int_to_float_sse",
    "C11_int_to_float_scalar_partial",
    "C11_int_to_float_scalar_refuted",
    "C11_int_to_float_scalar_exponent",
    "C11_uint_to_float_scalar",
    "C11_uint_to_float_sse_partial",
    "C11_uint_to_float_sse_refuted",
    "C11_uint_to_float_sse_within_ulp",
    "C11_float_to_int_scalar",
    "C11_float_to_int_sse",
    "C11_float_to_uint_scalar",
    "C11_float_to_uint_sse",
    "C11_float_to_uint_agree",
    "C11_float_to_int_agree_partial",
    "C11_float_to_int_nan",
    "C11_float_to_int_agree_refuted"
   ],
   "note": "All lane patterns and exponents 0..31, bit-level model of both backends. Float to signed and unsigned holds on both backends; signed to float holds on SSE; unsigned to float holds on the scalar backend, and on SSE below 2^31 (above it, error under one ulp). Refuted: scalar signed-to-float (reads lanes as unsigned, divides by 1 >> k), SSE unsigned-to-float at 2^31 and above (double rounding), and backend agreement for NaN to signed."
  },
  {
   "property": "C12",
   "status": "partial",
   "theorems": [
    "C12_half_to_float_total",
    "C12_half_to_float_partial",
    "C12_half_to_float_denormal",
    "C12_half_to_float_refuted",
    "C12_float_to_half",
    "C12_float_to_half_sign",
    "C12_round_trip_partial",
    "C12_round_trip_refuted"
   ],
   "note": "Portable (non-F16C) path, all 2^16 halves and all 2^32 floats. Float to half is proved in full. Half to float is exact on zeros, normals, infinities and NaN; its denormal loop has an inverted exit test and every one of the denormal halves is converted to a wrong value (proved), so the full statement and the round trip are refuted there."
  },
  {
   "property": "C13",
   "status": "proved",
   "theorems": [
    "C13_bitwise",
    "C13_results_are_words",
    "C13_backends_agree",
    "C13_boolean_laws"
   ],
   "note": ""
  },
  {
   "property": "C14",
   "status": "proved",
   "theorems": [
    "C14_add_angles",
    "C14_subtract_angles"
   ],
   "note": "Exact arithmetic over the code's float constant for pi, all backends."
  },
  {
   "property": "C15",
   "status": "partial",
   "theorems": [
    "C15_scalar_mod_angle_partial",
    "C15_scalar_mod_angle_refuted",
    "C15_scalar_mod_angle_true_period",
    "C15_vector_mod_angles",
    "C15_vector_mod_angles_true_period",
    "C15_vector_mod_angles_refuted",
    "C15_vector_mod_angles_scalar_partial",
    "C15_vector_mod_angles_scalar_congruent",
    "C15_vector_mod_angles_scalar_refuted",
    "C15_vector_mod_angles_binary32"
   ],
   "note": "Exact arithmetic with the code's float constants. XMScalarModAngle proved while the i32 quotient does not saturate, refuted beyond. XMVectorModAngles on SSE: congruent, and inside [-XM_PI, XM_PI] up to a relative 1/70000000 (refuted as an exact range, in binary32). No-intrinsics path: lane 0 only; lanes 1-3 refuted. The _binary32 theorem counts every rounding for the SSE vector form up to a million radians."
  },
  {
   "property": "C16",
   "status": "partial",
   "theorems": [
    "C16_splat_constant_sse",
    "C16_splat_constant_scalar_partial",
    "C16_splat_constant_scalar_refuted",
    "C16_splat_negative_scalar_refuted",
    "C16_splat_constant_int",
    "C16_splat_assert"
   ],
   "note": "SplatConstant on SSE for every legal argument, SplatConstantInt on both backends, and the assertion failure outside the range. Scalar SplatConstant is refuted for positive exponents and for negative constants, proved for the rest."
  },
  {
   "property": "C17",
   "status": "partial",
   "theorems": [
    "C17_negate_scalar_bits",
    "C17_abs_scalar_bits",
    "C17_sse_values",
    "C17_same_bits_partial",
    "C17_sse_sign_of_zero_refuted"
   ],
   "note": "Proved except Negate of zero, where scalar and SSE give zeros of different sign (refuted)."
  },
  {
   "property": "C18",
   "status": "partial",
   "theorems": [
    "C18_elementwise",
    "C18_scale",
    "C18_multiply_add",
    "C18_dot2_cross2",
    "C18_dot3_sse2",
    "C18_dot3_sse4",
    "C18_cross3",
    "C18_transform",
    "C18_dot4_sse3_sse4",
    "C18_dot4_assoc_refuted",
    "C18_dot4_sse2_refuted",
    "C18_dot3_sse4_refuted",
    "C18_cross3_fma_refuted",
    "C18_transform4_refuted"
   ],
   "note": "Agreement proved for the same association; the _refuted theorems exhibit the differences (dot4 association, SSE4.1 sign of zero, fused cross, Transform4 order)."
  },
  {
   "property": "C19",
   "status": "proved",
   "theorems": [
    "C19_dot",
    "C19_length",
    "C19_reciprocal_length",
    "C19_cauchy_schwarz_triangle"
   ],
   "note": ""
  },
  {
   "property": "C20",
   "status": "proved",
   "theorems": [
    "C20_cross2_signed_area",
    "C20_cross3_value",
    "C20_cross3_laws",
    "C20_cross4"
   ],
   "note": ""
  },
  {
   "property": "C21",
   "status": "proved",
   "theorems": [
    "C21_unit_parallel",
    "C21_zero"
   ],
   "note": ""
  },
  {
   "property": "C22",
   "status": "partial",
   "theorems": [
    "C22_nonzero_partial",
    "C22_zero",
    "C22_zero_refuted"
   ],
   "note": "Non-zero vectors proved; the zero vector stays zero (C22_zero), so a positive minimum is refuted there."
  },
  {
   "property": "C23",
   "status": "partial",
   "theorems": [
    "C23_reflect2",
    "C23_reflect3",
    "C23_reflect4",
    "C23_refract2",
    "C23_refract3",
    "C23_refract4",
    "C23_critical_angle_refuted"
   ],
   "note": "Reflect and Refract proved off the critical angle for 2D and everywhere for 3D/4D; at exactly the critical angle the 2D backends differ (refuted)."
  },
  {
   "property": "C24",
   "status": "proved",
   "theorems": [
    "C24_orthogonal2",
    "C24_orthogonal3",
    "C24_orthogonal4"
   ],
   "note": ""
  },
  {
   "property": "C25",
   "status": "proved",
   "theorems": [
    "C25_line_point_distance2",
    "C25_line_point_distance3",
    "C25_components_from_normal",
    "C25_intersect_line"
   ],
   "note": ""
  },
  {
   "property": "C26",
   "status": "partial",
   "theorems": [
    "C26_lerp_line",
    "C26_lerp_ends",
    "C26_lerp_forms_agree",
    "C26_barycentric_forms_agree",
    "C26_hermite_ends",
    "C26_hermite_tangents",
    "C26_hermite_constant",
    "C26_hermite_forms_and_backends_agree",
    "C26_catmullrom_ends",
    "C26_catmullrom_tangents",
    "C26_catmullrom_constant",
    "C26_catmullrom_forms_and_backends_agree",
    "C26_barycentric_vertices",
    "C26_barycentric_combination",
    "C26_lerp_end_rounding_refuted"
   ],
   "note": "Closed forms and interpolation laws in exact arithmetic; float end points refuted where rounding intervenes."
  },
  {
   "property": "C27",
   "status": "partial",
   "theorems": [
    "C27_multiply",
    "C27_associative",
    "C27_identity",
    "C27_norm",
    "C27_conjugate",
    "C27_inverse_partial",
    "C27_inverse_refuted",
    "C27_inverse_below"
   ],
   "note": "Exact arithmetic. The inverse is proved above the library's threshold 2^-23 on the squared length (partial) and refuted below it."
  },
  {
   "property": "C28",
   "status": "proved",
   "theorems": [
    "C28_isometry",
    "C28_inverse_rotate",
    "C28_product",
    "C28_matrix"
   ],
   "note": ""
  },
  {
   "property": "C29",
   "status": "proved",
   "theorems": [
    "C29_quaternion_to_matrix",
    "C29_quaternion_round_trip",
    "C29_matrix_round_trip",
    "C29_backends_agree",
    "C29_product",
    "C29_quaternion_to_matrix_binary32"
   ],
   "note": ""
  },
  {
   "property": "C30",
   "status": "proved",
   "theorems": [
    "C30_near_parallel",
    "C30_near_parallel_length",
    "C30_vector_form",
    "C30_scalar_arc",
    "C30_arc",
    "C30_scalar_endpoints",
    "C30_sse_arc",
    "C30_sse_extrapolate",
    "C30_sse_endpoints"
   ],
   "note": "Exact arithmetic with the code's float coefficients. No-intrinsics backend (exact math library): the exact great arc for every t. SSE backends: within an explicit error of it for |t| <= 1e7. Nearly parallel inputs: the linear blend on every backend. Rounding of the individual float operations is not included."
  },
  {
   "property": "C31",
   "status": "proved",
   "theorems": [
    "C31_rotation_normal",
    "C31_quaternion_is_matrix",
    "C31_axes",
    "C31_roll_pitch_yaw",
    "C31_rotation_axes",
    "C31_rotation_normal_angle",
    "C31_rotation_axis",
    "C31_rotation_axis_zero",
    "C31_quaternion_normal",
    "C31_quaternion_axis",
    "C31_quaternion_roll_pitch_yaw",
    "C31_matrix_roll_pitch_yaw",
    "C31_rotation_axes_binary32",
    "C31_rotation_normal_binary32",
    "C31_rotation_axis_binary32",
    "C31_quaternion_normal_binary32",
    "C31_quaternion_axis_binary32",
    "C31_quaternion_roll_pitch_yaw_binary32",
    "C31_matrix_roll_pitch_yaw_binary32"
   ],
   "note": "First as functions of the sine and cosine the code uses, then as functions of the angle with the library's own sine and cosine in them (exact arithmetic, error 2.06e-7 + 2.8e-8 |a|), then _binary32 theorems with every rounding counted (angles up to 10 in size; roll-pitch-yaw on the vector backends only)."
  },
  {
   "property": "C32",
   "status": "proved",
   "theorems": [
    "C32_product",
    "C32_associative",
    "C32_identity",
    "C32_distributes",
    "C32_multiply_transpose"
   ],
   "note": ""
  },
  {
   "property": "C33",
   "status": "proved",
   "theorems": [
    "C33_transpose",
    "C33_involution"
   ],
   "note": ""
  },
  {
   "property": "C34",
   "status": "proved",
   "theorems": [
    "C34_determinant",
    "C34_multiplicative",
    "C34_inverse",
    "C34_backends_agree"
   ],
   "note": ""
  },
  {
   "property": "C35",
   "status": "proved",
   "theorems": [
    "C35_compose",
    "C35_compose_coord",
    "C35_linear",
    "C35_transform",
    "C35_transform_normal",
    "C35_transform_coord"
   ],
   "note": "Exact arithmetic, every backend: closed forms, linearity and composition with XMMatrixMultiply."
  },
  {
   "property": "C36",
   "status": "proved",
   "theorems": [
    "C36_points",
    "C36_transformation",
    "C36_affine",
    "C36_transformation2d_sines",
    "C36_affine2d_sines",
    "C36_tensor_product",
    "C36_transformation2d",
    "C36_affine2d"
   ],
   "note": "Exact arithmetic; the 2D forms with rotation matrices within the sine and cosine error of the true rotations."
  },
  {
   "property": "C37",
   "status": "proved",
   "theorems": [
    "C37_reflect",
    "C37_shadow"
   ],
   "note": ""
  },
  {
   "property": "C38",
   "status": "proved",
   "theorems": [
    "C38_look_to",
    "C38_look_at",
    "C38_handedness"
   ],
   "note": ""
  },
  {
   "property": "C39",
   "status": "proved",
   "theorems": [
    "C39_perspective",
    "C39_offcenter",
    "C39_fov",
    "C39_orthographic",
    "C39_fov_angle"
   ],
   "note": "Exact arithmetic; the field-of-view forms in terms of the library's sine and cosine of half the angle, and against the true tangent for angles in [0.01, 3.13]."
  },
  {
   "property": "C40",
   "status": "proved",
   "theorems": [
    "C40_project",
    "C40_round_trip"
   ],
   "note": ""
  },
  {
   "property": "C41",
   "status": "partial",
   "theorems": [
    "C41_recompose_partial",
    "C41_tiny_scale_refuted",
    "C41_two_zero_scales_refuted"
   ],
   "note": "Recomposition proved for scales of magnitude at least 0.0001 or with exactly one zero; refuted for tiny negative scales and for two zero scales."
  },
  {
   "property": "C42",
   "status": "partial",
   "theorems": [
    "C42_matrix",
    "C42_vector",
    "C42_scale_negate",
    "C42_scale_float",
    "C42_equality",
    "C42_negate_zero_refuted",
    "C42_add_assign_refuted",
    "C42_sub_assign_refuted",
    "C42_assign_row0"
   ],
   "note": "Proved for all operators except += and -= on matrices (refuted: they only write row 0) and the sign of negated zero across backends (refuted)."
  },
  {
   "property": "C43",
   "status": "partial",
   "theorems": [
    "C43_from_point_normal",
    "C43_from_points",
    "C43_normalize",
    "C43_intersect_line",
    "C43_intersect_plane",
    "C43_parallel_line_float",
    "C43_transform",
    "C43_dots",
    "C43_normalize_zero_refuted"
   ],
   "note": "Proved in exact arithmetic on all backends; agreement on a zero normal refuted on bit patterns."
  },
  {
   "property": "C44",
   "status": "partial",
   "theorems": [
    "C44_fresnel",
    "C44_backends_agree",
    "C44_range_float",
    "C44_agree_refuted"
   ],
   "note": "Range and closed form proved; agreement proved in exact arithmetic and refuted on bit patterns (0/0)."
  },
  {
   "property": "C45",
   "status": "proved",
   "theorems": [
    "C45_vector_sin_cos",
    "C45_vector_sin_cos_principal",
    "C45_scalar_sin_cos",
    "C45_vector_sin_cos_libm",
    "C45_sin_cos_pair",
    "C45_scalar_sin_cos_pair",
    "C45_vector_sin_cos_binary32",
    "C45_vector_sin_cos_principal_binary32",
    "C45_scalar_sin_cos_binary32"
   ],
   "note": "Two layers. Exact arithmetic with the code's float coefficients and constants: all angles up to 1e8, every lane and backend. The _binary32 theorems count every rounding: angles up to a million radians, SSE vector forms with and without FMA, and the scalar forms. The no-intrinsics vector path calls libm. SinCos = (Sin, Cos) holds bit for bit."
  },
  {
   "property": "C46",
   "status": "proved",
   "theorems": [
    "C46_contains_point",
    "C46_contains_sphere",
    "C46_intersects_sphere",
    "C46_contains_box",
    "C46_contains_oriented_box"
   ],
   "note": "Exact arithmetic, every backend: spheres against points, spheres, boxes and oriented boxes decide the geometric relation exactly."
  },
  {
   "property": "C47",
   "status": "partial",
   "theorems": [
    "C47_merged_spheres",
    "C47_sphere_from_points",
    "C47_sphere_from_box",
    "C47_sphere_from_oriented_box",
    "C47_merged_boxes",
    "C47_box_from_points",
    "C47_box_from_sphere",
    "C47_oriented_box_from_box",
    "C47_oriented_box_from_points_partial",
    "C47_oriented_box_from_points_refuted",
    "C47_sphere_from_frustum"
   ],
   "note": "Sphere and box constructors proved for all inputs. OBB from points refuted: only the first point is taken to the frame of the box; proved when the orientation found is the identity."
  },
  {
   "property": "C48",
   "status": "partial",
   "theorems": [
    "C48_contains_point",
    "C48_contains_box",
    "C48_intersects_box",
    "C48_intersects_box_symmetric",
    "C48_intersects_sphere",
    "C48_contains_sphere_partial",
    "C48_contains_sphere_refuted",
    "C48_corners_span",
    "C48_contains_oriented_box"
   ],
   "note": "Exact decisions proved; ContainsSphere is not exact for a box with a zero extent and a sphere of radius zero (refuted)."
  },
  {
   "property": "C49",
   "status": "partial",
   "theorems": [
    "C49_sphere_matrix_partial",
    "C49_sphere_matrix_refuted",
    "C49_sphere_decomposed",
    "C49_box_matrix",
    "C49_box_decomposed",
    "C49_oriented_box_decomposed",
    "C49_oriented_box_matrix_partial",
    "C49_oriented_box_matrix_refuted",
    "C49_frustum_decomposed",
    "C49_frustum_matrix_partial"
   ],
   "note": "Boxes: every matrix. Spheres: matrices with orthogonal rows, refuted for shear. OBB and frustum: rotation, uniform scale and translation; OBB refuted for a scale per axis."
  },
  {
   "property": "C50",
   "status": "proved",
   "theorems": [
    "C50_contains_point",
    "C50_intersects_sphere",
    "C50_contains_sphere",
    "C50_sharing_boxes_intersect",
    "C50_sharing_box_intersects",
    "C50_contains_oriented_box",
    "C50_contains_box",
    "C50_corners_span"
   ],
   "note": "Exact arithmetic, every backend."
  },
  {
   "property": "C51",
   "status": "partial",
   "theorems": [
    "C51_sphere_partial",
    "C51_sphere_from_inside_refuted",
    "C51_box_partial",
    "C51_oriented_box_partial",
    "C51_box_from_inside_refuted",
    "C51_box_shallow_refuted",
    "C51_triangle_partial",
    "C51_tiny_triangle_refuted",
    "C51_frustum_partial"
   ],
   "note": "Hit decision exact for spheres, and for boxes when no direction component lies strictly between 0 and the 1e-20 threshold; distance is the first hit from outside. From inside the distance is the exit (sphere) or negative (boxes): refuted. Triangles: exact when the determinant reaches the 1e-20 threshold; a tiny triangle is missed: refuted. Frusta: exact, with the distance 0 from inside, unless the ray is nearly parallel to a face."
  },
  {
   "property": "C52",
   "status": "proved",
   "theorems": [
    "C52_sphere_plane",
    "C52_box_plane",
    "C52_oriented_box_plane",
    "C52_sphere_six",
    "C52_box_six",
    "C52_oriented_box_six",
    "C52_triangle_plane",
    "C52_triangle_six",
    "C52_frustum_plane",
    "C52_frustum_six"
   ],
   "note": "Spheres, boxes, oriented boxes, triangles and frustums proved."
  },
  {
   "property": "C53",
   "status": "proved",
   "theorems": [
    "C53_contains_point",
    "C53_corners",
    "C53_planes",
    "C53_contains_sphere",
    "C53_contains_box",
    "C53_contains_triangle",
    "C53_contains_oriented_box",
    "C53_contains_frustum",
    "C53_from_perspective_off_center_lh",
    "C53_from_perspective_off_center_rh",
    "C53_from_perspective_lh",
    "C53_from_perspective_rh",
    "C53_slopes_and_distances",
    "C53_sphere_contains_frustum",
    "C53_box_contains_frustum",
    "C53_oriented_box_contains_frustum"
   ],
   "note": "Points, corners and planes exact; containment verdicts sound (exact for a frustum in a sphere); a frustum built from any of the four perspective matrices has the slopes, distances and points of the viewing frustum."
  },
  {
   "property": "C54",
   "status": "partial",
   "theorems": [
    "C54_sphere",
    "C54_oriented_box",
    "C54_box",
    "C54_frustum",
    "C54_triangle_partial",
    "C54_triangle_refuted"
   ],
   "note": "Sphere: exact. Oriented box, box, frustum: never missed. Triangle: only for frusta at the origin with identity orientation, refuted otherwise (world vertices compared with local corners)."
  },
  {
   "property": "C55",
   "status": "partial",
   "theorems": [
    "C55_sphere_triangle",
    "C55_sphere_contains_triangle",
    "C55_box_triangle",
    "C55_box_contains_triangle",
    "C55_oriented_box_triangle",
    "C55_oriented_box_contains_triangle",
    "C55_triangle_triangle_partial",
    "C55_triangle_self_refuted",
    "C55_triangle_panic_refuted",
    "C55_triangle_missed_refuted",
    "C55_triangle_wrong_refuted"
   ],
   "note": "Sphere exact; boxes never miss; triangle against triangle exact when no vertex lies in the other plane, refuted otherwise (a triangle is reported disjoint from itself; line 5274 uses BDist for ADist)."
  },
  {
   "property": "C56",
   "status": "partial",
   "theorems": [
    "C56_scalar_acos",
    "C56_scalar_asin",
    "C56_vector_acos",
    "C56_vector_asin",
    "C56_complementary",
    "C56_vector_atan",
    "C56_vector_atan2",
    "C56_vector_atan2_origin",
    "C56_polar_unique",
    "C56_scalar_clamp_binary32",
    "C56_vector_clamp_binary32",
    "C56_scalar_acos_asin_binary32",
    "C56_vector_acos_asin_binary32",
    "C56_acos_clamp_refuted",
    "C56_vector_atan_binary32",
    "C56_vector_atan_infinity_binary32",
    "C56_vector_atan2_binary32",
    "C56_vector_atan2_negative_axis_binary32"
   ],
   "note": "Two layers: exact arithmetic with the code's float coefficients, and _binary32 theorems that count every rounding (arguments in [-1, 1] for asin and acos; every finite or infinite argument for atan; every finite point for atan2). Clamping outside [-1, 1] is proved in binary32 up to 65536 in size and refuted at 2^30. The no-intrinsics path of the vector functions calls the math library."
  },
  {
   "property": "C57",
   "status": "proved",
   "theorems": [
    "C57_scalar_sin_cos",
    "C57_vector_sin_cos",
    "C57_sincos",
    "C57_scalar_acos_asin",
    "C57_vector_acos_asin",
    "C57_vector_atan",
    "C57_angle_between",
    "C57_scalar_sin_cos_binary32",
    "C57_vector_sin_cos_binary32",
    "C57_scalar_acos_asin_binary32",
    "C57_vector_acos_asin_binary32",
    "C57_vector_atan_binary32",
    "C57_vector_atan_infinity_binary32"
   ],
   "note": "Two layers: exact arithmetic with the code's float coefficients, and _binary32 theorems that count every rounding, except for TanEst and ATan2Est, which stay on exact arithmetic. Vector theorems exclude the scalar backend, which calls libm."
  },
  {
   "property": "C58",
   "status": "proved",
   "theorems": [
    "C58_reciprocal",
    "C58_reciprocal_sqrt",
    "C58_tan",
    "C58_atan2",
    "C58_length",
    "C58_reciprocal_length",
    "C58_normalize"
   ],
   "note": "Exact real arithmetic; the hardware approximation is universally quantified with a relative accuracy hypothesis (Intel and AMD document 1.5 * 2^-12). Zero vectors are excluded: the hardware estimate of 1/0 is infinite. TanEst is stated for reduced angles within 1.57 of 0; between 1.57 and pi/2 the rational function's own pole is not bounded."
  },
  {
   "property": "C59",
   "status": "partial",
   "theorems": [
    "C59_tan",
    "C59_tan_relative_refuted"
   ],
   "note": "Exact real arithmetic with the library's coefficients. Backward-error form proved; relative accuracy against tan v itself refuted at XM_PI, because the second Cody-Waite constant does not complement the binary32 first constant (the sign of the result is wrong there, also in binary32)."
  },
  {
   "property": "C60",
   "status": "proved",
   "theorems": [
    "C60_exp2_special",
    "C60_exp2_powers",
    "C60_exp2_accuracy",
    "C60_exp2_denormal",
    "C60_exp2_negative_accuracy_refuted"
   ],
   "note": "Bit-level, both fma settings, all lanes and all bit patterns. The scalar backend calls the C library's powf, a parameter of the model, so nothing is claimed there. The refutation records that the accuracy of non-negative arguments does not hold for negative ones."
  },
  {
   "property": "C61",
   "status": "proved",
   "theorems": [
    "C61_sinh_accuracy",
    "C61_cosh_accuracy",
    "C61_sinh_cosh_overflow",
    "C61_tanh_accuracy",
    "C61_tanh_infinity",
    "C61_nan",
    "C61_sinh_tanh_relative_refuted"
   ],
   "note": "Bit-level, both fma settings, all lanes. Arguments with 89 < |x| < 90 are not covered for SinH and CosH. The scalar backend calls the C library, a parameter of the model. The refutation records the loss of relative accuracy near 0."
  },
  {
   "property": "C62",
   "status": "proved",
   "theorems": [
    "C62_between_vectors",
    "C62_cosine_range",
    "C62_between_normals",
    "C62_normals_clamped",
    "C62_acos_in_domain"
   ],
   "note": "Exact arithmetic with the library's coefficients; the domain claim on bit patterns."
  },
  {
   "property": "C63",
   "status": "partial",
   "theorems": [
    "C63_exp",
    "C63_ln",
    "C63_ln_near_one",
    "C63_ln_near_minus_one_refuted",
    "C63_exp_ln",
    "C63_ln_conjugate",
    "C63_axis_angle"
   ],
   "note": "Exact arithmetic with the library's coefficients. Proved except for the logarithm near w = -1, which is refuted."
  },
  {
   "property": "C64",
   "status": "partial",
   "theorems": [
    "C64_squad",
    "C64_squad_arcs",
    "C64_squad_endpoints",
    "C64_setup",
    "C64_setup_steady",
    "C64_setup_portable",
    "C64_setup_portable_refuted",
    "C64_barycentric_small",
    "C64_barycentric",
    "C64_barycentric_edges",
    "C64_barycentric_vector",
    "C64_barycentric_vector_portable",
    "C64_barycentric_vector_refuted"
   ],
   "note": "Exact arithmetic; great-arc closed forms and end points on the portable backend (the vector backends' slerp error is C30). Portable SquadSetup and BaryCentricV refuted on bit patterns. Not proved: a closed error bound for Squad on the vector backends."
  },
  {
   "property": "C65",
   "status": "partial",
   "theorems": [
    "C65_dot2",
    "C65_dot3",
    "C65_dot4",
    "C65_cross2",
    "C65_cross3",
    "C65_transform2",
    "C65_transform2_normal",
    "C65_transform3",
    "C65_transform3_normal",
    "C65_transform4",
    "C65_matrix_multiply",
    "C65_length2",
    "C65_length3",
    "C65_length4",
    "C65_normalize2",
    "C65_normalize3",
    "C65_normalize4",
    "C65_quaternion_multiply",
    "C65_rotate",
    "C65_lerp",
    "C65_dot_relative_refuted",
    "C65_normalize_short_refuted",
    "C65_normalize_long_refuted"
   ],
   "note": "Proved on bit patterns for all backends; the C65_..._refuted theorems show the limits (no relative accuracy of dot under cancellation; short and long vectors do not normalise) and do not leave a stated bound unproved."
  },
  {
   "property": "C66",
   "status": "proved",
   "theorems": [
    "C66_add_subtract",
    "C66_multiply_divide",
    "C66_scale_reciprocal_sqrt",
    "C66_reciprocal_sqrt",
    "C66_reciprocal_sqrt_error",
    "C66_multiply_add_fused",
    "C66_multiply_add_plain",
    "C66_sum",
    "C66_rounded_unique"
   ],
   "note": "On bit patterns, no hypothesis except (fused form) that a lane is a 32-bit word. SpecArith states IEEE rounding without Flocq; C66_rounded_unique shows that it determines the result."
  },
  {
   "property": "C67",
   "status": "partial",
   "theorems": [
    "C67_fused_exact",
    "C67_plain_error",
    "C67_invalid_nan",
    "C67_infinite_divisor_refuted",
    "C67_range_refuted",
    "C67_large_quotient_refuted"
   ],
   "note": "On bit patterns. The result is characterised exactly (fused) or bounded (plain) for |x| < 2^24|y|; the documented remainder range, an infinite divisor and huge quotients are refuted."
  },
  {
   "property": "C68",
   "status": "proved",
   "theorems": [
    "C68_to_radians",
    "C68_to_degrees",
    "C68_roundtrip",
    "C68_min",
    "C68_max",
    "C68_scalar_near_equal",
    "C68_near_infinite",
    "C68_pow_lanewise"
   ],
   "note": "On bit patterns; powf is a parameter."
  },
  {
   "property": "C69",
   "status": "proved",
   "theorems": [
    "C69_equal",
    "C69_not_equal_negates",
    "C69_nan_infinite",
    "C69_identity",
    "C69_plane_near_equal",
    "C69_plane_near_scale",
    "C69_plane_near_opposite"
   ],
   "note": "Comparisons on bit patterns; XMPlaneNearEqual in exact arithmetic."
  },
  {
   "property": "C70",
   "status": "proved",
   "theorems": [
    "C70_vector_structs",
    "C70_flat_to_rows",
    "C70_rows_to_flat",
    "C70_struct_sizes",
    "C70_vector_from",
    "C70_matrix_from",
    "C70_matrix_from_rows",
    "C70_matrix_into"
   ],
   "note": "A value is modelled by its words in memory; a transmute reads the same words as another type."
  },
  {
   "property": "C71",
   "status": "proved",
   "theorems": [
    "C71_box_point",
    "C71_box_box",
    "C71_box_contains_box",
    "C71_sphere_point",
    "C71_sphere_sphere",
    "C71_sphere_plane",
    "C71_box_plane",
    "C71_sphere_six_planes",
    "C71_box_six_planes",
    "C71_sphere_exact_refuted",
    "C71_box_exact_refuted"
   ],
   "note": "On bit patterns, every operation rounded. The two _refuted theorems show that the tolerances cannot be dropped. Oriented boxes, triangles, rays and frustums are covered in exact arithmetic only (C41-C56)."
  },
  {
   "property": "C72",
   "status": "proved",
   "theorems": [
    "C72_set_int",
    "C72_replicate",
    "C72_true_false",
    "C72_constants",
    "C72_get_int",
    "C72_get_ptr",
    "C72_set_one_int",
    "C72_load_int",
    "C72_store_int",
    "C72_store_float3",
    "C72_aligned",
    "C72_aligned_matrix",
    "C72_unaligned",
    "C72_any_all_true"
   ],
   "note": "On bit patterns; memory is a list of 32-bit words and an address. A fault of an aligned access is None."
  },
  {
   "property": "C73",
   "status": "partial",
   "theorems": [
    "C73_one_root",
    "C73_roots",
    "C73_covariance",
    "C73_eigenvector",
    "C73_axes",
    "C73_completed",
    "C73_planar_refuted",
    "C73_diagonal_refuted",
    "C73_axes_refuted"
   ],
   "note": "Exact arithmetic. The axes are right for independent rows (proved); the fallback for dependent rows is refuted with witnesses. Rounding in the solver is not bounded."
  },
  {
   "property": "C74",
   "status": "proved",
   "theorems": [
    "C74_nearest",
    "C74_in_triangle",
    "C74_in_triangle_prism",
    "C74_in_triangle_degenerate",
    "C74_is_unit",
    "C74_plane_transform",
    "C74_fast_triangle",
    "C74_fast_sphere",
    "C74_fast_box",
    "C74_fast_oriented_box",
    "C74_fast_frustum",
    "C74_extremes",
    "C74_edge_axes"
   ],
   "note": "Exact arithmetic. PointOnPlaneInsideTriangle is a membership test only for proper triangles; the degenerate case is characterised."
  },
  {
   "property": "C75",
   "status": "proved",
   "theorems": [
    "C75_clamp3",
    "C75_clamp2",
    "C75_clamp4",
    "C75_refract",
    "C75_refract_total",
    "C75_slerp",
    "C75_squad",
    "C75_roll_pitch_yaw",
    "C75_measures",
    "C75_matrix_set"
   ],
   "note": "Exact arithmetic; a failed debug assertion is None. RefractV with only some lanes totally reflected takes the square root of a negative number and is left out."
  },
  {
   "property": "C76",
   "status": "proved",
   "theorems": [
    "C76_determinant",
    "C76_determinant_sign",
    "C76_determinant_relative_refuted",
    "C76_cross4",
    "C76_reflect2",
    "C76_reflect3",
    "C76_reflect4",
    "C76_components",
    "C76_barycentric",
    "C76_barycentricV",
    "C76_hermite",
    "C76_hermiteV",
    "C76_catmull_rom",
    "C76_catmull_romV",
    "C76_cubic_sizes",
    "C76_plane_transform",
    "C76_plane_dots",
    "C76_plane_from_point_normal"
   ],
   "note": "Binary32 bit patterns, all backends. The refuted theorem shows why the determinant's bound must be relative to the permanent. Overflowing inputs are excluded by the stated ranges."
  },
  {
   "property": "C77",
   "status": "proved",
   "theorems": [
    "C77_inverse_is",
    "C77_inverse_determinant",
    "C77_inverse",
    "C77_transform3_coord",
    "C77_transform2_coord",
    "C77_inverse_ill_refuted"
   ],
   "note": "Binary32 bit patterns, all backends. The refuted theorem shows that the condition on the determinant cannot be dropped."
  },
  {
   "property": "C78",
   "status": "proved",
   "theorems": [
    "C78_textbook_off",
    "C78_textbook",
    "C78_perspective_lh",
    "C78_perspective_rh",
    "C78_orthographic_lh",
    "C78_orthographic_rh",
    "C78_off_center_lh",
    "C78_off_center_rh",
    "C78_fov_lh",
    "C78_fov_rh",
    "C78_fov_lh_true",
    "C78_fov_rh_true",
    "C78_rotation_quaternion_exact",
    "C78_rotation_quaternion",
    "C78_quaternion_inverse",
    "C78_quaternion_inverse_small_refuted",
    "C78_plane_normalize"
   ],
   "note": "Binary32 bit patterns, all backends. The refuted theorem shows that the lower limit on the quaternion norm is needed."
  }
 ]
}