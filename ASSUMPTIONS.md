# What Print Assumptions lists for each theorem

Generated by `tools/assumptions.py`. All axioms are the standard library's.

## Closed under the global context (no axiom)

82 theorems: C01_load_float2, C01_load_float3, C01_load_float3_aligned, C01_load_float4, C01_store_float, C01_store_float2, C01_store_float3, C01_store_float4, C01_roundtrip_vectors, C01_load_float3x3_scalar, C01_load_float4x3, C01_load_float3x4, C01_load_float4x4, C01_store_float3x3, C01_store_float4x3, C01_store_float3x4, C01_store_float4x4, C02_get_set_by_index, C02_get_by_index, C02_set_twice_keeps_last, C02_write_back_is_identity, C02_by_name_is_by_index, C02_backends_agree, C02_bad_index_panics, C03_swizzle, C03_swizzle_illegal_panics, C03_permute, C03_permute_avx_agrees, C03_permute_illegal_panics, C03_permute_tuple, C03_swizzle_tuple, C03_shift_left, C03_rotate_left, C03_rotate_right, C03_rotate_right_undoes_left, C03_shift_rotate_illegal_panics, C03_merge, C03_splat, C03_insert, C04_select, C04_select_control, C04_binary_constant_scalar_partial, C04_binary_constant_scalar_debug_refuted, C04_binary_constant_sse_refuted, C05_int_relations, C12_half_to_float_total, C13_bitwise, C13_results_are_words, C13_backends_agree, C13_boolean_laws, C16_splat_constant_int, C17_negate_scalar_bits, C17_abs_scalar_bits, C26_lerp_forms_agree, C26_barycentric_forms_agree, C33_transpose, C33_involution, C42_matrix, C42_vector, C45_sin_cos_pair, C45_scalar_sin_cos_pair, C57_sincos, C68_pow_lanewise, C70_vector_structs, C70_flat_to_rows, C70_rows_to_flat, C70_struct_sizes, C70_vector_from, C70_matrix_from, C70_matrix_from_rows, C70_matrix_into, C72_set_int, C72_replicate, C72_get_int, C72_get_ptr, C72_set_one_int, C72_load_int, C72_store_int, C72_store_float3, C72_aligned, C72_aligned_matrix, C72_unaligned

## `ClassicalDedekindReals.sig_forall_dec`, `FunctionalExtensionality.functional_extensionality_dep`

12 theorems: C12_half_to_float_partial, C12_half_to_float_denormal, C12_half_to_float_refuted, C12_float_to_half, C12_float_to_half_sign, C12_round_trip_partial, C12_round_trip_refuted, C30_near_parallel_length, C76_cubic_sizes, C77_inverse_is, C78_textbook_off, C78_textbook

## `ClassicalDedekindReals.sig_forall_dec`, `ClassicalDedekindReals.sig_not_dec`, `FunctionalExtensionality.functional_extensionality_dep`

249 theorems: C14_add_angles, C14_subtract_angles, C15_scalar_mod_angle_partial, C15_scalar_mod_angle_refuted, C15_vector_mod_angles, C15_vector_mod_angles_scalar_partial, C15_vector_mod_angles_scalar_congruent, C15_vector_mod_angles_scalar_refuted, C19_dot, C19_length, C19_reciprocal_length, C19_cauchy_schwarz_triangle, C20_cross2_signed_area, C20_cross3_value, C20_cross3_laws, C20_cross4, C21_unit_parallel, C21_zero, C22_nonzero_partial, C22_zero, C22_zero_refuted, C23_reflect2, C23_reflect3, C23_reflect4, C23_refract2, C23_refract3, C23_refract4, C23_critical_angle_refuted, C24_orthogonal2, C24_orthogonal3, C24_orthogonal4, C25_line_point_distance2, C25_line_point_distance3, C25_components_from_normal, C25_intersect_line, C26_lerp_line, C26_lerp_ends, C26_hermite_ends, C26_hermite_tangents, C26_hermite_constant, C26_hermite_forms_and_backends_agree, C26_catmullrom_ends, C26_catmullrom_tangents, C26_catmullrom_constant, C26_catmullrom_forms_and_backends_agree, C26_barycentric_vertices, C26_barycentric_combination, C27_multiply, C27_associative, C27_identity, C27_norm, C27_conjugate, C27_inverse_partial, C27_inverse_refuted, C27_inverse_below, C28_isometry, C28_inverse_rotate, C28_product, C28_matrix, C29_quaternion_to_matrix, C29_quaternion_round_trip, C29_matrix_round_trip, C29_backends_agree, C29_product, C31_rotation_normal, C31_quaternion_is_matrix, C31_axes, C31_roll_pitch_yaw, C32_product, C32_associative, C32_identity, C32_distributes, C32_multiply_transpose, C34_determinant, C34_multiplicative, C34_inverse, C34_backends_agree, C35_compose, C35_compose_coord, C35_linear, C35_transform, C35_transform_normal, C35_transform_coord, C36_points, C36_transformation, C36_affine, C36_transformation2d_sines, C36_affine2d_sines, C36_tensor_product, C37_reflect, C37_shadow, C38_look_to, C38_look_at, C38_handedness, C39_perspective, C39_offcenter, C39_fov, C39_orthographic, C40_project, C40_round_trip, C41_recompose_partial, C41_tiny_scale_refuted, C41_two_zero_scales_refuted, C42_scale_negate, C42_equality, C42_add_assign_refuted, C42_sub_assign_refuted, C42_assign_row0, C43_from_point_normal, C43_from_points, C43_normalize, C43_intersect_line, C43_intersect_plane, C43_transform, C43_dots, C44_fresnel, C44_backends_agree, C46_contains_point, C46_contains_sphere, C46_intersects_sphere, C46_contains_box, C46_contains_oriented_box, C47_merged_spheres, C47_sphere_from_points, C47_sphere_from_box, C47_sphere_from_oriented_box, C47_merged_boxes, C47_box_from_points, C47_box_from_sphere, C47_oriented_box_from_box, C47_oriented_box_from_points_partial, C47_sphere_from_frustum, C48_contains_point, C48_contains_box, C48_intersects_box, C48_intersects_box_symmetric, C48_intersects_sphere, C48_contains_sphere_partial, C48_contains_sphere_refuted, C48_corners_span, C48_contains_oriented_box, C49_sphere_matrix_partial, C49_sphere_matrix_refuted, C49_sphere_decomposed, C49_box_matrix, C49_box_decomposed, C49_oriented_box_decomposed, C49_oriented_box_matrix_partial, C49_oriented_box_matrix_refuted, C49_frustum_decomposed, C49_frustum_matrix_partial, C50_contains_point, C50_intersects_sphere, C50_contains_sphere, C50_sharing_boxes_intersect, C50_sharing_box_intersects, C50_contains_oriented_box, C50_contains_box, C50_corners_span, C51_sphere_partial, C51_sphere_from_inside_refuted, C51_box_partial, C51_oriented_box_partial, C51_box_from_inside_refuted, C51_box_shallow_refuted, C51_triangle_partial, C51_tiny_triangle_refuted, C51_frustum_partial, C52_sphere_plane, C52_box_plane, C52_oriented_box_plane, C52_sphere_six, C52_box_six, C52_oriented_box_six, C52_triangle_plane, C52_triangle_six, C52_frustum_plane, C52_frustum_six, C53_contains_point, C53_corners, C53_planes, C53_contains_sphere, C53_contains_box, C53_contains_triangle, C53_contains_oriented_box, C53_contains_frustum, C53_from_perspective_off_center_lh, C53_from_perspective_off_center_rh, C53_from_perspective_lh, C53_from_perspective_rh, C53_slopes_and_distances, C53_sphere_contains_frustum, C53_box_contains_frustum, C53_oriented_box_contains_frustum, C54_sphere, C54_oriented_box, C54_box, C54_frustum, C54_triangle_partial, C54_triangle_refuted, C55_sphere_triangle, C55_sphere_contains_triangle, C55_box_triangle, C55_box_contains_triangle, C55_oriented_box_triangle, C55_oriented_box_contains_triangle, C55_triangle_triangle_partial, C55_triangle_self_refuted, C55_triangle_panic_refuted, C55_triangle_missed_refuted, C55_triangle_wrong_refuted, C56_polar_unique, C58_reciprocal, C58_reciprocal_sqrt, C58_length, C58_reciprocal_length, C58_normalize, C62_cosine_range, C69_plane_near_equal, C69_plane_near_scale, C69_plane_near_opposite, C73_one_root, C73_eigenvector, C73_axes, C73_completed, C73_planar_refuted, C73_diagonal_refuted, C73_axes_refuted, C74_nearest, C74_in_triangle, C74_in_triangle_prism, C74_in_triangle_degenerate, C74_is_unit, C74_plane_transform, C74_fast_triangle, C74_fast_sphere, C74_fast_box, C74_fast_oriented_box, C74_fast_frustum, C74_extremes, C74_edge_axes, C75_clamp3, C75_clamp2, C75_clamp4, C75_refract, C75_refract_total, C75_measures, C75_matrix_set, C78_rotation_quaternion_exact

## `ClassicalDedekindReals.sig_forall_dec`, `ClassicalDedekindReals.sig_not_dec`, `Classical_Prop.classic`, `FunctionalExtensionality.functional_extensionality_dep`

299 theorems: C01_load_float3x3_sse_partial, C01_load_float3x3_sse_refuted, C05_float_relations, C05_in_bounds, C05_near_equal, C06_lane_records, C06_dims_sse, C06_dims_equal_same, C06_dims_order_same_partial, C06_dims_order_scalar_nan_refuted, C06_in_bounds_sse, C06_in_bounds_scalar_refuted, C07_all_lanes, C07_in_bounds, C07_near_equal, C07_not_equal, C07_nan_infinite, C08_minmax_same, C08_minmax_which, C08_minmax_bounds, C08_clamp, C08_clamp_panics, C08_saturate_partial, C08_saturate_same_refuted, C09_vector, C09_matrix, C09_is_identity, C10_round_sse2, C10_round_sse4, C10_round_scalar_partial, C10_round_scalar_refuted, C10_round_scalar_every_lane, C10_truncate_scalar, C10_truncate_sse2, C10_truncate_sse4, C10_floor_scalar, C10_floor_sse2, C10_floor_sse4, C10_ceiling_scalar, C10_ceiling_sse2, C10_ceiling_sse4, C10_backends_agree, C11_int_to_float_sse, C11_int_to_float_scalar_partial, C11_int_to_float_scalar_refuted, C11_int_to_float_scalar_exponent, C11_uint_to_float_scalar, C11_uint_to_float_sse_partial, C11_uint_to_float_sse_refuted, C11_uint_to_float_sse_within_ulp, C11_float_to_int_scalar, C11_float_to_int_sse, C11_float_to_uint_scalar, C11_float_to_uint_sse, C11_float_to_uint_agree, C11_float_to_int_agree_partial, C11_float_to_int_nan, C11_float_to_int_agree_refuted, C15_scalar_mod_angle_true_period, C15_vector_mod_angles_true_period, C15_vector_mod_angles_refuted, C15_vector_mod_angles_binary32, C16_splat_constant_sse, C16_splat_constant_scalar_partial, C16_splat_constant_scalar_refuted, C16_splat_negative_scalar_refuted, C16_splat_assert, C17_sse_values, C17_same_bits_partial, C17_sse_sign_of_zero_refuted, C18_elementwise, C18_scale, C18_multiply_add, C18_dot2_cross2, C18_dot3_sse2, C18_dot3_sse4, C18_cross3, C18_transform, C18_dot4_sse3_sse4, C18_dot4_assoc_refuted, C18_dot4_sse2_refuted, C18_dot3_sse4_refuted, C18_cross3_fma_refuted, C18_transform4_refuted, C26_lerp_end_rounding_refuted, C29_quaternion_to_matrix_binary32, C30_near_parallel, C30_vector_form, C30_scalar_arc, C30_arc, C30_scalar_endpoints, C30_sse_arc, C30_sse_extrapolate, C30_sse_endpoints, C31_rotation_axes, C31_rotation_normal_angle, C31_rotation_axis, C31_rotation_axis_zero, C31_quaternion_normal, C31_quaternion_axis, C31_quaternion_roll_pitch_yaw, C31_matrix_roll_pitch_yaw, C31_rotation_axes_binary32, C31_rotation_normal_binary32, C31_rotation_axis_binary32, C31_quaternion_normal_binary32, C31_quaternion_axis_binary32, C31_quaternion_roll_pitch_yaw_binary32, C31_matrix_roll_pitch_yaw_binary32, C36_transformation2d, C36_affine2d, C39_fov_angle, C42_scale_float, C42_negate_zero_refuted, C43_parallel_line_float, C43_normalize_zero_refuted, C44_range_float, C44_agree_refuted, C45_vector_sin_cos, C45_vector_sin_cos_principal, C45_scalar_sin_cos, C45_vector_sin_cos_libm, C45_vector_sin_cos_binary32, C45_vector_sin_cos_principal_binary32, C45_scalar_sin_cos_binary32, C47_oriented_box_from_points_refuted, C56_scalar_acos, C56_scalar_asin, C56_vector_acos, C56_vector_asin, C56_complementary, C56_vector_atan, C56_vector_atan2, C56_vector_atan2_origin, C56_scalar_clamp_binary32, C56_vector_clamp_binary32, C56_scalar_acos_asin_binary32, C56_vector_acos_asin_binary32, C56_acos_clamp_refuted, C56_vector_atan_binary32, C56_vector_atan_infinity_binary32, C56_vector_atan2_binary32, C56_vector_atan2_negative_axis_binary32, C57_scalar_sin_cos, C57_vector_sin_cos, C57_scalar_acos_asin, C57_vector_acos_asin, C57_vector_atan, C57_angle_between, C57_scalar_sin_cos_binary32, C57_vector_sin_cos_binary32, C57_scalar_acos_asin_binary32, C57_vector_acos_asin_binary32, C57_vector_atan_binary32, C57_vector_atan_infinity_binary32, C58_tan, C58_atan2, C59_tan, C59_tan_relative_refuted, C60_exp2_special, C60_exp2_powers, C60_exp2_accuracy, C60_exp2_denormal, C60_exp2_negative_accuracy_refuted, C61_sinh_accuracy, C61_cosh_accuracy, C61_sinh_cosh_overflow, C61_tanh_accuracy, C61_tanh_infinity, C61_nan, C61_sinh_tanh_relative_refuted, C62_between_vectors, C62_between_normals, C62_normals_clamped, C62_acos_in_domain, C63_exp, C63_ln, C63_ln_near_one, C63_ln_near_minus_one_refuted, C63_exp_ln, C63_ln_conjugate, C63_axis_angle, C64_squad, C64_squad_arcs, C64_squad_endpoints, C64_setup, C64_setup_steady, C64_setup_portable, C64_setup_portable_refuted, C64_barycentric_small, C64_barycentric, C64_barycentric_edges, C64_barycentric_vector, C64_barycentric_vector_portable, C64_barycentric_vector_refuted, C65_dot2, C65_dot3, C65_dot4, C65_cross2, C65_cross3, C65_transform2, C65_transform2_normal, C65_transform3, C65_transform3_normal, C65_transform4, C65_matrix_multiply, C65_length2, C65_length3, C65_length4, C65_normalize2, C65_normalize3, C65_normalize4, C65_quaternion_multiply, C65_rotate, C65_lerp, C65_dot_relative_refuted, C65_normalize_short_refuted, C65_normalize_long_refuted, C66_add_subtract, C66_multiply_divide, C66_scale_reciprocal_sqrt, C66_reciprocal_sqrt, C66_reciprocal_sqrt_error, C66_multiply_add_fused, C66_multiply_add_plain, C66_sum, C66_rounded_unique, C67_fused_exact, C67_plain_error, C67_invalid_nan, C67_infinite_divisor_refuted, C67_range_refuted, C67_large_quotient_refuted, C68_to_radians, C68_to_degrees, C68_roundtrip, C68_min, C68_max, C68_scalar_near_equal, C68_near_infinite, C69_equal, C69_not_equal_negates, C69_nan_infinite, C69_identity, C71_box_point, C71_box_box, C71_box_contains_box, C71_sphere_point, C71_sphere_sphere, C71_sphere_plane, C71_box_plane, C71_sphere_six_planes, C71_box_six_planes, C71_sphere_exact_refuted, C71_box_exact_refuted, C72_true_false, C72_constants, C72_any_all_true, C73_roots, C73_covariance, C75_slerp, C75_squad, C75_roll_pitch_yaw, C76_determinant, C76_determinant_sign, C76_determinant_relative_refuted, C76_cross4, C76_reflect2, C76_reflect3, C76_reflect4, C76_components, C76_barycentric, C76_barycentricV, C76_hermite, C76_hermiteV, C76_catmull_rom, C76_catmull_romV, C76_plane_transform, C76_plane_dots, C76_plane_from_point_normal, C77_inverse_determinant, C77_inverse, C77_transform3_coord, C77_transform2_coord, C77_inverse_ill_refuted, C78_perspective_lh, C78_perspective_rh, C78_orthographic_lh, C78_orthographic_rh, C78_off_center_lh, C78_off_center_rh, C78_fov_lh, C78_fov_rh, C78_fov_lh_true, C78_fov_rh_true, C78_rotation_quaternion, C78_quaternion_inverse, C78_quaternion_inverse_small_refuted, C78_plane_normalize
