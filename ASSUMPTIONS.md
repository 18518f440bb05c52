# What `Print Assumptions` lists

Written by `tools/assumptions.py`.

## Closed under the global context

C11_linear_regular, C11_linear_regular_new, C11_linear_regular_interpn, C11_linear_rectilinear, C11_linear_rectilinear_new, C11_linear_rectilinear_interpn, C11_cubic_regular, C11_cubic_regular_new, C11_cubic_regular_interpn, C11_cubic_rectilinear, C11_cubic_rectilinear_new, C11_cubic_rectilinear_interpn, C12_linear_regular, C12_linear_regular_recursive, C12_nearest_regular, C12_linear_rectilinear, C12_nearest_rectilinear, C12_cubic_rectilinear, C12_linear_rectilinear_recursive, C12_cubic_rectilinear_recursive, C13_partial, C13_recursive_partial, C14_linear_regular, C14_nearest_regular, C14_linear_regular_recursive, C14_cubic_regular, C14_cubic_regular_recursive, C14_linear_rectilinear, C14_nearest_rectilinear, C14_linear_rectilinear_recursive, C14_cubic_rectilinear, C14_cubic_rectilinear_recursive, C15_linear_regular_partial, C15_linear_regular_recursive_partial, C15_nearest_regular_partial, C15_cubic_regular_partial, C15_cubic_regular_recursive_partial, C15_linear_rectilinear_partial, C15_linear_rectilinear_recursive_partial, C15_nearest_rectilinear_partial, C15_cubic_rectilinear_partial, C15_cubic_rectilinear_recursive_partial, C15_regular_all_builds_partial, C15_rectilinear_all_builds_partial, C16_linear_regular, C16_linear_regular_recursive, C16_linear_rectilinear, C16_linear_rectilinear_recursive, C16_nearest_regular, C16_nearest_rectilinear, C16_cubic_regular_recursive, C16_cubic_rectilinear_recursive, C16_cubic_regular_partial, C16_cubic_regular_big_partial, C16_cubic_rectilinear_partial, C16_cubic_rectilinear_big_partial, C17_linear_regular, C17_linear_regular_recursive, C17_nearest_regular, C17_cubic_regular, C17_cubic_regular_recursive, C17_linear_rectilinear, C17_linear_rectilinear_recursive, C17_nearest_rectilinear, C17_cubic_rectilinear, C17_cubic_rectilinear_recursive, C17_one_dim, C17_interpn_linear_regular, C17_interpn_linear_regular_7_8, C17_interpn_linear_rectilinear, C17_interpn_linear_rectilinear_7_8, C17_interpn_nearest_regular, C17_interpn_nearest_rectilinear, C17_interpn_cubic_regular, C17_interpn_cubic_regular_5_8, C17_interpn_cubic_rectilinear, C17_interpn_cubic_rectilinear_5_8, C18_linear_regular, C18_linear_regular_mismatch, C18_linear_regular_recursive, C18_linear_regular_recursive_mismatch, C18_nearest_regular, C18_nearest_regular_mismatch, C18_cubic_regular, C18_cubic_regular_mismatch, C18_cubic_regular_recursive, C18_cubic_regular_recursive_mismatch, C18_linear_rectilinear, C18_linear_rectilinear_mismatch, C18_linear_rectilinear_recursive, C18_linear_rectilinear_recursive_mismatch, C18_nearest_rectilinear, C18_nearest_rectilinear_mismatch, C18_cubic_rectilinear, C18_cubic_rectilinear_mismatch, C18_cubic_rectilinear_recursive, C18_cubic_rectilinear_recursive_mismatch, C18_one_dim, C18_one_dim_mismatch, C18_interpn_linear_regular, C18_interpn_linear_regular_7_8, C18_interpn_linear_rectilinear, C18_interpn_linear_rectilinear_7_8, C18_interpn_nearest_regular, C18_interpn_nearest_rectilinear, C18_interpn_cubic_regular, C18_interpn_cubic_regular_5_8, C18_interpn_cubic_rectilinear, C18_interpn_cubic_rectilinear_5_8, C19_one_dim_regular, C19_one_dim_rectilinear, C19_linear_regular, C19_linear_regular_recursive, C19_cubic_regular, C19_cubic_regular_recursive, C19_linear_rectilinear, C19_linear_rectilinear_recursive, C19_cubic_rectilinear, C19_cubic_rectilinear_recursive, C19_nearest_regular, C19_nearest_rectilinear, C24_stored_value_regular, C24_stored_value_rectilinear, C25_regular_returns, C25_regular_error, C25_rectilinear_error, C27_linear, C27_linear_recursive, C27_cubic, C27_one_dim, C27_comparisons, C28_entry, C28_size, C30_inside_any_number_type, C30_inside_regular_any_number_type, C30_outside_any_number_type, C31_stored_value_regular, C31_stored_value_rectilinear, C31_between_any_number_type, C31_outside_any_number_type, C32_rectilinear_any_number_type_partial, C37_linear_regular, C37_linear_regular_recursive, C37_nearest_regular, C37_cubic_regular, C37_cubic_regular_recursive, C37_linear_rectilinear, C37_linear_rectilinear_recursive, C37_nearest_rectilinear, C37_cubic_rectilinear, C37_cubic_rectilinear_recursive, C37_one_dim, C42_regular, C42_rectilinear, C42_unsupported, C42_unsupported_value_error, C43_other_dims, C46_large_refuted, C46_zero_refuted, C46_partial, C47_rectilinear_accepts, C47_regular_accepts, C47_linear_rectilinear_partial, C47_nearest_rectilinear_partial, C47_cubic_rectilinear_partial, C47_linear_regular_partial, C47_nearest_regular_partial, C47_cubic_regular_partial, C81_interpn, C81_eval, C81_eval_refused, C81_check_bounds, C81_eval_many, C81_bindings_many, C87_select, C87_joined, C87_one_dim_select, C87_one_dim_joined, C87_python_select, C87_python_joined, C88_regular, C88_rectilinear, C95_rectilinear_accepts, C95_rectilinear, C95_regular_partial, C95_batch, C96_linear_rectilinear, C96_linear_rectilinear_recursive, C96_nearest_rectilinear, C96_cubic_rectilinear_recursive, C96_cubic_rectilinear, C96_linear_regular, C96_linear_regular_recursive, C96_nearest_regular, C96_cubic_regular_recursive, C96_cubic_regular, C96_alloc_empty, C97_rectilinear, C97_regular, C97_short_grid, C97_no_observations, C97_many_observations, C103_nearest, C103_one_point, C103_one_dim, C103_python, C105_no_observations_regular, C105_no_observations_rectilinear

## `ClassicalDedekindReals.sig_forall_dec`

C01_cell_corners, C28_samples

## `ClassicalDedekindReals.sig_forall_dec`, `FunctionalExtensionality.functional_extensionality_dep`

C01_one_dim, C01_multilinear, C01_cell_exists, C02_one_dim, C02_multilinear, C03_one_dim, C03_multilinear, C03_multicubic, C03_nearest, C04_one_dim, C04_corners, C04_array, C05_one_dim, C05_multilinear, C06_quadratic, C06_affine, C09_low, C09_high, C09_flag_has_no_effect_inside, C10_one_dim, C10_multilinear, C10_multicubic, C10_nearest, C11_exact_multilinear, C11_exact_multicubic, C20_one_dim, C20_multilinear, C20_multicubic, C21_one_dim, C21_multilinear, C21_multicubic, C21_nearest, C22_multilinear, C22_multicubic, C22_nearest, C23_one_dim, C23_multilinear, C23_multicubic, C24_nearest, C25_regular, C25_rectilinear, C26_exact_partial, C28_nodes, C29_one_axis, C29_linear, C30_inside, C30_outside, C31_between, C31_outside, C31_nearest, C32_right_refuted, C32_left_refuted, C32_regular_partial, C32_rectilinear_partial, C38_points, C38_accepted, C41_evaluation, C41_interpn, C41_one_dim, C41_interpn_recursive, C41_interpn_alloc, C47_differences_exact, C47_check_bounds_regular, C47_check_bounds_rectilinear, C51_one_dim_slope, C51_multilinear_slope, C51_multilinear_variation, C51_nearest, C51_regular_spacing, C51_regular_ratio, C51_nearest_converges, C52_one_dim, C52_multilinear, C52_nearest, C52_multicubic, C52_multicubic_range, C53_one_dim, C53_multilinear, C53_nearest, C53_multicubic_refuted, C54_axis, C54_points, C60_multilinear, C60_multicubic, C60_multilinear_range, C60_multicubic_range, C60_inside, C64_multilinear_product, C64_multilinear_sum, C64_multicubic_product, C64_multicubic_sum, C64_nearest_product, C64_nearest_sum, C65_multilinear_slice, C65_multicubic_slice, C65_nearest_slice, C65_multilinear_nested, C65_multicubic_nested, C65_nearest_nested, C66_one_dim, C66_multilinear, C67_one_dim, C67_multilinear, C67_multicubic, C67_nearest, C78_one_dim_linear, C78_one_dim_hold_last, C78_one_dim_nearest, C78_linear, C78_linear_inside, C78_nearest, C78_linear_points, C100_short_integers, C101_factor, C101_factor_is_needed, C102_multilinear, C102_multicubic_inside, C102_multicubic, C102_attained, C106_linear, C106_clamped, C106_hold_last, C106_range, C106_attained, C106_unique, C107_linear, C107_hold_last

## `ClassicalDedekindReals.sig_forall_dec`, `Classical_Prop.classic`, `FunctionalExtensionality.functional_extensionality_dep`

C42_linear_values, C42_nearest_values, C42_cubic_values, C43_partial

## `ClassicalDedekindReals.sig_forall_dec`, `ClassicalDedekindReals.sig_not_dec`, `Classical_Prop.classic`, `FunctionalExtensionality.functional_extensionality_dep`

C07_multicubic, C08_multicubic, C13_refuted, C13_recursive_refuted, C15_refuted, C15_evaluation_panics_refuted, C16_cubic_regular_refuted, C16_cubic_rectilinear_refuted, C25_rectilinear_infinite, C25_regular_infinite, C25_regular_ieee, C25_rectilinear_ieee, C26_nan_rectilinear_refuted, C26_nan_regular_refuted, C26_boundary_refuted, C26_boundary_regular_refuted, C26_nan_refuted, C26_ieee_partial, C27_number_types, C30_regular_ieee, C32_binary64_refuted, C33_linear_regular, C33_nearest_regular, C33_cubic_regular, C33_cubic_regular_recursive, C33_one_dim_regular, C33_linear_rectilinear, C33_cubic_rectilinear, C33_cubic_rectilinear_recursive, C33_nearest_rectilinear, C33_one_dim_methods, C33_one_dim_rectilinear, C34_one_dim_rectilinear, C34_one_dim_regular, C34_one_dim_refuted, C34_rectilinear, C34_inside, C34_regular, C35_rectilinear_near_partial, C35_regular_near_partial, C35_rectilinear_refuted, C35_regular_refuted, C35_rectilinear_partial, C35_regular_partial, C35_exact_differences, C36_rectilinear_partial, C36_regular_partial, C36_refuted, C39_one_point_refuted, C39_no_points_refuted, C39_overflow_refuted, C39_finite_partial, C40_linear, C40_linear_recursive, C40_nearest, C40_one_dim, C43_ieee_rectilinear_partial, C43_ieee_regular_partial, C43_refuted, C44_refuted, C44_partial, C44_recursive_partial, C45_rectilinear, C45_regular, C45_rectilinear_exact, C45_regular_exact, C47_object_check_bounds_rectilinear, C47_object_check_bounds_regular, C47_check_bounds_regular_ieee, C47_check_bounds_rectilinear_ieee, C47_differences_ieee, C47_refuted, C47_regular_object, C47_rectilinear_object, C48_document_regular, C48_document_rectilinear, C48_document_integers, C48_document_booleans, C48_regular, C48_rectilinear, C48_f32_numbers, C48_fields_regular, C48_fields_rectilinear, C49_check_bounds_mixed_regular, C49_check_bounds_mixed_rectilinear, C49_int_num, C49_interpn_int_grids_regular, C49_interpn_int_grids_irregular, C49_interpn_ints_like_floats, C49_interpn_int_values, C49_linear_regular, C49_nearest_regular, C49_cubic_regular, C49_linear_rectilinear, C49_nearest_rectilinear, C49_cubic_rectilinear, C49_mixed_regular, C49_mixed_rectilinear, C49_interpn, C49_interpn_mixed, C49_interpn_grids_regular, C49_interpn_grids_irregular, C50_new_regular_holds, C50_new_rectilinear_holds, C50_new_type, C50_integers_refuted, C50_starts_refuted, C50_regular_partial, C50_rectilinear_partial, C50_conversion_same, C50_conversion_wider, C50_conversion_narrower, C50_new_one_type, C50_rectilinear_one_type, C50_regular_one_type_partial, C51_one_dim, C51_multilinear_cell, C51_multilinear, C51_multicubic, C51_multilinear_converges, C51_multicubic_converges, C55_rectilinear, C55_regular, C56_rectilinear, C56_rectilinear_clear, C56_regular, C56_regular_anywhere, C56_exact_refuted, C57_rectilinear, C57_regular, C58_rectilinear, C58_regular, C58_rectilinear_node, C58_regular_node, C59_rectilinear, C59_regular, C61_one_dim, C61_multilinear, C61_multicubic, C61_multicubic_linearised, C62_rectilinear, C62_regular, C62_rectilinear_exact, C62_regular_exact, C63_rectilinear, C63_regular, C68_rectilinear, C68_rectilinear_hold_last, C68_regular, C68_slope_bound_needed, C68_regular_outside, C69_nearest_rectilinear, C69_nearest_regular, C69_left_right_regular, C69_magnitude_bound_needed, C70_anywhere, C70_rectilinear, C70_regular, C71_one_dim_rectilinear, C71_one_dim_regular, C71_one_dim_slope_refuted, C71_rectilinear, C71_regular, C72_one_dim_rectilinear, C72_one_dim_regular, C72_rectilinear, C72_regular, C73_hold_last_anywhere, C73_one_dim_anywhere, C73_one_dim, C73_linear, C73_linear_inside, C73_cubic, C74_hold_last_anywhere, C74_one_dim_anywhere, C74_one_dim, C74_monotone, C74_slope, C75_rectilinear, C75_regular, C76_rectilinear, C76_regular, C77_points, C77_accepted, C77_spacing_needed, C77_last_point_not_exact, C78_hold_last_float, C78_one_dim_float, C78_cubic, C78_linear_float, C78_cubic_float, C79_evenly_spaced, C79_unevenly_spaced, C80_evenly_spaced, C80_unevenly_spaced, C82_evenly_spaced, C82_unevenly_spaced, C83_evenly_spaced, C83_unevenly_spaced, C84_evenly_spaced, C84_unevenly_spaced, C85_evenly_spaced, C85_unevenly_spaced, C86_nonnegative, C86_magnitude, C86_python, C86_pixel_nonnegative, C86_pixel_magnitude, C86_pixel_python, C86_regular_refuted, C86_one_dim_refuted, C89_regular, C89_rectilinear, C89_python_even, C89_python_uneven, C89_one_dim_rectilinear, C89_one_dim_regular, C89_one_dim_slope_needed, C89_regular_outside, C89_rectilinear_outside, C89_python_even_outside, C89_python_uneven_outside, C90_rectilinear, C90_regular, C90_pixel_cell, C90_one_dim_rectilinear, C90_one_dim_regular, C90_python, C90_across_cells_refuted, C90_other_axis_refuted, C91_rectilinear, C91_regular, C91_cubic_rectilinear, C91_cubic_regular, C91_one_dim_rectilinear, C91_one_dim_regular, C91_python_linear, C91_python_cubic, C91_grid_point_refuted, C92_rectilinear, C92_regular, C92_cubic_rectilinear, C92_cubic_regular, C93_linear_permuted, C93_cubic_permuted, C93_linear_reflected, C93_cubic_reflected, C93_linear_rescaled, C93_cubic_rescaled, C93_linear_slice, C93_cubic_slice, C93_linear_crop, C93_cubic_crop, C94_linear_superposition, C94_cubic_superposition, C94_linear_nested, C94_cubic_nested, C94_resample, C95_regular_short, C95_regular_accepts, C95_regular_refuted, C95_regular_ieee_partial, C96_whole_steps, C97_cubic_refuted, C98_regular, C98_rectilinear, C98_python, C98_regular_outside, C98_rectilinear_outside, C98_python_outside, C99_linear_regular, C99_linear_rectilinear, C99_cubic_regular, C99_cubic_rectilinear, C99_linear_regular_function, C99_linear_rectilinear_function, C99_cubic_regular_function, C99_cubic_rectilinear_function, C100_rectilinear, C100_regular, C100_python, C100_python_regular, C100_constant_cell, C100_nodes, C100_short_single, C100_refuted, C101_axis, C101_points, C101_float_axis, C101_float_points, C102_linear_float, C102_cubic_float, C104_regular_constructor, C104_rectilinear_constructor, C104_regular_new, C104_rectilinear_new, C104_regular_documents, C104_rectilinear_documents, C104_regular_objects, C104_rectilinear_objects, C104_differences, C105_rectilinear, C105_regular, C105_negative_sizes, C105_many_rectilinear, C105_many_regular, C105_check_bounds_rectilinear, C105_check_bounds_regular, C105_cubic_refuted, C107_no_step, C107_hold_last_refuted
