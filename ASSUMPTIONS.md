# What `Print Assumptions` lists for each theorem

Generated by tools/assumptions.py from the `Print Assumptions` at the end of each theorem in rocq/theories/T_*.v.

## Closed under the global context (no axiom)

121 theorems: C01_checked_panic, C01_matrix, C01_no_panic, C01_vector, C01_vector_u8, C02_matrix_get_element, C02_matrix_set_element, C02_vector_get_element, C02_vector_set_element, C03_matrix_init, C03_matrix_reinit, C03_vector_init, C03_vector_reinit, C04_fresh_matrix_zero, C04_fresh_vector_zero, C04_reinit_exposes_old_storage, C05_col_to_vector, C05_get_col, C05_get_row, C05_row_to_vector, C05_set_col, C05_set_row, C05_set_row_get_row, C06_add_col, C06_add_row, C06_add_to_full, C06_del_after_add, C06_del_row, C07_add_col_not_atomic, C07_add_row_not_atomic, C08_matrix_in_place, C08_matrix_new, C08_matrix_out_of_place, C08_size_mismatch_matrix, C08_size_mismatch_vector, C08_variants_agree, C08_vector_in_place, C08_vector_new, C08_vector_out_of_place, C09_fresh_matrix_other_errors, C09_matrix_refuses, C09_u8_underflow, C09_uninitialised_use_refuted, C09_vector_refuses, C10_mul, C10_mul_new, C11_transpose, C11_transpose_new, C11_transpose_twice, C12_diag, C12_diag_default, C12_identity, C12_trace, C13_lower_triangular, C13_matrix_equal, C13_symmetric, C13_upper_triangular, C13_upper_triangular_tall, C13_vector_equal, C14_three, C14_two, C16_guards, C17_guards, C21_nonsquare, C23_recognise, C25_dlyap, C26_outcome, C26_shift_1x1, C29_dot, C29_outer, C31_machine_product, C31_sizes, C32_size, C33_sizes, C37_fill, C37_get, C37_get_vector_part, C37_is_real, C37_is_versor, C37_set, C37_sizes, C38_config, C38_new, C38_update, C39_failed_update, C39_lifecycle, C39_set_config_not_atomic, C40_acc_gyr, C40_mag, C41_lifecycle, C45_attitude, C45_lifecycle, C45_never, C46_configure, C46_lifecycle, C48_history_free, C49_gain, C49_negative, C50_errors, C50_gyro, C50_not_finite, C52_new, C52_set, C53_bitrev, C53_involution, C54_factorial, C54_int, C55_refuted, C55_stream, C64_attitude, C64_matrix, C64_vector, C81_vector, C82_convert, C82_matrix_same_size, C82_square, C82_u8, C82_u8_fresh, C82_vector_same_size, C90_calls, C90_start

## `ClassicalDedekindReals.sig_forall_dec`, `ClassicalDedekindReals.sig_not_dec`, `FunctionalExtensionality.functional_extensionality_dep`

1 theorems: C43_kinematics

## `ClassicalDedekindReals.sig_forall_dec`, `ClassicalDedekindReals.sig_not_dec`, `Classical_Prop.classic`, `FunctionalExtensionality.functional_extensionality_dep`

306 theorems: C01_panics_refuted, C03_reinit_keeps_usable_refuted, C04_reinit_zero_refuted, C07_atomic_insertion_refuted, C10_f32_identity, C10_f32_identity_bits_refuted, C10_f32_transpose, C10_f32_transpose_success, C10_real_associative, C10_real_distributive, C10_real_identity, C10_real_product, C13_allclose_reflexive, C13_allclose_symmetric, C13_lower_wide_refuted, C13_tall_zero_refuted, C14_complete_real_refuted, C14_complete_refuted, C14_factors, C14_permutation_f32, C14_positive_column, C14_three_real, C15_solve, C15_unique, C16_iff, C16_invert, C16_unchanged_f32_refuted, C17_det_naive, C18_det, C18_sign_refuted, C18_small, C18_square, C19_four, C19_refuted, C19_small, C19_succeeds, C19_three, C20_four, C20_refuted, C20_singular, C20_singular_f32, C20_small, C20_succeeds, C20_three, C20_three_refuted, C21_early_stop_refuted, C21_nonsquare_refuted, C21_qr, C22_asymmetric_refuted, C22_chol, C22_pd, C22_pd_accepts, C22_psd, C22_zero_refuted, C23_complete, C23_real, C23_rejected_refuted, C24_identity, C24_log, C24_plane_refuted, C24_rodrigues, C24_skew, C25_adjugate, C25_adjugate32, C25_adjugate_refuted, C25_dlyap_unsolved, C26_budget, C26_eigen, C26_regular, C26_scalar_shift, C27_norm, C27_normalize, C27_normalize_small, C28_normalize_f32, C28_normalize_total, C28_normalized_is_versor, C28_overflow, C28_overflow_refuted, C28_versor, C29_dot_real, C29_dot_symmetric, C29_outer_transpose, C30_alpha_f32, C30_alpha_real, C30_lerp, C30_lerp_end_points, C30_slerp, C30_slerp_end_points, C30_slerp_identical, C30_slerp_identical_refuted, C31_conjugate_f32, C31_hamilton, C31_laws, C31_norm, C31_units, C32_inverse, C32_small, C33_dcm, C33_double_cover, C33_double_cover_real, C33_product, C33_rotate, C34_chiaverini, C34_chiaverini_clipped, C34_chiaverini_half_turn, C34_chiaverini_round_trip, C34_hughes, C34_hughes_near_half_turn, C34_hughes_near_identity, C34_sarabandi, C34_sarabandi_refuted, C35_bounds, C35_euler, C35_pitch_refuted, C36_general, C36_in_place, C36_pure, C36_real, C36_refuted, C37_is_versor_real, C38_default, C39_uncorrected_refuted, C40_mag_xz_refuted, C41_nan_period, C41_stuck_refuted, C42_failed_update_refuted, C42_history, C42_unit, C42_zero_absorbing, C42_zero_refuted, C43_closed_form, C43_repeat, C44_euler, C44_euler_differs, C44_euler_refuted, C44_taylor, C44_taylor_1, C44_taylor_2_refuted, C44_taylor_panics, C44_unsupported, C45_stuck_refuted, C45_weights, C46_stuck_refuted, C46_unchecked_refuted, C47_attitude, C49_between_f32, C49_between_real, C49_between_refuted, C49_dead, C49_dead_refuted, C50_overwritten_refuted, C51_history, C51_unit, C52_div, C52_field, C52_new_refuted, C52_polar, C52_unchecked_refuted, C53_dftmerge, C54_allclose, C54_clip, C54_in_range, C54_minmax, C54_minmax_refuted, C54_sign, C55_value, C56_factor, C56_update, C56_wrong_way_refuted, C57_heading, C57_tilt, C58_fails, C58_gravity_refuted, C58_level_refuted, C58_scaled, C59_gyro, C59_turn, C59_wrong_way_refuted, C60_associative, C60_associative_exact_refuted, C60_dot, C60_dot_nan_refuted, C60_hamilton, C60_matrix_product, C61_dcm, C61_normalized, C61_rotate, C61_roundtrip, C62_dead_zone, C62_step, C62_track, C63_attitude, C63_free_fall_refuted, C64_uninitialised_refuted, C65_accurate, C65_converges, C65_small_refuted, C66_rest, C66_settles, C66_update, C67_accuracy, C68_factors, C68_inverse, C68_solve, C68_solve_refuted, C69_angles, C70_euler_step, C70_euler_track, C70_taylor_step, C70_taylor_track, C71_factor, C71_triangular_refuted, C71_upper_2, C72_chiaverini, C72_lost_refuted, C72_round_trip, C73_columns, C73_noise_refuted, C73_orthogonal, C74_about_x, C74_about_y, C74_about_z, C74_about_z32, C74_accepted, C74_answer_no_refuted, C74_clockwise, C74_det, C74_near, C74_near_orthogonal, C74_recognised, C74_reflection, C74_refused, C74_sound, C74_sound_det, C74_sound_plane, C74_sound_proper, C75_exp, C75_exp_general, C75_exp_in_place, C75_exp_in_place_lost, C75_exp_in_place_refuted, C75_exp_small, C75_huge, C75_huge_refuted, C75_inverse, C76_lerp, C76_lerp_ends, C76_parallel, C76_parallel_refuted, C76_slerp, C77_conjugate_refuted, C77_hughes, C77_lost, C77_round_trip, C78_axis, C78_calibration, C78_relative_refuted, C79_raw, C80_first_orthant, C80_negative_refuted, C80_round_trip, C80_sarabandi, C80_signs, C81_float, C81_overflow, C81_real, C81_total, C81_underflow, C83_feed, C83_rates, C84_first_order, C84_higher_orders, C85_exponential, C85_module, C85_overflow, C85_polar, C85_product, C85_quotient, C85_round_trip, C85_sum, C86_det, C86_naive, C87_angles, C87_euler, C87_taylor, C88_about_z, C88_attitude, C88_log, C88_small_refuted, C88_trace_three, C89_angles, C89_rates, C89_raw, C89_rest, C90_angles, C90_default_refuted, C90_heading, C90_reference, C90_settles, C90_tilt, C91_adaptive, C91_attitude, C91_first, C91_rates, C91_raw, C91_rest
