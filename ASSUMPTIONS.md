# Print Assumptions, theorem by theorem

Generated by tools/assumptions.py. Every axiom below belongs to the Coq standard library.

## no axioms (26 theorems)

- C27: C27_case_insensitive
- C29: C29_NN_isometry_invariant, C29_NN_empty_grid_raises
- C33: C33_neg_gamma_always_raises
- C37: C37_channel_relabelling
- C43: C43_constructor_validation, C43_conv_mode
- C44: C44_padding_amounts
- C57: C57_gwrap_unusable
- C79: C79_device_honoured, C79_device_not_honoured, C79_uniform_grid_after_any_history, C79_empty_grid, C79_o3_uniform_grid_on_a_gpu, C79_where_layers_run, C79_input_must_be_with_the_module, C79_reflection_layers_never_run_on_a_gpu, C79_double_precision, C79_width_stays_behind
- C80: C80_accepted_batch_shapes, C80_single_elements_and_grids_of_rotations_rejected, C80_angles_of_every_batch_shape, C80_random_sizes
- C84: C84_read_back, C84_kernel_mask
- C95: C95_view

## `sig_forall_dec` (21 theorems)

- C12: C12_o3_pairwise
- C13: C13_so3_acts_by_matrix, C13_so3_pairwise
- C22: C22_left_apply_quat_always_raises, C22_left_apply_quat_is_product_refuted
- C28: C28_RBF_reproduces_signal, C28_RBF_rows_independent, C28_RBF_isometry_invariant
- C29: C29_NN_returns_a_nearest_node
- C33: C33_spherical_to_euler
- C39: C39_subgroup_kernel_formula, C39_needs_one_cell, C39_det_ignored
- C44: C44_padded_convolution, C44_same_preserves_size
- C47: C47_product_kernel_entries
- C57: C57_activations_commute
- C75: C75_samples_are_independent, C75_channel_groups_are_independent
- C80: C80_same_rule_as_single_batches
- C82: C82_which_go_round

## `functional_extensionality_dep`, `sig_forall_dec` (117 theorems)

- C12: C12_o3_product_inverse_det, C12_o3_elements_are_exactly_O3
- C13: C13_so3_action_laws, C13_o3_acts_by_matrix, C13_o3_action_laws
- C14: C14_matrix_inverse
- C16: C16_klein_and_tetrahedral_exact, C16_octahedral_and_icosahedral_1e7
- C17: C17_quat_to_matrix_homomorphism, C17_quat_to_matrix_double_cover, C17_quat_to_matrix_is_conjugation
- C28: C28_RBF_linear_in_signal
- C29: C29_NN_unique_minimum
- C30: C30_BCC_convex, C30_BCC_needs_three, C30_convex_output_between_signals
- C34: C34_grid_values, C34_closed_under_signed_permutations_3d, C34_closed_under_signed_permutations_2d, C34_point_symmetry, C34_conventions_differ
- C36: C36_lifting_kernel_formula
- C37: C37_full_kernel_formula
- C38: C38_separable_kernel_formula, C38_sizes_differ
- C45: C45_lifting_convolution
- C46: C46_group_convolution
- C47: C47_separable_is_product_convolution, C47_defect_double_stride, C47_output_size, C47_defect_double_padding, C47_defect_same_grows, C47_two_stages
- C48: C48_lifting_translation, C48_group_translation
- C54: C54_avg_group_pool, C54_avg_global_pool, C54_max_group_pool, C54_max_global_pool, C54_max_returns_pairs, C54_global_pool_invariance, C54_group_pool_invariance
- C55: C55_spatial_pools, C55_default_windows, C55_adaptive, C55_max_windows, C55_avg_windows
- C58: C58_not_in_place_keeps_the_callers_tensors, C58_in_place_writes_only_its_argument, C58_both_modes_return_the_same_values, C58_trajectory, C58_zero_steps, C58_noise_schedule
- C65: C65_tabulated_grids_are_valid
- C67: C67_energy_is_the_mean_over_distinct_pairs
- C75: C75_lifting_layer_is_affine, C75_full_layer_is_affine, C75_separable_layer_is_affine, C75_superposition
- C76: C76_reflection_2d, C76_reflection_3d, C76_reflection_inside, C76_border, C76_zeros_outside, C76_accepted_modes, C76_linear_2d, C76_linear_3d, C76_constant_2d, C76_constant_3d, C76_range_2d, C76_range_3d, C76_bicubic_leaves_the_range
- C77: C77_lifting, C77_full, C77_subgroup, C77_separable, C77_scaling
- C78: C78_rotating_volumes, C78_rotating_a_batch, C78_zeros_even_size_loses_the_last_slices, C78_identity, C78_two_steps
- C81: C81_spatial_pools, C81_lifting_layer, C81_group_layer, C81_separable_layer
- C82: C82_lifting, C82_group, C82_separable_same_grows, C82_separable_wrong_period_refuted
- C86: C86_lifting_layer, C86_full_layer, C86_separable_layer
- C87: C87_lifting_layer, C87_full_layer, C87_separable_layer
- C88: C88_lifting_layer, C88_group_layer, C88_separable_layer, C88_exchanged_axes, C88_one_axis_wrong
- C89: C89_sampling_2d, C89_sampling_3d
- C95: C95_convolutions_take_every_layout
- C96: C96_gradient_steps_descend
- C98: C98_means
- C99: C99_corners
- C100: C100_within_tolerance, C100_agrees_with_C30
- C105: C105_answers, C105_refusals, C105_interrupted, C105_interrupted_tensor_requires_gradient_defect, C105_refused_in_place_requires_gradient_defect, C105_in_place_switches_gradients_off_defect
- C106: C106_default_metric_defect, C106_default_distance_defect

## `functional_extensionality_dep`, `sig_forall_dec`, `sig_not_dec` (104 theorems)

- C01: C01_so2_product_is_composition, C01_so2_matrix_entries_and_faithful, C01_so2_pairwise
- C02: C02_so2_group_laws, C02_so2_inverse_matrix
- C03: C03_so2_uniform_grid_is_cyclic_group
- C06: C06_so2_action_pointwise, C06_so2_action_laws, C06_so2_action_on_grids_composes
- C07: C07_o2_group_laws, C07_o2_pairwise
- C08: C08_o2_action_pointwise, C08_o2_action_laws, C08_o2_reflections_act_as_rotations, C08_o2_det_is_determinant_of_action_refuted, C08_o2_product_commutative_but_O2_is_not
- C09: C09_o2_uniform_grid_layout, C09_o2_uniform_grid_closed
- C14: C14_axis_rotations_are_rotations, C14_axis_rotations_one_parameter, C14_axis_rotations_right_handed
- C15: C15_cyclic_groups, C15_cyclic_dispatch
- C17: C17_quat_to_matrix_rotation
- C18: C18_matrix_to_quat_right_inverse, C18_matrix_to_quat_left_inverse, C18_matrix_to_quat_no_zero_division
- C19: C19_euler_to_matrix_is_ZYZ, C19_euler_to_matrix_thresholding
- C32: C32_unit_vectors
- C35: C35_mask_is_norm_test, C35_mask_symmetric, C35_centre_faces_corners, C35_mask_all_zero_iff_small
- C40: C40_relative_elements
- C49: C49_moved_image_exists_unique
- C53: C53_SE2, C53_SE3, C53_E2, C53_E3, C53_every_rotation_can_be_drawn, C53_values
- C56: C56_batch_norm, C56_instance_norm, C56_norms_commute, C56_wrong_rank, C56_layer_norm
- C57: C57_activations, C57_activations_entrywise
- C60: C60_bias_initialisation, C60_full_bound_depends_on_out_channels
- C63: C63_random_elements_valid, C63_so2_random_grid, C63_o2_random_grid, C63_so3_o3_random_cover
- C66: C66_euler_lift_moves_the_pole, C66_euler_lift_moves_the_pole_eps
- C68: C68_kernel_initialisation
- C73: C73_custom_lifting_2d, C73_custom_lifting_3d, C73_custom_full_2d, C73_custom_full_3d, C73_custom_separable_2d, C73_custom_separable_3d
- C74: C74_tutorial_ops_are_a_group, C74_tutorial_lifting_equivariant, C74_tutorial_separable_equivariant, C74_defect_farthest_points, C74_defect_constant_signal, C74_defect_single_rotation, C74_tutorial_random_grid, C74_tutorial_layers_answer
- C78: C78_plane_images_are_mirrored, C78_plane_identity_transposes, C78_plane_rotation_refuted
- C80: C80_quaternions_of_two_axis_batches_are_wrong
- C81: C81_instance_norm
- C82: C82_network
- C83: C83_receptive_field, C83_samples_are_independent, C83_window, C83_training_batch_norm_couples_refuted
- C85: C85_momentum, C85_no_momentum, C85_refused_call_counts_refuted, C85_bounds, C85_evaluation_pure, C85_evaluation_uses_history
- C86: C86_proper_elements, C86_network, C86_training_never_fails
- C87: C87_normalization
- C95: C95_pools_and_layer_norm_take_every_layout, C95_norms_need_one_axis, C95_norms_after_contiguous_convolutions, C95_defect_channels_last
- C101: C101_default_grids
- C107: C107_SO2, C107_O2, C107_O2_determinant_defect, C107_O2_on_the_plane, C107_SO3, C107_O3, C107_O3_determinant_defect

## `classic`, `functional_extensionality_dep`, `sig_forall_dec`, `sig_not_dec` (294 theorems)

- C04: C04_so2_geodesic_distance
- C05: C05_so2_nearest_neighbour_is_self_distance, C05_so2_nn_contract_fails_on_separated_grids, C05_so2_nn_contract_refuted
- C10: C10_o2_grid_sample_restores_order, C10_o2_grid_sample_succeeds, C10_o2_grid_sample_missing_half_raises
- C11: C11_o3_grid_sample_restores_order, C11_o3_grid_sample_succeeds, C11_o3_grid_sample_missing_half_raises
- C20: C20_matrix_to_euler_inverts_ZYZ, C20_matrix_to_euler_range, C20_matrix_to_euler_gimbal_zone, C20_gimbal_still_correct_rotation_refuted
- C21: C21_gimbal_warning_iff, C21_locked_elements_warned_refuted
- C23: C23_geodesic_symmetric_sign_invariant, C23_geodesic_function_of_rotations, C23_geodesic_bi_invariant, C23_geodesic_range, C23_geodesic_is_half_the_relative_angle
- C24: C24_nearest_neighbour_distance, C24_nearest_neighbour_raises_iff_short
- C25: C25_so3_log_is_rotation_vector, C25_so3_log_identity, C25_so3_log_half_turn_refuted
- C26: C26_quaternion_log, C26_quaternion_log_positive_real, C26_quaternion_log_negative_real_refuted
- C27: C27_size_zero_empty, C27_unknown_parameterization_raises, C27_tabulated_sizes_return_the_table, C27_uncached_calls_are_independent, C27_fresh_grids, C27_cached_grid_returns_euler_angles, C27_cached_quaternions_refuted, C27_euler_with_cache_always_raises, C27_results_alias_the_cache, C27_size_one_matrix_has_no_batch_axis
- C31: C31_RBF_gauss
- C32: C32_roundtrip_from_euclid, C32_roundtrip_from_spherical, C32_random_points
- C33: C33_uniform_grid_neg_gamma_raises, C33_unknown_parameterization, C33_parameterizations, C33_grid_size
- C36: C36_SE2, C36_SE3, C36_E2, C36_E3
- C37: C37_SE2, C37_SE3, C37_E2, C37_E3
- C38: C38_SE2, C38_SE3, C38_E2, C38_E3
- C39: C39_SO3
- C40: C40_SE2, C40_SE3, C40_E2, C40_E3
- C41: C41_given_width_is_used, C41_SE3_default_width, C41_SE2_E2_default_width_is_constant, C41_SE2_default_width_too_small, C41_E3_default_width, C41_E3_default_width_too_small
- C42: C42_SE2_ignores_the_option, C42_SE2_corners_always_dropped, C42_SE3_lifting, C42_SE3_group, C42_E2_lifting, C42_E2_group, C42_E3_lifting, C42_E3_group
- C49: C49_lifting_SE2, C49_lifting_SE3
- C50: C50_group_SE2, C50_separable_SE2, C50_group_SE3, C50_separable_SE3
- C51: C51_lifting_E2, C51_group_E2, C51_separable_E2, C51_lifting_E3, C51_group_E3, C51_separable_E3, C51_lifting_E2_inversion, C51_lifting_E3_inversion, C51_inversion_refutation
- C52: C52_SE2, C52_SE3, C52_E2, C52_E3, C52_random_SE2, C52_random_SE3, C52_random_E2, C52_random_E3, C52_uniform_SE2, C52_uniform_E2, C52_closed_SE3
- C59: C59_nearest, C59_bilinear_small, C59_bilinear_big
- C61: C61_uniform_grid_layout, C61_size_one_always_raises, C61_size_zero_raises, C61_broken_by_so3_caching
- C62: C62_so3_sample_left_right_invariant
- C64: C64_rbf_sampling_reproduces_signal, C64_nearest_sampling_picks_closest
- C66: C66_s2_distance
- C67: C67_so3_energy, C67_s2_energy
- C69: C69_lifting_SE2, C69_lifting_SE3, C69_lifting_E2, C69_lifting_E3, C69_group_SE2, C69_group_SE3, C69_group_E2, C69_group_E3, C69_default_grids, C69_int_group_kernel_size, C69_En_given_grid_size_refuted, C69_lifting_SE2_calls
- C70: C70_lifting_SE2, C70_group_SE2, C70_separable_SE2, C70_lifting_SE3, C70_group_SE3, C70_separable_SE3, C70_lifting_E2, C70_group_E2, C70_separable_E2, C70_lifting_E3, C70_group_E3, C70_separable_E3
- C71: C71_so2_rbf_reproduces_signal, C71_so2_nearest_is_closest, C71_so2_nearest_exact_on_grid, C71_so2_rotation_invariant, C71_unknown_mode, C71_o2_rbf_reproduces_signal, C71_o3_rbf_reproduces_signal, C71_o2_nearest_is_closest_of_same_determinant, C71_o3_nearest_is_closest_of_same_determinant
- C72: C72_checkpoint_restores_a_layer, C72_save_then_restore, C72_bandwidth_is_not_restored, C72_layers_are_isolated, C72_shared_grid_only, C72_given_grid_is_aliased, C72_defect_default_grids_alias_the_cache, C72_defect_load_overwrites_the_cache, C72_large_default_grids_are_private, C72_entries_of_a_checkpoint, C72_training_updates_the_parameters, C72_loads_are_entrywise
- C75: C75_library_kernels
- C76: C76_constant_windows, C76_never_amplifies
- C77: C77_library_kernels
- C78: C78_equivariance_experiment
- C79: C79_agrees_with_the_value_model
- C80: C80_angles_of_two_axis_batches_are_wrong
- C84: C84_public_SEn, C84_public_En, C84_given_grid_refuted, C84_kernel_mask_shown
- C86: C86_library_kernels, C86_no_reflections_refuted_E2, C86_no_reflections_refuted_E3
- C87: C87_activations, C87_error_function, C87_network, C87_every_network, C87_continuous, C87_library_lifting, C87_library_full
- C89: C89_kernel_SE2, C89_kernel_SE3, C89_kernel_E2, C89_kernel_E3, C89_lifting_SE2, C89_lifting_SE3, C89_lifting_E2, C89_lifting_E3, C89_octahedral, C89_nearest_refuted
- C90: C90_SE3_default, C90_E3_default, C90_SE2_default, C90_E2_default, C90_repeated_element_refused, C90_readme_program
- C91: C91_SE2_calls, C91_SE3_calls, C91_E2_calls, C91_E3_calls
- C92: C92_so3_grid_is_descent_from_random_rotations, C92_s2_grid_is_descent_from_random_points, C92_no_steps_no_movement
- C93: C93_so2_guard_is_void, C93_so3_guard_works, C93_so2_inner_product, C93_so3_inner_product, C93_so3_distance_positive, C93_default_width_zero, C93_quarter_turns
- C94: C94_SE2_restores, C94_E2_restores, C94_E3_restores, C94_layers_roll_back, C94_loads_are_entrywise, C94_layers_are_isolated, C94_layers_own_their_tensors, C94_training_changes_parameters_only, C94_what_is_saved, C94_E3_bandwidths_stay
- C96: C96_backward_is_the_gradient, C96_short_steps_descend, C96_noise_free_steps_descend, C96_two_points_repel, C96_guarded_points_do_not_repel, C96_twins_stay_twins, C96_defect_default_step_too_long, C96_so3_backward_is_the_gradient, C96_so3_short_steps_descend, C96_so3_noise_free_steps_descend, C96_so3_guarded_elements_do_not_repel, C96_so3_twins_stay_twins, C96_so3_identity_does_not_move, C96_so3_defect_default_step_too_long
- C97: C97_SE2, C97_SE3, C97_E2, C97_E3, C97_augmentation_is_void_SE2
- C98: C98_SE2, C98_E2, C98_SE3, C98_E3, C98_training_SE2, C98_mean_response_SE2, C98_pathwise_refuted
- C99: C99_SE2, C99_SE3, C99_E2, C99_E3, C99_corners_read
- C100: C100_tolerance_is_never_met, C100_two_quaternions, C100_on_the_grid, C100_translation, C100_sampling_ignores_the_sign
- C101: C101_lifting_2d, C101_lifting_3d, C101_group_2d, C101_group_3d
- C102: C102_E2_is_signed_SE2, C102_inversion_2d, C102_inversion_3d, C102_direct_3d, C102_mirror_refuted
- C103: C103_E2_pairs, C103_E2_averages, C103_E3_odd_part, C103_E3_symmetric
- C104: C104_uninterrupted, C104_wait_free, C104_answers, C104_tabulated, C104_answers_stay, C104_cache_entries, C104_cache_grows, C104_after_caching, C104_race, C104_race_is_not_serial
- C105: C105_grids_with_gradients, C105_grids_without_gradients_defect, C105_sphere_without_gradients_defect
- C107: C107_S2
- C108: C108_tau, C108_product, C108_outside_the_range, C108_laws, C108_not_associative, C108_accuracy, C108_O2, C108_random

## `classic`, `constructive_indefinite_description`, `functional_extensionality_dep`, `sig_forall_dec`, `sig_not_dec` (2 theorems)

- C72: C72_defect_restored_rbf_layer_differs
- C94: C94_defect_E3_bandwidth_not_restored
