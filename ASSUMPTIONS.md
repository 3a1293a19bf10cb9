# Axioms listed by Print Assumptions for each property theorem

Generated by `tools/assumptions.py` from the output of the Coq compiler; 613 theorems.

## Closed under the global context (no axioms)

C101_all_faces, C101_loose_face_refuted, C101_order_refuted, C101_solid, C102_display, C102_params_lines, C102_same_params, C12_num_must_be_int, C22_basis_names, C30_empty_objects_are_not_read_back, C30_integers_are_printable, C30_round_trip, C30_written_lines, C31_all_errors, C31_numbers_come_from_the_file, C31_read_errors, C31_successful_read, C32_missing_distributions_become_zero, C32_write_validates, C33_fresh_object, C33_missing_file, C34_failed_read_is_atomic_refuted, C34_failed_read_partition, C34_unparsable_file_changes_nothing, C42_construction, C56_failure_caches_nothing, C56_first_access, C56_first_access_fails, C57_polygon_determines_triangle, C62_empty, C63_propeller_never, C64_extension_unique, C64_splitext, C65_rejected, C70_comment_lines, C70_windows_line_ends, C78_argument_check, C78_name_check, C79_not_generated, C83_edges, C84_fields_are_recovered, C84_file_determines_texts, C84_file_errors, C84_long_sections_are_lost, C84_missing_rows, C84_saved_file, C89_integers, C89_integers_of_a_file, C90_spelling_of_an_option, C91_meaningless_line, C91_option_without_a_name, C91_repeated_option, C91_repeated_section, C91_text_before_the_first_section

## `ClassicalDedekindReals.sig_forall_dec`

C36_refusals, C36_update_adds_the_deformations, C65_no_sections, C65_points_as_rows, C65_sections, C65_single, C65_three_points_as_rows, C78_disk, C78_error_file_is_emptied, C78_report, C84_all_properties_refuted

## `ClassicalDedekindReals.sig_forall_dec`, `FunctionalExtensionality.functional_extensionality_dep`

C01_translate_moves_every_point, C01_translate_sequence, C01_translate_undone, C03_reflect_involution, C03_reflect_negates_points, C04_scale_is_homothety, C04_scale_raises_iff_no_reference, C04_scale_without_translation, C04_scale_without_translation_total, C05_by_parameters, C06_edge_errors_commute_with_translation, C06_edges_characterised, C06_edges_commute_with_translation, C06_edges_exist_iff_close, C06_reference_commutes_with_translation, C06_reference_point_is_midpoint, C07_chord_line_commutes_with_translation, C07_chord_line_points, C07_chord_line_succeeds, C100_airfoil_points, C100_section_points, C106_even_curve, C15_symmetric_about_camber, C19_camber_line_bounded, C27_end_control_points, C27_negative_sizes, C27_planar_end_control_points, C28_affine_maps_commute, C28_bounds, C28_convex_weights, C28_straight_lines, C29_design_matrix, C29_linear, C37_calls_out_of_order, C37_spline_is_the_curve_of_the_control_points, C38_samples_the_spline, C38_when_it_succeeds, C40_exported_file, C40_negative_count, C40_other_arguments, C40_other_files_untouched, C40_reading_it_back, C51_scale_without_coordinates, C51_scale_without_faces, C52_reflection_exchanges_sides, C52_reflection_fixes_plane, C52_reflection_is_involution, C52_three_points_span_the_plane, C56_display, C56_shape_built_once, C56_shape_is_the_sewn_solid, C56_solid_built_once, C56_tmp_stl_fails, C56_tmp_stl_is_current, C57_bad_index, C57_blades_alone, C57_blades_and_stem, C57_by_coords, C57_unknown_selector, C57_vertices_distinct, C58_assigned_attributes, C58_blades_assigned, C58_failed_merge, C58_shaft_only, C62_boundary, C62_cut, C62_level_refuted, C62_triangle, C64_iges, C64_not_done, C64_other, C64_status_ignored, C64_stl, C68_reflex_table, C68_standard_table, C69_cox_de_boor, C69_local_control, C69_monotone, C69_step_bound, C71_enough_points, C74_array, C74_list, C76_failure_writes_nothing, C76_not_generated, C76_silent_failure, C76_with_curves, C80_coverage, C80_no_cylinder, C80_whole_section, C80_whole_section_refuted, C97_bad_file_name, C97_keeps, C97_no_coordinates

## `ClassicalDedekindReals.sig_forall_dec`, `ClassicalDedekindReals.sig_not_dec`, `FunctionalExtensionality.functional_extensionality_dep`

C02_argument_errors, C02_degrees, C02_move_sequences_are_isometries, C02_rotate_is_rotation, C02_rotation_preserves_distances, C02_rotation_undone, C02_rotations_add, C02_unequal_surfaces, C03_reflect_is_half_turn, C04_scale_reference_and_chord, C05_by_lists, C05_by_lists_outcome, C05_by_parameters_outcome, C05_by_reference, C05_by_reference_outcome, C13_consistent_coordinates_reach_parameter_generation, C13_consistent_suffices_refuted, C13_inconsistent_coordinates_rejected, C13_missing_coordinates_rejected, C13_missing_parameters_rejected, C13_moderate_coordinates_constructed, C13_other_keywords_rejected, C13_parameters_accepted_iff_consistent, C14_parameters_exist, C14_round_trip_iff, C14_unconditional_round_trip_refuted, C18_thickness_distribution, C44_winding_arc_length, C44_winding_chord_length, C44_winding_preserves_speed, C50_degrees, C50_full_turn, C50_invalid_calls, C50_rotate_coordinates, C50_rotate_without_faces, C50_rotations_add, C50_turn_is_isometry, C50_turns_add, C50_x_keeps_axial_and_radius, C51_motions_move_faces_and_coordinates_alike, C52_degenerate_planes, C52_keywords_normal, C52_keywords_out_of_order, C52_keywords_points, C52_mirror_point_and_normal, C52_mirror_three_points, C52_mirror_twice, C52_reflection_is_isometry, C52_wrong_number_of_arguments, C52_wrong_number_of_coordinates, C61_path_default, C61_path_failures, C61_path_from, C63_sections, C63_sections_short, C66_parameters_round_trip, C75_cylinder, C75_default, C75_errors, C75_opposite_orientation, C75_scaled_orientation, C75_symmetric, C77_curves_follow_motions, C81_chord_on_cylinder, C81_constant_speed, C81_cutting_plane, C81_tangent, C98_parameters_of_a_scaled_profile, C98_parameters_of_a_shifted_profile, C99_edges, C99_errors, C99_nothing_found, C99_on_the_section, C99_order, C99_path, C99_prolongations, C99_vertex_at_the_end_refuted, C99_vertices

## `ClassicalDedekindReals.sig_forall_dec`, `Classical_Prop.classic`, `FunctionalExtensionality.functional_extensionality_dep`

C62_crossings, C62_fan, C62_orientation, C62_repeated_vertex, C62_start_vertex

## `ClassicalDedekindReals.sig_forall_dec`, `ClassicalDedekindReals.sig_not_dec`, `Classical_Prop.classic`, `FunctionalExtensionality.functional_extensionality_dep`

C05_caller_arrays_follow, C05_camber_detaches_ordinates, C05_frame, C05_integer_reflect, C05_integer_scale, C05_integer_translate, C05_integer_translate_half_done, C05_other_arrays, C05_owned_profile, C05_reflect_repeated_array, C05_rotate_detaches, C05_scale_repeated_array, C05_scale_shared_abscissae, C05_separate_profiles, C05_shared_arrays, C05_translate_repeated_array, C08_set_thickness_max, C08_set_thickness_of_flat_profile, C08_thickness_computable, C09_deform_camber_line, C09_deform_camber_line_resampled, C100_distances, C100_section, C100_section_exists, C100_torn, C100_unroll_wind, C100_wind_unroll, C102_blade_lines, C102_blade_text, C103_arrays_left_behind, C103_coordinates, C103_same_arrays, C103_same_arrays_accepted, C103_separate_sections, C103_shared_abscissae, C103_shared_abscissae_accepted, C104_as_modelled, C104_display, C104_ends, C104_faces_in_step, C104_failures, C104_section, C104_succeeds, C105_control_points, C105_deformed_values, C106_exactly_when, C106_fit_is_unique, C106_planar, C106_samples_determine_control_points, C107_control_abscissae, C107_curve_abscissae, C107_enough_curve_points, C107_when_compute_all_succeeds, C108_affine_control_points, C108_undeformed_values, C109_any_samples, C109_any_tolerance_succeeds, C109_curve_through_the_data, C109_displacements_are_added, C109_undeformed_values, C10_max_camber_defined, C10_set_camber_line_max, C10_zero_camber_divides_by_zero, C110_printed, C110_read_back, C111_accepted_texts, C111_nearest, C111_unique, C112_copy, C112_default_radii, C112_missing_file, C112_round_trip, C113_abscissae_between, C113_nan_free_refuted, C113_not_numbers, C113_numbers, C113_same_ends, C114_flat, C114_measured, C114_nan_measured, C114_nan_spreads, C114_overflow, C114_relative_accuracy_refuted, C114_set_measured, C114_set_ordinates, C115_camber_line, C115_deform, C115_no_change, C115_no_change_on_a_grid, C115_no_change_refuted, C116_accepted, C116_checked, C116_coordinates, C116_nan, C116_symmetric, C116_thickness, C116_thickness_exact_refuted, C117_always, C117_camber, C117_chord, C117_chord_any, C117_nan, C117_round_trip, C117_short_chord, C117_thickness, C118_accepted, C118_constructor, C118_coordinates, C118_foil, C118_interior, C118_leading_edge, C118_no_points, C118_stations, C118_thickness, C118_trailing_edge_crossed, C118_trailing_edge_linear, C119_accepted, C119_constructor, C119_coordinates, C119_foil, C119_interior, C119_leading_edge, C119_no_points, C119_other_digit, C119_stations, C119_trailing_edge_crossed, C11_camber_horizontal, C11_camber_vertical_refuted, C11_interpolated_thickness_horizontal, C11_thickness_reflection_invariant, C11_thickness_scales, C11_thickness_translation_invariant, C120_chord_line, C120_five_digits, C120_four_digits, C120_level, C120_level_line, C120_max_camber, C120_nan, C120_no_width, C120_on_axis, C121_five_digits, C121_four_digits, C122_default, C122_differing, C122_sampled, C122_single, C123_built, C123_nothing, C123_on_cylinders, C123_uneven, C124_angles, C124_lengths, C124_two_pi, C125_lengths, C125_no_skew, C125_rakes, C126_degrees, C126_radians, C126_refused, C127_entries, C127_placed, C128_laid, C129_built, C129_laid, C129_refused, C12_arguments_must_be_positive, C12_interpolates, C12_succeeds_iff_distinct, C16_american_keeps_camber, C16_orthogonal_to_camber, C17_four_digit_foils, C18_five_digit_thickness, C18_four_digit_thickness, C18_symmetric_foils, C19_camber_line_of_foil, C19_camber_line_smooth, C20_cosine_spacing_scales_camber, C20_linear_spacing_ignores_lift_digit, C20_thickness_orthogonal_iff_lift_two, C21_accepted_codes_are_digits_refuted, C21_float_sizes_truncate, C21_negative_sizes, C21_non_digit, C21_other_lengths, C21_small_negative_float_passes_check, C21_thickness_characters, C21_third_digit_of_five, C21_types, C21_zero_or_one_point_fails, C22_gaussian_shape, C22_multiquadric_reciprocal, C22_thin_plate_shape, C22_unknown_basis, C22_wendland_shape, C22_wendland_value, C23_exact_at_nodes, C23_node_in_any_evaluation_set, C23_single_interpolant, C24_any_dimension_refuted, C24_wendland_eigenvalue_bound, C24_wendland_matrix_symmetric, C24_wendland_well_posed, C25_accumulates, C25_linear, C25_node_order_irrelevant, C25_short_output, C26_thin_plate_nodes_at_radius, C26_thin_plate_single_node, C35_end_points, C35_float_count, C35_least_squares, C35_no_radii, C35_resampling_off, C35_splines_are_reproduced, C35_when_it_succeeds, C36_repeated_updates_accumulate, C37_failed_calls_change_nothing, C37_invariant, C37_too_few_control_points, C37_unknown_names, C39_compute_all_is_idempotent, C39_depends_on_the_parameters_only, C39_wide_tolerances_succeed, C40_degree_equal_to_count_is_useless, C40_other_values_are_kept_refuted, C41_computed_values_can_be_plotted_refuted, C41_zero_entries_cannot_be_plotted, C43_induced_rake, C43_pitch_angles, C44_points_on_cylinder, C44_winding_contracts, C45_chord_and_mid_chord, C45_fewer_lower_points, C45_more_lower_points, C45_placement_succeeds, C45_section_placement, C46_reflect_option, C46_shape_preserved, C47_build_succeeds, C47_more_lower_points, C47_root_and_tip_exchanged, C47_sections_from_last_to_first, C48_second_call_differs, C48_second_call_of_closed_sections, C48_sections_are_consumed, C48_shared_section, C49_camber_override, C49_last_camber_ignored, C49_thickness_override, C51_agreement_is_kept, C51_build_agrees, C51_mirror_keeps_agreement_refuted, C51_y_rotation_keeps_agreement_refuted, C53_binary64_length_error, C53_binary64_length_power_of_two, C53_binary64_radius_power_of_two, C53_binary64_restores_refuted, C53_failed_write_leaves_normalised, C53_normalized_blade_untouched, C53_parameters_restored, C53_retry_does_not_repair, C53_unmeasurable_section, C54_file_content, C54_lower_abscissas_recoverable_refuted, C54_number_text, C55_balanced, C55_between_two_blades, C55_blades, C55_build_failure, C55_congruent, C55_float_number, C55_no_blades, C55_rotational_symmetry, C55_second_propeller_differs, C58_obj_exports_unusable, C59_bladex_plane, C59_bladex_profile, C59_bladex_succeeds, C59_level_chord, C59_lists, C59_unroll, C59_voronoi_plane, C59_voronoi_profile, C59_voronoi_succeeds, C60_parameters, C60_profile, C60_reconstruction, C60_turned_blade, C60_unturned_refuted, C63_blade_never, C63_methods_fail, C63_no_list, C63_stored_blade, C67_uncambered_constructions_agree, C68_camber_below_chord_refuted, C68_camber_line_smooth, C68_five_digit_foils, C68_reflex_closure_refuted, C71_values_after_compute_all, C72_figures, C72_several_parameters, C73_candidates, C76_curves_succeed, C76_file_follows_coordinates, C76_file_follows_motions, C77_common_index, C77_curve_points, C77_five_percent_with_reflection, C77_leading_edge_refuted, C77_mirrored_refuted, C77_on_the_cylinders, C77_own_section_refuted, C77_points_on_faces, C79_plot, C81_chord_exists, C81_cut_not_perpendicular, C81_ends, C81_ends_refuted, C81_straight_when_unrolled, C82_camber_line, C82_coinciding_edges, C82_first_cut_empty, C82_own_cut_refuted, C82_stations, C82_succeeds, C84_reversed_can_be_saved, C84_reversed_can_be_saved_voronoi, C85_reflect_is_exact, C85_reflect_twice, C86_distinct_points_refuted, C86_exact_on_a_grid, C86_order_kept, C86_there_and_back, C86_there_and_back_refuted, C86_translate_error, C87_edges, C87_nan_passes, C87_power_of_two, C87_reference_point, C87_scale_about_error, C87_scale_error, C87_tolerance, C87_tolerance_literal, C88_rotate_error, C92_american_thickness, C93_shift_invariance_refuted, C94_american_round_trip_refuted, C94_lower_points_on_the_curve_refuted, C95_multiquadric_indefinite, C95_positive_definite, C95_well_posed, C96_chord_line_history, C96_deformed_line, C96_edges_after_failure, C96_edges_after_scaling, C96_influence, C96_influence_of_a_run, C96_motions_keep, C96_refinement, C96_stale_after_translation, C97_announced_error_refuted, C97_line_is_none, C97_line_never_computed, C97_lines_do_not_follow, C97_new_profiles_have_no_lines, C97_picture, C98_naca_convention, C98_parameters_kept, C98_regenerated, C98_restored, C98_unknown_convention
