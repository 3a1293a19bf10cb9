{
 "claims": [
  {
   "property": "C01",
   "status": "proved",
   "theorems": [
    "C01_translate_moves_every_point",
    "C01_translate_undone",
    "C01_translate_sequence"
   ],
   "note": "Arrays as values; array identity is C05."
  },
  {
   "property": "C02",
   "status": "proved",
   "theorems": [
    "C02_rotate_is_rotation",
    "C02_rotation_preserves_distances",
    "C02_rotations_add",
    "C02_rotation_undone",
    "C02_degrees",
    "C02_argument_errors",
    "C02_unequal_surfaces",
    "C02_move_sequences_are_isometries"
   ],
   "note": "Includes profiles whose surfaces have different numbers of points and arbitrary sequences of moves."
  },
  {
   "property": "C03",
   "status": "proved",
   "theorems": [
    "C03_reflect_negates_points",
    "C03_reflect_involution",
    "C03_reflect_is_half_turn"
   ],
   "note": ""
  },
  {
   "property": "C04",
   "status": "proved",
   "theorems": [
    "C04_scale_is_homothety",
    "C04_scale_reference_and_chord",
    "C04_scale_raises_iff_no_reference",
    "C04_scale_without_translation",
    "C04_scale_without_translation_total"
   ],
   "note": "Edges of the scaled profile may leave the 1e-4 tolerance when |k| > 1 and the end abscissae differ; stated exactly."
  },
  {
   "property": "C05",
   "status": "proved",
   "theorems": [
    "C05_owned_profile",
    "C05_separate_profiles",
    "C05_other_arrays",
    "C05_frame",
    "C05_by_reference",
    "C05_caller_arrays_follow",
    "C05_by_lists",
    "C05_by_parameters",
    "C05_by_reference_outcome",
    "C05_by_lists_outcome",
    "C05_by_parameters_outcome",
    "C05_shared_arrays",
    "C05_translate_repeated_array",
    "C05_scale_repeated_array",
    "C05_reflect_repeated_array",
    "C05_scale_shared_abscissae",
    "C05_rotate_detaches",
    "C05_camber_detaches_ordinates",
    "C05_integer_translate",
    "C05_integer_translate_half_done",
    "C05_integer_scale",
    "C05_integer_reflect"
   ],
   "note": "Arrays are one-dimensional objects that own their data (the rows bound by rotate do not overlap); element types other than int64 and float64 and integer overflow are not modelled."
  },
  {
   "property": "C06",
   "status": "proved",
   "theorems": [
    "C06_edges_characterised",
    "C06_edges_exist_iff_close",
    "C06_reference_point_is_midpoint",
    "C06_edges_commute_with_translation",
    "C06_edge_errors_commute_with_translation",
    "C06_reference_commutes_with_translation"
   ],
   "note": ""
  },
  {
   "property": "C07",
   "status": "proved",
   "theorems": [
    "C07_chord_line_points",
    "C07_chord_line_succeeds",
    "C07_chord_line_commutes_with_translation"
   ],
   "note": "Exact success condition included."
  },
  {
   "property": "C08",
   "status": "proved",
   "theorems": [
    "C08_set_thickness_max",
    "C08_set_thickness_of_flat_profile",
    "C08_thickness_computable"
   ],
   "note": "Direct and RBF-interpolated thickness."
  },
  {
   "property": "C09",
   "status": "proved",
   "theorems": [
    "C09_deform_camber_line",
    "C09_deform_camber_line_resampled"
   ],
   "note": "Also the resampled variant (n_interpolated_points given)."
  },
  {
   "property": "C10",
   "status": "proved",
   "theorems": [
    "C10_set_camber_line_max",
    "C10_zero_camber_divides_by_zero",
    "C10_max_camber_defined"
   ],
   "note": ""
  },
  {
   "property": "C11",
   "status": "proved",
   "theorems": [
    "C11_thickness_translation_invariant",
    "C11_thickness_scales",
    "C11_thickness_reflection_invariant",
    "C11_interpolated_thickness_horizontal",
    "C11_camber_horizontal",
    "C11_camber_vertical_refuted"
   ],
   "note": "Thickness claims proved; invariance of max_camber() under vertical translation is refuted (the interpolant does not reproduce constants), under horizontal translation proved."
  },
  {
   "property": "C12",
   "status": "proved",
   "theorems": [
    "C12_num_must_be_int",
    "C12_arguments_must_be_positive",
    "C12_interpolates",
    "C12_succeeds_iff_distinct"
   ],
   "note": "Exact success condition: abscissae of each surface pairwise distinct."
  },
  {
   "property": "C13",
   "status": "proved",
   "theorems": [
    "C13_consistent_coordinates_reach_parameter_generation",
    "C13_inconsistent_coordinates_rejected",
    "C13_moderate_coordinates_constructed",
    "C13_missing_coordinates_rejected",
    "C13_missing_parameters_rejected",
    "C13_other_keywords_rejected",
    "C13_parameters_accepted_iff_consistent",
    "C13_consistent_suffices_refuted"
   ],
   "note": "Upper and lower surfaces equally long and non-empty; a scalar passed for an array is outside the model."
  },
  {
   "property": "C14",
   "status": "proved",
   "theorems": [
    "C14_round_trip_iff",
    "C14_parameters_exist",
    "C14_unconditional_round_trip_refuted"
   ],
   "note": "Exact characterisation; the unconditional round trip is refuted."
  },
  {
   "property": "C15",
   "status": "proved",
   "theorems": [
    "C15_symmetric_about_camber"
   ],
   "note": "Values; distinctness of the two abscissa arrays is in the heap model (C05)."
  },
  {
   "property": "C16",
   "status": "proved",
   "theorems": [
    "C16_orthogonal_to_camber",
    "C16_american_keeps_camber"
   ],
   "note": "The lower-surface interpolant (scipy RBFInterpolator) is an arbitrary function."
  },
  {
   "property": "C17",
   "status": "proved",
   "theorems": [
    "C17_four_digit_foils"
   ],
   "note": "Stations are equally spaced in both modes (the code's cosine option changes how thickness is applied, not the stations)."
  },
  {
   "property": "C18",
   "status": "proved",
   "theorems": [
    "C18_thickness_distribution",
    "C18_four_digit_thickness",
    "C18_five_digit_thickness",
    "C18_symmetric_foils"
   ],
   "note": "Bound 1.0002 t proved by Bernstein certificates."
  },
  {
   "property": "C19",
   "status": "proved",
   "theorems": [
    "C19_camber_line_of_foil",
    "C19_camber_line_smooth",
    "C19_camber_line_bounded"
   ],
   "note": ""
  },
  {
   "property": "C20",
   "status": "proved",
   "theorems": [
    "C20_linear_spacing_ignores_lift_digit",
    "C20_cosine_spacing_scales_camber",
    "C20_thickness_orthogonal_iff_lift_two"
   ],
   "note": "Exact characterisation of orthogonality included."
  },
  {
   "property": "C21",
   "status": "proved",
   "theorems": [
    "C21_types",
    "C21_negative_sizes",
    "C21_float_sizes_truncate",
    "C21_small_negative_float_passes_check",
    "C21_zero_or_one_point_fails",
    "C21_other_lengths",
    "C21_non_digit",
    "C21_thickness_characters",
    "C21_third_digit_of_five",
    "C21_accepted_codes_are_digits_refuted"
   ],
   "note": "The claim that accepted codes consist of digits is refuted ('00-5')."
  },
  {
   "property": "C22",
   "status": "proved",
   "theorems": [
    "C22_wendland_shape",
    "C22_wendland_value",
    "C22_gaussian_shape",
    "C22_multiquadric_reciprocal",
    "C22_thin_plate_shape",
    "C22_basis_names",
    "C22_unknown_basis"
   ],
   "note": "All five basis functions over the reals; rounding not modelled."
  },
  {
   "property": "C23",
   "status": "proved",
   "theorems": [
    "C23_exact_at_nodes",
    "C23_single_interpolant",
    "C23_node_in_any_evaluation_set"
   ],
   "note": "Any basis, radius, dimension and node set for which the call succeeds; the solver is Gaussian elimination with partial pivoting over the reals instead of LAPACK."
  },
  {
   "property": "C24",
   "status": "proved",
   "theorems": [
    "C24_wendland_well_posed",
    "C24_wendland_eigenvalue_bound",
    "C24_wendland_matrix_symmetric",
    "C24_any_dimension_refuted"
   ],
   "note": "Well-posedness iff distinct nodes for nodes on a line, with the quantitative lower bound and symmetry of the matrix. Distinct nodes are not enough in 1296 dimensions (counterexample proved); dimensions between are not treated."
  },
  {
   "property": "C25",
   "status": "proved",
   "theorems": [
    "C25_linear",
    "C25_accumulates",
    "C25_node_order_irrelevant",
    "C25_short_output"
   ],
   "note": ""
  },
  {
   "property": "C26",
   "status": "proved",
   "theorems": [
    "C26_thin_plate_single_node",
    "C26_thin_plate_nodes_at_radius"
   ],
   "note": ""
  },
  {
   "property": "C27",
   "status": "proved",
   "theorems": [
    "C27_end_control_points",
    "C27_planar_end_control_points",
    "C27_negative_sizes"
   ],
   "note": "Degree must be below the number of control points (FITPACK reads beyond its knots otherwise, outside the model), npoints >= 1."
  },
  {
   "property": "C28",
   "status": "proved",
   "theorems": [
    "C28_convex_weights",
    "C28_bounds",
    "C28_affine_maps_commute",
    "C28_straight_lines"
   ],
   "note": ""
  },
  {
   "property": "C29",
   "status": "proved",
   "theorems": [
    "C29_linear",
    "C29_design_matrix"
   ],
   "note": ""
  },
  {
   "property": "C30",
   "status": "proved",
   "theorems": [
    "C30_round_trip",
    "C30_written_lines",
    "C30_empty_objects_are_not_read_back",
    "C30_integers_are_printable"
   ],
   "note": "str/float of array entries are parameters of the model; the round trip assumes they are inverse on the entries (true of Python floats), proved for integer entries."
  },
  {
   "property": "C31",
   "status": "proved",
   "theorems": [
    "C31_successful_read",
    "C31_numbers_come_from_the_file",
    "C31_read_errors",
    "C31_all_errors"
   ],
   "note": "configparser (Python 3.11 RawConfigParser) is modelled on ASCII text."
  },
  {
   "property": "C32",
   "status": "proved",
   "theorems": [
    "C32_write_validates",
    "C32_missing_distributions_become_zero"
   ],
   "note": "Writing to disk is assumed to succeed."
  },
  {
   "property": "C33",
   "status": "proved",
   "theorems": [
    "C33_missing_file",
    "C33_fresh_object"
   ],
   "note": ""
  },
  {
   "property": "C34",
   "status": "proved",
   "theorems": [
    "C34_failed_read_partition",
    "C34_unparsable_file_changes_nothing",
    "C34_failed_read_is_atomic_refuted"
   ],
   "note": "Atomicity refuted."
  },
  {
   "property": "C35",
   "status": "proved",
   "theorems": [
    "C35_end_points",
    "C35_least_squares",
    "C35_splines_are_reproduced",
    "C35_when_it_succeeds",
    "C35_no_radii",
    "C35_float_count",
    "C35_resampling_off"
   ],
   "note": "lstsq is modelled as the minimum-norm least-squares solution in exact arithmetic."
  },
  {
   "property": "C36",
   "status": "proved",
   "theorems": [
    "C36_update_adds_the_deformations",
    "C36_repeated_updates_accumulate",
    "C36_refusals"
   ],
   "note": ""
  },
  {
   "property": "C37",
   "status": "proved",
   "theorems": [
    "C37_unknown_names",
    "C37_calls_out_of_order",
    "C37_too_few_control_points",
    "C37_failed_calls_change_nothing",
    "C37_spline_is_the_curve_of_the_control_points",
    "C37_invariant"
   ],
   "note": ""
  },
  {
   "property": "C38",
   "status": "proved",
   "theorems": [
    "C38_samples_the_spline",
    "C38_when_it_succeeds"
   ],
   "note": "Abscissae compared in exact arithmetic."
  },
  {
   "property": "C39",
   "status": "proved",
   "theorems": [
    "C39_depends_on_the_parameters_only",
    "C39_compute_all_is_idempotent",
    "C39_wide_tolerances_succeed"
   ],
   "note": ""
  },
  {
   "property": "C40",
   "status": "proved",
   "theorems": [
    "C40_exported_file",
    "C40_reading_it_back",
    "C40_other_arguments",
    "C40_other_files_untouched",
    "C40_negative_count",
    "C40_degree_equal_to_count_is_useless",
    "C40_other_values_are_kept_refuted"
   ],
   "note": "Keeping all other values refuted."
  },
  {
   "property": "C41",
   "status": "proved",
   "theorems": [
    "C41_zero_entries_cannot_be_plotted",
    "C41_computed_values_can_be_plotted_refuted"
   ],
   "note": "Plottability of computed values refuted."
  },
  {
   "property": "C42",
   "status": "proved",
   "theorems": [
    "C42_construction"
   ],
   "note": ""
  },
  {
   "property": "C43",
   "status": "proved",
   "theorems": [
    "C43_pitch_angles",
    "C43_induced_rake"
   ],
   "note": ""
  },
  {
   "property": "C44",
   "status": "proved",
   "theorems": [
    "C44_points_on_cylinder",
    "C44_winding_arc_length",
    "C44_winding_preserves_speed",
    "C44_winding_chord_length",
    "C44_winding_contracts"
   ],
   "note": "wrap is the spec-side winding map; C44_points_on_cylinder is about the coordinates stored by the model"
  },
  {
   "property": "C45",
   "status": "proved",
   "theorems": [
    "C45_section_placement",
    "C45_placement_succeeds",
    "C45_chord_and_mid_chord",
    "C45_fewer_lower_points",
    "C45_more_lower_points"
   ],
   "note": ""
  },
  {
   "property": "C46",
   "status": "proved",
   "theorems": [
    "C46_shape_preserved",
    "C46_reflect_option"
   ],
   "note": ""
  },
  {
   "property": "C47",
   "status": "proved",
   "theorems": [
    "C47_sections_from_last_to_first",
    "C47_root_and_tip_exchanged",
    "C47_build_succeeds",
    "C47_more_lower_points"
   ],
   "note": "the surface builder (InterpolatedFace) is an arbitrary function parameter"
  },
  {
   "property": "C48",
   "status": "proved",
   "theorems": [
    "C48_sections_are_consumed",
    "C48_shared_section",
    "C48_second_call_differs",
    "C48_second_call_of_closed_sections"
   ],
   "note": ""
  },
  {
   "property": "C49",
   "status": "proved",
   "theorems": [
    "C49_thickness_override",
    "C49_camber_override",
    "C49_last_camber_ignored"
   ],
   "note": "the last-camber theorem holds for any outcome, including raising runs"
  },
  {
   "property": "C50",
   "status": "proved",
   "theorems": [
    "C50_rotate_coordinates",
    "C50_turn_is_isometry",
    "C50_turns_add",
    "C50_full_turn",
    "C50_x_keeps_axial_and_radius",
    "C50_rotations_add",
    "C50_degrees",
    "C50_invalid_calls",
    "C50_rotate_without_faces"
   ],
   "note": ""
  },
  {
   "property": "C51",
   "status": "proved",
   "theorems": [
    "C51_motions_move_faces_and_coordinates_alike",
    "C51_scale_without_coordinates",
    "C51_scale_without_faces",
    "C51_build_agrees",
    "C51_agreement_is_kept",
    "C51_y_rotation_keeps_agreement_refuted",
    "C51_mirror_keeps_agreement_refuted"
   ],
   "note": "two refutation theorems document the operations that break the agreement"
  },
  {
   "property": "C52",
   "status": "proved",
   "theorems": [
    "C52_mirror_point_and_normal",
    "C52_mirror_three_points",
    "C52_three_points_span_the_plane",
    "C52_reflection_is_involution",
    "C52_reflection_fixes_plane",
    "C52_reflection_exchanges_sides",
    "C52_reflection_is_isometry",
    "C52_mirror_twice",
    "C52_keywords_normal",
    "C52_keywords_points",
    "C52_keywords_out_of_order",
    "C52_wrong_number_of_arguments",
    "C52_wrong_number_of_coordinates",
    "C52_degenerate_planes"
   ],
   "note": "gp_Dir of a zero vector raising and reflection formula of gp_Trsf.SetMirror are part of the modelled OCC semantics"
  },
  {
   "property": "C53",
   "status": "proved",
   "theorems": [
    "C53_parameters_restored",
    "C53_normalized_blade_untouched",
    "C53_unmeasurable_section",
    "C53_failed_write_leaves_normalised",
    "C53_retry_does_not_repair",
    "C53_binary64_length_power_of_two",
    "C53_binary64_radius_power_of_two",
    "C53_binary64_length_error",
    "C53_binary64_restores_refuted"
   ],
   "note": "Exact-arithmetic model for the full method (PpgModel.v) with a disk that can refuse to open or fill up; binary64 model of the two conversions on Flocq floats (PpgFloatModel.v). C53_binary64_restores_refuted: diameter 0.3 and length 0.35."
  },
  {
   "property": "C54",
   "status": "proved",
   "theorems": [
    "C54_number_text",
    "C54_file_content",
    "C54_lower_abscissas_recoverable_refuted"
   ],
   "note": "The reader read_ppg (PpgSpec.v) is written independently of the writer. str() of a float is a parameter assumed not to contain a line end. C54_lower_abscissas_recoverable_refuted shows the omission of xdown."
  },
  {
   "property": "C55",
   "status": "proved",
   "theorems": [
    "C55_blades",
    "C55_between_two_blades",
    "C55_rotational_symmetry",
    "C55_congruent",
    "C55_balanced",
    "C55_second_propeller_differs",
    "C55_no_blades",
    "C55_float_number",
    "C55_build_failure"
   ],
   "note": "Proved for an arbitrary face builder; real arithmetic. deepcopy is modelled as copying the profiles together with the blade."
  },
  {
   "property": "C56",
   "status": "proved",
   "theorems": [
    "C56_solid_built_once",
    "C56_shape_built_once",
    "C56_first_access",
    "C56_shape_is_the_sewn_solid",
    "C56_failure_caches_nothing",
    "C56_first_access_fails",
    "C56_tmp_stl_fails",
    "C56_tmp_stl_is_current",
    "C56_display"
   ],
   "note": "The CAD kernel is a record of arbitrary functions, a new one for every access."
  },
  {
   "property": "C57",
   "status": "proved",
   "theorems": [
    "C57_blades_and_stem",
    "C57_by_coords",
    "C57_vertices_distinct",
    "C57_polygon_determines_triangle",
    "C57_blades_alone",
    "C57_unknown_selector",
    "C57_bad_index"
   ],
   "note": "Meshes without triangles are outside the model; np.unique is assumed to return a one-dimensional inverse. The documentation speaks of regions propellerTip and propellerStem, which the code never uses."
  },
  {
   "property": "C58",
   "status": "proved",
   "theorems": [
    "C58_obj_exports_unusable",
    "C58_assigned_attributes",
    "C58_failed_merge",
    "C58_shaft_only",
    "C58_blades_assigned"
   ],
   "note": "Histories are lists of public accesses including assignments of blades and shaft."
  },
  {
   "property": "C59",
   "status": "proved",
   "theorems": [
    "C59_unroll",
    "C59_bladex_plane",
    "C59_voronoi_plane",
    "C59_bladex_profile",
    "C59_voronoi_profile",
    "C59_level_chord",
    "C59_lists",
    "C59_bladex_succeeds",
    "C59_voronoi_succeeds"
   ],
   "note": "What OpenCASCADE yields for a section (edges, sampled points) and the interpolant are parameters; numbers are reals; a tangent of zero or a zero chord is NonFinite; n < 2 and, for the BladeX class, n > 500 are Unmodelled."
  },
  {
   "property": "C60",
   "status": "proved",
   "theorems": [
    "C60_parameters",
    "C60_profile",
    "C60_turned_blade",
    "C60_unturned_refuted",
    "C60_reconstruction"
   ],
   "note": "The slice is assumed to return the blade points themselves (in mm); OpenCASCADE surface fitting and intersection are not modelled."
  },
  {
   "property": "C61",
   "status": "proved",
   "theorems": [
    "C61_path_from",
    "C61_path_default",
    "C61_path_failures"
   ],
   "note": ""
  },
  {
   "property": "C62",
   "status": "proved",
   "theorems": [
    "C62_boundary",
    "C62_crossings",
    "C62_start_vertex",
    "C62_orientation",
    "C62_cut",
    "C62_triangle",
    "C62_fan",
    "C62_repeated_vertex",
    "C62_empty",
    "C62_level_refuted"
   ],
   "note": ""
  },
  {
   "property": "C63",
   "status": "proved",
   "theorems": [
    "C63_methods_fail",
    "C63_blade_never",
    "C63_stored_blade",
    "C63_propeller_never",
    "C63_sections",
    "C63_sections_short",
    "C63_no_list"
   ],
   "note": "Sections views aliasing the rows of xup etc. are not tracked; slots of recons_sections without a profile are Unmodelled in reconstruct_blade."
  },
  {
   "property": "C64",
   "status": "proved",
   "theorems": [
    "C64_stl",
    "C64_iges",
    "C64_other",
    "C64_not_done",
    "C64_status_ignored",
    "C64_splitext",
    "C64_extension_unique"
   ],
   "note": "Characters are 8-bit; OpenCASCADE and read_stl_file are parameters."
  },
  {
   "property": "C65",
   "status": "proved",
   "theorems": [
    "C65_sections",
    "C65_single",
    "C65_rejected",
    "C65_points_as_rows",
    "C65_three_points_as_rows",
    "C65_no_sections"
   ],
   "note": "Interpolation and lofting by OpenCASCADE are parameters."
  },
  {
   "property": "C66",
   "status": "proved",
   "theorems": [
    "C66_parameters_round_trip"
   ],
   "note": ""
  },
  {
   "property": "C67",
   "status": "proved",
   "theorems": [
    "C67_uncambered_constructions_agree"
   ],
   "note": ""
  },
  {
   "property": "C68",
   "status": "proved",
   "theorems": [
    "C68_five_digit_foils",
    "C68_standard_table",
    "C68_reflex_table",
    "C68_camber_line_smooth",
    "C68_reflex_closure_refuted",
    "C68_camber_below_chord_refuted"
   ],
   "note": "scipy's splrep/splev modelled as the exact not-a-knot cubic interpolant; closure of reflex codes 8/9 and camber below chord refuted."
  },
  {
   "property": "C69",
   "status": "proved",
   "theorems": [
    "C69_cox_de_boor",
    "C69_local_control",
    "C69_monotone",
    "C69_step_bound"
   ],
   "note": "FITPACK's splev/fpbspl recurrence is modelled, not its compiled code."
  },
  {
   "property": "C70",
   "status": "proved",
   "theorems": [
    "C70_windows_line_ends",
    "C70_comment_lines"
   ],
   "note": ""
  },
  {
   "property": "C71",
   "status": "proved",
   "theorems": [
    "C71_enough_points",
    "C71_values_after_compute_all"
   ],
   "note": ""
  },
  {
   "property": "C72",
   "status": "proved",
   "theorems": [
    "C72_figures",
    "C72_several_parameters"
   ],
   "note": "Grid, title and legend are not modelled."
  },
  {
   "property": "C73",
   "status": "proved",
   "theorems": [
    "C73_candidates"
   ],
   "note": "Voronoi and sampling are parameters."
  },
  {
   "property": "C74",
   "status": "proved",
   "theorems": [
    "C74_array",
    "C74_list"
   ],
   "note": "The failing comparison of a Python list with a float is OtherException (IndexError or ValueError depending on numpy)."
  },
  {
   "property": "C75",
   "status": "proved",
   "theorems": [
    "C75_cylinder",
    "C75_default",
    "C75_scaled_orientation",
    "C75_opposite_orientation",
    "C75_symmetric",
    "C75_errors"
   ],
   "note": "The point set made by BRepPrimAPI_MakeCylinder is modelled directly; non-positive radius or height and calls without coordinates are Unmodelled."
  },
  {
   "property": "C76",
   "status": "proved",
   "theorems": [
    "C76_file_follows_coordinates",
    "C76_file_follows_motions",
    "C76_with_curves",
    "C76_curves_succeed",
    "C76_failure_writes_nothing",
    "C76_not_generated",
    "C76_silent_failure"
   ],
   "note": "External CAD functions are parameters: surface builder (assumed equivariant under linear similarities where stated), curve builder, exception for a missing face, writability of the file. Tessellation is represented by its inputs (faces, sewing tolerance, deflection)."
  },
  {
   "property": "C77",
   "status": "proved",
   "theorems": [
    "C77_curve_points",
    "C77_on_the_cylinders",
    "C77_common_index",
    "C77_own_section_refuted",
    "C77_five_percent_with_reflection",
    "C77_leading_edge_refuted",
    "C77_curves_follow_motions",
    "C77_points_on_faces",
    "C77_mirrored_refuted"
   ],
   "note": "Three refutations record where the docstring's claims fail: index taken from another section, trailing edge without reflection, not moved by mirror."
  },
  {
   "property": "C78",
   "status": "proved",
   "theorems": [
    "C78_error_file_is_emptied",
    "C78_disk",
    "C78_argument_check",
    "C78_report",
    "C78_name_check"
   ],
   "note": "The attributes generated_upper_face and generated_lower_face are never set anywhere in the repository; the model takes them as optional values and the theorem is for None."
  },
  {
   "property": "C79",
   "status": "proved",
   "theorems": [
    "C79_plot",
    "C79_not_generated"
   ],
   "note": "Decorations of the figure are not modelled."
  },
  {
   "property": "C80",
   "status": "proved",
   "theorems": [
    "C80_whole_section",
    "C80_no_cylinder",
    "C80_coverage",
    "C80_whole_section_refuted"
   ],
   "note": "The point set of the OpenCASCADE cylinder and the blade as a point set are modelled directly."
  },
  {
   "property": "C81",
   "status": "proved",
   "theorems": [
    "C81_chord_exists",
    "C81_chord_on_cylinder",
    "C81_ends",
    "C81_straight_when_unrolled",
    "C81_tangent",
    "C81_constant_speed",
    "C81_ends_refuted",
    "C81_cutting_plane",
    "C81_cut_not_perpendicular"
   ],
   "note": "Real arithmetic; numpy arcsin is the inverse sine with NonFinite outside [-1,1]."
  },
  {
   "property": "C82",
   "status": "proved",
   "theorems": [
    "C82_camber_line",
    "C82_stations",
    "C82_first_cut_empty",
    "C82_coinciding_edges",
    "C82_succeeds",
    "C82_own_cut_refuted"
   ],
   "note": "Sections by planes and midpoints are parameters."
  },
  {
   "property": "C83",
   "status": "proved",
   "theorems": [
    "C83_edges"
   ],
   "note": "The order in which the explorer returns the edges is an input."
  },
  {
   "property": "C84",
   "status": "proved",
   "theorems": [
    "C84_fields_are_recovered",
    "C84_saved_file",
    "C84_reversed_can_be_saved",
    "C84_reversed_can_be_saved_voronoi",
    "C84_missing_rows",
    "C84_file_errors",
    "C84_file_determines_texts",
    "C84_long_sections_are_lost",
    "C84_all_properties_refuted"
   ],
   "note": "str(list) and str(array) are parameters, except that numpy abbreviates arrays above its print threshold of 1000 entries; text mode with line feed as line end."
  },
  {
   "property": "C85",
   "status": "proved",
   "theorems": [
    "C85_reflect_twice",
    "C85_reflect_is_exact"
   ],
   "note": "NaN payloads are not distinguished (Flocq BinarySingleNaN)."
  },
  {
   "property": "C86",
   "status": "proved",
   "theorems": [
    "C86_translate_error",
    "C86_exact_on_a_grid",
    "C86_there_and_back",
    "C86_order_kept",
    "C86_there_and_back_refuted",
    "C86_distinct_points_refuted"
   ],
   "note": "Round to nearest even, as numpy on float64."
  },
  {
   "property": "C87",
   "status": "proved",
   "theorems": [
    "C87_edges",
    "C87_tolerance",
    "C87_tolerance_literal",
    "C87_reference_point",
    "C87_nan_passes",
    "C87_scale_error",
    "C87_power_of_two",
    "C87_scale_about_error"
   ],
   "note": "Bounds are relative to the computed reference point."
  },
  {
   "property": "C88",
   "status": "proved",
   "theorems": [
    "C88_rotate_error"
   ],
   "note": "Accuracy of sine and cosine is a hypothesis."
  },
  {
   "property": "C89",
   "status": "proved",
   "theorems": [
    "C89_integers",
    "C89_integers_of_a_file"
   ],
   "note": "The grammar of int() is stated as a relation on texts and proved equivalent to the model's reader; a second theorem links it to the values found in the object after a successful read."
  },
  {
   "property": "C90",
   "status": "proved",
   "theorems": [
    "C90_spelling_of_an_option"
   ],
   "note": "Option lines start in the first column; the rest of the file is arbitrary."
  },
  {
   "property": "C91",
   "status": "proved",
   "theorems": [
    "C91_repeated_section",
    "C91_repeated_option",
    "C91_text_before_the_first_section",
    "C91_meaningless_line",
    "C91_option_without_a_name"
   ],
   "note": "Four kinds of malformed files; header and option lines are in the first column, the surrounding lines are arbitrary. Repeating [DEFAULT] is not an error."
  },
  {
   "property": "C92",
   "status": "proved",
   "theorems": [
    "C92_american_thickness"
   ],
   "note": "Newton and the RBF interpolant are parameters; exactness of the roots is a hypothesis."
  },
  {
   "property": "C93",
   "status": "proved",
   "theorems": [
    "C93_shift_invariance_refuted"
   ],
   "note": "Refuted with a concrete profile, for all oracles meeting the hypotheses; an example shows such oracles."
  },
  {
   "property": "C94",
   "status": "proved",
   "theorems": [
    "C94_lower_points_on_the_curve_refuted",
    "C94_american_round_trip_refuted"
   ],
   "note": "Both claims refuted with a concrete normalised section."
  },
  {
   "property": "C95",
   "status": "proved",
   "theorems": [
    "C95_well_posed",
    "C95_positive_definite",
    "C95_multiquadric_indefinite"
   ],
   "note": "Real arithmetic. Proved by expanding the kernels in power series of the scalar product (multiquadrics after lifting the nodes into the unit ball) and separating the nodes by polynomials."
  },
  {
   "property": "C96",
   "status": "proved",
   "theorems": [
    "C96_refinement",
    "C96_influence",
    "C96_influence_of_a_run",
    "C96_chord_line_history",
    "C96_motions_keep",
    "C96_stale_after_translation",
    "C96_edges_after_scaling",
    "C96_edges_after_failure",
    "C96_deformed_line"
   ],
   "note": "AirfoilModel.v: objects with all attributes, calls as a state-exception monad; noninterference by a two-run simulation."
  },
  {
   "property": "C97",
   "status": "proved",
   "theorems": [
    "C97_picture",
    "C97_keeps",
    "C97_no_coordinates",
    "C97_bad_file_name",
    "C97_line_is_none",
    "C97_line_never_computed",
    "C97_new_profiles_have_no_lines",
    "C97_announced_error_refuted",
    "C97_lines_do_not_follow"
   ],
   "note": "matplotlib.plot refuses arrays of different lengths; nothing else of it is modelled."
  },
  {
   "property": "C98",
   "status": "proved",
   "theorems": [
    "C98_parameters_kept",
    "C98_regenerated",
    "C98_restored",
    "C98_naca_convention",
    "C98_parameters_of_a_scaled_profile",
    "C98_parameters_of_a_shifted_profile",
    "C98_unknown_convention"
   ],
   "note": "The American thickness and curve are parameters."
  },
  {
   "property": "C99",
   "status": "proved",
   "theorems": [
    "C99_edges",
    "C99_order",
    "C99_path",
    "C99_prolongations",
    "C99_on_the_section",
    "C99_vertices",
    "C99_vertex_at_the_end_refuted",
    "C99_nothing_found",
    "C99_errors"
   ],
   "note": "Spline, wire, its vertices and the solutions of BRepExtrema_DistShapeShape are parameters; points coincide for MakeEdge if equal."
  },
  {
   "property": "C100",
   "status": "proved",
   "theorems": [
    "C100_section_points",
    "C100_airfoil_points",
    "C100_wind_unroll",
    "C100_unroll_wind",
    "C100_distances",
    "C100_torn",
    "C100_section",
    "C100_section_exists"
   ],
   "note": "Points at a distance along a wire, Voronoi map, spline and full camber wire are parameters."
  },
  {
   "property": "C101",
   "status": "proved",
   "theorems": [
    "C101_all_faces",
    "C101_order_refuted",
    "C101_solid",
    "C101_loose_face_refuted"
   ],
   "note": "Sewing and MakeSolid are parameters; files without roots and sewn shapes other than compound or shell are not modelled."
  },
  {
   "property": "C102",
   "status": "proved",
   "theorems": [
    "C102_params_lines",
    "C102_same_params",
    "C102_blade_text",
    "C102_blade_lines",
    "C102_display"
   ],
   "note": "numpy printing of arrays is a parameter; line theorems need arrays printed on one line."
  },
  {
   "property": "C103",
   "status": "proved",
   "theorems": [
    "C103_separate_sections",
    "C103_arrays_left_behind",
    "C103_coordinates",
    "C103_same_arrays",
    "C103_same_arrays_accepted",
    "C103_shared_abscissae",
    "C103_shared_abscissae_accepted"
   ],
   "note": "float64 arrays; the sharing cases are all four arrays shared by all sections and the two abscissae shared within each section, without thickness and camber overrides."
  },
  {
   "property": "C104",
   "status": "proved",
   "theorems": [
    "C104_section",
    "C104_as_modelled",
    "C104_ends",
    "C104_failures",
    "C104_succeeds",
    "C104_faces_in_step",
    "C104_display"
   ],
   "note": "OpenCASCADE results (faces, edges, wires, camber spline) are parameters; all control flow, sampling, unrolling and lists are modelled."
  },
  {
   "property": "C105",
   "status": "proved",
   "theorems": [
    "C105_deformed_values",
    "C105_control_points"
   ],
   "note": "Exact arithmetic; lstsq is the smallest least-squares solution, which is linear in its data. The guards of the plotting methods are not involved."
  },
  {
   "property": "C106",
   "status": "proved",
   "theorems": [
    "C106_samples_determine_control_points",
    "C106_planar",
    "C106_exactly_when",
    "C106_even_curve",
    "C106_fit_is_unique"
   ],
   "note": "Real arithmetic. Zeros of a spline are counted along its control polygon: the derivative of the Cox-de Boor recurrence and Rolle on every stretch where the curve does not vanish."
  },
  {
   "property": "C107",
   "status": "proved",
   "theorems": [
    "C107_control_abscissae",
    "C107_curve_abscissae",
    "C107_when_compute_all_succeeds",
    "C107_enough_curve_points"
   ],
   "note": "Real arithmetic. With the default rbf_points of 1000 the bound holds for every nbasis up to 1000."
  },
  {
   "property": "C108",
   "status": "proved",
   "theorems": [
    "C108_affine_control_points",
    "C108_undeformed_values"
   ],
   "note": "Real arithmetic. With resampling the Wendland interpolant of an affine function is not affine, so the statement is restricted to rbf_points of zero or None."
  },
  {
   "property": "C109",
   "status": "proved",
   "theorems": [
    "C109_any_samples",
    "C109_curve_through_the_data",
    "C109_any_tolerance_succeeds",
    "C109_displacements_are_added",
    "C109_undeformed_values"
   ],
   "note": "Real arithmetic; numpy.linalg.lstsq is modelled as any minimiser."
  },
  {
   "property": "C110",
   "status": "proved",
   "theorems": [
    "C110_read_back",
    "C110_printed"
   ],
   "note": "The printing and reading of binary64 numbers are computed with integers in the model, not assumed; that numpy prints the shortest numeral is an assumption on the library."
  },
  {
   "property": "C111",
   "status": "proved",
   "theorems": [
    "C111_accepted_texts",
    "C111_nearest",
    "C111_unique"
   ],
   "note": "ASCII texts."
  },
  {
   "property": "C112",
   "status": "proved",
   "theorems": [
    "C112_round_trip",
    "C112_copy",
    "C112_missing_file",
    "C112_default_radii"
   ],
   "note": "Composes C30/C31/C33 with C110; no assumption on number texts is left."
  },
  {
   "property": "C113",
   "status": "proved",
   "theorems": [
    "C113_numbers",
    "C113_not_numbers",
    "C113_abscissae_between",
    "C113_same_ends",
    "C113_nan_free_refuted"
   ],
   "note": "np.isclose as documented: numbers by tolerance, other values by ==."
  },
  {
   "property": "C114",
   "status": "proved",
   "theorems": [
    "C114_measured",
    "C114_set_ordinates",
    "C114_set_measured",
    "C114_relative_accuracy_refuted",
    "C114_flat",
    "C114_nan_measured",
    "C114_nan_spreads",
    "C114_overflow"
   ],
   "note": "Without interpolation: abscissae of the two surfaces equal, no number of points given."
  },
  {
   "property": "C115",
   "status": "proved",
   "theorems": [
    "C115_camber_line",
    "C115_deform",
    "C115_no_change",
    "C115_no_change_on_a_grid",
    "C115_no_change_refuted"
   ],
   "note": "Without interpolation: abscissae of the two surfaces equal, no number of points given."
  },
  {
   "property": "C116",
   "status": "proved",
   "theorems": [
    "C116_checked",
    "C116_coordinates",
    "C116_accepted",
    "C116_thickness",
    "C116_symmetric",
    "C116_thickness_exact_refuted",
    "C116_nan"
   ],
   "note": "British convention; arrays given as numpy arrays of binary64 numbers."
  },
  {
   "property": "C117",
   "status": "proved",
   "theorems": [
    "C117_thickness",
    "C117_camber",
    "C117_chord",
    "C117_chord_any",
    "C117_round_trip",
    "C117_always",
    "C117_nan",
    "C117_short_chord"
   ],
   "note": "British convention. Ordinates of the two surfaces combined without broadcasting."
  },
  {
   "property": "C118",
   "status": "proved",
   "theorems": [
    "C118_foil",
    "C118_leading_edge",
    "C118_interior",
    "C118_trailing_edge_crossed",
    "C118_trailing_edge_linear",
    "C118_stations",
    "C118_thickness",
    "C118_coordinates",
    "C118_accepted",
    "C118_constructor",
    "C118_no_points"
   ],
   "note": "np.power, np.arctan, np.sin and np.cos are parameters: any library with relative error at most 8 * 2^-53 (powers of 0 and 1 exact) meets the hypotheses, and one such library is exhibited. Five-digit foils in binary64: C119. ValidNacaFloat.v compares the model with the recorded arrays of the test suite bit for bit."
  },
  {
   "property": "C119",
   "status": "proved",
   "theorems": [
    "C119_foil",
    "C119_leading_edge",
    "C119_interior",
    "C119_trailing_edge_crossed",
    "C119_stations",
    "C119_coordinates",
    "C119_accepted",
    "C119_constructor",
    "C119_no_points",
    "C119_other_digit"
   ],
   "note": "scipy splines and the functions of the math library are parameters of stated accuracy; one instance meeting the hypotheses is exhibited. Second digits 6-9, where the splines extrapolate, and the reflex digit 1 are outside C119_coordinates. ValidNacaFive.v compares the model with recorded arrays bit for bit."
  },
  {
   "property": "C120",
   "status": "proved",
   "theorems": [
    "C120_level_line",
    "C120_chord_line",
    "C120_level",
    "C120_on_axis",
    "C120_max_camber",
    "C120_no_width",
    "C120_nan",
    "C120_four_digits",
    "C120_five_digits"
   ],
   "note": "The interpolating branch (default of 500 points) is not modelled in binary64. The camber is measured vertically, not perpendicularly to the chord as the docstring says."
  },
  {
   "property": "C121",
   "status": "proved",
   "theorems": [
    "C121_four_digits",
    "C121_five_digits"
   ],
   "note": "Cosine spacing of cambered foils gives surfaces with different abscissae, for which the code interpolates; that branch is not modelled in binary64."
  },
  {
   "property": "C122",
   "status": "proved",
   "theorems": [
    "C122_sampled",
    "C122_single",
    "C122_default",
    "C122_differing"
   ],
   "note": "n_interpolated_points is a natural number or None; surfaces of different lengths are outside (their comparison raises)."
  },
  {
   "property": "C123",
   "status": "proved",
   "theorems": [
    "C123_on_cylinders",
    "C123_built",
    "C123_uneven",
    "C123_nothing"
   ],
   "note": "np.sin and np.cos are parameters with a stated accuracy. Arrays of different lengths raise ValueError in np.array, as in numpy from 1.24; earlier versions build an object array there, which is not modelled."
  },
  {
   "property": "C124",
   "status": "proved",
   "theorems": [
    "C124_angles",
    "C124_two_pi",
    "C124_lengths"
   ],
   "note": "np.arctan is a parameter with a stated accuracy."
  },
  {
   "property": "C125",
   "status": "proved",
   "theorems": [
    "C125_rakes",
    "C125_no_skew",
    "C125_lengths"
   ],
   "note": "np.arctan and np.tan are parameters with a stated accuracy; np.radians multiplies by the rounded quotient pi/180 as numpy does."
  },
  {
   "property": "C126",
   "status": "proved",
   "theorems": [
    "C126_radians",
    "C126_degrees",
    "C126_refused"
   ],
   "note": "np.sin and np.cos are parameters with a stated accuracy. The rotation of the CAD faces is in C50 and C51 (real model). np.einsum is assumed to add the three terms in order from zero."
  },
  {
   "property": "C127",
   "status": "proved",
   "theorems": [
    "C127_placed",
    "C127_entries"
   ],
   "note": "np.arctan, np.tan, np.sin and np.cos are parameters with a stated accuracy. One section, already scaled; the scaling and the changes of thickness and camber are C87, C114 and C115, not composed with this bound."
  },
  {
   "property": "C128",
   "status": "proved",
   "theorems": [
    "C128_laid"
   ],
   "note": "np.arctan, np.tan, np.sin and np.cos are parameters with a stated accuracy. One section, already scaled (C87); several sections are stacked in C123."
  },
  {
   "property": "C129",
   "status": "proved",
   "theorems": [
    "C129_laid",
    "C129_built",
    "C129_refused"
   ],
   "note": "np.arctan, np.tan, np.sin and np.cos are parameters with a stated accuracy. Sections are distinct objects and already scaled (C87); changes of thickness and camber (C114, C115) are not composed."
  }
 ]
}
