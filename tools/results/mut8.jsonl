{"failed_lemmas": ["CurvesP.line2_distance_ok", "CurvesP.line2_distance_degenerate", "CurvesP4.height_of_distance", "CurvesP5.dist_cross", "CurvesP5.circle_line_tangent_wrong", "CurvesP5.circle_line_vertical_wrong"], "theorems_failed": ["C102_line2d_point_belongs_is_within_tolerance", "C102_line2d_point_distance_is_the_distance", "C102_line2d_point_distance_of_a_degenerate_line", "C104_far_lines_give_nothing", "C104_line_intersections_never_fails_refuted", "C104_lines_through_the_centre_give_the_ends_of_a_diameter", "C104_secant_lines_give_exactly_the_common_points", "C104_tangent_lines_give_a_common_point_refuted"], "statement_broken": [], "secs": 42, "id": "cu1"}
{"failed_lemmas": ["CurvesP.line2_distance_ok", "CurvesP4.height_of_distance", "CurvesP5.dist_cross", "CurvesP5.circle_line_tangent_wrong", "CurvesP5.circle_line_vertical_wrong"], "theorems_failed": ["C102_line2d_point_belongs_is_within_tolerance", "C102_line2d_point_distance_is_the_distance", "C104_far_lines_give_nothing", "C104_line_intersections_never_fails_refuted", "C104_lines_through_the_centre_give_the_ends_of_a_diameter", "C104_secant_lines_give_exactly_the_common_points", "C104_tangent_lines_give_a_common_point_refuted"], "statement_broken": [], "secs": 39, "id": "cu2"}
{"failed_lemmas": ["CurvesP4.helper_ok", "CurvesP4.helper_outside", "CurvesP5.circle_line_tangent_wrong"], "theorems_failed": ["C104_line_intersections_never_fails_refuted", "C104_secant_lines_give_exactly_the_common_points", "C104_tangent_lines_give_a_common_point_refuted"], "statement_broken": [], "secs": 37, "id": "cu3"}
{"failed_lemmas": ["CurvesP4.helper_ok", "CurvesP4.helper_outside", "CurvesP5.circle_line_tangent_wrong"], "theorems_failed": ["C104_line_intersections_never_fails_refuted", "C104_secant_lines_give_exactly_the_common_points", "C104_tangent_lines_give_a_common_point_refuted"], "statement_broken": [], "secs": 38, "id": "cu4"}
{"failed_lemmas": ["CurvesP.line2_inters_ok"], "theorems_failed": ["C102_line2d_distance_is_the_distance_refuted", "C102_line2d_distance_of_crossing_lines_is_zero", "C102_line2d_distance_of_parallel_lines_is_a_point", "C102_line2d_intersections_are_the_common_points"], "statement_broken": [], "secs": 30, "id": "cu5"}
{"failed_lemmas": ["CurvesP.line3_distance_ok"], "theorems_failed": ["C102_line3d_point_belongs_is_within_tolerance", "C102_line3d_point_distance_is_the_distance"], "statement_broken": [], "secs": 28, "id": "cu6"}
{"failed_lemmas": ["CurvesP.line3_distance_ok"], "theorems_failed": ["C102_line3d_point_belongs_is_within_tolerance", "C102_line3d_point_distance_is_the_distance"], "statement_broken": [], "secs": 28, "id": "cu7"}
{"failed_lemmas": ["CurvesP.line3_belongs_ok"], "theorems_failed": ["C102_line3d_point_belongs_is_within_tolerance"], "statement_broken": [], "secs": 31, "id": "cu8"}
{"failed_lemmas": ["CurvesP.line3_line_distance_parallel", "CurvesP2.line3_line_distance_wrong"], "theorems_failed": ["C102_line3d_distance_is_the_distance_refuted", "C102_line3d_distance_of_parallel_lines"], "statement_broken": [], "secs": 30, "id": "cu9"}
{"failed_lemmas": ["CurvesP.line3_line_distance_skew", "CurvesP2.line3_intersection_ok", "CurvesP2.line3_intersection_wrong"], "theorems_failed": ["C102_line3d_distance_of_non_parallel_lines", "C102_line3d_intersection_finds_the_common_point", "C102_line3d_intersection_is_a_common_point_within_tolerance", "C102_line3d_intersection_is_on_both_lines_refuted", "C102_line3d_skew_to"], "statement_broken": [], "secs": 31, "id": "cu10"}
{"failed_lemmas": ["CurvesP2.line3_skew_ok"], "theorems_failed": ["C102_line3d_skew_to"], "statement_broken": [], "secs": 29, "id": "cu11"}
{"failed_lemmas": ["CurvesP2.line3_intersection_ok"], "theorems_failed": ["C102_line3d_intersection_finds_the_common_point", "C102_line3d_intersection_is_a_common_point_within_tolerance"], "statement_broken": [], "secs": 26, "id": "cu12"}
{"failed_lemmas": ["CurvesP2.line3_intersection_ok", "CurvesP2.line3_intersection_wrong"], "theorems_failed": ["C102_line3d_intersection_finds_the_common_point", "C102_line3d_intersection_is_a_common_point_within_tolerance", "C102_line3d_intersection_is_on_both_lines_refuted"], "statement_broken": [], "secs": 31, "id": "cu13"}
{"failed_lemmas": ["CurvesP2.line3_intersection_ok"], "theorems_failed": ["C102_line3d_intersection_finds_the_common_point", "C102_line3d_intersection_is_a_common_point_within_tolerance"], "statement_broken": [], "secs": 27, "id": "cu14"}
{"failed_lemmas": [], "theorems_failed": [], "statement_broken": [], "secs": 27, "id": "cu15"}
{"failed_lemmas": ["CurvesP3.center_3_points_ok"], "theorems_failed": ["C103_from_3_points_fails_exactly_on_aligned_points", "C103_from_3_points_passes_through_the_points"], "statement_broken": [], "secs": 32, "id": "cu16"}
{"failed_lemmas": ["CurvesP3.center_3_points_ok", "CurvesP3.circle_3_points_err"], "theorems_failed": ["C103_from_3_points_fails_exactly_on_aligned_points", "C103_from_3_points_passes_through_the_points"], "statement_broken": [], "secs": 35, "id": "cu17"}
{"failed_lemmas": ["CurvesP3.circle_3_points_ok"], "theorems_failed": ["C103_from_3_points_fails_exactly_on_aligned_points", "C103_from_3_points_passes_through_the_points"], "statement_broken": [], "secs": 33, "id": "cu18"}
{"failed_lemmas": ["CurvesP3.circle_moment_shift"], "theorems_failed": ["C103_second_moment_follows_huygens"], "statement_broken": [], "secs": 32, "id": "cu19"}
{"failed_lemmas": ["CurvesP3.circle_moment_shift"], "theorems_failed": ["C103_second_moment_follows_huygens"], "statement_broken": [], "secs": 33, "id": "cu20"}
{"failed_lemmas": [], "theorems_failed": [], "statement_broken": [], "secs": 28, "id": "cu21"}
{"failed_lemmas": ["CurvesP3.circle_translation_ok", "CurvesP3.circle_axial_ok", "CurvesP3.circle_point_symmetric_center"], "theorems_failed": ["C103_axial_symmetry_moves_the_centre", "C103_point_symmetric_is_the_symmetry_refuted", "C103_point_symmetric_moves_the_centre_to_twice_the_point", "C103_translation_moves_every_point"], "statement_broken": [], "secs": 41, "id": "cu22"}
{"failed_lemmas": ["CurvesP3.circle_point_symmetric_center"], "theorems_failed": ["C103_point_symmetric_is_the_symmetry_refuted", "C103_point_symmetric_moves_the_centre_to_twice_the_point"], "statement_broken": [], "secs": 27, "id": "cu23"}
{"failed_lemmas": ["CurvesP3.circle_axial_ok"], "theorems_failed": ["C103_axial_symmetry_moves_the_centre"], "statement_broken": [], "secs": 30, "id": "cu24"}
{"failed_lemmas": [], "theorems_failed": [], "statement_broken": [], "secs": 26, "id": "cu25"}
{"failed_lemmas": ["CurvesP3.circle_belongs_edge"], "theorems_failed": ["C103_point_belongs_with_edge"], "statement_broken": [], "secs": 30, "id": "cu26"}
{"failed_lemmas": ["CurvesP3.circle_belongs_open"], "theorems_failed": ["C103_point_belongs_without_edge"], "statement_broken": [], "secs": 26, "id": "cu27"}
{"failed_lemmas": ["CurvesP3.circle_distance_minimal", "CurvesP3.circle_distance_attained", "CurvesP6.circles_snapped_wrong", "CurvesP7.circle2_abscissa_off"], "theorems_failed": ["C103_point_distance_is_a_lower_bound", "C103_point_distance_is_attained", "C105_returned_points_are_on_both_circles_refuted", "C106_abscissa_of_a_point_off_the_circle_fails"], "statement_broken": [], "secs": 38, "id": "cu28"}
{"failed_lemmas": ["CurvesP3.circle_rectangle_contains"], "theorems_failed": ["C103_bounding_rectangle_contains_the_disc"], "statement_broken": [], "secs": 29, "id": "cu29"}
{"failed_lemmas": ["CurvesP4.helper_ok", "CurvesP4.helper_outside", "CurvesP5.circle_line_tangent_wrong"], "theorems_failed": ["C104_line_intersections_never_fails_refuted", "C104_secant_lines_give_exactly_the_common_points", "C104_tangent_lines_give_a_common_point_refuted"], "statement_broken": [], "secs": 32, "id": "cu30"}
{"failed_lemmas": ["CurvesP5.circle_line_tangent_wrong"], "theorems_failed": ["C104_tangent_lines_give_a_common_point_refuted"], "statement_broken": [], "secs": 30, "id": "cu31"}
{"failed_lemmas": ["CurvesP4.helper_ok"], "theorems_failed": ["C104_secant_lines_give_exactly_the_common_points"], "statement_broken": [], "secs": 32, "id": "cu32"}
{"failed_lemmas": ["CurvesP4.helper_ok"], "theorems_failed": ["C104_secant_lines_give_exactly_the_common_points"], "statement_broken": [], "secs": 30, "id": "cu33"}
{"failed_lemmas": ["CurvesP5.circle_line_far", "CurvesP5.circle_line_secant", "CurvesP5.circle_line_through", "CurvesP5.circle_line_tangent_wrong", "CurvesP5.circle_line_vertical_wrong"], "theorems_failed": ["C104_far_lines_give_nothing", "C104_line_intersections_never_fails_refuted", "C104_lines_through_the_centre_give_the_ends_of_a_diameter", "C104_secant_lines_give_exactly_the_common_points", "C104_tangent_lines_give_a_common_point_refuted"], "statement_broken": [], "secs": 41, "id": "cu34"}
{"failed_lemmas": ["CurvesP5.circle_line_through"], "theorems_failed": ["C104_lines_through_the_centre_give_the_ends_of_a_diameter"], "statement_broken": [], "secs": 32, "id": "cu35"}
{"failed_lemmas": ["CurvesP5.circle_line_secant"], "theorems_failed": ["C104_secant_lines_give_exactly_the_common_points"], "statement_broken": [], "secs": 30, "id": "cu36"}
{"failed_lemmas": ["CurvesP6.circles_secant", "CurvesP6.circles_snapped_wrong"], "theorems_failed": ["C105_returned_points_are_on_both_circles_refuted", "C105_secant_circles_give_exactly_the_common_points"], "statement_broken": [], "secs": 27, "id": "cu37"}
{"failed_lemmas": ["CurvesP6.circles_disjoint", "CurvesP6.circles_secant", "CurvesP6.circles_snapped_wrong"], "theorems_failed": ["C105_disjoint_circles_give_nothing", "C105_returned_points_are_on_both_circles_refuted", "C105_secant_circles_give_exactly_the_common_points"], "statement_broken": [], "secs": 30, "id": "cu38"}
{"failed_lemmas": ["CurvesP6.circles_disjoint", "CurvesP6.circles_secant", "CurvesP6.circles_snapped_wrong"], "theorems_failed": ["C105_disjoint_circles_give_nothing", "C105_returned_points_are_on_both_circles_refuted", "C105_secant_circles_give_exactly_the_common_points"], "statement_broken": [], "secs": 30, "id": "cu39"}
{"failed_lemmas": ["CurvesP6.circles_secant"], "theorems_failed": ["C105_secant_circles_give_exactly_the_common_points"], "statement_broken": [], "secs": 26, "id": "cu40"}
{"failed_lemmas": ["CurvesP6.circle_inters_dedup"], "theorems_failed": ["C105_duplicates_are_removed", "C105_returned_points_are_on_both_circles_refuted"], "statement_broken": [], "secs": 31, "id": "cu41"}
{"failed_lemmas": ["CurvesP7.circle2_abscissa_on", "CurvesP7.circle2_abscissa_exact"], "theorems_failed": ["C106_abscissa_of_a_point_is_its_arc_length", "C106_abscissa_then_point_at_abscissa_is_the_identity"], "statement_broken": [], "secs": 31, "id": "cu42"}
{"failed_lemmas": ["CurvesP7.circle2_at_ok"], "theorems_failed": ["C106_abscissa_then_point_at_abscissa_is_the_identity", "C106_point_at_abscissa_is_the_point_at_that_arc_length"], "statement_broken": [], "secs": 31, "id": "cu43"}
{"failed_lemmas": ["CurvesP7.circle2_at_ok"], "theorems_failed": ["C106_abscissa_then_point_at_abscissa_is_the_identity", "C106_point_at_abscissa_is_the_point_at_that_arc_length"], "statement_broken": [], "secs": 33, "id": "cu44"}
{"failed_lemmas": ["CurvesP7.linspace_nth"], "theorems_failed": ["C106_discretization_is_closed", "C106_discretization_of_a_3d_circle", "C106_discretization_points_are_evenly_spaced"], "statement_broken": [], "secs": 31, "id": "cu45"}
{"failed_lemmas": ["CurvesP7.circle2_discretization_ok"], "theorems_failed": ["C106_discretization_is_closed", "C106_discretization_points_are_evenly_spaced"], "statement_broken": [], "secs": 30, "id": "cu46"}
{"failed_lemmas": ["CurvesP9.circle3_belongs_near"], "theorems_failed": ["C107_belonging_points_are_near_the_circle"], "statement_broken": [], "secs": 29, "id": "cu47"}
{"failed_lemmas": [], "theorems_failed": [], "statement_broken": [], "secs": 26, "id": "cu48"}
{"failed_lemmas": ["CurvesP9.circle3_center_normal_ok"], "theorems_failed": ["C107_from_center_normal"], "statement_broken": [], "secs": 29, "id": "cu49"}
{"failed_lemmas": ["CurvesP8.circle3_3_points_ok", "CurvesP9.circle3_3_points_wrong"], "theorems_failed": ["C107_from_3_points_passes_through_the_points_refuted", "C107_from_3_points_passes_through_the_points_within_2e_6"], "statement_broken": [], "secs": 31, "id": "cu50"}
{"failed_lemmas": ["CurvesP8.circle3_3_points_ok", "CurvesP9.circle3_3_points_wrong"], "theorems_failed": ["C107_from_3_points_passes_through_the_points_refuted", "C107_from_3_points_passes_through_the_points_within_2e_6"], "statement_broken": [], "secs": 29, "id": "cu51"}
{"failed_lemmas": ["CurvesP9.circle3_abscissa_exact"], "theorems_failed": ["C106_abscissa_of_a_point_of_a_3d_circle"], "statement_broken": [], "secs": 40, "id": "cu52"}
{"failed_lemmas": ["CurvesP9.circle3_at_ok"], "theorems_failed": ["C106_point_at_abscissa_of_a_3d_circle"], "statement_broken": [], "secs": 23, "id": "cu53"}
{"failed_lemmas": ["CurvesP9.circle3_discretization_ok"], "theorems_failed": ["C106_discretization_of_a_3d_circle"], "statement_broken": [], "secs": 23, "id": "cu54"}
{"failed_lemmas": ["CurvesP9.circle3_reverse_ok"], "theorems_failed": ["C107_reverse_keeps_the_points_and_reverses_the_sense"], "statement_broken": [], "secs": 21, "id": "cu55"}
{"failed_lemmas": ["CurvesP.line2_line_distance_parallel"], "theorems_failed": ["C102_line2d_distance_is_the_distance_refuted", "C102_line2d_distance_of_parallel_lines_is_a_point"], "statement_broken": [], "secs": 21, "id": "cu56"}
{"failed_lemmas": ["EdgesP.segment2_ok", "EdgesP.segment2_err", "EdgesP.segment2_inv"], "theorems_failed": ["C108_a_segment_joins_two_different_points", "C108_a_segment_of_one_point_is_rejected", "C108_direction_independent_is_close", "C108_reverse", "C109_split_cuts_the_segment_in_two", "C109_split_keeps_the_points_refuted", "C109_trim_joins_the_two_points", "C109_trim_of_any_two_points_refuted", "C112_the_shared_section_is_on_both", "C112_the_shared_section_of_overlapping_segments"], "statement_broken": [], "secs": 26, "id": "ed1"}
{"failed_lemmas": ["EdgesP.sg2_abscissa_param"], "theorems_failed": ["C108_abscissa_of_point_at_abscissa", "C108_point_at_abscissa_of_abscissa"], "statement_broken": [], "secs": 23, "id": "ed2"}
{"failed_lemmas": ["EdgesP.sg2_abscissa_param", "EdgesP.sg2_abscissa_outside"], "theorems_failed": ["C108_abscissa_of_any_point_is_that_of_its_projection", "C108_abscissa_of_point_at_abscissa", "C108_abscissa_rejects_points_off_the_segment_refuted", "C108_point_at_abscissa_of_abscissa"], "statement_broken": [], "secs": 28, "id": "ed3"}
{"failed_lemmas": ["EdgesP.sg2_abscissa_param", "EdgesP.sg2_abscissa_outside"], "theorems_failed": ["C108_abscissa_of_any_point_is_that_of_its_projection", "C108_abscissa_of_point_at_abscissa", "C108_abscissa_rejects_points_off_the_segment_refuted", "C108_point_at_abscissa_of_abscissa"], "statement_broken": [], "secs": 28, "id": "ed4"}
{"failed_lemmas": ["EdgesP3.sg3_abscissa_param", "EdgesP3.sg3_abscissa_outside"], "theorems_failed": ["C108_abscissa_of_any_point_is_that_of_its_projection_3d", "C108_abscissa_of_point_at_abscissa_3d", "C108_point_at_abscissa_of_abscissa_3d"], "statement_broken": [], "secs": 28, "id": "ed5"}
{"failed_lemmas": ["EdgesP3.sg3_abscissa_param", "EdgesP3.sg3_abscissa_outside"], "theorems_failed": ["C108_abscissa_of_any_point_is_that_of_its_projection_3d", "C108_abscissa_of_point_at_abscissa_3d", "C108_point_at_abscissa_of_abscissa_3d"], "statement_broken": [], "secs": 28, "id": "ed6"}
{"failed_lemmas": ["EdgesP.sg2_pat_param"], "theorems_failed": ["C108_abscissa_0_is_the_start", "C108_abscissa_discretization", "C108_abscissa_length_is_the_end", "C108_abscissa_of_point_at_abscissa", "C108_abscissas_measure_distances", "C108_discretization_is_regular", "C108_point_at_abscissa_is_on_the_line", "C108_point_at_abscissa_of_abscissa", "C108_the_middle_is_at_half_length", "C112_the_shared_section_is_on_both", "C112_the_shared_section_never_raises_refuted", "C112_the_shared_section_of_overlapping_segments"], "statement_broken": [], "secs": 21, "id": "ed7"}
{"failed_lemmas": ["EdgesP3.sg3_pat_param"], "theorems_failed": ["C108_abscissa_0_is_the_start_3d", "C108_abscissa_length_is_the_end_3d", "C108_abscissa_of_point_at_abscissa_3d", "C108_abscissas_measure_distances_3d", "C108_discretization_is_regular_3d", "C108_point_at_abscissa_of_abscissa_3d", "C108_the_middle_is_at_half_length_3d", "C113_to_bspline_curve_covers_the_segment_refuted", "C113_to_bspline_curve_points"], "statement_broken": [], "secs": 23, "id": "ed8"}
{"failed_lemmas": ["EdgesP.sg2_pat_middle", "EdgesP12.mid_seg"], "theorems_failed": ["C108_the_middle_is_at_half_length", "C112_the_shared_section_is_on_both", "C112_the_shared_section_never_raises_refuted", "C112_the_shared_section_of_overlapping_segments"], "statement_broken": [], "secs": 28, "id": "ed9"}
{"failed_lemmas": ["EdgesP3.sg3_pat_middle"], "theorems_failed": ["C108_the_middle_is_at_half_length_3d"], "statement_broken": [], "secs": 25, "id": "ed10"}
{"failed_lemmas": ["EdgesP.number_of_points_ge2"], "theorems_failed": ["C108_discretization_is_regular", "C108_discretization_is_regular_3d"], "statement_broken": [], "secs": 27, "id": "ed11"}
{"failed_lemmas": ["EdgesP.sg2_discretization_is"], "theorems_failed": ["C108_discretization_is_regular"], "statement_broken": [], "secs": 25, "id": "ed12"}
{"failed_lemmas": ["EdgesP3.sg3_discretization_is"], "theorems_failed": ["C108_discretization_is_regular_3d"], "statement_broken": [], "secs": 26, "id": "ed13"}
{"failed_lemmas": ["EdgesP6.linspace_in"], "theorems_failed": ["C108_abscissa_discretization"], "statement_broken": [], "secs": 26, "id": "ed14"}
{"failed_lemmas": ["EdgesP6.abscissa_points2_spec"], "theorems_failed": ["C108_abscissa_discretization"], "statement_broken": [], "secs": 24, "id": "ed15"}
{"failed_lemmas": [], "theorems_failed": [], "statement_broken": [], "secs": 24, "id": "ed16"}
{"failed_lemmas": ["EdgesP4.sg2_split_spec", "EdgesP5.P_split", "EdgesP11.split_both"], "theorems_failed": ["C109_split_cuts_the_segment_in_two", "C109_trim_joins_the_two_points", "C109_trim_of_any_two_points_refuted", "C112_the_shared_section_is_on_both", "C112_the_shared_section_of_overlapping_segments"], "statement_broken": [], "secs": 36, "id": "ed17"}
{"failed_lemmas": ["EdgesP4.sg2_split_spec", "EdgesP5.P_split", "EdgesP11.split_both"], "theorems_failed": ["C109_split_cuts_the_segment_in_two", "C109_trim_joins_the_two_points", "C109_trim_of_any_two_points_refuted", "C112_the_shared_section_is_on_both", "C112_the_shared_section_of_overlapping_segments"], "statement_broken": [], "secs": 37, "id": "ed18"}
{"failed_lemmas": ["EdgesP4.sg3_split_spec"], "theorems_failed": ["C109_split_cuts_the_segment_in_two_3d"], "statement_broken": [], "secs": 29, "id": "ed19"}
{"failed_lemmas": ["EdgesP4.sg2_belongs_spec"], "theorems_failed": ["C109_point_belongs_is_within_tolerance", "C109_trim_joins_the_two_points", "C109_trim_of_any_two_points_refuted", "C111_distance_to_a_line_is_the_least", "C112_the_shared_section_is_on_both", "C112_the_shared_section_never_raises_refuted", "C112_the_shared_section_of_overlapping_segments"], "statement_broken": [], "secs": 27, "id": "ed20"}
{"failed_lemmas": ["EdgesP11.sg2_reverse_spec", "EdgesP11.sg2_any_direction_spec"], "theorems_failed": ["C108_direction_independent_is_close", "C108_reverse"], "statement_broken": [], "secs": 29, "id": "ed21"}
{"failed_lemmas": ["EdgesP11.sg2_any_direction_spec"], "theorems_failed": ["C108_direction_independent_is_close"], "statement_broken": [], "secs": 27, "id": "ed22"}
{"failed_lemmas": ["EdgesP11.sg2_any_direction_spec"], "theorems_failed": ["C108_direction_independent_is_close"], "statement_broken": [], "secs": 27, "id": "ed23"}
{"failed_lemmas": ["EdgesP5.trim_P", "EdgesP5.sg2_trim_close"], "theorems_failed": ["C109_trim_joins_the_two_points", "C109_trim_of_any_two_points_refuted"], "statement_broken": [], "secs": 27, "id": "ed24"}
{"failed_lemmas": ["EdgesP5.trim_P"], "theorems_failed": ["C109_trim_joins_the_two_points"], "statement_broken": [], "secs": 25, "id": "ed25"}
{"failed_lemmas": ["EdgesP5.pick_yes"], "theorems_failed": ["C109_trim_joins_the_two_points", "C109_trim_of_any_two_points_refuted"], "statement_broken": [], "secs": 28, "id": "ed26"}
{"failed_lemmas": ["EdgesP7.sg2_rect_valid", "EdgesP7.sg2_rect_in", "EdgesP7.sg2_rect_least"], "theorems_failed": ["C110_bounding_rectangle_contains_the_segment", "C110_bounding_rectangle_is_the_least", "C110_intersections_finds_the_common_point", "C111_distance_between_segments_is_the_least"], "statement_broken": [], "secs": 33, "id": "ed27"}
{"failed_lemmas": ["EdgesP10.sg3_box_in"], "theorems_failed": ["C113_bounding_box_contains_the_segment"], "statement_broken": [], "secs": 28, "id": "ed28"}
{"failed_lemmas": ["EdgesP7.colinear2_no"], "theorems_failed": ["C110_intersections_finds_every_common_point_refuted", "C110_intersections_finds_the_common_point", "C110_line_crossings_leave_out_the_ends", "C110_line_intersections_finds_the_common_point", "C111_distance_between_segments_is_the_least", "C111_distance_of_crossing_segments_is_zero_refuted", "C112_the_shared_section_never_raises_refuted", "C112_the_shared_section_of_overlapping_segments"], "statement_broken": [], "secs": 22, "id": "ed29"}
{"failed_lemmas": ["EdgesP7.projection_param"], "theorems_failed": ["C110_intersections_are_on_both", "C110_intersections_finds_the_common_point", "C110_intersections_never_raises", "C110_line_crossings_leave_out_the_ends", "C110_line_intersections_are_on_both", "C110_line_intersections_finds_the_common_point", "C110_line_intersections_of_a_line_that_stays_away", "C111_distance_between_segments_is_the_least"], "statement_broken": [], "secs": 24, "id": "ed30"}
{"failed_lemmas": ["EdgesP7.projection_param"], "theorems_failed": ["C110_intersections_are_on_both", "C110_intersections_finds_the_common_point", "C110_intersections_never_raises", "C110_line_crossings_leave_out_the_ends", "C110_line_intersections_are_on_both", "C110_line_intersections_finds_the_common_point", "C110_line_intersections_of_a_line_that_stays_away", "C111_distance_between_segments_is_the_least"], "statement_broken": [], "secs": 23, "id": "ed31"}
{"failed_lemmas": [], "theorems_failed": [], "statement_broken": [], "secs": 22, "id": "ed32"}
{"failed_lemmas": ["EdgesP7.sg2_line_sound", "EdgesP7.sg2_line_far"], "theorems_failed": ["C110_line_intersections_are_on_both", "C110_line_intersections_of_a_line_that_stays_away"], "statement_broken": [], "secs": 27, "id": "ed33"}
{"failed_lemmas": ["EdgesP11.sg2_crossings_sub", "EdgesP11.sg2_crossings_complete"], "theorems_failed": ["C110_line_crossings_are_line_intersections", "C110_line_crossings_leave_out_the_ends"], "statement_broken": [], "secs": 30, "id": "ed34"}
{"failed_lemmas": ["EdgesP7.sg2_inter_sound", "EdgesP8.sg2_inter_some"], "theorems_failed": ["C110_intersections_are_on_both", "C111_distance_between_segments_is_the_least"], "statement_broken": [], "secs": 29, "id": "ed35"}
{"failed_lemmas": ["EdgesP7.sg2_inter_complete"], "theorems_failed": ["C110_intersections_finds_the_common_point", "C111_distance_between_segments_is_the_least"], "statement_broken": [], "secs": 30, "id": "ed36"}
{"failed_lemmas": ["EdgesP8.closest_spec"], "theorems_failed": ["C111_distance_between_disjoint_segments_is_exact", "C111_distance_between_segments_is_the_least", "C111_distance_of_crossing_segments_is_zero_refuted"], "statement_broken": [], "secs": 26, "id": "ed37"}
{"failed_lemmas": ["EdgesP8.closest_spec"], "theorems_failed": ["C111_distance_between_disjoint_segments_is_exact", "C111_distance_between_segments_is_the_least", "C111_distance_of_crossing_segments_is_zero_refuted"], "statement_broken": [], "secs": 27, "id": "ed38"}
{"failed_lemmas": ["EdgesP8.first_least_spec"], "theorems_failed": ["C111_distance_between_disjoint_segments_is_exact", "C111_distance_between_segments_is_the_least", "C111_distance_of_crossing_segments_is_zero_refuted"], "statement_broken": [], "secs": 27, "id": "ed39"}
{"failed_lemmas": ["EdgesP8.sg2_distance_disjoint", "EdgesP8.sg2_distance_flat"], "theorems_failed": ["C111_distance_between_disjoint_segments_is_exact", "C111_distance_between_segments_is_the_least", "C111_distance_of_crossing_segments_is_zero_refuted"], "statement_broken": [], "secs": 28, "id": "ed40"}
{"failed_lemmas": ["EdgesP8.sg2_distance_disjoint", "EdgesP8.sg2_distance_flat"], "theorems_failed": ["C111_distance_between_disjoint_segments_is_exact", "C111_distance_between_segments_is_the_least", "C111_distance_of_crossing_segments_is_zero_refuted"], "statement_broken": [], "secs": 30, "id": "ed41"}
{"failed_lemmas": ["EdgesP8.sg2_distance_total"], "theorems_failed": ["C111_distance_between_segments_is_the_least"], "statement_broken": [], "secs": 28, "id": "ed42"}
{"failed_lemmas": ["EdgesP9.closest_line"], "theorems_failed": ["C111_distance_to_a_line_is_the_least"], "statement_broken": [], "secs": 25, "id": "ed43"}
{"failed_lemmas": ["EdgesP9.sg2_line_distance_spec"], "theorems_failed": ["C111_distance_to_a_line_is_the_least"], "statement_broken": [], "secs": 25, "id": "ed44"}
{"failed_lemmas": ["EdgesP9.sg2_line_distance_spec"], "theorems_failed": ["C111_distance_to_a_line_is_the_least"], "statement_broken": [], "secs": 26, "id": "ed45"}
{"failed_lemmas": ["EdgesP11.all_belong_spec"], "theorems_failed": ["C112_the_shared_section_is_on_both", "C112_the_shared_section_never_raises_refuted", "C112_the_shared_section_of_overlapping_segments"], "statement_broken": [], "secs": 32, "id": "ed46"}
{"failed_lemmas": ["EdgesP11.any_belong_spec"], "theorems_failed": ["C112_the_shared_section_is_on_both", "C112_the_shared_section_never_raises_refuted", "C112_the_shared_section_of_overlapping_segments"], "statement_broken": [], "secs": 32, "id": "ed47"}
{"failed_lemmas": ["EdgesP11.split_both", "EdgesP12.shared_P"], "theorems_failed": ["C112_the_shared_section_is_on_both", "C112_the_shared_section_of_overlapping_segments"], "statement_broken": [], "secs": 30, "id": "ed48"}
{"failed_lemmas": ["EdgesP11.shared_sound", "EdgesP12.shared_P"], "theorems_failed": ["C112_the_shared_section_is_on_both", "C112_the_shared_section_of_overlapping_segments"], "statement_broken": [], "secs": 29, "id": "ed49"}
{"failed_lemmas": ["EdgesP11.shared_sound", "EdgesP12.shared_P"], "theorems_failed": ["C112_the_shared_section_is_on_both", "C112_the_shared_section_of_overlapping_segments"], "statement_broken": [], "secs": 31, "id": "ed50"}
{"failed_lemmas": ["EdgesP11.shared_sound", "EdgesP12.shared_P", "EdgesP12.shared_raises"], "theorems_failed": ["C112_the_shared_section_is_on_both", "C112_the_shared_section_never_raises_refuted", "C112_the_shared_section_of_overlapping_segments"], "statement_broken": [], "secs": 31, "id": "ed51"}
{"failed_lemmas": ["EdgesP11.shared_sound", "EdgesP12.shared_P", "EdgesP12.shared_raises"], "theorems_failed": ["C112_the_shared_section_is_on_both", "C112_the_shared_section_never_raises_refuted", "C112_the_shared_section_of_overlapping_segments"], "statement_broken": [], "secs": 31, "id": "ed52"}
{"failed_lemmas": [], "theorems_failed": [], "statement_broken": [], "secs": 24, "id": "ed53"}
{"failed_lemmas": [], "theorems_failed": [], "statement_broken": [], "secs": 27, "id": "ed54"}
{"failed_lemmas": ["EdgesP10.sg3_inter_sound"], "theorems_failed": ["C113_intersections_are_on_both"], "statement_broken": [], "secs": 31, "id": "ed55"}
{"failed_lemmas": ["EdgesP10.sg3_contains_wrong"], "theorems_failed": ["C113_contains_is_membership_refuted"], "statement_broken": [], "secs": 29, "id": "ed56"}
{"failed_lemmas": ["EdgesP10.sg3_bspline_points_is"], "theorems_failed": ["C113_to_bspline_curve_covers_the_segment_refuted", "C113_to_bspline_curve_points"], "statement_broken": [], "secs": 30, "id": "ed57"}
{"failed_lemmas": ["EdgesP10.sg3_distance_cross", "EdgesP10.sg3_distance_near", "EdgesP10.sg3_distance_wrong"], "theorems_failed": ["C113_distance_is_never_too_small", "C113_distance_is_the_least_refuted", "C113_distance_when_the_common_perpendicular_meets_both"], "statement_broken": [], "secs": 32, "id": "ed58"}
{"failed_lemmas": [], "theorems_failed": [], "statement_broken": [], "secs": 25, "id": "ed59"}
{"failed_lemmas": ["EdgesP.sg2_length_dir", "EdgesP.sg2_pat_dist", "EdgesP.sg2_abscissa_param", "EdgesP.sg2_pat_of_abscissa", "EdgesP4.sg2_split_spec", "EdgesP4.sg2_split_off", "EdgesP5.len_pos", "EdgesP7.apart_spec", "EdgesP7.accept_near", "EdgesP7.flat_colinear", "EdgesP7.sg2_inter_flat", "EdgesP8.param_inj", "EdgesP11.sg2_reverse_spec", "EdgesP11.sg2_abscissa_off", "EdgesP12.colinear_P", "EdgesP12.shared_raises", "P_Edges.C108_nonvacuous"], "theorems_failed": ["C108_abscissa_0_is_the_start", "C108_abscissa_discretization", "C108_abscissa_length_is_the_end", "C108_abscissa_of_any_point_is_that_of_its_projection", "C108_abscissa_of_point_at_abscissa", "C108_abscissa_rejects_points_off_the_segment_refuted", "C108_abscissas_measure_distances", "C108_discretization_is_regular", "C108_nonvacuous", "C108_point_at_abscissa_is_on_the_line", "C108_point_at_abscissa_of_abscissa", "C108_reverse", "C108_the_middle_is_at_half_length", "C109_split_cuts_the_segment_in_two", "C109_split_keeps_the_points_refuted", "C109_trim_joins_the_two_points", "C109_trim_of_any_two_points_refuted", "C110_intersections_are_on_both", "C110_intersections_finds_every_common_point_refuted", "C110_intersections_finds_the_common_point", "C110_intersections_never_raises", "C110_line_crossings_leave_out_the_ends", "C110_line_intersections_are_on_both", "C110_line_intersections_finds_the_common_point", "C110_line_intersections_of_a_line_that_stays_away", "C110_nonvacuous", "C111_distance_between_disjoint_segments_is_exact", "C111_distance_between_segments_is_the_least", "C111_distance_of_crossing_segments_is_zero_refuted", "C111_distance_to_a_line_is_the_least", "C112_the_shared_section_is_on_both", "C112_the_shared_section_never_raises_refuted", "C112_the_shared_section_of_overlapping_segments"], "statement_broken": [], "secs": 59, "id": "ed60"}
