{
 "C42_area_exact_refuted": "C124_area_exact_refuted",
 "C42_volume_nonnegative_refuted": "C124_volume_nonnegative_refuted",
 "C47_direction_to_euler_angles_refuted": "C125_direction_to_euler_angles_refuted",
 "C54_deterministic_normal_refuted": "C126_deterministic_normal_refuted",
 "C55_x_rotation_refuted": "C127_x_rotation_refuted",
 "C55_rotation3_nonunit_refuted": "C127_rotation3_nonunit_refuted",
 "C56_frame3_neg_refuted": "C128_frame3_neg_refuted",
 "C57_small_scale_refuted": "C129_small_scale_refuted",
 "C62_from_two_vectors_refuted": "C130_from_two_vectors_refuted",
 "C62_from_point_and_vector_refuted": "C130_from_point_and_vector_refuted",
 "C66_parallel_lines_refuted": "C131_parallel_lines_refuted",
 "C98_from_normal_is_direct_refuted": "C132_from_normal_is_direct_refuted",
 "C98_from_points_contains_the_first_three_points_refuted": "C132_from_points_contains_the_first_three_points_refuted",
 "C99_line_intersection_depends_only_on_the_line_refuted": "C133_line_intersection_depends_only_on_the_line_refuted",
 "C102_line2d_distance_is_the_distance_refuted": "C134_line2d_distance_is_the_distance_refuted",
 "C102_line3d_distance_is_the_distance_refuted": "C134_line3d_distance_is_the_distance_refuted",
 "C102_line3d_intersection_is_on_both_lines_refuted": "C134_line3d_intersection_is_on_both_lines_refuted",
 "C103_point_symmetric_is_the_symmetry_refuted": "C135_point_symmetric_is_the_symmetry_refuted",
 "C104_tangent_lines_give_a_common_point_refuted": "C136_tangent_lines_give_a_common_point_refuted",
 "C104_line_intersections_never_fails_refuted": "C136_line_intersections_never_fails_refuted",
 "C105_returned_points_are_on_both_circles_refuted": "C137_returned_points_are_on_both_circles_refuted",
 "C107_from_3_points_passes_through_the_points_refuted": "C138_from_3_points_passes_through_the_points_refuted",
 "C107_bounding_box_contains_the_circle_refuted": "C138_bounding_box_contains_the_circle_refuted",
 "C108_abscissa_rejects_points_off_the_segment_refuted": "C139_abscissa_rejects_points_off_the_segment_refuted",
 "C109_split_keeps_the_points_refuted": "C140_split_keeps_the_points_refuted",
 "C109_trim_of_any_two_points_refuted": "C140_trim_of_any_two_points_refuted",
 "C110_intersections_finds_every_common_point_refuted": "C141_intersections_finds_every_common_point_refuted",
 "C111_distance_of_crossing_segments_is_zero_refuted": "C142_distance_of_crossing_segments_is_zero_refuted",
 "C112_the_shared_section_never_raises_refuted": "C143_the_shared_section_never_raises_refuted",
 "C113_distance_is_the_least_refuted": "C144_distance_is_the_least_refuted",
 "C113_contains_is_membership_refuted": "C144_contains_is_membership_refuted",
 "C113_to_bspline_curve_covers_the_segment_refuted": "C144_to_bspline_curve_covers_the_segment_refuted",
 "C27_dict_roundtrip_2d_refuted": "C145_dict_roundtrip_2d_refuted",
 "C27_dict_roundtrip_3d_partial": "C27_dict_roundtrip_3d",
 "C61_or_empty_refuted": "C146_or_empty_refuted",
 "C61_or_partial": "C61_or",
 "C63_segment_intersection_refuted": "C147_segment_intersection_refuted",
 "C63_segment_intersection_partial": "C63_segment_intersection",
 "C77_reverse_rational_refuted": "C148_reverse_rational_refuted",
 "C77_reverse_partial": "C77_reverse",
 "C31_partial_insertion_refuted": "C149_partial_insertion_refuted",
 "C31_bezier_insertion_refuted": "C149_bezier_insertion_refuted",
 "C31_full_insertion_keeps_the_curve_partial": "C31_full_insertion_keeps_the_curve",
 "C33_close_knots_refuted": "C150_close_knots_refuted",
 "C33_expansion_gives_the_knot_vector_back_partial": "C33_expansion_gives_the_knot_vector_back",
 "C35_existing_knot_refuted": "C151_existing_knot_refuted",
 "C35_knot_past_the_end_refuted": "C151_knot_past_the_end_refuted",
 "C35_new_knot_inserted_partial": "C35_new_knot_inserted",
 "C91_negative_index_refuted": "C152_negative_index_refuted",
 "C91_check_consistency_partial": "C91_check_consistency_of_nonnegative_indices",
 "C51_parenthesis_in_a_string_refuted": "C153_parenthesis_in_a_string_refuted",
 "C51_arguments_split_at_top_level_commas_partial": "C51_arguments_split_at_top_level_commas",
 "C48_range_refuted": "C154_range_refuted",
 "C48_clockwise_angle_rotates_onto_the_second_partial": "C48_clockwise_angle_rotates_onto_the_second",
 "C17_no_false_negative_refuted": "C155_no_false_negative_refuted",
 "C17_a_cubic_voxel_that_meets_the_triangle_is_reported_partial": "C17_a_cubic_voxel_that_meets_the_triangle_is_reported",
 "C44_no_false_negative_refuted": "C156_no_false_negative_refuted",
 "C44_cubic_box_reports_every_triangle_it_meets_partial": "C44_cubic_box_reports_every_triangle_it_meets",
 "C20_short_segments_are_missed_refuted": "C157_short_segments_are_missed_refuted",
 "C20_every_pixel_met_by_a_segment_is_returned_partial": "C20_every_pixel_met_by_a_segment_is_returned",
 "C05_large_voxels_refuted": "C158_large_voxels_refuted",
 "C05_union_voxels_partial": "C05_union_voxels",
 "C05_difference_voxels_partial": "C05_difference_voxels",
 "C05_intersection_voxels_partial": "C05_intersection_voxels",
 "C05_symmetric_difference_voxels_partial": "C05_symmetric_difference_voxels",
 "C05_union_pixels_partial": "C05_union_pixels",
 "C05_difference_pixels_partial": "C05_difference_pixels",
 "C05_intersection_pixels_partial": "C05_intersection_pixels",
 "C05_symmetric_difference_pixels_partial": "C05_symmetric_difference_pixels",
 "C05_is_intersecting_voxels_partial": "C05_is_intersecting_voxels",
 "C38_refinement_keeps_the_surface_and_inserts_the_last_u_knot_partial": "C172_refinement_keeps_the_surface_and_inserts_the_last_u_knot_partial",
 "C38_refinement_in_u_inserts_every_knot_refuted": "C172_refinement_in_u_inserts_every_knot_refuted",
 "C41_box_lower_bound_partial": "C173_box_lower_bound_partial",
 "C41_box_nonnegative_refuted": "C173_box_nonnegative_refuted",
 "C41_rectangle_inside_value_partial": "C173_rectangle_inside_value_partial",
 "C41_rectangle_inside_refuted": "C173_rectangle_inside_refuted",
 "C72_plane_projection2d_partial": "C174_plane_projection2d_actual",
 "C79_interior_point_is_half_way_clockwise_partial": "C79_interior_point_is_half_way_clockwise",
 "C80_unique_ids_without_nested_assemblies_partial": "C80_unique_ids_without_nested_assemblies",
 "C80_nested_components_are_written_twice_refuted": "C175_nested_components_are_written_twice_refuted",
 "C80_some_closed_shells_cannot_be_exported_refuted": "C175_some_closed_shells_cannot_be_exported_refuted",
 "C80_compound_drops_members_refuted": "C175_compound_drops_members_refuted",
 "C80_to_step_face_ids_dangling_reference_refuted": "C175_to_step_face_ids_dangling_reference_refuted",
 "C88_extract_curve_u_when_both_directions_agree_partial": "C176_extract_curve_u_when_both_directions_agree",
 "C88_extract_curve_v_when_both_directions_agree_partial": "C176_extract_curve_v_when_both_directions_agree",
 "C89_extract_curves_borders_when_both_directions_agree_partial": "C176_extract_curves_borders_when_both_directions_agree",
 "C89_extract_curves_v_borders_when_both_directions_agree_partial": "C176_extract_curves_v_borders_when_both_directions_agree",
 "C89_border_u_is_ill_formed_when_the_sizes_differ": "C88_border_u_is_ill_formed_when_the_sizes_differ",
 "C89_border_v_is_ill_formed_when_the_sizes_differ": "C88_border_v_is_ill_formed_when_the_sizes_differ",
 "C89_the_border_curves_are_valid_refuted": "C88_the_border_curves_are_valid_refuted",
 "C93_cone_parameters_are_recovered_above_the_apex_partial": "C93_cone_parameters_are_recovered_above_the_apex",
 "C93_torus_parameters_are_recovered_for_minor_below_twice_major_partial": "C93_torus_parameters_are_recovered_for_minor_below_twice_major",
 "C93_cone_below_the_apex_refuted": "C177_cone_below_the_apex_refuted",
 "C93_deep_spindle_torus_refuted": "C177_deep_spindle_torus_refuted",
 "C94_sphere_projection_fixes_the_points_of_the_sphere_partial": "C178_sphere_projection_fixes_the_points_of_the_sphere_partial",
 "C94_cone_projection_fixes_the_points_above_the_apex_partial": "C178_cone_projection_fixes_the_points_above_the_apex_partial",
 "C94_sphere_point_distance_is_minimal_refuted": "C178_sphere_point_distance_is_minimal_refuted",
 "C95_cone_point_belongs_is_complete_above_the_apex_partial": "C95_cone_point_belongs_is_complete_above_the_apex",
 "C95_cylinder_point_belongs_compares_squares": "C179_cylinder_point_belongs_compares_squares",
 "C95_cylinder_point_belongs_is_sound_refuted": "C179_cylinder_point_belongs_is_sound_refuted",
 "C95_cone_point_belongs_is_complete_refuted": "C179_cone_point_belongs_is_complete_refuted",
 "C49_congruent_up_to_snapping_partial": "C180_congruent_up_to_snapping",
 "C49_range_when_min_angle_is_zero": "C180_range_when_min_angle_is_zero",
 "C70_equal_lengths_partial": "C181_equal_lengths",
 "C75_exported_triangles_partial": "C182_exported_triangles",
 "C65_points_on_segments_partial": "C183_points_on_segments",
 "C18_a_reported_box_is_near_the_bounds_of_the_triangle_partial": "C184_a_reported_box_is_near_the_bounds_of_the_triangle",
 "C18_the_separating_axis_test_needs_the_bounds_and_the_plane": "C184_the_separating_axis_test_needs_the_bounds_and_the_plane",
 "C18_the_separating_axis_test_needs_the_nine_edge_axes": "C184_the_separating_axis_test_needs_the_nine_edge_axes"
}