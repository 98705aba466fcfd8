{"failed_lemmas": ["PlaneP3.plane_2d_to_3d_err"], "theorems_failed": ["C101_point2d_to_3d_rounds_to_12_digits"], "statement_broken": [], "secs": 18, "id": "pl2"}
{"failed_lemmas": ["PlaneP.plane_distance_spec", "PlaneP4.rounded_on"], "theorems_failed": ["C100_every_common_point_is_near_the_line", "C100_two_planes_intersection_is_a_common_line_or_empty", "C101_plane_between_parallel_planes_fails", "C101_plane_between_two_planes_bisects", "C97_point_distance_is_the_height_up_to_the_rounding"], "statement_broken": [], "secs": 17, "id": "pl3"}
{"failed_lemmas": ["PlaneP.plane_distance_spec"], "theorems_failed": ["C97_point_distance_is_the_height_up_to_the_rounding"], "statement_broken": [], "secs": 18, "id": "pl4"}
{"failed_lemmas": ["PlaneP.plane_distance_spec"], "theorems_failed": ["C97_point_distance_is_the_height_up_to_the_rounding"], "statement_broken": [], "secs": 18, "id": "pl5"}
{"failed_lemmas": ["PlaneP.plane_belongs_spec"], "theorems_failed": ["C101_is_coincident_iff", "C101_planes_with_the_same_points_are_coincident", "C97_point_belongs_is_height_within_tolerance"], "statement_broken": [], "secs": 17, "id": "pl6"}
{"failed_lemmas": ["PlaneP.plane_3_points_ok"], "theorems_failed": ["C98_from_3_points_contains_the_points_and_is_direct", "C98_from_points_contains_the_first_point_and_two_others"], "statement_broken": [], "secs": 18, "id": "pl7"}
{"failed_lemmas": ["PlaneP.plane_3_points_ok", "PlaneP2.plane_3_points_err", "PlaneP3.plane_points_not_first_three"], "theorems_failed": ["C98_from_3_points_contains_the_points_and_is_direct", "C98_from_3_points_fails_exactly_on_collinear_points", "C98_from_points_contains_the_first_point_and_two_others", "C98_from_points_contains_the_first_three_points_refuted", "C98_from_points_fails_exactly_on_aligned_points", "C98_nonvacuous"], "statement_broken": [], "secs": 21, "id": "pl8"}
{"failed_lemmas": ["PlaneP2.plane_normal_ok"], "theorems_failed": ["C98_from_normal_is_direct_refuted", "C98_from_normal_is_the_plane_normal_to_the_vector"], "statement_broken": [], "secs": 19, "id": "pl9"}
{"failed_lemmas": ["PlaneP2.plane_vectors_ok"], "theorems_failed": ["C98_from_plane_vectors"], "statement_broken": [], "secs": 18, "id": "pl10"}
{"failed_lemmas": ["PlaneP2.fp_loop", "PlaneP3.plane_points_not_first_three"], "theorems_failed": ["C98_from_points_contains_the_first_point_and_two_others", "C98_from_points_contains_the_first_three_points_refuted", "C98_from_points_fails_exactly_on_aligned_points", "C98_nonvacuous"], "statement_broken": [], "secs": 23, "id": "pl11"}
{"failed_lemmas": ["PlaneP2.fp_loop", "PlaneP2.fp_total", "PlaneP3.plane_points_not_first_three"], "theorems_failed": ["C98_from_points_contains_the_first_point_and_two_others", "C98_from_points_contains_the_first_three_points_refuted", "C98_from_points_fails_exactly_on_aligned_points", "C98_nonvacuous"], "statement_broken": [], "secs": 26, "id": "pl12"}
{"failed_lemmas": ["PlaneP2.plane_points_ok", "PlaneP3.plane_points_err", "PlaneP3.plane_points_not_first_three"], "theorems_failed": ["C98_from_points_contains_the_first_point_and_two_others", "C98_from_points_contains_the_first_three_points_refuted", "C98_from_points_fails_exactly_on_aligned_points", "C98_nonvacuous"], "statement_broken": [], "secs": 21, "id": "pl13"}
{"failed_lemmas": ["PlaneP2.plane_points_ok", "PlaneP3.plane_points_err", "PlaneP3.plane_points_not_first_three"], "theorems_failed": ["C98_from_points_contains_the_first_point_and_two_others", "C98_from_points_contains_the_first_three_points_refuted", "C98_from_points_fails_exactly_on_aligned_points", "C98_nonvacuous"], "statement_broken": [], "secs": 24, "id": "pl14"}
{"failed_lemmas": ["PlaneP4.angle_planes_ok"], "theorems_failed": ["C101_angle_between_planes"], "statement_broken": [], "secs": 21, "id": "pl15"}
{"failed_lemmas": ["PlaneP4.is_parallel_iff"], "theorems_failed": ["C101_is_coincident_iff", "C101_is_parallel_iff_normals_are_parallel", "C101_planes_with_the_same_points_are_coincident"], "statement_broken": [], "secs": 19, "id": "pl16"}
{"failed_lemmas": ["PlaneP4.is_coincident_iff"], "theorems_failed": ["C101_is_coincident_iff", "C101_planes_with_the_same_points_are_coincident"], "statement_broken": [], "secs": 16, "id": "pl17"}
{"failed_lemmas": ["PlaneP4.is_coincident_iff"], "theorems_failed": ["C101_is_coincident_iff", "C101_planes_with_the_same_points_are_coincident"], "statement_broken": [], "secs": 18, "id": "pl18"}
{"failed_lemmas": ["PlaneP3.plane_2d_to_3d_err"], "theorems_failed": ["C101_point2d_to_3d_rounds_to_12_digits"], "statement_broken": [], "secs": 18, "id": "pl19"}
{"failed_lemmas": ["PlaneP3.plane_2d_to_3d_err", "PlaneP3.plane_array_on", "PlaneP3.plane_param_inverse", "PlaneP3.plane_param_cover"], "theorems_failed": ["C101_every_point_of_the_plane_has_parameters", "C101_parameters_are_recovered", "C101_parametric_points_are_on_the_plane", "C101_point2d_to_3d_rounds_to_12_digits"], "statement_broken": [], "secs": 33, "id": "pl20"}
{"failed_lemmas": ["PlaneP3.plane_param_inverse", "PlaneP3.plane_param_cover"], "theorems_failed": ["C101_every_point_of_the_plane_has_parameters", "C101_parameters_are_recovered"], "statement_broken": [], "secs": 25, "id": "pl21"}
{"failed_lemmas": ["PlaneP3.plane_line_sound", "PlaneP3.plane_line_complete"], "theorems_failed": ["C99_line_intersection_depends_only_on_the_line_refuted", "C99_line_intersection_is_on_both", "C99_line_intersection_is_unique"], "statement_broken": [], "secs": 23, "id": "pl22"}
{"failed_lemmas": ["PlaneP3.plane_line_sound", "PlaneP3.plane_line_complete"], "theorems_failed": ["C99_line_intersection_depends_only_on_the_line_refuted", "C99_line_intersection_is_on_both", "C99_line_intersection_is_unique"], "statement_broken": [], "secs": 22, "id": "pl23"}
{"failed_lemmas": ["PlaneP3.plane_line_sound", "PlaneP3.plane_line_none"], "theorems_failed": ["C99_line_intersection_depends_only_on_the_line_refuted", "C99_line_intersection_is_empty_exactly_for_small_dot_products", "C99_line_intersection_is_on_both"], "statement_broken": [], "secs": 25, "id": "pl24"}
{"failed_lemmas": ["PlaneP3.plane_seg_sound", "PlaneP3.plane_seg_complete"], "theorems_failed": ["C99_segment_intersection_is_found", "C99_segment_intersection_is_on_both"], "statement_broken": [], "secs": 25, "id": "pl25"}
{"failed_lemmas": ["PlaneP3.plane_seg_sound"], "theorems_failed": ["C99_segment_intersection_is_on_both"], "statement_broken": [], "secs": 20, "id": "pl26"}
{"failed_lemmas": ["PlaneP3.plane_seg_sound"], "theorems_failed": ["C99_segment_intersection_is_on_both"], "statement_broken": [], "secs": 21, "id": "pl27"}
{"failed_lemmas": ["PlaneP4.two_planes_point_ok"], "theorems_failed": ["C100_every_common_point_is_near_the_line", "C100_two_planes_intersection_is_a_common_line_or_empty", "C101_plane_between_parallel_planes_fails", "C101_plane_between_two_planes_bisects"], "statement_broken": [], "secs": 20, "id": "pl28"}
{"failed_lemmas": ["PlaneP4.two_planes_point_ok"], "theorems_failed": ["C100_every_common_point_is_near_the_line", "C100_two_planes_intersection_is_a_common_line_or_empty", "C101_plane_between_parallel_planes_fails", "C101_plane_between_two_planes_bisects"], "statement_broken": [], "secs": 18, "id": "pl29"}
{"failed_lemmas": ["PlaneP4.two_planes_point_ok"], "theorems_failed": ["C100_every_common_point_is_near_the_line", "C100_two_planes_intersection_is_a_common_line_or_empty", "C101_plane_between_parallel_planes_fails", "C101_plane_between_two_planes_bisects"], "statement_broken": [], "secs": 20, "id": "pl30"}
{"failed_lemmas": ["PlaneP4.two_planes_ok"], "theorems_failed": ["C100_every_common_point_is_near_the_line", "C100_two_planes_intersection_is_a_common_line_or_empty", "C101_plane_between_parallel_planes_fails", "C101_plane_between_two_planes_bisects"], "statement_broken": [], "secs": 18, "id": "pl31"}
{"failed_lemmas": ["PlaneP4.two_planes_ok"], "theorems_failed": ["C100_every_common_point_is_near_the_line", "C100_two_planes_intersection_is_a_common_line_or_empty", "C101_plane_between_parallel_planes_fails", "C101_plane_between_two_planes_bisects"], "statement_broken": [], "secs": 18, "id": "pl32"}
{"failed_lemmas": ["PlaneP4.plane_between_ok", "PlaneP4.plane_between_parallel"], "theorems_failed": ["C101_plane_between_parallel_planes_fails", "C101_plane_between_two_planes_bisects"], "statement_broken": [], "secs": 22, "id": "pl33"}
{"failed_lemmas": ["PlaneP4.plane_between_ok", "PlaneP4.plane_between_parallel"], "theorems_failed": ["C101_plane_between_parallel_planes_fails", "C101_plane_between_two_planes_bisects"], "statement_broken": [], "secs": 19, "id": "pl34"}
{"failed_lemmas": ["ParamSurfP.zap_err", "ParamSurfP.zap_id", "ParamSurfP.zap_snap"], "theorems_failed": ["C93_cone_below_the_apex_refuted", "C93_cone_parameters_are_recovered_above_the_apex_partial", "C93_cylinder_parameters_are_recovered", "C93_deep_spindle_torus_refuted", "C93_sphere_parameters_are_recovered", "C93_torus_parameters_are_recovered_for_minor_below_twice_major_partial", "C94_cone_projection_fixes_the_points_above_the_apex_partial", "C94_cylinder_point_distance", "C94_sphere_point_distance_is_minimal_refuted", "C94_sphere_projection_fixes_the_points_of_the_sphere_partial", "C94_torus_point_distance", "C95_cone_point_belongs_is_complete_above_the_apex_partial", "C95_cone_point_belongs_is_complete_refuted", "C95_sphere_point_belongs_is_complete", "C95_torus_point_belongs_is_complete"], "statement_broken": [], "secs": 26, "id": "ps1"}
{"failed_lemmas": ["ParamSurfP2.pyclamp_id"], "theorems_failed": ["C93_deep_spindle_torus_refuted", "C93_sphere_parameters_are_recovered", "C93_torus_parameters_are_recovered_for_minor_below_twice_major_partial", "C94_sphere_point_distance_is_minimal_refuted", "C94_sphere_projection_fixes_the_points_of_the_sphere_partial", "C95_sphere_point_belongs_is_complete"], "statement_broken": [], "secs": 17, "id": "ps2"}
{"failed_lemmas": ["ParamSurfP.cyl_agree"], "theorems_failed": ["C92_cylinder_scalar_and_array_versions_agree", "C94_cylinder_point_distance"], "statement_broken": [], "secs": 22, "id": "ps3"}
{"failed_lemmas": ["ParamSurfP.cyl_array_local"], "theorems_failed": ["C92_cylinder_points_lie_on_the_cylinder", "C92_cylinder_scalar_and_array_versions_agree", "C92_every_point_of_the_cylinder_is_reached", "C93_cylinder_parameters_are_recovered", "C94_cylinder_distance_is_attained", "C94_cylinder_point_distance"], "statement_broken": [], "secs": 18, "id": "ps5"}
{"failed_lemmas": ["ParamSurfP.cyl_array_local"], "theorems_failed": ["C92_cylinder_points_lie_on_the_cylinder", "C92_cylinder_scalar_and_array_versions_agree", "C92_every_point_of_the_cylinder_is_reached", "C93_cylinder_parameters_are_recovered", "C94_cylinder_distance_is_attained", "C94_cylinder_point_distance"], "statement_broken": [], "secs": 22, "id": "ps6"}
{"failed_lemmas": ["ParamSurfP2.cyl_inverse", "ParamSurfP4.cyl_distance"], "theorems_failed": ["C93_cylinder_parameters_are_recovered", "C94_cylinder_point_distance"], "statement_broken": [], "secs": 21, "id": "ps7"}
{"failed_lemmas": ["ParamSurfP2.cyl_inverse", "ParamSurfP4.cyl_distance"], "theorems_failed": ["C93_cylinder_parameters_are_recovered", "C94_cylinder_point_distance"], "statement_broken": [], "secs": 22, "id": "ps8"}
{"failed_lemmas": ["ParamSurfP6.cyl_belongs_spec"], "theorems_failed": ["C95_cylinder_point_belongs_compares_squares", "C95_cylinder_point_belongs_is_sound_refuted"], "statement_broken": [], "secs": 16, "id": "ps9"}
{"failed_lemmas": ["ParamSurfP6.cyl_belongs_spec"], "theorems_failed": ["C95_cylinder_point_belongs_compares_squares", "C95_cylinder_point_belongs_is_sound_refuted"], "statement_broken": [], "secs": 16, "id": "ps10"}
{"failed_lemmas": ["ParamSurfP.cone_agree", "ParamSurfP6.cone_proj_ex"], "theorems_failed": ["C92_cone_scalar_and_array_versions_agree", "C93_cone_below_the_apex_refuted", "C94_cone_projection_fixes_the_points_above_the_apex_partial", "C95_cone_point_belongs_is_complete_above_the_apex_partial", "C95_cone_point_belongs_is_complete_refuted", "C95_cone_point_belongs_is_sound"], "statement_broken": [], "secs": 24, "id": "ps11"}
{"failed_lemmas": ["ParamSurfP.cone_array_local", "ParamSurfP6.cone_belongs_wrong"], "theorems_failed": ["C92_cone_points_lie_on_the_cone", "C92_cone_scalar_and_array_versions_agree", "C92_every_point_of_the_cone_is_reached", "C93_cone_below_the_apex_refuted", "C93_cone_parameters_are_recovered_above_the_apex_partial", "C94_cone_projection_fixes_the_points_above_the_apex_partial", "C95_cone_point_belongs_is_complete_above_the_apex_partial", "C95_cone_point_belongs_is_complete_refuted", "C95_cone_point_belongs_is_sound"], "statement_broken": [], "secs": 25, "id": "ps12"}
{"failed_lemmas": ["ParamSurfP2.cone_inverse", "ParamSurfP6.cone_round_trip", "ParamSurfP6.cone_proj_ex"], "theorems_failed": ["C93_cone_below_the_apex_refuted", "C93_cone_parameters_are_recovered_above_the_apex_partial", "C94_cone_projection_fixes_the_points_above_the_apex_partial", "C95_cone_point_belongs_is_complete_above_the_apex_partial", "C95_cone_point_belongs_is_complete_refuted"], "statement_broken": [], "secs": 22, "id": "ps13"}
{"failed_lemmas": ["ParamSurfP.sphere_agree", "ParamSurfP6.sphere_proj_ex"], "theorems_failed": ["C92_sphere_scalar_and_array_versions_agree", "C94_sphere_point_distance_is_minimal_refuted", "C94_sphere_projection_fixes_the_points_of_the_sphere_partial", "C95_sphere_point_belongs_is_complete", "C95_sphere_point_belongs_is_sound"], "statement_broken": [], "secs": 22, "id": "ps14"}
{"failed_lemmas": ["ParamSurfP.sphere_agree", "ParamSurfP6.sphere_proj_ex"], "theorems_failed": ["C92_sphere_scalar_and_array_versions_agree", "C94_sphere_point_distance_is_minimal_refuted", "C94_sphere_projection_fixes_the_points_of_the_sphere_partial", "C95_sphere_point_belongs_is_complete", "C95_sphere_point_belongs_is_sound"], "statement_broken": [], "secs": 25, "id": "ps15"}
{"failed_lemmas": ["ParamSurfP.sphere_array_local"], "theorems_failed": ["C92_every_point_of_the_sphere_is_reached", "C92_sphere_points_lie_on_the_sphere", "C92_sphere_scalar_and_array_versions_agree", "C93_sphere_parameters_are_recovered", "C94_sphere_projection_fixes_the_points_of_the_sphere_partial", "C95_sphere_point_belongs_is_complete", "C95_sphere_point_belongs_is_sound"], "statement_broken": [], "secs": 22, "id": "ps16"}
{"failed_lemmas": ["ParamSurfP2.sphere_inverse", "ParamSurfP6.sphere_round_trip", "ParamSurfP6.sphere_proj_ex"], "theorems_failed": ["C93_sphere_parameters_are_recovered", "C94_sphere_point_distance_is_minimal_refuted", "C94_sphere_projection_fixes_the_points_of_the_sphere_partial", "C95_sphere_point_belongs_is_complete"], "statement_broken": [], "secs": 23, "id": "ps17"}
{"failed_lemmas": ["ParamSurfP2.sphere_inverse", "ParamSurfP6.sphere_round_trip", "ParamSurfP6.sphere_proj_ex"], "theorems_failed": ["C93_sphere_parameters_are_recovered", "C94_sphere_point_distance_is_minimal_refuted", "C94_sphere_projection_fixes_the_points_of_the_sphere_partial", "C95_sphere_point_belongs_is_complete"], "statement_broken": [], "secs": 24, "id": "ps18"}
{"failed_lemmas": ["ParamSurfP.torus_agree"], "theorems_failed": ["C92_torus_scalar_and_array_versions_agree", "C94_torus_point_distance", "C95_torus_point_belongs_is_complete", "C95_torus_point_belongs_is_sound"], "statement_broken": [], "secs": 22, "id": "ps19"}
{"failed_lemmas": ["ParamSurfP.torus_agree"], "theorems_failed": ["C92_torus_scalar_and_array_versions_agree", "C94_torus_point_distance", "C95_torus_point_belongs_is_complete", "C95_torus_point_belongs_is_sound"], "statement_broken": [], "secs": 20, "id": "ps20"}
{"failed_lemmas": ["ParamSurfP.torus_array_local", "ParamSurfP6.torus_inverse_wrong"], "theorems_failed": ["C92_every_point_of_the_torus_is_reached", "C92_torus_points_lie_on_the_torus", "C92_torus_scalar_and_array_versions_agree", "C93_deep_spindle_torus_refuted", "C93_torus_parameters_are_recovered_for_minor_below_twice_major_partial", "C94_torus_distance_is_attained", "C94_torus_point_distance", "C95_torus_point_belongs_is_complete", "C95_torus_point_belongs_is_sound", "C96_torus_bounding_box_contains_the_torus"], "statement_broken": [], "secs": 23, "id": "ps21"}
{"failed_lemmas": ["ParamSurfP3.torus_inverse"], "theorems_failed": ["C93_torus_parameters_are_recovered_for_minor_below_twice_major_partial"], "statement_broken": [], "secs": 18, "id": "ps22"}
{"failed_lemmas": ["ParamSurfP3.torus_inverse"], "theorems_failed": ["C93_torus_parameters_are_recovered_for_minor_below_twice_major_partial"], "statement_broken": [], "secs": 17, "id": "ps23"}
{"failed_lemmas": ["ParamSurfP3.torus_inverse", "ParamSurfP6.torus_inverse_wrong"], "theorems_failed": ["C93_deep_spindle_torus_refuted", "C93_torus_parameters_are_recovered_for_minor_below_twice_major_partial"], "statement_broken": [], "secs": 19, "id": "ps24"}
{"failed_lemmas": ["ParamSurfP3.torus_inverse"], "theorems_failed": ["C93_torus_parameters_are_recovered_for_minor_below_twice_major_partial"], "statement_broken": [], "secs": 16, "id": "ps25"}
{"failed_lemmas": ["ParamSurfP5.torus_distance"], "theorems_failed": ["C94_torus_point_distance", "C95_torus_point_belongs_is_complete"], "statement_broken": [], "secs": 20, "id": "ps26"}
{"failed_lemmas": ["ParamSurfP5.torus_distance"], "theorems_failed": ["C94_torus_point_distance", "C95_torus_point_belongs_is_complete"], "statement_broken": [], "secs": 19, "id": "ps27"}
{"failed_lemmas": ["ParamSurfP4.cyl_distance"], "theorems_failed": ["C94_cylinder_point_distance"], "statement_broken": [], "secs": 22, "id": "ps28"}
{"failed_lemmas": ["ParamSurfP6.sphere_round_trip", "ParamSurfP6.sphere_belongs_sound", "ParamSurfP6.sphere_proj_ex"], "theorems_failed": ["C94_sphere_point_distance_is_minimal_refuted", "C94_sphere_projection_fixes_the_points_of_the_sphere_partial", "C95_sphere_point_belongs_is_complete", "C95_sphere_point_belongs_is_sound"], "statement_broken": [], "secs": 24, "id": "ps29"}
{"failed_lemmas": ["ParamSurfP6.cone_round_trip", "ParamSurfP6.cone_belongs_sound", "ParamSurfP6.cone_proj_ex"], "theorems_failed": ["C93_cone_below_the_apex_refuted", "C94_cone_projection_fixes_the_points_above_the_apex_partial", "C95_cone_point_belongs_is_complete_above_the_apex_partial", "C95_cone_point_belongs_is_complete_refuted", "C95_cone_point_belongs_is_sound"], "statement_broken": [], "secs": 23, "id": "ps30"}
{"failed_lemmas": ["ParamSurfP4.cyl_distance", "ParamSurfP5.torus_distance", "ParamSurfP6.belongs_gen", "ParamSurfP6.belongs_complete", "ParamSurfP6.sphere_distance_wrong", "ParamSurfP6.cone_belongs_wrong"], "theorems_failed": ["C93_cone_below_the_apex_refuted", "C94_cylinder_point_distance", "C94_sphere_point_distance_is_minimal_refuted", "C94_torus_point_distance", "C95_cone_point_belongs_is_complete_above_the_apex_partial", "C95_cone_point_belongs_is_complete_refuted", "C95_cone_point_belongs_is_sound", "C95_sphere_point_belongs_is_complete", "C95_sphere_point_belongs_is_sound", "C95_torus_point_belongs_is_complete", "C95_torus_point_belongs_is_sound"], "statement_broken": [], "secs": 27, "id": "ps31"}
{"failed_lemmas": ["ParamSurfP6.belongs_gen", "ParamSurfP6.belongs_complete", "ParamSurfP6.cone_belongs_wrong"], "theorems_failed": ["C93_cone_below_the_apex_refuted", "C95_cone_point_belongs_is_complete_above_the_apex_partial", "C95_cone_point_belongs_is_complete_refuted", "C95_cone_point_belongs_is_sound", "C95_sphere_point_belongs_is_complete", "C95_sphere_point_belongs_is_sound", "C95_torus_point_belongs_is_complete", "C95_torus_point_belongs_is_sound"], "statement_broken": [], "secs": 20, "id": "ps32"}
{"failed_lemmas": ["ParamSurfP6.torus_corner_in"], "theorems_failed": ["C96_torus_bounding_box_contains_the_torus"], "statement_broken": [], "secs": 23, "id": "ps33"}
{"failed_lemmas": ["ParamSurfP6.torus_corner_in"], "theorems_failed": ["C96_torus_bounding_box_contains_the_torus"], "statement_broken": [], "secs": 24, "id": "ps34"}
{"failed_lemmas": ["ParamSurfP6.sphere_box"], "theorems_failed": ["C96_sphere_bounding_box_contains_the_sphere"], "statement_broken": [], "secs": 24, "id": "ps35"}
{"failed_lemmas": ["SurfP.table_loop_full"], "theorems_failed": ["C38_control_points_table_rows"], "statement_broken": [], "secs": 22, "id": "ns1"}
{"failed_lemmas": ["SurfP.u_domain_eq"], "theorems_failed": ["C38_refinement_in_u_inserts_every_knot_refuted", "C38_refinement_keeps_the_surface_and_inserts_the_last_u_knot_partial", "C85_evaluate_samples_the_surface_on_a_regular_grid", "C85_point2d_to_3d_is_the_point_of_the_clamped_parameters", "C87_split_surface_u_gives_the_two_parts", "C88_extract_curve_u_when_both_directions_agree_partial", "C88_the_extracted_curve_is_a_valid_curve_refuted"], "statement_broken": [], "secs": 26, "id": "ns2"}
{"failed_lemmas": ["SurfP.surface_pt_spec"], "theorems_failed": ["C85_evaluate_samples_the_surface_on_a_regular_grid", "C85_point2d_to_3d_is_the_point_of_the_clamped_parameters"], "statement_broken": [], "secs": 25, "id": "ns3"}
{"failed_lemmas": ["SurfP.surface_pt_spec"], "theorems_failed": ["C85_evaluate_samples_the_surface_on_a_regular_grid", "C85_point2d_to_3d_is_the_point_of_the_clamped_parameters"], "statement_broken": [], "secs": 28, "id": "ns4"}
{"failed_lemmas": ["SurfP.surface_pt_spec"], "theorems_failed": ["C85_evaluate_samples_the_surface_on_a_regular_grid", "C85_point2d_to_3d_is_the_point_of_the_clamped_parameters"], "statement_broken": [], "secs": 28, "id": "ns5"}
{"failed_lemmas": ["SurfP.surface_pt_spec"], "theorems_failed": ["C85_evaluate_samples_the_surface_on_a_regular_grid", "C85_point2d_to_3d_is_the_point_of_the_clamped_parameters"], "statement_broken": [], "secs": 28, "id": "ns6"}
{"failed_lemmas": ["SurfP.point2d_to_3d_spec", "SurfP.surface_evaluate_spec"], "theorems_failed": ["C85_evaluate_samples_the_surface_on_a_regular_grid", "C85_point2d_to_3d_is_the_point_of_the_clamped_parameters"], "statement_broken": [], "secs": 28, "id": "ns7"}
{"failed_lemmas": ["SurfP.surface_evaluate_spec"], "theorems_failed": ["C85_evaluate_samples_the_surface_on_a_regular_grid"], "statement_broken": [], "secs": 24, "id": "ns8"}
{"failed_lemmas": ["SurfP.point2d_to_3d_spec"], "theorems_failed": ["C85_point2d_to_3d_is_the_point_of_the_clamped_parameters"], "statement_broken": [], "secs": 24, "id": "ns9"}
{"failed_lemmas": ["SurfP.flip_nth"], "theorems_failed": ["C38_flip_transposes_the_net", "C38_flip_twice_is_the_identity", "C38_refinement_in_u_inserts_every_knot_refuted", "C38_refinement_keeps_the_surface_and_inserts_the_last_u_knot_partial", "C86_insertion_in_both_directions_keeps_the_surface", "C86_insertion_in_u_keeps_the_surface", "C87_split_surface_u_gives_the_two_parts", "C88_extract_curve_u_actual", "C88_extract_curve_u_is_ill_formed_when_the_sizes_differ", "C88_extract_curve_u_when_both_directions_agree_partial", "C88_the_extracted_curve_is_a_valid_curve_refuted"], "statement_broken": [], "secs": 21, "id": "ns10"}
{"failed_lemmas": ["SurfP2.insU_nth", "SurfP4.isoU_points"], "theorems_failed": ["C38_refinement_in_u_inserts_every_knot_refuted", "C38_refinement_keeps_the_surface_and_inserts_the_last_u_knot_partial", "C86_insertion_in_both_directions_keeps_the_surface", "C86_insertion_in_u_keeps_the_surface", "C87_split_surface_u_gives_the_two_parts", "C88_extract_curve_u_actual", "C88_extract_curve_u_is_ill_formed_when_the_sizes_differ", "C88_extract_curve_u_when_both_directions_agree_partial", "C88_the_extracted_curve_is_a_valid_curve_refuted"], "statement_broken": [], "secs": 22, "id": "ns11"}
{"failed_lemmas": ["SurfP2.insU_len", "SurfP2.insU_nth", "SurfP4.isoU_points"], "theorems_failed": ["C38_refinement_in_u_inserts_every_knot_refuted", "C38_refinement_keeps_the_surface_and_inserts_the_last_u_knot_partial", "C86_insertion_in_both_directions_keeps_the_surface", "C86_insertion_in_u_keeps_the_surface", "C87_split_surface_u_gives_the_two_parts", "C88_extract_curve_u_actual", "C88_extract_curve_u_is_ill_formed_when_the_sizes_differ", "C88_extract_curve_u_when_both_directions_agree_partial", "C88_the_extracted_curve_is_a_valid_curve_refuted"], "statement_broken": [], "secs": 24, "id": "ns12"}
{"failed_lemmas": ["SurfP2.insV_len", "SurfP2.insV_nth", "SurfP4.isoV_points"], "theorems_failed": ["C38_refinement_in_u_inserts_every_knot_refuted", "C38_refinement_in_v_inserts_every_knot", "C38_refinement_keeps_the_surface_and_inserts_the_last_u_knot_partial", "C86_insertion_in_both_directions_keeps_the_surface", "C86_insertion_in_v_keeps_the_surface", "C87_split_surface_v_gives_the_two_parts", "C88_extract_curve_v_actual", "C88_extract_curve_v_when_both_directions_agree_partial"], "statement_broken": [], "secs": 27, "id": "ns13"}
{"failed_lemmas": ["SurfP2.insU_spec"], "theorems_failed": ["C38_refinement_in_u_inserts_every_knot_refuted", "C38_refinement_keeps_the_surface_and_inserts_the_last_u_knot_partial", "C86_insertion_in_both_directions_keeps_the_surface", "C86_insertion_in_u_keeps_the_surface", "C87_split_surface_u_gives_the_two_parts"], "statement_broken": [], "secs": 19, "id": "ns14"}
{"failed_lemmas": ["SurfP2.insV_spec"], "theorems_failed": ["C38_refinement_in_u_inserts_every_knot_refuted", "C38_refinement_in_v_inserts_every_knot", "C38_refinement_keeps_the_surface_and_inserts_the_last_u_knot_partial", "C86_insertion_in_both_directions_keeps_the_surface", "C86_insertion_in_v_keeps_the_surface", "C87_split_surface_v_gives_the_two_parts"], "statement_broken": [], "secs": 22, "id": "ns15"}
{"failed_lemmas": ["SurfP2.insU_spec"], "theorems_failed": ["C38_refinement_in_u_inserts_every_knot_refuted", "C38_refinement_keeps_the_surface_and_inserts_the_last_u_knot_partial", "C86_insertion_in_both_directions_keeps_the_surface", "C86_insertion_in_u_keeps_the_surface", "C87_split_surface_u_gives_the_two_parts"], "statement_broken": [], "secs": 25, "id": "ns16"}
{"failed_lemmas": ["SurfP3.insert_surface_uv"], "theorems_failed": ["C86_insertion_in_both_directions_keeps_the_surface"], "statement_broken": [], "secs": 23, "id": "ns17"}
{"failed_lemmas": ["SurfP3.cut_u"], "theorems_failed": ["C87_split_surface_u_gives_the_two_parts"], "statement_broken": [], "secs": 23, "id": "ns18"}
{"failed_lemmas": ["SurfP3.cut_u"], "theorems_failed": ["C87_split_surface_u_gives_the_two_parts"], "statement_broken": [], "secs": 24, "id": "ns19"}
{"failed_lemmas": ["SurfP3.cut_v"], "theorems_failed": ["C87_split_surface_v_gives_the_two_parts"], "statement_broken": [], "secs": 29, "id": "ns20"}
{"failed_lemmas": ["SurfP3.split_u_spec"], "theorems_failed": ["C87_split_surface_u_gives_the_two_parts"], "statement_broken": [], "secs": 34, "id": "ns21"}
{"failed_lemmas": ["SurfP3.split_v_spec"], "theorems_failed": ["C87_split_surface_v_gives_the_two_parts"], "statement_broken": [], "secs": 33, "id": "ns22"}
{"failed_lemmas": ["SurfP3.split_u_spec", "SurfP3.split_u_ends"], "theorems_failed": ["C87_split_surface_u_gives_the_two_parts", "C87_split_u_at_an_end_raises"], "statement_broken": [], "secs": 41, "id": "ns23"}
{"failed_lemmas": ["SurfP4.isoU_points"], "theorems_failed": ["C88_extract_curve_u_actual", "C88_extract_curve_u_is_ill_formed_when_the_sizes_differ", "C88_extract_curve_u_when_both_directions_agree_partial", "C88_the_extracted_curve_is_a_valid_curve_refuted"], "statement_broken": [], "secs": 28, "id": "ns24"}
{"failed_lemmas": ["SurfP4.isoV_points"], "theorems_failed": ["C88_extract_curve_v_actual", "C88_extract_curve_v_when_both_directions_agree_partial"], "statement_broken": [], "secs": 27, "id": "ns25"}
{"failed_lemmas": ["SurfP4.boundary_v_same"], "theorems_failed": ["C89_extract_curves_v_borders_when_both_directions_agree_partial"], "statement_broken": [], "secs": 29, "id": "ns26"}
{"failed_lemmas": ["SurfP4.surface_curve_u_ok", "SurfP4.boundary_v_same"], "theorems_failed": ["C89_extract_curves_v_borders_when_both_directions_agree_partial", "C89_the_first_and_last_u_curves_are_the_v_borders"], "statement_broken": [], "secs": 27, "id": "ns27"}
{"failed_lemmas": ["SurfP4.surface_curve_v_ok", "SurfP4.boundary_u_same"], "theorems_failed": ["C89_extract_curves_borders_when_both_directions_agree_partial", "C89_the_first_and_last_v_curves_are_the_u_borders"], "statement_broken": [], "secs": 32, "id": "ns28"}
{"failed_lemmas": ["SurfP.flatten_nth"], "theorems_failed": ["C38_ctrlpts2d_to_ctrlpts_is_row_major", "C87_split_surface_u_gives_the_two_parts", "C88_extract_curve_u_actual", "C88_extract_curve_u_is_ill_formed_when_the_sizes_differ", "C88_extract_curve_u_when_both_directions_agree_partial", "C88_the_extracted_curve_is_a_valid_curve_refuted"], "statement_broken": [], "secs": 27, "id": "ns29"}
{"failed_lemmas": ["SurfP2.from_net_ok", "SurfP5.new_normalized"], "theorems_failed": ["C38_refinement_in_u_inserts_every_knot_refuted", "C38_refinement_in_v_inserts_every_knot", "C38_refinement_keeps_the_surface_and_inserts_the_last_u_knot_partial", "C85_the_constructor_normalises_the_knots", "C86_insertion_in_both_directions_keeps_the_surface", "C86_insertion_in_u_keeps_the_surface", "C86_insertion_in_v_keeps_the_surface", "C87_split_surface_u_gives_the_two_parts", "C87_split_surface_v_gives_the_two_parts"], "statement_broken": [], "secs": 33, "id": "ns30"}
{"failed_lemmas": ["SurfP4.boundary_u_actual", "SurfP4.boundary_u_same", "SurfP4.boundary_u_ill"], "theorems_failed": ["C89_border_u_is_ill_formed_when_the_sizes_differ", "C89_extract_curves_borders_when_both_directions_agree_partial", "C89_the_border_curves_are_valid_refuted"], "statement_broken": [], "secs": 38, "id": "ns31"}
{"failed_lemmas": ["SurfP5.refine_v_all"], "theorems_failed": ["C38_refinement_in_u_inserts_every_knot_refuted", "C38_refinement_in_v_inserts_every_knot", "C38_refinement_keeps_the_surface_and_inserts_the_last_u_knot_partial"], "statement_broken": [], "secs": 26, "id": "ns32"}
