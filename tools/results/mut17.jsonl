{"failed_lemmas": ["FaceGridP.surface_grid_sound", "FaceGridP.surface_grid_keeps", "FaceGridP2.surface_grid_exact"], "theorems_failed": ["C243_exactly_the_points_kept", "C243_the_nodes_outside_the_holes_are_kept", "C243_the_points_kept_are_nodes_inside_that_are_not_vertices"], "statement_broken": [], "secs": 16, "id": "fg22b"}
{"failed_lemmas": ["FaceGridP.remove_hole_keeps", "FaceGridP.remove_sub", "FaceGridP.surface_grid_refuted", "FaceGridP2.surface_grid_exact"], "theorems_failed": ["C243_exactly_the_points_kept", "C243_the_nodes_outside_the_holes_are_kept", "C243_the_points_kept_are_nodes_inside_that_are_not_vertices", "C244_holes_removed_refuted"], "statement_broken": [], "secs": 17, "id": "fg23"}
{"failed_lemmas": ["FaceGridP.grid_keys", "FaceGridP2.surface_grid_exact"], "theorems_failed": ["C243_exactly_the_points_kept", "C243_the_nodes_outside_the_holes_are_kept"], "statement_broken": [], "secs": 12, "id": "fg24"}
{"failed_lemmas": ["PolyTurnP5.no_points"], "theorems_failed": ["C247_no_points"], "statement_broken": [], "secs": 14, "id": "pt3b"}
{"failed_lemmas": ["PolyTurnP5.parallel_not_met"], "theorems_failed": ["C249_it_never_answers_yes_for_aligned_points"], "statement_broken": [], "secs": 15, "id": "pt18b"}
{"failed_lemmas": ["HullP.remove_skip"], "theorems_failed": ["C255_the_direction_when_the_leftmost_point_has_a_neighbour_on_each_side", "C255_the_hull_is_the_ring_of_the_simplices", "C256_the_direction_and_the_first_point_refuted"], "statement_broken": [], "secs": 10, "id": "hu1"}
{"failed_lemmas": ["HullP.remove_skip"], "theorems_failed": ["C255_the_direction_when_the_leftmost_point_has_a_neighbour_on_each_side", "C255_the_hull_is_the_ring_of_the_simplices", "C256_the_direction_and_the_first_point_refuted"], "statement_broken": [], "secs": 12, "id": "hu2"}
{"failed_lemmas": ["HullP.next_edge_skip"], "theorems_failed": ["C255_the_direction_when_the_leftmost_point_has_a_neighbour_on_each_side", "C255_the_hull_is_the_ring_of_the_simplices", "C256_the_direction_and_the_first_point_refuted"], "statement_broken": [], "secs": 10, "id": "hu3"}
{"failed_lemmas": ["HullP.next_edge_skip"], "theorems_failed": ["C255_the_direction_when_the_leftmost_point_has_a_neighbour_on_each_side", "C255_the_hull_is_the_ring_of_the_simplices", "C256_the_direction_and_the_first_point_refuted"], "statement_broken": [], "secs": 12, "id": "hu4"}
{"failed_lemmas": ["HullP.chain_path"], "theorems_failed": ["C255_the_direction_when_the_leftmost_point_has_a_neighbour_on_each_side", "C255_the_hull_is_the_ring_of_the_simplices", "C256_the_direction_and_the_first_point_refuted"], "statement_broken": [], "secs": 12, "id": "hu5"}
{"failed_lemmas": ["HullP.chain_path"], "theorems_failed": ["C255_the_direction_when_the_leftmost_point_has_a_neighbour_on_each_side", "C255_the_hull_is_the_ring_of_the_simplices", "C256_the_direction_and_the_first_point_refuted"], "statement_broken": [], "secs": 10, "id": "hu6"}
{"failed_lemmas": ["HullP2.lowest_x_ok"], "theorems_failed": ["C255_the_direction_when_the_leftmost_point_has_a_neighbour_on_each_side", "C255_the_hull_is_the_ring_of_the_simplices"], "statement_broken": [], "secs": 12, "id": "hu7"}
{"failed_lemmas": ["HullP2.lowest_x_ok", "HullP3.hull_triangle_value"], "theorems_failed": ["C255_the_direction_when_the_leftmost_point_has_a_neighbour_on_each_side", "C255_the_hull_is_the_ring_of_the_simplices", "C256_the_direction_and_the_first_point_refuted"], "statement_broken": [], "secs": 12, "id": "hu8"}
{"failed_lemmas": ["HullP2.hull_order_ok", "HullP3.hull_triangle_value"], "theorems_failed": ["C255_the_direction_when_the_leftmost_point_has_a_neighbour_on_each_side", "C255_the_hull_is_the_ring_of_the_simplices", "C256_the_direction_and_the_first_point_refuted"], "statement_broken": [], "secs": 15, "id": "hu9"}
{"failed_lemmas": ["HullP2.hull_order_ok", "HullP3.hull_triangle_value"], "theorems_failed": ["C255_the_direction_when_the_leftmost_point_has_a_neighbour_on_each_side", "C255_the_hull_is_the_ring_of_the_simplices", "C256_the_direction_and_the_first_point_refuted"], "statement_broken": [], "secs": 14, "id": "hu10"}
{"failed_lemmas": ["HullP2.hull_ok", "HullP3.hull_triangle_value"], "theorems_failed": ["C255_the_direction_when_the_leftmost_point_has_a_neighbour_on_each_side", "C255_the_hull_is_the_ring_of_the_simplices", "C256_the_direction_and_the_first_point_refuted"], "statement_broken": [], "secs": 14, "id": "hu11"}
{"failed_lemmas": ["HullP2.hull_ok", "HullP3.hull_triangle_value"], "theorems_failed": ["C255_the_direction_when_the_leftmost_point_has_a_neighbour_on_each_side", "C255_the_hull_is_the_ring_of_the_simplices", "C256_the_direction_and_the_first_point_refuted"], "statement_broken": [], "secs": 15, "id": "hu12"}
{"failed_lemmas": ["HullP2.simplex_edges_ok", "HullP3.hull_triangle_value"], "theorems_failed": ["C255_the_direction_when_the_leftmost_point_has_a_neighbour_on_each_side", "C255_the_hull_is_the_ring_of_the_simplices", "C256_the_direction_and_the_first_point_refuted"], "statement_broken": [], "secs": 12, "id": "hu13"}
{"failed_lemmas": ["HullP3.argmin_ok"], "theorems_failed": ["C257_all_the_points_when_the_origin_does_not_come_after_the_first", "C257_only_copies_of_the_origin_are_lost", "C259_one_closed_ring_for_each_label"], "statement_broken": [], "secs": 12, "id": "hu14"}
{"failed_lemmas": ["HullP3.argmin_ok"], "theorems_failed": ["C257_all_the_points_when_the_origin_does_not_come_after_the_first", "C257_only_copies_of_the_origin_are_lost", "C259_one_closed_ring_for_each_label"], "statement_broken": [], "secs": 10, "id": "hu15"}
{"failed_lemmas": ["HullP3.any_false"], "theorems_failed": ["C257_all_the_points_when_the_origin_does_not_come_after_the_first", "C257_only_copies_of_the_origin_are_lost", "C259_one_closed_ring_for_each_label"], "statement_broken": [], "secs": 11, "id": "hu16"}
{"failed_lemmas": ["HullP3.any_false"], "theorems_failed": ["C257_all_the_points_when_the_origin_does_not_come_after_the_first", "C257_only_copies_of_the_origin_are_lost", "C259_one_closed_ring_for_each_label"], "statement_broken": [], "secs": 12, "id": "hu17"}
{"failed_lemmas": ["HullP3.delete_perm"], "theorems_failed": ["C257_all_the_points_when_the_origin_does_not_come_after_the_first", "C257_only_copies_of_the_origin_are_lost", "C259_one_closed_ring_for_each_label"], "statement_broken": [], "secs": 12, "id": "hu18"}
{"failed_lemmas": ["HullP3.chain3_ok", "HullP3.order_refuted"], "theorems_failed": ["C257_all_the_points_when_the_origin_does_not_come_after_the_first", "C257_only_copies_of_the_origin_are_lost", "C258_the_origin_is_lost_refuted", "C259_one_closed_ring_for_each_label"], "statement_broken": [], "secs": 16, "id": "hu19"}
{"failed_lemmas": ["HullP3.order_ok", "HullP3.order_perm", "HullP3.order_refuted", "HullP3.closed_ok"], "theorems_failed": ["C257_all_the_points_when_the_origin_does_not_come_after_the_first", "C257_only_copies_of_the_origin_are_lost", "C258_the_origin_is_lost_refuted", "C259_one_closed_ring_for_each_label"], "statement_broken": [], "secs": 19, "id": "hu20"}
{"failed_lemmas": ["HullP3.add_values", "P_Hull.C259_nonvacuous"], "theorems_failed": ["C259_nonvacuous", "C259_one_closed_ring_for_each_label"], "statement_broken": [], "secs": 14, "id": "hu21"}
{"failed_lemmas": ["HullP3.add_keys", "HullP3.add_values", "P_Hull.C259_nonvacuous"], "theorems_failed": ["C259_nonvacuous", "C259_one_closed_ring_for_each_label"], "statement_broken": [], "secs": 16, "id": "hu22"}
{"failed_lemmas": ["HullP3.closed_ok"], "theorems_failed": ["C259_one_closed_ring_for_each_label"], "statement_broken": [], "secs": 13, "id": "hu23"}
{"failed_lemmas": ["HullP3.center_ok"], "theorems_failed": ["C260_in_every_box_around_the_points", "C260_nonvacuous", "C260_the_mean_of_the_coordinates", "C260_the_order_does_not_matter"], "statement_broken": [], "secs": 13, "id": "hu24"}
{"failed_lemmas": ["HullP3.axis_ok", "P_Hull.C261_nonvacuous"], "theorems_failed": ["C261_nonvacuous", "C261_the_axis_goes_from_one_bound_to_the_other_by_equal_steps"], "statement_broken": [], "secs": 16, "id": "hu25"}
{"failed_lemmas": ["HullP3.axis_nth", "P_Hull.C261_nonvacuous"], "theorems_failed": ["C261_nonvacuous", "C261_the_axis_goes_from_one_bound_to_the_other_by_equal_steps"], "statement_broken": [], "secs": 17, "id": "hu26"}
{"failed_lemmas": ["EllipseP2.theta_ok"], "theorems_failed": ["C266_accepted_points_nearly_satisfy_the_equation", "C266_points_of_the_ellipse_are_accepted"], "statement_broken": [], "secs": 24, "id": "el1"}
{"failed_lemmas": ["EllipseP2.theta_ok"], "theorems_failed": ["C266_accepted_points_nearly_satisfy_the_equation", "C266_points_of_the_ellipse_are_accepted"], "statement_broken": [], "secs": 25, "id": "el2"}
{"failed_lemmas": ["EllipseP4.angles_of"], "theorems_failed": ["C267_closed_from_the_end_of_the_major_axis_on_the_ellipse", "C267_the_points_at_equal_parameters_anticlockwise", "C268_and_the_same_discretization", "C268_reverse_refuted", "C269_rotation", "C271_area"], "statement_broken": [], "secs": 24, "id": "el3"}
{"failed_lemmas": ["EllipseP4.angles_of"], "theorems_failed": ["C267_closed_from_the_end_of_the_major_axis_on_the_ellipse", "C267_the_points_at_equal_parameters_anticlockwise", "C268_and_the_same_discretization", "C268_reverse_refuted", "C269_rotation", "C271_area"], "statement_broken": [], "secs": 21, "id": "el4"}
{"failed_lemmas": ["EllipseP5.length_ok"], "theorems_failed": ["C271_length"], "statement_broken": [], "secs": 23, "id": "el5"}
{"failed_lemmas": ["EllipseP5.length_ok"], "theorems_failed": ["C271_length"], "statement_broken": [], "secs": 22, "id": "el6"}
{"failed_lemmas": ["EllipseP5.length_ok"], "theorems_failed": ["C271_length"], "statement_broken": [], "secs": 21, "id": "el7"}
{"failed_lemmas": ["EllipseP3.rect_aligned", "EllipseP3.rect_refuted"], "theorems_failed": ["C264_axis_aligned_ellipses_are_in_their_rectangle", "C265_the_bounding_box_refuted", "C265_the_bounding_rectangle_refuted"], "statement_broken": [], "secs": 21, "id": "el8"}
{"failed_lemmas": ["EllipseP3.rect_aligned"], "theorems_failed": ["C264_axis_aligned_ellipses_are_in_their_rectangle"], "statement_broken": [], "secs": 21, "id": "el9"}
{"failed_lemmas": ["EllipseP7.area_ok"], "theorems_failed": ["C271_area"], "statement_broken": [], "secs": 23, "id": "el10"}
{"failed_lemmas": ["EllipseP3.round3_near", "EllipseP3.round3_1"], "theorems_failed": ["C266_accepted_points_nearly_satisfy_the_equation", "C266_points_of_the_ellipse_are_accepted"], "statement_broken": [], "secs": 22, "id": "el11"}
{"failed_lemmas": [], "theorems_failed": [], "statement_broken": [], "secs": 17, "id": "el12"}
{"failed_lemmas": ["EllipseP3.over_accepts", "EllipseP3.over_sound"], "theorems_failed": ["C266_accepted_points_nearly_satisfy_the_equation", "C266_points_of_the_ellipse_are_accepted"], "statement_broken": [], "secs": 26, "id": "el13"}
{"failed_lemmas": ["EllipseP3.over_accepts", "EllipseP3.over_sound"], "theorems_failed": ["C266_accepted_points_nearly_satisfy_the_equation", "C266_points_of_the_ellipse_are_accepted"], "statement_broken": [], "secs": 25, "id": "el14"}
{"failed_lemmas": ["EllipseP3.over_accepts", "EllipseP3.over_sound"], "theorems_failed": ["C266_accepted_points_nearly_satisfy_the_equation", "C266_points_of_the_ellipse_are_accepted"], "statement_broken": [], "secs": 26, "id": "el15"}
{"failed_lemmas": ["EllipseP4.linspace_nth"], "theorems_failed": ["C267_closed_from_the_end_of_the_major_axis_on_the_ellipse", "C267_the_points_at_equal_parameters_anticlockwise", "C267_three_dimensions", "C268_and_the_same_discretization", "C268_reverse_refuted"], "statement_broken": [], "secs": 20, "id": "el16"}
{"failed_lemmas": ["EllipseP4.discretization_ok"], "theorems_failed": ["C267_closed_from_the_end_of_the_major_axis_on_the_ellipse", "C267_the_points_at_equal_parameters_anticlockwise", "C268_and_the_same_discretization", "C268_reverse_refuted"], "statement_broken": [], "secs": 22, "id": "el17"}
{"failed_lemmas": ["EllipseP5.angle_ok"], "theorems_failed": ["C270_the_angle_of_the_point_of_parameter_t"], "statement_broken": [], "secs": 24, "id": "el18"}
{"failed_lemmas": ["EllipseP5.angle_ok", "EllipseP5.angle_total"], "theorems_failed": ["C270_every_point_has_an_angle", "C270_the_angle_of_the_point_of_parameter_t"], "statement_broken": [], "secs": 26, "id": "el19"}
{"failed_lemmas": ["EllipseP5.rotation_moves"], "theorems_failed": ["C269_rotation"], "statement_broken": [], "secs": 18, "id": "el20"}
{"failed_lemmas": ["EllipseP5.rotation_moves"], "theorems_failed": ["C269_rotation"], "statement_broken": [], "secs": 21, "id": "el21"}
{"failed_lemmas": ["EllipseP5.mapping_old_moves", "EllipseP5.mapping_new_moves"], "theorems_failed": ["C269_mapping_to_a_new_frame", "C269_mapping_to_the_old_frame"], "statement_broken": [], "secs": 24, "id": "el22"}
{"failed_lemmas": ["EllipseP4.reverse_ok", "EllipseP4.reverse_same"], "theorems_failed": ["C268_and_the_same_discretization", "C268_reverse_refuted", "C268_the_reversed_ellipse_has_the_same_points"], "statement_broken": [], "secs": 24, "id": "el23"}
{"failed_lemmas": ["EllipseP4.reverse_ok", "EllipseP4.reverse_same"], "theorems_failed": ["C268_and_the_same_discretization", "C268_reverse_refuted", "C268_the_reversed_ellipse_has_the_same_points"], "statement_broken": [], "secs": 27, "id": "el24"}
{"failed_lemmas": ["EllipseP.vertical_ok"], "theorems_failed": ["C262_every_intersection_is_on_both", "C262_secant_lines_both_points_are_found", "C263_lines_outside_refuted"], "statement_broken": [], "secs": 20, "id": "el25"}
{"failed_lemmas": ["EllipseP.vertical_ok"], "theorems_failed": ["C262_every_intersection_is_on_both", "C262_secant_lines_both_points_are_found", "C263_lines_outside_refuted"], "statement_broken": [], "secs": 20, "id": "el26"}
{"failed_lemmas": ["EllipseP.local_sound", "EllipseP.local_complete"], "theorems_failed": ["C262_every_intersection_is_on_both", "C262_secant_lines_both_points_are_found"], "statement_broken": [], "secs": 21, "id": "el27"}
{"failed_lemmas": ["EllipseP.local_sound", "EllipseP.local_complete", "EllipseP3.ellipse_tangent_refuted"], "theorems_failed": ["C262_every_intersection_is_on_both", "C262_secant_lines_both_points_are_found", "C263_tangent_lines_refuted"], "statement_broken": [], "secs": 25, "id": "el28"}
{"failed_lemmas": ["EllipseP.local_sound", "EllipseP.local_complete", "EllipseP3.ellipse_tangent_refuted"], "theorems_failed": ["C262_every_intersection_is_on_both", "C262_secant_lines_both_points_are_found", "C263_tangent_lines_refuted"], "statement_broken": [], "secs": 28, "id": "el29"}
{"failed_lemmas": ["EllipseP.local_sound", "EllipseP.local_complete"], "theorems_failed": ["C262_every_intersection_is_on_both", "C262_secant_lines_both_points_are_found"], "statement_broken": [], "secs": 22, "id": "el30"}
{"failed_lemmas": ["EllipseP2.branch"], "theorems_failed": ["C262_every_intersection_is_on_both", "C262_secant_lines_both_points_are_found"], "statement_broken": [], "secs": 26, "id": "el31"}
{"failed_lemmas": ["EllipseP2.branch", "EllipseP2.ellipse_line_far", "EllipseP3.ellipse_tangent_refuted", "EllipseP3.ellipse_outside_refuted"], "theorems_failed": ["C262_every_intersection_is_on_both", "C262_far_lines_have_none", "C262_secant_lines_both_points_are_found", "C263_lines_outside_refuted", "C263_tangent_lines_refuted"], "statement_broken": [], "secs": 41, "id": "el32"}
{"failed_lemmas": ["EllipseP2.turned", "EllipseP2.far_centre", "EllipseP3.oxy_local"], "theorems_failed": ["C262_every_intersection_is_on_both", "C262_secant_lines_both_points_are_found", "C263_lines_outside_refuted", "C263_tangent_lines_refuted"], "statement_broken": [], "secs": 27, "id": "el33"}
{"failed_lemmas": ["EllipseP2.branch", "EllipseP3.ellipse_tangent_refuted", "EllipseP3.ellipse_outside_refuted"], "theorems_failed": ["C262_every_intersection_is_on_both", "C262_secant_lines_both_points_are_found", "C263_lines_outside_refuted", "C263_tangent_lines_refuted"], "statement_broken": [], "secs": 26, "id": "el34"}
{"failed_lemmas": ["EllipseP6.box3_quarters"], "theorems_failed": ["C265_the_bounding_box_refuted", "C265_the_box_is_that_of_the_quarter_points"], "statement_broken": [], "secs": 20, "id": "el35"}
{"failed_lemmas": ["EllipseP6.belongs3_refuted", "EllipseP6.belongs3_spec"], "theorems_failed": ["C272_the_points_of_the_ellipse_belong", "C272_the_projection_of_a_point_that_belongs_nearly_satisfies_the_equation", "C273_point_belongs_refuted"], "statement_broken": [], "secs": 22, "id": "el36"}
{"failed_lemmas": ["EllipseP6.belongs3_spec"], "theorems_failed": ["C272_the_points_of_the_ellipse_belong", "C272_the_projection_of_a_point_that_belongs_nearly_satisfies_the_equation"], "statement_broken": [], "secs": 20, "id": "el37"}
{"failed_lemmas": ["EllipseP6.discretization3_ok"], "theorems_failed": ["C267_three_dimensions"], "statement_broken": [], "secs": 20, "id": "el38"}
{"failed_lemmas": ["EllipseP6.translation3_moves"], "theorems_failed": ["C269_translation_in_space"], "statement_broken": [], "secs": 20, "id": "el39"}
