{"failed_lemmas": ["FaceGridP.left_ok", "P_FaceGrid.C240_nonvacuous"], "theorems_failed": ["C240_nonvacuous", "C240_the_indexes_of_the_values_of_the_interval", "C241_the_nodes_inside_that_are_not_vertices_and_outside_the_holes", "C241_the_points_in_holes_are_removed_after_the_first"], "statement_broken": [], "secs": 10, "id": "fg1"}
{"failed_lemmas": ["FaceGridP.right_ok", "P_FaceGrid.C240_nonvacuous", "P_FaceGrid.C241_nonvacuous"], "theorems_failed": ["C240_nonvacuous", "C240_the_indexes_of_the_values_of_the_interval", "C241_nonvacuous", "C241_the_nodes_inside_that_are_not_vertices_and_outside_the_holes", "C241_the_points_in_holes_are_removed_after_the_first"], "statement_broken": [], "secs": 10, "id": "fg2"}
{"failed_lemmas": ["FaceGridP.left_ok", "P_FaceGrid.C240_nonvacuous"], "theorems_failed": ["C240_nonvacuous", "C240_the_indexes_of_the_values_of_the_interval", "C241_the_nodes_inside_that_are_not_vertices_and_outside_the_holes", "C241_the_points_in_holes_are_removed_after_the_first"], "statement_broken": [], "secs": 8, "id": "fg3"}
{"failed_lemmas": ["FaceGridP.range_search_ok", "P_FaceGrid.C240_nonvacuous"], "theorems_failed": ["C240_nonvacuous", "C240_the_indexes_of_the_values_of_the_interval", "C241_the_nodes_inside_that_are_not_vertices_and_outside_the_holes", "C241_the_points_in_holes_are_removed_after_the_first"], "statement_broken": [], "secs": 8, "id": "fg4"}
{"failed_lemmas": ["FaceGridP.range_search_ok", "P_FaceGrid.C240_nonvacuous", "P_FaceGrid.C241_nonvacuous"], "theorems_failed": ["C240_nonvacuous", "C240_the_indexes_of_the_values_of_the_interval", "C241_nonvacuous", "C241_the_nodes_inside_that_are_not_vertices_and_outside_the_holes", "C241_the_points_in_holes_are_removed_after_the_first"], "statement_broken": [], "secs": 9, "id": "fg5"}
{"failed_lemmas": ["FaceGridP.indexes_in", "P_FaceGrid.C241_nonvacuous"], "theorems_failed": ["C241_nonvacuous", "C241_the_nodes_inside_that_are_not_vertices_and_outside_the_holes", "C241_the_points_in_holes_are_removed_after_the_first"], "statement_broken": [], "secs": 9, "id": "fg6"}
{"failed_lemmas": ["FaceGridP.indexes_in", "FaceGridP.first_point_refuted"], "theorems_failed": ["C241_the_nodes_inside_that_are_not_vertices_and_outside_the_holes", "C241_the_points_in_holes_are_removed_after_the_first", "C242_first_point_refuted"], "statement_broken": [], "secs": 10, "id": "fg7"}
{"failed_lemmas": ["FaceGridP.indexes_in"], "theorems_failed": ["C241_the_nodes_inside_that_are_not_vertices_and_outside_the_holes", "C241_the_points_in_holes_are_removed_after_the_first"], "statement_broken": [], "secs": 7, "id": "fg8"}
{"failed_lemmas": ["FaceGridP.update_ok", "FaceGridP.first_point_refuted", "P_FaceGrid.C241_nonvacuous"], "theorems_failed": ["C241_nonvacuous", "C241_the_nodes_inside_that_are_not_vertices_and_outside_the_holes", "C241_the_points_in_holes_are_removed_after_the_first", "C242_first_point_refuted"], "statement_broken": [], "secs": 10, "id": "fg9"}
{"failed_lemmas": ["FaceGridP.update_ok"], "theorems_failed": ["C241_the_nodes_inside_that_are_not_vertices_and_outside_the_holes", "C241_the_points_in_holes_are_removed_after_the_first"], "statement_broken": [], "secs": 8, "id": "fg10"}
{"failed_lemmas": ["FaceGridP.in_nodes", "FaceGridP.face_grid_ok", "P_FaceGrid.C241_nonvacuous"], "theorems_failed": ["C241_nonvacuous", "C241_the_nodes_inside_that_are_not_vertices_and_outside_the_holes"], "statement_broken": [], "secs": 12, "id": "fg11"}
{"failed_lemmas": ["FaceGridP.face_grid_ok", "P_FaceGrid.C241_nonvacuous"], "theorems_failed": ["C241_nonvacuous", "C241_the_nodes_inside_that_are_not_vertices_and_outside_the_holes"], "statement_broken": [], "secs": 10, "id": "fg12"}
{"failed_lemmas": ["FaceGridP.face_grid_ok", "P_FaceGrid.C241_nonvacuous"], "theorems_failed": ["C241_nonvacuous", "C241_the_nodes_inside_that_are_not_vertices_and_outside_the_holes"], "statement_broken": [], "secs": 10, "id": "fg13"}
{"failed_lemmas": ["FaceGridP.face_grid_ok"], "theorems_failed": ["C241_the_nodes_inside_that_are_not_vertices_and_outside_the_holes"], "statement_broken": [], "secs": 9, "id": "fg14"}
{"failed_lemmas": ["FaceGridP.position_some", "FaceGridP.position_nth", "P_FaceGrid.C241_nonvacuous"], "theorems_failed": ["C241_nonvacuous", "C241_the_nodes_inside_that_are_not_vertices_and_outside_the_holes"], "statement_broken": [], "secs": 12, "id": "fg15"}
{"failed_lemmas": ["FaceGridP.in_snake", "P_FaceGrid.C243_nonvacuous"], "theorems_failed": ["C243_nonvacuous", "C243_the_grid_of_a_polygon_is_made_of_the_nodes_inside_that_are_not_vertices", "C243_the_nodes_outside_the_holes_are_kept", "C243_the_points_kept_are_nodes_inside_that_are_not_vertices"], "statement_broken": [], "secs": 10, "id": "fg16"}
{"failed_lemmas": ["FaceGridP.in_snake", "P_FaceGrid.C243_nonvacuous"], "theorems_failed": ["C243_nonvacuous", "C243_the_grid_of_a_polygon_is_made_of_the_nodes_inside_that_are_not_vertices", "C243_the_nodes_outside_the_holes_are_kept", "C243_the_points_kept_are_nodes_inside_that_are_not_vertices"], "statement_broken": [], "secs": 10, "id": "fg17"}
{"failed_lemmas": ["FaceGridP.grid_points_in", "P_FaceGrid.C243_nonvacuous"], "theorems_failed": ["C243_nonvacuous", "C243_the_grid_of_a_polygon_is_made_of_the_nodes_inside_that_are_not_vertices", "C243_the_nodes_outside_the_holes_are_kept", "C243_the_points_kept_are_nodes_inside_that_are_not_vertices"], "statement_broken": [], "secs": 10, "id": "fg18"}
{"failed_lemmas": ["FaceGridP.grid_keys"], "theorems_failed": ["C243_the_nodes_outside_the_holes_are_kept"], "statement_broken": [], "secs": 9, "id": "fg19"}
{"failed_lemmas": ["FaceGridP.remove_hole_keeps", "FaceGridP.remove_sub"], "theorems_failed": ["C243_the_nodes_outside_the_holes_are_kept", "C243_the_points_kept_are_nodes_inside_that_are_not_vertices"], "statement_broken": [], "secs": 13, "id": "fg20"}
{"failed_lemmas": ["FaceGridP.remove_hole_keeps", "FaceGridP.remove_sub"], "theorems_failed": ["C243_the_nodes_outside_the_holes_are_kept", "C243_the_points_kept_are_nodes_inside_that_are_not_vertices"], "statement_broken": [], "secs": 14, "id": "fg21"}
{"failed_lemmas": ["FaceGridP.surface_grid_sound", "FaceGridP.surface_grid_sound", "FaceGridP.surface_grid_sound", "FaceGridP.surface_grid_sound", "FaceGridP.surface_grid_sound"], "statement_broken": ["theories/Proofs/FaceGridP.v:227"], "timeout": [], "tail": "COQDEP VFILES\nCOQC theories/Proofs/FaceGridP.v\nFile \"./theories/Proofs/FaceGridP.v\", line 227, characters 108-110:\nError:\nIn environment\nT : Type\nlt : T -> T -> bool\nx : ?T\ny : ?T0\nny : ?T1\ninside : ?T2\nvertex : ?T3\nholes : ?T4\np : ?T5\nThe term \"lt\" has type \"T -> T -> bool\" while it is expected to have type\n \"list ?T6\".\n\nmake: *** [Makefile:793: theories/Proofs/FaceGridP.vo] Error 1\nmake: Target 'theories/Props/P_FaceGrid.vo' not remade because of errors.\n", "id": "fg22"}
{"failed_lemmas": ["PolyTurnP.segments_eq", "PolyTurnP2.segments_map"], "theorems_failed": ["C245_a_polygon_that_turns_left_is_trigonometric", "C245_a_polygon_that_turns_right_is_not", "C245_convex_polygons", "C245_nonvacuous", "C245_rotations", "C245_translations", "C246_the_direction_of_simple_polygons_refuted", "C247_convex_polygons_are_convex", "C247_no_corner_turns_against_the_direction", "C247_nonvacuous", "C247_polygons_that_turn_both_ways_are_not", "C248_convex_refuted"], "statement_broken": [], "secs": 25, "id": "pt1"}
{"failed_lemmas": ["PolyTurnP.pairs_eq", "PolyTurnP2.trigo_map"], "theorems_failed": ["C245_a_polygon_that_turns_left_is_trigonometric", "C245_a_polygon_that_turns_right_is_not", "C245_convex_polygons", "C245_nonvacuous", "C245_rotations", "C245_translations", "C246_the_direction_of_simple_polygons_refuted", "C247_convex_polygons_are_convex", "C247_no_corner_turns_against_the_direction", "C247_nonvacuous", "C247_polygons_that_turn_both_ways_are_not", "C248_convex_refuted"], "statement_broken": [], "secs": 26, "id": "pt2"}
{"failed_lemmas": [], "theorems_failed": [], "statement_broken": [], "secs": 19, "id": "pt3"}
{"failed_lemmas": ["PolyTurnP.turn_angle_eq", "PolyTurnP2.trigo_rotation"], "theorems_failed": ["C245_a_polygon_that_turns_left_is_trigonometric", "C245_a_polygon_that_turns_right_is_not", "C245_convex_polygons", "C245_nonvacuous", "C245_rotations", "C246_the_direction_of_simple_polygons_refuted", "C247_convex_polygons_are_convex", "C247_no_corner_turns_against_the_direction", "C247_nonvacuous", "C247_polygons_that_turn_both_ways_are_not", "C248_convex_refuted"], "statement_broken": [], "secs": 22, "id": "pt4"}
{"failed_lemmas": ["PolyTurnP.turn_angle_eq", "PolyTurnP2.trigo_rotation"], "theorems_failed": ["C245_a_polygon_that_turns_left_is_trigonometric", "C245_a_polygon_that_turns_right_is_not", "C245_convex_polygons", "C245_nonvacuous", "C245_rotations", "C246_the_direction_of_simple_polygons_refuted", "C247_convex_polygons_are_convex", "C247_no_corner_turns_against_the_direction", "C247_nonvacuous", "C247_polygons_that_turn_both_ways_are_not", "C248_convex_refuted"], "statement_broken": [], "secs": 22, "id": "pt5"}
{"failed_lemmas": ["PolyTurnP.turn_angle_eq", "PolyTurnP2.trigo_rotation"], "theorems_failed": ["C245_a_polygon_that_turns_left_is_trigonometric", "C245_a_polygon_that_turns_right_is_not", "C245_convex_polygons", "C245_nonvacuous", "C245_rotations", "C246_the_direction_of_simple_polygons_refuted", "C247_convex_polygons_are_convex", "C247_no_corner_turns_against_the_direction", "C247_nonvacuous", "C247_polygons_that_turn_both_ways_are_not", "C248_convex_refuted"], "statement_broken": [], "secs": 23, "id": "pt6"}
{"failed_lemmas": ["PolyTurnP.sum_angles_eq"], "theorems_failed": ["C245_a_polygon_that_turns_left_is_trigonometric", "C245_a_polygon_that_turns_right_is_not", "C245_convex_polygons", "C245_nonvacuous", "C246_the_direction_of_simple_polygons_refuted", "C247_convex_polygons_are_convex", "C247_no_corner_turns_against_the_direction", "C247_nonvacuous", "C247_polygons_that_turn_both_ways_are_not", "C248_convex_refuted"], "statement_broken": [], "secs": 19, "id": "pt7"}
{"failed_lemmas": ["PolyTurnP.is_trigo_eq", "PolyTurnP2.trigo_map"], "theorems_failed": ["C245_a_polygon_that_turns_left_is_trigonometric", "C245_a_polygon_that_turns_right_is_not", "C245_convex_polygons", "C245_nonvacuous", "C245_rotations", "C245_translations", "C246_the_direction_of_simple_polygons_refuted", "C247_convex_polygons_are_convex", "C247_no_corner_turns_against_the_direction", "C247_nonvacuous", "C247_polygons_that_turn_both_ways_are_not", "C248_convex_refuted"], "statement_broken": [], "secs": 24, "id": "pt8"}
{"failed_lemmas": ["PolyTurnP.is_trigo_eq"], "theorems_failed": ["C245_a_polygon_that_turns_left_is_trigonometric", "C245_a_polygon_that_turns_right_is_not", "C245_convex_polygons", "C245_nonvacuous", "C246_the_direction_of_simple_polygons_refuted", "C247_convex_polygons_are_convex", "C247_no_corner_turns_against_the_direction", "C247_nonvacuous", "C247_polygons_that_turn_both_ways_are_not", "C248_convex_refuted"], "statement_broken": [], "secs": 20, "id": "pt9"}
{"failed_lemmas": ["PolyTurnP.turn_angle_eq", "PolyTurnP2.trigo_rotation"], "theorems_failed": ["C245_a_polygon_that_turns_left_is_trigonometric", "C245_a_polygon_that_turns_right_is_not", "C245_convex_polygons", "C245_nonvacuous", "C245_rotations", "C246_the_direction_of_simple_polygons_refuted", "C247_convex_polygons_are_convex", "C247_no_corner_turns_against_the_direction", "C247_nonvacuous", "C247_polygons_that_turn_both_ways_are_not", "C248_convex_refuted"], "statement_broken": [], "secs": 25, "id": "pt10"}
{"failed_lemmas": ["PolyTurnP2.bad_turn_spec"], "theorems_failed": ["C247_convex_polygons_are_convex", "C247_no_corner_turns_against_the_direction", "C247_nonvacuous", "C247_polygons_that_turn_both_ways_are_not", "C248_convex_refuted"], "statement_broken": [], "secs": 24, "id": "pt11"}
{"failed_lemmas": ["PolyTurnP2.bad_turn_spec"], "theorems_failed": ["C247_convex_polygons_are_convex", "C247_no_corner_turns_against_the_direction", "C247_nonvacuous", "C247_polygons_that_turn_both_ways_are_not", "C248_convex_refuted"], "statement_broken": [], "secs": 21, "id": "pt12"}
{"failed_lemmas": ["PolyTurnP2.bad_turn_spec"], "theorems_failed": ["C247_convex_polygons_are_convex", "C247_no_corner_turns_against_the_direction", "C247_nonvacuous", "C247_polygons_that_turn_both_ways_are_not", "C248_convex_refuted"], "statement_broken": [], "secs": 21, "id": "pt13"}
{"failed_lemmas": ["PolyTurnP2.is_convex_spec"], "theorems_failed": ["C247_convex_polygons_are_convex", "C247_no_corner_turns_against_the_direction", "C247_nonvacuous", "C247_polygons_that_turn_both_ways_are_not", "C248_convex_refuted"], "statement_broken": [], "secs": 21, "id": "pt14"}
{"failed_lemmas": ["PolyTurnP2.is_convex_spec"], "theorems_failed": ["C247_convex_polygons_are_convex", "C247_no_corner_turns_against_the_direction", "C247_nonvacuous", "C247_polygons_that_turn_both_ways_are_not", "C248_convex_refuted"], "statement_broken": [], "secs": 21, "id": "pt15"}
{"failed_lemmas": ["PolyTurnP4.square_sorted"], "theorems_failed": ["C249_self_intersects_refuted"], "statement_broken": [], "secs": 23, "id": "pt16"}
{"failed_lemmas": ["PolyTurnP4.get_segments_last", "PolyTurnP4.self_intersects_always", "PolyTurnP4.self_refuted"], "theorems_failed": ["C249_it_never_answers_no_in_general_position", "C249_self_intersects_refuted"], "statement_broken": [], "secs": 31, "id": "pt17"}
{"failed_lemmas": [], "theorems_failed": [], "statement_broken": [], "secs": 23, "id": "pt18"}
{"failed_lemmas": ["PolyTurnP4.meet"], "theorems_failed": ["C249_it_never_answers_no_in_general_position", "C249_self_intersects_refuted"], "statement_broken": [], "secs": 25, "id": "pt19"}
{"failed_lemmas": ["PolyTurnP4.self_intersects_always", "PolyTurnP4.self_refuted"], "theorems_failed": ["C249_it_never_answers_no_in_general_position", "C249_self_intersects_refuted"], "statement_broken": [], "secs": 31, "id": "pt20"}
{"failed_lemmas": ["PeriodicP.sign_changes_in", "PeriodicP.discontinuity_refuted"], "theorems_failed": ["C250_find_sign_changes", "C250_the_steps_over_the_cut_are_reported_and_no_others", "C251_steps_of_more_than_a_quarter_of_a_turn_refuted"], "statement_broken": [], "secs": 17, "id": "pe1"}
{"failed_lemmas": ["PeriodicP.sign_changes_in"], "theorems_failed": ["C250_find_sign_changes", "C250_the_steps_over_the_cut_are_reported_and_no_others"], "statement_broken": [], "secs": 16, "id": "pe2"}
{"failed_lemmas": ["PeriodicP.sign_changes_in"], "theorems_failed": ["C250_find_sign_changes", "C250_the_steps_over_the_cut_are_reported_and_no_others"], "statement_broken": [], "secs": 13, "id": "pe3"}
{"failed_lemmas": ["PeriodicP.sign_changes_ok", "PeriodicP.discontinuity_refuted"], "theorems_failed": ["C250_find_sign_changes", "C250_the_steps_over_the_cut_are_reported_and_no_others", "C251_steps_of_more_than_a_quarter_of_a_turn_refuted"], "statement_broken": [], "secs": 18, "id": "pe4"}
{"failed_lemmas": ["PeriodicP.step_wrap", "PeriodicP.discontinuity_refuted"], "theorems_failed": ["C250_the_steps_over_the_cut_are_reported_and_no_others", "C251_steps_of_more_than_a_quarter_of_a_turn_refuted"], "statement_broken": [], "secs": 15, "id": "pe5"}
{"failed_lemmas": ["PeriodicP.step_wrap", "PeriodicP.discontinuity_refuted"], "theorems_failed": ["C250_the_steps_over_the_cut_are_reported_and_no_others", "C251_steps_of_more_than_a_quarter_of_a_turn_refuted"], "statement_broken": [], "secs": 17, "id": "pe6"}
{"failed_lemmas": ["PeriodicP.step_wrap"], "theorems_failed": ["C250_the_steps_over_the_cut_are_reported_and_no_others"], "statement_broken": [], "secs": 13, "id": "pe8"}
{"failed_lemmas": ["PeriodicP.step_wrap", "PeriodicP.discontinuity_refuted"], "theorems_failed": ["C250_the_steps_over_the_cut_are_reported_and_no_others", "C251_steps_of_more_than_a_quarter_of_a_turn_refuted"], "statement_broken": [], "secs": 14, "id": "pe9"}
{"failed_lemmas": ["PeriodicP.discontinuity_ok", "PeriodicP.discontinuity_refuted"], "theorems_failed": ["C250_the_steps_over_the_cut_are_reported_and_no_others", "C251_steps_of_more_than_a_quarter_of_a_turn_refuted"], "statement_broken": [], "secs": 15, "id": "pe10"}
{"failed_lemmas": ["PeriodicP2.repair_cases"], "theorems_failed": ["C252_arcs_of_cylinders", "C252_the_angle_is_brought_on_the_side_of_the_reference", "C252_what_the_repair_does"], "statement_broken": [], "secs": 11, "id": "pe11"}
{"failed_lemmas": ["PeriodicP2.repair_cases"], "theorems_failed": ["C252_arcs_of_cylinders", "C252_the_angle_is_brought_on_the_side_of_the_reference", "C252_what_the_repair_does"], "statement_broken": [], "secs": 11, "id": "pe12"}
{"failed_lemmas": ["PeriodicP2.repair_cases", "PeriodicP2.repair_far"], "theorems_failed": ["C252_arcs_of_cylinders", "C252_the_angle_is_brought_on_the_side_of_the_reference", "C252_what_the_repair_does"], "statement_broken": [], "secs": 13, "id": "pe13"}
{"failed_lemmas": ["PeriodicP2.repair_cases"], "theorems_failed": ["C252_arcs_of_cylinders", "C252_the_angle_is_brought_on_the_side_of_the_reference", "C252_what_the_repair_does"], "statement_broken": [], "secs": 11, "id": "pe14"}
{"failed_lemmas": ["PeriodicP2.continuity_ok", "PeriodicP2.arc_cylinder_ok"], "theorems_failed": ["C252_arcs_of_cylinders", "C253_the_other_way_round"], "statement_broken": [], "secs": 17, "id": "pe15"}
{"failed_lemmas": ["PeriodicP2.arc_cylinder_ok"], "theorems_failed": ["C252_arcs_of_cylinders"], "statement_broken": [], "secs": 11, "id": "pe16"}
{"failed_lemmas": ["PeriodicP2.arc_cylinder_ok"], "theorems_failed": ["C252_arcs_of_cylinders"], "statement_broken": [], "secs": 13, "id": "pe17"}
{"failed_lemmas": ["PeriodicP2.arc_cylinder_ok"], "theorems_failed": ["C252_arcs_of_cylinders"], "statement_broken": [], "secs": 13, "id": "pe18"}
{"failed_lemmas": ["PeriodicP2.fullarc_ok"], "theorems_failed": ["C253_circles_make_a_full_turn"], "statement_broken": [], "secs": 13, "id": "pe19"}
{"failed_lemmas": ["PeriodicP2.fullarc_ok"], "theorems_failed": ["C253_circles_make_a_full_turn"], "statement_broken": [], "secs": 13, "id": "pe20"}
{"failed_lemmas": ["PeriodicP2.fullarc_ok"], "theorems_failed": ["C253_circles_make_a_full_turn"], "statement_broken": [], "secs": 13, "id": "pe21"}
{"failed_lemmas": ["PeriodicP3.first_times_nodup", "PeriodicP3.first_times_id", "PeriodicP3.first_times_length", "PeriodicP3.repeated_app", "P_Periodic.C254_nonvacuous"], "theorems_failed": ["C254_a_repeated_point_changes_nothing", "C254_nonvacuous", "C254_the_points_once"], "statement_broken": [], "secs": 18, "id": "pe22"}
{"failed_lemmas": ["PeriodicP3.first_times_in", "PeriodicP3.first_times_nodup", "PeriodicP3.repeated_app", "P_Periodic.C254_nonvacuous"], "theorems_failed": ["C254_a_repeated_point_changes_nothing", "C254_nonvacuous", "C254_the_points_once"], "statement_broken": [], "secs": 16, "id": "pe23"}
{"failed_lemmas": ["PeriodicP3.repeated_ok", "PeriodicP3.repeated_app", "P_Periodic.C254_nonvacuous"], "theorems_failed": ["C254_a_repeated_point_changes_nothing", "C254_nonvacuous", "C254_the_points_once"], "statement_broken": [], "secs": 17, "id": "pe24"}
