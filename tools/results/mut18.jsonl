{"failed_lemmas": ["PolyTurnP.trigo_one_point", "PolyTurnP.convex_one_point", "PolyTurnP5.no_points"], "theorems_failed": ["C245_one_point_repeated", "C247_no_points", "C247_one_point_repeated"], "statement_broken": [], "secs": 19, "id": "pt3"}
{"failed_lemmas": ["PolyTurnP5.parallel_not_met"], "theorems_failed": ["C249_it_never_answers_yes_for_aligned_points"], "statement_broken": [], "secs": 15, "id": "pt18"}
{"failed_lemmas": ["SolidP.triangle_points_corners"], "theorems_failed": ["C226_the_box_is_that_of_the_corners"], "statement_broken": [], "secs": 33, "id": "so7"}
{"failed_lemmas": ["Conic3P.planar_form"], "theorems_failed": ["C274_line_and_upright_circle", "C275_line_and_inclined_circle", "C278_the_distance_to_the_circle", "C279_no_distance_to_a_tiny_circle_refuted"], "statement_broken": [], "secs": 48, "id": "cn1"}
{"failed_lemmas": ["Conic3P.planar_form"], "theorems_failed": ["C274_line_and_upright_circle", "C275_line_and_inclined_circle", "C278_the_distance_to_the_circle", "C279_no_distance_to_a_tiny_circle_refuted"], "statement_broken": [], "secs": 46, "id": "cn2"}
{"failed_lemmas": ["Conic3P.planar_form"], "theorems_failed": ["C274_line_and_upright_circle", "C275_line_and_inclined_circle", "C278_the_distance_to_the_circle", "C279_no_distance_to_a_tiny_circle_refuted"], "statement_broken": [], "secs": 44, "id": "cn3"}
{"failed_lemmas": ["Conic3P.planar_form"], "theorems_failed": ["C274_line_and_upright_circle", "C275_line_and_inclined_circle", "C278_the_distance_to_the_circle", "C279_no_distance_to_a_tiny_circle_refuted"], "statement_broken": [], "secs": 46, "id": "cn4"}
{"failed_lemmas": ["Conic3P.planar_form"], "theorems_failed": ["C274_line_and_upright_circle", "C275_line_and_inclined_circle", "C278_the_distance_to_the_circle", "C279_no_distance_to_a_tiny_circle_refuted"], "statement_broken": [], "secs": 41, "id": "cn5"}
{"failed_lemmas": ["Conic3P.planar_form"], "theorems_failed": ["C274_line_and_upright_circle", "C275_line_and_inclined_circle", "C278_the_distance_to_the_circle", "C279_no_distance_to_a_tiny_circle_refuted"], "statement_broken": [], "secs": 43, "id": "cn6"}
{"failed_lemmas": ["Conic3P.planar_form"], "theorems_failed": ["C274_line_and_upright_circle", "C275_line_and_inclined_circle", "C278_the_distance_to_the_circle", "C279_no_distance_to_a_tiny_circle_refuted"], "statement_broken": [], "secs": 49, "id": "cn7"}
{"failed_lemmas": ["Conic3P.planar_form"], "theorems_failed": ["C274_line_and_upright_circle", "C275_line_and_inclined_circle", "C278_the_distance_to_the_circle", "C279_no_distance_to_a_tiny_circle_refuted"], "statement_broken": [], "secs": 44, "id": "cn8"}
{"failed_lemmas": ["Conic3P3.inclined_ok", "Conic3P7.inclined_form", "Conic3P6.circle_point_distance_ok"], "theorems_failed": ["C275_line_and_inclined_circle", "C278_the_distance_to_the_circle", "C280_line_across_the_plane", "C280_line_of_the_plane_complete", "C280_line_of_the_plane_sound"], "statement_broken": [], "secs": 47, "id": "cn9"}
{"failed_lemmas": ["Conic3P3.loop_inclined"], "theorems_failed": ["C275_line_and_inclined_circle", "C278_the_distance_to_the_circle", "C279_no_distance_from_the_axis_refuted", "C279_the_error_of_every_point_of_the_axis"], "statement_broken": [], "secs": 41, "id": "cn10"}
{"failed_lemmas": ["Conic3P2.level_ok", "Conic3P5.radial_points", "Conic3P9.parallel_error", "Conic3P9.tilted_missed", "Conic3P9.tiny_refuted"], "theorems_failed": ["C274_line_and_upright_circle", "C275_line_and_inclined_circle", "C276_a_line_above_the_circle_refuted", "C276_the_error_of_every_near_parallel_line", "C277_both_points_are_missed_refuted", "C278_the_distance_to_the_circle", "C279_no_distance_to_a_tiny_circle_refuted"], "statement_broken": [], "secs": 37, "id": "cn11"}
{"failed_lemmas": ["Conic3P2.level_ok"], "theorems_failed": ["C274_line_and_upright_circle", "C275_line_and_inclined_circle"], "statement_broken": [], "secs": 47, "id": "cn12"}
{"failed_lemmas": ["Conic3P2.level_ok"], "theorems_failed": ["C274_line_and_upright_circle", "C275_line_and_inclined_circle"], "statement_broken": [], "secs": 37, "id": "cn13"}
{"failed_lemmas": ["Conic3P2.level_ok", "Conic3P9.tilted_missed"], "theorems_failed": ["C274_line_and_upright_circle", "C275_line_and_inclined_circle", "C277_both_points_are_missed_refuted"], "statement_broken": [], "secs": 37, "id": "cn14"}
{"failed_lemmas": ["Conic3P2.level_ok"], "theorems_failed": ["C274_line_and_upright_circle", "C275_line_and_inclined_circle"], "statement_broken": [], "secs": 34, "id": "cn15"}
{"failed_lemmas": ["Conic3P9.parallel_error"], "theorems_failed": ["C276_a_line_above_the_circle_refuted", "C276_the_error_of_every_near_parallel_line"], "statement_broken": [], "secs": 32, "id": "cn16"}
{"failed_lemmas": ["Conic3P3.loop_inclined"], "theorems_failed": ["C275_line_and_inclined_circle", "C278_the_distance_to_the_circle", "C279_no_distance_from_the_axis_refuted", "C279_the_error_of_every_point_of_the_axis"], "statement_broken": [], "secs": 35, "id": "cn17"}
{"failed_lemmas": ["Conic3P6.circle_point_distance_ok"], "theorems_failed": ["C278_the_distance_to_the_circle"], "statement_broken": [], "secs": 34, "id": "cn18"}
{"failed_lemmas": ["Conic3P6.circle_point_distance_ok", "Conic3P9.axis_error", "Conic3P9.tiny_refuted"], "theorems_failed": ["C278_the_distance_to_the_circle", "C279_no_distance_from_the_axis_refuted", "C279_no_distance_to_a_tiny_circle_refuted", "C279_the_error_of_every_point_of_the_axis"], "statement_broken": [], "secs": 42, "id": "cn19"}
{"failed_lemmas": ["Conic3P7.self_2d_ok"], "theorems_failed": ["C280_line_of_the_plane_complete", "C280_line_of_the_plane_sound", "C281_the_points_are_in_the_wrong_place_refuted"], "statement_broken": [], "secs": 32, "id": "cn20"}
{"failed_lemmas": ["Conic3P7.self_2d_ok"], "theorems_failed": ["C280_line_of_the_plane_complete", "C280_line_of_the_plane_sound", "C281_the_points_are_in_the_wrong_place_refuted"], "statement_broken": [], "secs": 37, "id": "cn21"}
{"failed_lemmas": ["Conic3P7.ellipse_loop_inclined"], "theorems_failed": ["C280_line_across_the_plane", "C280_line_of_the_plane_complete", "C280_line_of_the_plane_sound"], "statement_broken": [], "secs": 35, "id": "cn22"}
{"failed_lemmas": ["Conic3P7.ellipse_loop_inclined"], "theorems_failed": ["C280_line_across_the_plane", "C280_line_of_the_plane_complete", "C280_line_of_the_plane_sound"], "statement_broken": [], "secs": 31, "id": "cn23"}
{"failed_lemmas": ["Conic3P8.steep_form"], "theorems_failed": ["C280_line_across_the_plane"], "statement_broken": [], "secs": 31, "id": "cn24"}
{"failed_lemmas": [], "theorems_failed": [], "statement_broken": [], "secs": 34, "id": "cn26"}
{"failed_lemmas": ["Conic3P2.upright_horizontal", "Conic3P2.inclined_horizontal", "Conic3P9.tilted_missed"], "theorems_failed": ["C274_line_and_upright_circle", "C275_line_and_inclined_circle", "C276_a_line_above_the_circle_refuted", "C276_the_error_of_every_near_parallel_line", "C277_both_points_are_missed_refuted", "C278_the_distance_to_the_circle", "C279_no_distance_from_the_axis_refuted", "C279_no_distance_to_a_tiny_circle_refuted", "C279_the_error_of_every_point_of_the_axis", "C280_line_across_the_plane", "C280_line_of_the_plane_complete", "C280_line_of_the_plane_sound", "C281_the_points_are_in_the_wrong_place_refuted"], "statement_broken": [], "secs": 40, "id": "cn27"}
{"failed_lemmas": ["PrimsP.vertices_order", "PrimsP.faces_ok", "PrimsP.centers_ok"], "theorems_failed": ["C282_the_corners_differ", "C282_the_eight_corners", "C282_the_six_faces", "C282_the_twelve_edges", "C283_a_block_of_non_zero_edges", "C283_the_block_of_a_box", "C284_the_volume_of_a_slanted_block_refuted", "C286_the_box_of_a_turned_block_refuted", "C287_no_contour_of_any_block_refuted", "C288_the_parts_fill_the_block", "C289_the_parts_of_a_turned_block_refuted", "C290_rotation", "C290_translation"], "statement_broken": [], "secs": 50, "id": "pr1"}
{"failed_lemmas": ["PrimsP.faces_ok"], "theorems_failed": ["C282_the_six_faces", "C283_a_block_of_non_zero_edges", "C283_the_block_of_a_box", "C284_the_volume_of_a_slanted_block_refuted", "C286_the_box_of_a_turned_block_refuted", "C288_the_parts_fill_the_block", "C289_the_parts_of_a_turned_block_refuted", "C290_rotation", "C290_translation"], "statement_broken": [], "secs": 49, "id": "pr2"}
{"failed_lemmas": ["PrimsP.faces_ok"], "theorems_failed": ["C282_the_six_faces", "C283_a_block_of_non_zero_edges", "C283_the_block_of_a_box", "C284_the_volume_of_a_slanted_block_refuted", "C286_the_box_of_a_turned_block_refuted", "C288_the_parts_fill_the_block", "C289_the_parts_of_a_turned_block_refuted", "C290_rotation", "C290_translation"], "statement_broken": [], "secs": 53, "id": "pr3"}
{"failed_lemmas": ["PrimsP.faces_ok"], "theorems_failed": ["C282_the_six_faces", "C283_a_block_of_non_zero_edges", "C283_the_block_of_a_box", "C284_the_volume_of_a_slanted_block_refuted", "C286_the_box_of_a_turned_block_refuted", "C288_the_parts_fill_the_block", "C289_the_parts_of_a_turned_block_refuted", "C290_rotation", "C290_translation"], "statement_broken": [], "secs": 55, "id": "pr4"}
{"failed_lemmas": ["PrimsP.faces_ok"], "theorems_failed": ["C282_the_six_faces", "C283_a_block_of_non_zero_edges", "C283_the_block_of_a_box", "C284_the_volume_of_a_slanted_block_refuted", "C286_the_box_of_a_turned_block_refuted", "C288_the_parts_fill_the_block", "C289_the_parts_of_a_turned_block_refuted", "C290_rotation", "C290_translation"], "statement_broken": [], "secs": 55, "id": "pr5"}
{"failed_lemmas": ["PrimsP.faces_ok"], "theorems_failed": ["C282_the_six_faces", "C283_a_block_of_non_zero_edges", "C283_the_block_of_a_box", "C284_the_volume_of_a_slanted_block_refuted", "C286_the_box_of_a_turned_block_refuted", "C288_the_parts_fill_the_block", "C289_the_parts_of_a_turned_block_refuted", "C290_rotation", "C290_translation"], "statement_broken": [], "secs": 46, "id": "pr6"}
{"failed_lemmas": ["PrimsP2.volume_ok", "PrimsP2.slanted_witness", "PrimsP2.from_bbox_ok", "PrimsP3.subdivide_ok"], "theorems_failed": ["C283_the_block_of_a_box", "C283_the_volume", "C284_the_volume_of_a_slanted_block_refuted", "C288_the_parts_fill_the_block", "C289_the_parts_of_a_turned_block_refuted"], "statement_broken": [], "secs": 53, "id": "pr7"}
{"failed_lemmas": ["PrimsP2.from_bbox_ok", "PrimsP2.from_flat_bbox"], "theorems_failed": ["C283_the_block_of_a_box", "C283_the_error_of_a_flat_box"], "statement_broken": [], "secs": 48, "id": "pr8"}
{"failed_lemmas": ["PrimsP2.from_bbox_ok"], "theorems_failed": ["C283_the_block_of_a_box"], "statement_broken": [], "secs": 49, "id": "pr9"}
{"failed_lemmas": ["PrimsP2.block_bbox_ok", "PrimsP2.from_bbox_ok"], "theorems_failed": ["C283_the_block_of_a_box", "C285_the_box_of_an_axis_parallel_block"], "statement_broken": [], "secs": 53, "id": "pr10"}
{"failed_lemmas": ["PrimsP.vertices_order"], "theorems_failed": ["C282_the_corners_differ", "C282_the_eight_corners", "C282_the_twelve_edges", "C286_the_box_of_a_turned_block_refuted", "C287_no_contour_of_any_block_refuted"], "statement_broken": [], "secs": 51, "id": "pr11"}
{"failed_lemmas": ["PrimsP.edges_order"], "theorems_failed": ["C282_the_twelve_edges", "C287_no_contour_of_any_block_refuted"], "statement_broken": [], "secs": 53, "id": "pr12"}
{"failed_lemmas": ["PrimsP.edges_order"], "theorems_failed": ["C282_the_twelve_edges", "C287_no_contour_of_any_block_refuted"], "statement_broken": [], "secs": 51, "id": "pr13"}
{"failed_lemmas": ["PrimsP.face_contours_fail"], "theorems_failed": ["C287_no_contour_of_any_block_refuted"], "statement_broken": [], "secs": 63, "id": "pr14"}
{"failed_lemmas": [], "theorems_failed": [], "statement_broken": [], "secs": 43, "id": "pr15"}
{"failed_lemmas": ["PrimsP.centers_ok"], "theorems_failed": ["C282_the_six_faces"], "statement_broken": [], "secs": 56, "id": "pr16"}
{"failed_lemmas": ["PrimsP6.rotation_block"], "theorems_failed": ["C290_rotation"], "statement_broken": [], "secs": 44, "id": "pr17"}
{"failed_lemmas": ["PrimsP6.translation_block"], "theorems_failed": ["C290_translation"], "statement_broken": [], "secs": 49, "id": "pr18"}
{"failed_lemmas": ["PrimsP6.mapping_block"], "theorems_failed": ["C290_change_of_frame"], "statement_broken": [], "secs": 53, "id": "pr19"}
{"failed_lemmas": ["PrimsP3.subdivide_cells"], "theorems_failed": ["C288_the_parts_fill_the_block", "C289_the_parts_of_a_turned_block_refuted"], "statement_broken": [], "secs": 45, "id": "pr20"}
{"failed_lemmas": ["PrimsP3.subdivide_cells"], "theorems_failed": ["C288_the_parts_fill_the_block", "C289_the_parts_of_a_turned_block_refuted"], "statement_broken": [], "secs": 48, "id": "pr21"}
{"failed_lemmas": ["PrimsP3.subdivide_cells"], "theorems_failed": ["C288_the_parts_fill_the_block", "C289_the_parts_of_a_turned_block_refuted"], "statement_broken": [], "secs": 56, "id": "pr22"}
{"failed_lemmas": ["PrimsP3.subdivide_cells"], "theorems_failed": ["C288_the_parts_fill_the_block", "C289_the_parts_of_a_turned_block_refuted"], "statement_broken": [], "secs": 55, "id": "pr23"}
{"failed_lemmas": ["PrimsP3.subdivide_zero"], "theorems_failed": ["C288_no_part_at_all"], "statement_broken": [], "secs": 55, "id": "pr24"}
{"failed_lemmas": ["PrimsP4.cylinder_bbox_value", "PrimsP4.cone_bbox_value", "PrimsP6.long_axis"], "theorems_failed": ["C291_the_box_of_a_cone", "C291_the_box_of_a_cylinder", "C291_the_box_of_a_hollow_cylinder", "C294_an_axis_that_is_not_a_unit_vector_refuted"], "statement_broken": [], "secs": 55, "id": "pr25"}
{"failed_lemmas": ["PrimsP4.reach_value"], "theorems_failed": ["C291_the_box_of_a_cone", "C291_the_box_of_a_cylinder", "C291_the_box_of_a_hollow_cylinder", "C294_an_axis_that_is_not_a_unit_vector_refuted"], "statement_broken": [], "secs": 52, "id": "pr26"}
{"failed_lemmas": ["PrimsP4.reach_value"], "theorems_failed": ["C291_the_box_of_a_cone", "C291_the_box_of_a_cylinder", "C291_the_box_of_a_hollow_cylinder", "C294_an_axis_that_is_not_a_unit_vector_refuted"], "statement_broken": [], "secs": 49, "id": "pr27"}
{"failed_lemmas": ["PrimsP4.cylinder_bbox_value", "PrimsP6.long_axis"], "theorems_failed": ["C291_the_box_of_a_cylinder", "C291_the_box_of_a_hollow_cylinder", "C294_an_axis_that_is_not_a_unit_vector_refuted"], "statement_broken": [], "secs": 43, "id": "pr28"}
{"failed_lemmas": ["PrimsP4.cylinder_bbox_value"], "theorems_failed": ["C291_the_box_of_a_cylinder", "C291_the_box_of_a_hollow_cylinder"], "statement_broken": [], "secs": 43, "id": "pr29"}
{"failed_lemmas": ["PrimsP6.cylinder_volume_pos"], "theorems_failed": ["C292_the_common_volume"], "statement_broken": [], "secs": 51, "id": "pr30"}
{"failed_lemmas": ["PrimsP6.end_points_ok"], "theorems_failed": ["C293_from_end_points"], "statement_broken": [], "secs": 43, "id": "pr31"}
{"failed_lemmas": ["PrimsP6.end_points_ok"], "theorems_failed": ["C293_from_end_points"], "statement_broken": [], "secs": 47, "id": "pr32"}
{"failed_lemmas": ["PrimsP6.end_points_ok"], "theorems_failed": ["C293_from_end_points"], "statement_broken": [], "secs": 49, "id": "pr33"}
{"failed_lemmas": ["PrimsP6.center_axis_unit", "PrimsP6.long_axis"], "theorems_failed": ["C293_from_a_center_and_a_unit_axis", "C294_an_axis_that_is_not_a_unit_vector_refuted"], "statement_broken": [], "secs": 57, "id": "pr34"}
{"failed_lemmas": ["PrimsP5.belongs_spec"], "theorems_failed": ["C292_point_belongs", "C292_the_common_volume"], "statement_broken": [], "secs": 49, "id": "pr35"}
{"failed_lemmas": ["PrimsP5.belongs_spec"], "theorems_failed": ["C292_point_belongs", "C292_the_common_volume"], "statement_broken": [], "secs": 54, "id": "pr36"}
{"failed_lemmas": ["PrimsP5.belongs_spec"], "theorems_failed": ["C292_point_belongs", "C292_the_common_volume"], "statement_broken": [], "secs": 49, "id": "pr37"}
{"failed_lemmas": ["PrimsP5.sampled_ok"], "theorems_failed": ["C292_random_points", "C292_the_common_volume"], "statement_broken": [], "secs": 56, "id": "pr38"}
{"failed_lemmas": ["PrimsP5.sampled_ok"], "theorems_failed": ["C292_random_points", "C292_the_common_volume"], "statement_broken": [], "secs": 48, "id": "pr39"}
{"failed_lemmas": ["PrimsP6.interference_ok"], "theorems_failed": ["C292_the_common_volume"], "statement_broken": [], "secs": 55, "id": "pr40"}
{"failed_lemmas": ["PrimsP6.interference_ok"], "theorems_failed": ["C292_the_common_volume"], "statement_broken": [], "secs": 55, "id": "pr41"}
{"failed_lemmas": ["PrimsP6.interference_ok"], "theorems_failed": ["C292_the_common_volume"], "statement_broken": [], "secs": 51, "id": "pr42"}
{"failed_lemmas": ["PrimsP4.cone_bbox_value"], "theorems_failed": ["C291_the_box_of_a_cone"], "statement_broken": [], "secs": 56, "id": "pr43"}
{"failed_lemmas": ["PrimsP4.cone_bbox_value"], "theorems_failed": ["C291_the_box_of_a_cone"], "statement_broken": [], "secs": 55, "id": "pr44"}
{"failed_lemmas": ["PrimsP9.belongs_sphere"], "theorems_failed": ["C296_point_belongs"], "statement_broken": [], "secs": 48, "id": "pr45"}
{"failed_lemmas": ["PrimsP8.floor_ok"], "theorems_failed": ["C295_points_of_the_skin", "C296_points_of_the_ball"], "statement_broken": [], "secs": 43, "id": "pr46"}
{"failed_lemmas": ["PrimsP8.floor_ok"], "theorems_failed": ["C295_points_of_the_skin", "C296_points_of_the_ball"], "statement_broken": [], "secs": 51, "id": "pr47"}
{"failed_lemmas": ["PrimsP8.floor_ok"], "theorems_failed": ["C295_points_of_the_skin", "C296_points_of_the_ball"], "statement_broken": [], "secs": 56, "id": "pr48"}
{"failed_lemmas": ["PrimsP8.floor_ok"], "theorems_failed": ["C295_points_of_the_skin", "C296_points_of_the_ball"], "statement_broken": [], "secs": 50, "id": "pr49"}
{"failed_lemmas": ["PrimsP9.skin_ok_small"], "theorems_failed": ["C295_points_of_the_skin", "C296_points_of_the_ball"], "statement_broken": [], "secs": 48, "id": "pr50"}
{"failed_lemmas": ["PrimsP9.skin_ok_small"], "theorems_failed": ["C295_points_of_the_skin", "C296_points_of_the_ball"], "statement_broken": [], "secs": 51, "id": "pr51"}
{"failed_lemmas": ["PrimsP9.skin_ok_small", "PrimsP9.skin_coarse"], "theorems_failed": ["C295_no_point_at_a_coarse_resolution", "C295_points_of_the_skin", "C296_points_of_the_ball"], "statement_broken": [], "secs": 49, "id": "pr52"}
{"failed_lemmas": ["PrimsP9.skin_ok_small"], "theorems_failed": ["C295_points_of_the_skin", "C296_points_of_the_ball"], "statement_broken": [], "secs": 45, "id": "pr53"}
{"failed_lemmas": ["PrimsP9.inner_ok"], "theorems_failed": ["C296_points_of_the_ball"], "statement_broken": [], "secs": 46, "id": "pr54"}
{"failed_lemmas": ["PrimsP9.inner_ok"], "theorems_failed": ["C296_points_of_the_ball"], "statement_broken": [], "secs": 38, "id": "pr55"}
{"failed_lemmas": ["PrimsP9.inner_ok"], "theorems_failed": ["C296_points_of_the_ball"], "statement_broken": [], "secs": 36, "id": "pr56"}
{"failed_lemmas": ["PrimsP8.floor_nat_spec"], "theorems_failed": ["C295_points_of_the_skin", "C296_points_of_the_ball"], "statement_broken": [], "secs": 40, "id": "pr57"}
