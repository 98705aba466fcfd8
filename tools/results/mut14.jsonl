{"failed_lemmas": ["ShellsP.scan_spec"], "theorems_failed": ["C217_shells_that_touch_are_united_and_the_results_are_apart"], "statement_broken": [], "secs": 15, "id": "sh1"}
{"failed_lemmas": ["ShellsP.scan_spec", "ShellsP.union_list_input"], "theorems_failed": ["C217_shells_that_touch_are_united_and_the_results_are_apart", "C218_the_list_given_is_not_kept_refuted"], "statement_broken": [], "secs": 16, "id": "sh2"}
{"failed_lemmas": ["ShellsP.scan_spec"], "theorems_failed": ["C217_shells_that_touch_are_united_and_the_results_are_apart"], "statement_broken": [], "secs": 13, "id": "sh3"}
{"failed_lemmas": ["ShellsP.loop_after", "ShellsP.union_list_sec", "P_Shells.C217_nonvacuous"], "theorems_failed": ["C217_nonvacuous", "C217_shells_that_touch_are_united_and_the_results_are_apart"], "statement_broken": [], "secs": 19, "id": "sh4"}
{"failed_lemmas": ["ShellsP.loop_after", "ShellsP.union_list_sec", "ShellsP.union_list_input"], "theorems_failed": ["C217_shells_that_touch_are_united_and_the_results_are_apart", "C218_the_list_given_is_not_kept_refuted"], "statement_broken": [], "secs": 20, "id": "sh5"}
{"failed_lemmas": ["ShellsP.loop_after", "ShellsP.union_list_sec", "ShellsP.union_list_input", "P_Shells.C217_nonvacuous"], "theorems_failed": ["C217_nonvacuous", "C217_shells_that_touch_are_united_and_the_results_are_apart", "C218_the_list_given_is_not_kept_refuted"], "statement_broken": [], "secs": 20, "id": "sh6"}
{"failed_lemmas": ["ShellsP.loop_after", "ShellsP.union_list_sec", "ShellsP.union_list_input", "P_Shells.C217_nonvacuous"], "theorems_failed": ["C217_nonvacuous", "C217_shells_that_touch_are_united_and_the_results_are_apart", "C218_the_list_given_is_not_kept_refuted"], "statement_broken": [], "secs": 23, "id": "sh7"}
{"failed_lemmas": ["ShellsP.union_list_empty"], "theorems_failed": ["C217_an_empty_list_is_refused"], "statement_broken": [], "secs": 16, "id": "sh8"}
{"failed_lemmas": ["ShellsP.union_list_sec", "ShellsP.union_list_input"], "theorems_failed": ["C217_shells_that_touch_are_united_and_the_results_are_apart", "C218_the_list_given_is_not_kept_refuted"], "statement_broken": [], "secs": 21, "id": "sh9"}
{"failed_lemmas": ["ShellsP3.vertices_all"], "theorems_failed": ["C219_open_means_an_edge_with_no_face_beyond", "C219_the_shells_are_the_chains_of_faces_that_share_vertices"], "statement_broken": [], "secs": 14, "id": "sh10"}
{"failed_lemmas": ["ShellsP3.vertices_all"], "theorems_failed": ["C219_open_means_an_edge_with_no_face_beyond", "C219_the_shells_are_the_chains_of_faces_that_share_vertices"], "statement_broken": [], "secs": 13, "id": "sh11"}
{"failed_lemmas": ["ShellsP3.index_some", "P_Shells.C219_nonvacuous"], "theorems_failed": ["C219_nonvacuous", "C219_open_means_an_edge_with_no_face_beyond", "C219_the_shells_are_the_chains_of_faces_that_share_vertices"], "statement_broken": [], "secs": 13, "id": "sh12"}
{"failed_lemmas": ["ShellsP3.edges_ok", "P_Shells.C219_nonvacuous"], "theorems_failed": ["C219_nonvacuous", "C219_open_means_an_edge_with_no_face_beyond", "C219_the_shells_are_the_chains_of_faces_that_share_vertices"], "statement_broken": [], "secs": 15, "id": "sh13"}
{"failed_lemmas": ["ShellsP3.edges_ok", "P_Shells.C219_nonvacuous"], "theorems_failed": ["C219_nonvacuous", "C219_open_means_an_edge_with_no_face_beyond", "C219_the_shells_are_the_chains_of_faces_that_share_vertices"], "statement_broken": [], "secs": 15, "id": "sh14"}
{"failed_lemmas": ["ShellsP3.edges_ok", "ShellsP3.isolated_lost", "ShellsP3.one_face_closed"], "theorems_failed": ["C219_open_means_an_edge_with_no_face_beyond", "C219_the_shells_are_the_chains_of_faces_that_share_vertices", "C220_a_face_alone_is_closed_refuted", "C220_a_face_alone_is_lost_refuted"], "statement_broken": [], "secs": 18, "id": "sh15"}
{"failed_lemmas": ["ShellsP3.from_faces_empty"], "theorems_failed": ["C219_a_face_without_edges_is_a_KeyError"], "statement_broken": [], "secs": 15, "id": "sh16"}
{"failed_lemmas": ["ShellsP2.neighbors_in", "P_Shells.C219_nonvacuous"], "theorems_failed": ["C219_nonvacuous", "C219_open_means_an_edge_with_no_face_beyond", "C219_the_shells_are_the_chains_of_faces_that_share_vertices"], "statement_broken": [], "secs": 16, "id": "sh17"}
{"failed_lemmas": ["ShellsP2.nodes_in", "ShellsP2.nodes_nodup"], "theorems_failed": ["C219_open_means_an_edge_with_no_face_beyond", "C219_the_shells_are_the_chains_of_faces_that_share_vertices"], "statement_broken": [], "secs": 15, "id": "sh18"}
{"failed_lemmas": ["ShellsP2.component_spec"], "theorems_failed": ["C219_the_shells_are_the_chains_of_faces_that_share_vertices"], "statement_broken": [], "secs": 15, "id": "sh19"}
{"failed_lemmas": ["ShellsP2.components_spec", "P_Shells.C219_nonvacuous"], "theorems_failed": ["C219_nonvacuous", "C219_the_shells_are_the_chains_of_faces_that_share_vertices"], "statement_broken": [], "secs": 17, "id": "sh20"}
{"failed_lemmas": ["ShellsP3.open_iff", "ShellsP3.faces_open_ok", "P_Shells.C219_nonvacuous"], "theorems_failed": ["C219_nonvacuous", "C219_open_means_an_edge_with_no_face_beyond", "C219_the_shells_are_the_chains_of_faces_that_share_vertices"], "statement_broken": [], "secs": 18, "id": "sh21"}
{"failed_lemmas": ["ShellsP3.open_iff", "ShellsP3.faces_open_ok", "ShellsP3.one_face_closed"], "theorems_failed": ["C219_open_means_an_edge_with_no_face_beyond", "C219_the_shells_are_the_chains_of_faces_that_share_vertices", "C220_a_face_alone_is_closed_refuted"], "statement_broken": [], "secs": 19, "id": "sh22"}
{"failed_lemmas": ["ShellsP3.open_iff", "ShellsP3.faces_open_ok"], "theorems_failed": ["C219_open_means_an_edge_with_no_face_beyond", "C219_the_shells_are_the_chains_of_faces_that_share_vertices"], "statement_broken": [], "secs": 16, "id": "sh23"}
{"failed_lemmas": ["ShellsP3.from_faces_sec"], "theorems_failed": ["C219_the_shells_are_the_chains_of_faces_that_share_vertices"], "statement_broken": [], "secs": 13, "id": "sh24"}
{"failed_lemmas": ["ShellsP3.vertices_graph_none", "ShellsP3.faces_graph_fresh", "ShellsP3.faces_graph_stale"], "theorems_failed": ["C221_the_first_graph_of_the_faces_is_right", "C221_the_first_option_is_kept", "C221_the_graph_of_the_faces_with_another_option_refuted", "C221_the_graph_of_the_vertices_after_that_of_the_faces_refuted", "C221_the_graph_of_the_vertices_is_None_after_that_of_the_faces"], "statement_broken": [], "secs": 20, "id": "sh25"}
{"failed_lemmas": ["ShellsP3.vertices_graph_none"], "theorems_failed": ["C221_the_graph_of_the_vertices_after_that_of_the_faces_refuted", "C221_the_graph_of_the_vertices_is_None_after_that_of_the_faces"], "statement_broken": [], "secs": 15, "id": "sh26"}
{"failed_lemmas": ["ShellsP4.union_ok", "ShellsP4.subtract_wrong"], "theorems_failed": ["C222_the_union_has_the_points_of_both", "C223_the_difference_may_have_points_of_the_second_shell_refuted"], "statement_broken": [], "secs": 14, "id": "sh27"}
{"failed_lemmas": ["ShellsP4.union_ok"], "theorems_failed": ["C222_the_union_has_the_points_of_both"], "statement_broken": [], "secs": 14, "id": "sh28"}
{"failed_lemmas": ["ShellsP4.subtract_closed_ok"], "theorems_failed": ["C222_the_difference_as_a_closed_shell"], "statement_broken": [], "secs": 13, "id": "sh29"}
{"failed_lemmas": ["ShellsP4.intersection_ok"], "theorems_failed": ["C222_the_intersection_has_the_common_points"], "statement_broken": [], "secs": 13, "id": "sh30"}
{"failed_lemmas": ["ShellsP4.intersection_ok"], "theorems_failed": ["C222_the_intersection_has_the_common_points"], "statement_broken": [], "secs": 12, "id": "sh31"}
{"failed_lemmas": ["ShellsP4.validate_app", "ShellsP4.validate_refuted"], "theorems_failed": ["C224_no_face_covered_by_an_earlier_one_is_kept", "C225_a_face_that_covers_a_later_one_refuted"], "statement_broken": [], "secs": 15, "id": "sh32"}
{"failed_lemmas": ["ShellsP4.validate_app", "ShellsP4.validate_refuted"], "theorems_failed": ["C224_no_face_covered_by_an_earlier_one_is_kept", "C225_a_face_that_covers_a_later_one_refuted"], "statement_broken": [], "secs": 13, "id": "sh33"}
{"failed_lemmas": ["ShellsP4.separate_ok"], "theorems_failed": ["C224_faces_with_and_without_intersections"], "statement_broken": [], "secs": 12, "id": "sh34"}
{"failed_lemmas": ["ShellsP4.remove_first_ok", "ShellsP4.clean_refuted", "P_Shells.C224_nonvacuous"], "theorems_failed": ["C224_coincident_faces_are_merged_by_classes", "C224_covered_faces_are_removed", "C224_nonvacuous", "C225_a_face_covered_twice_refuted"], "statement_broken": [], "secs": 20, "id": "sh35"}
{"failed_lemmas": ["ShellsP4.group_is", "P_Shells.C224_nonvacuous"], "theorems_failed": ["C224_coincident_faces_are_merged_by_classes", "C224_nonvacuous"], "statement_broken": [], "secs": 17, "id": "sh36"}
{"failed_lemmas": ["ShellsP4.group_is"], "theorems_failed": ["C224_coincident_faces_are_merged_by_classes"], "statement_broken": [], "secs": 14, "id": "sh37"}
{"failed_lemmas": [], "statement_broken": ["theories/Model/Shells.v:149"], "timeout": [], "tail": " Type) (eqb coincident : F -> F -> bool) (faces : list F) =>\n   fold_left\n     (fun (acc : list F) (jf : nat * F) =>\n      match [] with\n      | [] => group_of eqb coincident faces (fst jf) (snd jf)\n      | _ :: _ => acc\n      end) (combine (seq 0 (length faces)) faces) [])\nMore precisely: \n- ?A: Cannot infer the implicit parameter A of nil whose type is \n  \"Type\" in\n  environment:\n  F : Type\n  eqb, coincident : F -> F -> bool\n  faces, acc : list F\n  jf : nat * F\n\nmake: *** [Makefile:793: theories/Model/Shells.vo] Error 1\nmake: Target 'theories/Props/P_Shells.vo' not remade because of errors.\n", "id": "sh38"}
{"failed_lemmas": ["ShellsP4.clean_ok", "ShellsP4.clean_refuted"], "theorems_failed": ["C224_covered_faces_are_removed", "C225_a_face_covered_twice_refuted"], "statement_broken": [], "secs": 16, "id": "sh39"}
{"failed_lemmas": ["ShellsP4.clean_ok", "P_Shells.C224_nonvacuous"], "theorems_failed": ["C224_covered_faces_are_removed", "C224_nonvacuous"], "statement_broken": [], "secs": 15, "id": "sh40"}
{"failed_lemmas": ["ShellsP4.merge_loop_ok"], "theorems_failed": ["C224_coincident_faces_are_merged_by_classes"], "statement_broken": [], "secs": 14, "id": "sh41"}
{"failed_lemmas": ["ShellsP4.merge_loop_ok", "ShellsP4.merge_faces_ok"], "theorems_failed": ["C224_coincident_faces_are_merged_by_classes"], "statement_broken": [], "secs": 16, "id": "sh42"}
{"failed_lemmas": ["ShellsP4.merge_faces_ok", "P_Shells.C224_nonvacuous"], "theorems_failed": ["C224_coincident_faces_are_merged_by_classes", "C224_nonvacuous"], "statement_broken": [], "secs": 16, "id": "sh43"}
{"failed_lemmas": ["SolidP.tetra_abs"], "theorems_failed": ["C226_boxes", "C226_nonvacuous", "C226_the_sum_over_all_the_faces", "C226_the_volume_is_at_least_that_of_the_solid_and_right_when_the_centre_sees_every_face", "C226_translations_keep_the_volume", "C227_a_tetrahedron_has_twice_its_volume_refuted"], "statement_broken": [], "secs": 34, "id": "so1"}
{"failed_lemmas": ["SolidP.tetra_abs"], "theorems_failed": ["C226_boxes", "C226_nonvacuous", "C226_the_sum_over_all_the_faces", "C226_the_volume_is_at_least_that_of_the_solid_and_right_when_the_centre_sees_every_face", "C226_translations_keep_the_volume", "C227_a_tetrahedron_has_twice_its_volume_refuted"], "statement_broken": [], "secs": 36, "id": "so2"}
{"failed_lemmas": ["SolidP.tetra_abs"], "theorems_failed": ["C226_boxes", "C226_nonvacuous", "C226_the_sum_over_all_the_faces", "C226_the_volume_is_at_least_that_of_the_solid_and_right_when_the_centre_sees_every_face", "C226_translations_keep_the_volume", "C227_a_tetrahedron_has_twice_its_volume_refuted"], "statement_broken": [], "secs": 37, "id": "so3"}
{"failed_lemmas": ["SolidP.tetra_abs"], "theorems_failed": ["C226_boxes", "C226_nonvacuous", "C226_the_sum_over_all_the_faces", "C226_the_volume_is_at_least_that_of_the_solid_and_right_when_the_centre_sees_every_face", "C226_translations_keep_the_volume", "C227_a_tetrahedron_has_twice_its_volume_refuted"], "statement_broken": [], "secs": 33, "id": "so4"}
{"failed_lemmas": ["SolidP.shell_volume_sum"], "theorems_failed": ["C226_boxes", "C226_nonvacuous", "C226_the_sum_over_all_the_faces", "C226_the_volume_is_at_least_that_of_the_solid_and_right_when_the_centre_sees_every_face", "C226_translations_keep_the_volume", "C227_a_tetrahedron_has_twice_its_volume_refuted"], "statement_broken": [], "secs": 34, "id": "so5"}
{"failed_lemmas": ["SolidP.shell_volume_sum"], "theorems_failed": ["C226_boxes", "C226_nonvacuous", "C226_the_sum_over_all_the_faces", "C226_the_volume_is_at_least_that_of_the_solid_and_right_when_the_centre_sees_every_face", "C226_translations_keep_the_volume", "C227_a_tetrahedron_has_twice_its_volume_refuted"], "statement_broken": [], "secs": 37, "id": "so6"}
{"failed_lemmas": [], "theorems_failed": [], "statement_broken": [], "secs": 21, "id": "so7"}
{"failed_lemmas": ["SolidP.to_mesh_data_eq", "P_Shells.C228_nonvacuous"], "theorems_failed": ["C228_equal_points_share_their_index", "C228_every_point_once_and_the_triangles_in_order", "C228_nonvacuous", "C228_round_trip"], "statement_broken": [], "secs": 70, "id": "so8"}
{"failed_lemmas": ["SolidP.to_mesh_data_eq", "P_Shells.C228_nonvacuous"], "theorems_failed": ["C228_equal_points_share_their_index", "C228_every_point_once_and_the_triangles_in_order", "C228_nonvacuous", "C228_round_trip"], "statement_broken": [], "secs": 68, "id": "so9"}
{"failed_lemmas": ["SolidP.to_mesh_data_eq", "P_Shells.C228_nonvacuous"], "theorems_failed": ["C228_equal_points_share_their_index", "C228_every_point_once_and_the_triangles_in_order", "C228_nonvacuous", "C228_round_trip"], "statement_broken": [], "secs": 70, "id": "so10"}
{"failed_lemmas": ["SolidP.to_mesh_data_eq"], "theorems_failed": ["C228_equal_points_share_their_index", "C228_every_point_once_and_the_triangles_in_order", "C228_round_trip"], "statement_broken": [], "secs": 65, "id": "so11"}
{"failed_lemmas": ["SolidP.reshape_map", "P_Shells.C228_nonvacuous"], "theorems_failed": ["C228_equal_points_share_their_index", "C228_every_point_once_and_the_triangles_in_order", "C228_nonvacuous", "C228_round_trip"], "statement_broken": [], "secs": 67, "id": "so12"}
{"failed_lemmas": ["SolidP.from_mesh_data_ok"], "theorems_failed": ["C228_round_trip", "C228_the_triangles_of_the_data_without_the_flat_ones"], "statement_broken": [], "secs": 60, "id": "so13"}
{"failed_lemmas": ["SolidP.from_mesh_data_ok"], "theorems_failed": ["C228_round_trip", "C228_the_triangles_of_the_data_without_the_flat_ones"], "statement_broken": [], "secs": 59, "id": "so14"}
{"failed_lemmas": ["SolidP.shell_triangulation_ok"], "theorems_failed": ["C228_the_triangulation_of_a_triangle_shell"], "statement_broken": [], "secs": 63, "id": "so15"}
{"failed_lemmas": ["SolidP.triangle_volume_ok", "SolidP.triangle_volume_translation", "SolidP.box_volume", "SolidP.volume_refuted"], "theorems_failed": ["C226_boxes", "C226_nonvacuous", "C226_the_volume_is_at_least_that_of_the_solid_and_right_when_the_centre_sees_every_face", "C226_translations_keep_the_volume", "C227_a_tetrahedron_has_twice_its_volume_refuted"], "statement_broken": [], "secs": 78, "id": "so16"}
