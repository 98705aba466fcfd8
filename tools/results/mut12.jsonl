{"failed_lemmas": ["FeMeshP.triangle_area_is"], "theorems_failed": ["C200_the_area", "C204_flat_triangles_have_no_circumscribed_circle", "C204_the_circumscribed_circle_goes_through_the_vertices", "C204_the_inscribed_circle_touches_the_sides", "C205_the_aspect_ratio_compares_the_circles"], "statement_broken": [], "secs": 20, "id": "fe1"}
{"failed_lemmas": ["FeMeshP.triangle_area_is"], "theorems_failed": ["C200_the_area", "C204_flat_triangles_have_no_circumscribed_circle", "C204_the_circumscribed_circle_goes_through_the_vertices", "C204_the_inscribed_circle_touches_the_sides", "C205_the_aspect_ratio_compares_the_circles"], "statement_broken": [], "secs": 19, "id": "fe2"}
{"failed_lemmas": ["FeMeshP2.incircle_ok", "FeMeshP2.aspect_ok"], "theorems_failed": ["C204_the_inscribed_circle_touches_the_sides", "C205_the_aspect_ratio_compares_the_circles"], "statement_broken": [], "secs": 19, "id": "fe3"}
{"failed_lemmas": ["FeMeshP2.incircle_ok", "FeMeshP2.aspect_ok"], "theorems_failed": ["C204_the_inscribed_circle_touches_the_sides", "C205_the_aspect_ratio_compares_the_circles"], "statement_broken": [], "secs": 20, "id": "fe4"}
{"failed_lemmas": ["FeMeshP2.incircle_point", "FeMeshP2.aspect_ok"], "theorems_failed": ["C204_a_point_has_no_inscribed_circle", "C205_the_aspect_ratio_compares_the_circles"], "statement_broken": [], "secs": 20, "id": "fe5"}
{"failed_lemmas": ["FeMeshP2.circum_ok", "FeMeshP2.aspect_ok"], "theorems_failed": ["C204_the_circumscribed_circle_goes_through_the_vertices", "C205_the_aspect_ratio_compares_the_circles"], "statement_broken": [], "secs": 20, "id": "fe6"}
{"failed_lemmas": ["FeMeshP2.circum_flat", "FeMeshP2.aspect_ok"], "theorems_failed": ["C204_flat_triangles_have_no_circumscribed_circle", "C205_the_aspect_ratio_compares_the_circles"], "statement_broken": [], "secs": 21, "id": "fe7"}
{"failed_lemmas": ["FeMeshP2.circum_ok", "FeMeshP2.aspect_ok"], "theorems_failed": ["C204_the_circumscribed_circle_goes_through_the_vertices", "C205_the_aspect_ratio_compares_the_circles"], "statement_broken": [], "secs": 20, "id": "fe8"}
{"failed_lemmas": ["FeMeshP2.aspect_flat"], "theorems_failed": ["C205_and_one_for_equilateral_triangles_only", "C205_flat_triangles", "C205_the_aspect_ratio_is_at_least_one"], "statement_broken": [], "secs": 21, "id": "fe9"}
{"failed_lemmas": ["FeMeshP2.aspect_ok", "FeMeshP2.aspect_form"], "theorems_failed": ["C205_and_one_for_equilateral_triangles_only", "C205_the_aspect_ratio_compares_the_circles", "C205_the_aspect_ratio_is_at_least_one"], "statement_broken": [], "secs": 25, "id": "fe10"}
{"failed_lemmas": ["FeMeshP2.aspect_ok", "FeMeshP2.aspect_form"], "theorems_failed": ["C205_and_one_for_equilateral_triangles_only", "C205_the_aspect_ratio_compares_the_circles", "C205_the_aspect_ratio_is_at_least_one"], "statement_broken": [], "secs": 25, "id": "fe11"}
{"failed_lemmas": ["FeMeshP2.aspect_flat"], "theorems_failed": ["C205_and_one_for_equilateral_triangles_only", "C205_flat_triangles", "C205_the_aspect_ratio_is_at_least_one"], "statement_broken": [], "secs": 21, "id": "fe12"}
{"failed_lemmas": ["FeMeshP.interior_normal_ok"], "theorems_failed": ["C200_an_element_is_made", "C200_the_sides_and_their_inward_normals", "C201_every_triangle_that_is_not_flat_is_an_element_refuted"], "statement_broken": [], "secs": 20, "id": "fe13"}
{"failed_lemmas": ["FeMeshP.interior_normal_ok"], "theorems_failed": ["C200_an_element_is_made", "C200_the_sides_and_their_inward_normals", "C201_every_triangle_that_is_not_flat_is_an_element_refuted"], "statement_broken": [], "secs": 20, "id": "fe14"}
{"failed_lemmas": ["FeMeshP.linear_elements_ok"], "theorems_failed": ["C200_an_element_is_made", "C200_the_sides_and_their_inward_normals", "C201_every_triangle_that_is_not_flat_is_an_element_refuted"], "statement_broken": [], "secs": 23, "id": "fe15"}
{"failed_lemmas": ["FeMeshP.linear_elements_ok"], "theorems_failed": ["C200_an_element_is_made", "C200_the_sides_and_their_inward_normals", "C201_every_triangle_that_is_not_flat_is_an_element_refuted"], "statement_broken": [], "secs": 23, "id": "fe16"}
{"failed_lemmas": ["FeMeshP.form_functions_ok", "FeMeshP.form_functions_flat"], "theorems_failed": ["C200_an_element_is_made", "C200_flat_elements_are_refused", "C200_form_functions_are_the_weights_of_the_points", "C201_every_triangle_that_is_not_flat_is_an_element_refuted"], "statement_broken": [], "secs": 22, "id": "fe17"}
{"failed_lemmas": ["FeMeshP.form_functions_ok"], "theorems_failed": ["C200_an_element_is_made", "C200_form_functions_are_the_weights_of_the_points"], "statement_broken": [], "secs": 23, "id": "fe18"}
{"failed_lemmas": ["FeMeshP.triangular_element_ok"], "theorems_failed": ["C200_an_element_is_made"], "statement_broken": [], "secs": 23, "id": "fe19"}
{"failed_lemmas": ["FeMeshP.tetra_volume_is"], "theorems_failed": ["C202_the_volume"], "statement_broken": [], "secs": 23, "id": "fe20"}
{"failed_lemmas": ["FeMeshP.tetra_volume_is"], "theorems_failed": ["C202_the_volume"], "statement_broken": [], "secs": 22, "id": "fe21"}
{"failed_lemmas": ["FeMeshP.tetra_forms_are"], "theorems_failed": ["C202_form_functions_are_the_weights_times_six_volumes"], "statement_broken": [], "secs": 22, "id": "fe22"}
{"failed_lemmas": ["FeMeshP.tetra_forms_are"], "theorems_failed": ["C202_form_functions_are_the_weights_times_six_volumes"], "statement_broken": [], "secs": 21, "id": "fe23"}
{"failed_lemmas": ["FeMeshP.tetra_forms_are"], "theorems_failed": ["C202_form_functions_are_the_weights_times_six_volumes"], "statement_broken": [], "secs": 22, "id": "fe24"}
{"failed_lemmas": [], "theorems_failed": [], "statement_broken": [], "secs": 14, "id": "fe25"}
{"failed_lemmas": ["FeMeshP3.same_key_far", "FeMeshP3.equal_nodes_two_hashes"], "theorems_failed": ["C206_the_bounding_rectangle", "C206_the_elements_of_a_node", "C206_the_nodes_are_the_points_of_the_elements_once_each", "C206_the_number_of_a_node", "C207_the_nodes_of_a_mesh_are_pairwise_different_refuted", "C208_the_corrections", "C208_the_nodes_are_merged", "C209_the_corrections_follow_the_reference_refuted", "C210_close_nodes_are_merged_refuted"], "statement_broken": [], "secs": 19, "id": "fe26"}
{"failed_lemmas": ["FeMeshP3.same_key_refl", "FeMeshP3.same_key_far", "FeMeshP3.equal_nodes_two_hashes"], "theorems_failed": ["C206_nodes_are_distinct_points_of_elements", "C206_the_bounding_rectangle", "C206_the_elements_of_a_node", "C206_the_nodes_are_the_points_of_the_elements_once_each", "C206_the_number_of_a_node", "C207_the_nodes_of_a_mesh_are_pairwise_different_refuted", "C208_the_corrections", "C208_the_nodes_are_merged", "C209_the_corrections_follow_the_reference_refuted", "C210_close_nodes_are_merged_refuted"], "statement_broken": [], "secs": 22, "id": "fe27"}
{"failed_lemmas": ["FeMeshP3.same_key_refl", "FeMeshP3.same_key_far"], "theorems_failed": ["C206_nodes_are_distinct_points_of_elements", "C206_the_bounding_rectangle", "C206_the_elements_of_a_node", "C206_the_nodes_are_the_points_of_the_elements_once_each", "C206_the_number_of_a_node", "C208_the_corrections", "C208_the_nodes_are_merged", "C209_the_corrections_follow_the_reference_refuted", "C210_close_nodes_are_merged_refuted"], "statement_broken": [], "secs": 19, "id": "fe28"}
{"failed_lemmas": ["FeMeshP3.set_add_in", "FeMeshP3.fold_add_keep", "FeMeshP3.fold_add_cover", "FeMeshP3.fold_add_nodup"], "theorems_failed": ["C206_nodes_are_distinct_points_of_elements", "C206_the_bounding_rectangle", "C206_the_nodes_are_the_points_of_the_elements_once_each", "C206_the_number_of_a_node", "C208_the_corrections", "C208_the_nodes_are_merged", "C209_the_corrections_follow_the_reference_refuted", "C210_close_nodes_are_merged_refuted"], "statement_broken": [], "secs": 21, "id": "fe29"}
{"failed_lemmas": ["FeMeshP3.mesh_nodes_ok", "FeMeshP3.mesh_nodes_points", "FeMeshP3.node_to_index_ok", "FeMeshP3.mesh_rectangle_ok", "FeMeshP3.equal_nodes_two_hashes"], "theorems_failed": ["C206_nodes_are_distinct_points_of_elements", "C206_the_bounding_rectangle", "C206_the_nodes_are_the_points_of_the_elements_once_each", "C206_the_number_of_a_node", "C207_the_nodes_of_a_mesh_are_pairwise_different_refuted"], "statement_broken": [], "secs": 25, "id": "fe30"}
{"failed_lemmas": ["FeMeshP3.find_node_ok"], "theorems_failed": ["C206_the_number_of_a_node"], "statement_broken": [], "secs": 16, "id": "fe31"}
{"failed_lemmas": ["FeMeshP3.mesh_point_find"], "theorems_failed": ["C206_no_element_has_the_point", "C206_the_first_element_that_has_the_point"], "statement_broken": [], "secs": 18, "id": "fe32"}
{"failed_lemmas": ["FeMeshP3.get_append_same"], "theorems_failed": ["C206_the_elements_of_a_node"], "statement_broken": [], "secs": 20, "id": "fe33"}
{"failed_lemmas": ["FeMeshP3.get_append_same"], "theorems_failed": ["C206_the_elements_of_a_node"], "statement_broken": [], "secs": 20, "id": "fe34"}
{"failed_lemmas": ["FeMeshP3.elements_per_node_ok"], "theorems_failed": ["C206_the_elements_of_a_node"], "statement_broken": [], "secs": 19, "id": "fe35"}
{"failed_lemmas": ["FeMeshP3.mesh_rectangle_ok"], "theorems_failed": ["C206_the_bounding_rectangle"], "statement_broken": [], "secs": 21, "id": "fe36"}
{"failed_lemmas": ["FeMeshP3.mesh_rectangle_ok"], "theorems_failed": ["C206_the_bounding_rectangle"], "statement_broken": [], "secs": 27, "id": "fe37"}
{"failed_lemmas": ["FeMeshP3.get_set_same", "FeMeshP3.get_set_other"], "theorems_failed": ["C208_the_corrections", "C208_the_nodes_are_merged", "C209_the_corrections_follow_the_reference_refuted", "C210_close_nodes_are_merged_refuted"], "statement_broken": [], "secs": 25, "id": "fe38"}
{"failed_lemmas": ["FeMeshP4.compute_is"], "theorems_failed": ["C208_the_corrections", "C208_the_nodes_are_merged", "C209_the_corrections_follow_the_reference_refuted", "C210_close_nodes_are_merged_refuted"], "statement_broken": [], "secs": 19, "id": "fe39"}
{"failed_lemmas": ["FeMeshP4.compute_is"], "theorems_failed": ["C208_the_corrections", "C208_the_nodes_are_merged", "C209_the_corrections_follow_the_reference_refuted", "C210_close_nodes_are_merged_refuted"], "statement_broken": [], "secs": 18, "id": "fe40"}
{"failed_lemmas": ["FeMeshP4.compute_is"], "theorems_failed": ["C208_the_corrections", "C208_the_nodes_are_merged", "C209_the_corrections_follow_the_reference_refuted", "C210_close_nodes_are_merged_refuted"], "statement_broken": [], "secs": 17, "id": "fe41"}
{"failed_lemmas": ["FeMeshP4.compute_is"], "theorems_failed": ["C208_the_corrections", "C208_the_nodes_are_merged", "C209_the_corrections_follow_the_reference_refuted", "C210_close_nodes_are_merged_refuted"], "statement_broken": [], "secs": 18, "id": "fe42"}
{"failed_lemmas": ["FeMeshP4.nodes_correction_ok", "FeMeshP4.nodes_correction_cached", "FeMeshP4.delete_keeps_correction"], "theorems_failed": ["C208_the_corrections", "C208_the_new_mesh_keeps_the_corrections", "C208_the_nodes_are_merged", "C209_the_corrections_follow_the_reference_refuted", "C209_the_first_corrections_stay", "C210_close_nodes_are_merged_refuted"], "statement_broken": [], "secs": 21, "id": "fe43"}
{"failed_lemmas": ["FeMeshP4.nodes_correction_cached", "FeMeshP4.delete_keeps_correction"], "theorems_failed": ["C208_the_new_mesh_keeps_the_corrections", "C209_the_corrections_follow_the_reference_refuted", "C209_the_first_corrections_stay"], "statement_broken": [], "secs": 19, "id": "fe44"}
{"failed_lemmas": ["FeMeshP4.delete_ok"], "theorems_failed": ["C208_the_nodes_are_merged", "C210_close_nodes_are_merged_refuted"], "statement_broken": [], "secs": 17, "id": "fe45"}
{"failed_lemmas": ["FeMeshP4.delete_ok"], "theorems_failed": ["C208_the_nodes_are_merged", "C210_close_nodes_are_merged_refuted"], "statement_broken": [], "secs": 15, "id": "fe46"}
{"failed_lemmas": ["FeMeshP4.delete_ok"], "theorems_failed": ["C208_the_nodes_are_merged", "C210_close_nodes_are_merged_refuted"], "statement_broken": [], "secs": 17, "id": "fe47"}
{"failed_lemmas": ["FeMeshP4.delete_ok", "FeMeshP4.delete_no_gmsh", "FeMeshP4.delete_no_gmsh_value"], "theorems_failed": ["C208_the_nodes_are_merged", "C210_a_mesh_without_gmsh_cannot_be_merged", "C210_close_nodes_are_merged_refuted"], "statement_broken": [], "secs": 23, "id": "fe48"}
{"failed_lemmas": ["FeMeshP4.delete_ok", "FeMeshP4.delete_keeps_correction"], "theorems_failed": ["C208_the_new_mesh_keeps_the_corrections", "C208_the_nodes_are_merged", "C210_close_nodes_are_merged_refuted"], "statement_broken": [], "secs": 22, "id": "fe49"}
{"failed_lemmas": ["FeMeshP4.nth_insert", "FeMeshP4.map_insert", "FeMeshP4.insert_map"], "theorems_failed": ["C208_the_nodes_are_merged", "C210_close_nodes_are_merged_refuted"], "statement_broken": [], "secs": 20, "id": "fe50"}
