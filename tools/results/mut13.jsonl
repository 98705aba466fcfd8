{"failed_lemmas": ["TriangleP.tri_area"], "theorems_failed": ["C211_the_area_is_half_the_area_vector", "C211_the_height_is_the_distance_to_the_base_line", "C212_translations_keep_the_area_vector"], "statement_broken": [], "secs": 22, "id": "tr1"}
{"failed_lemmas": ["TriangleP.tri_area"], "theorems_failed": ["C211_the_area_is_half_the_area_vector", "C211_the_height_is_the_distance_to_the_base_line", "C212_translations_keep_the_area_vector"], "statement_broken": [], "secs": 21, "id": "tr2"}
{"failed_lemmas": ["TriangleP.tri_area"], "theorems_failed": ["C211_the_area_is_half_the_area_vector", "C211_the_height_is_the_distance_to_the_base_line", "C212_translations_keep_the_area_vector"], "statement_broken": [], "secs": 19, "id": "tr3"}
{"failed_lemmas": ["TriangleP.height_ok"], "theorems_failed": ["C211_the_height_is_the_distance_to_the_base_line"], "statement_broken": [], "secs": 19, "id": "tr4"}
{"failed_lemmas": ["TriangleP.height_ok", "TriangleP.height_err"], "theorems_failed": ["C211_no_base_no_height", "C211_the_height_is_the_distance_to_the_base_line"], "statement_broken": [], "secs": 22, "id": "tr5"}
{"failed_lemmas": ["TriangleP.middle_ok"], "theorems_failed": ["C211_the_middle_is_the_mean_of_the_vertices"], "statement_broken": [], "secs": 19, "id": "tr6"}
{"failed_lemmas": ["TriangleP.middle_ok"], "theorems_failed": ["C211_the_middle_is_the_mean_of_the_vertices"], "statement_broken": [], "secs": 21, "id": "tr7"}
{"failed_lemmas": ["TriangleP2.tri_new_ok", "TriangleP5.flat_no_triangle"], "theorems_failed": ["C212_every_triangle_that_is_not_flat_is_made", "C212_flat_triangles_are_refused", "C212_rotations_keep_the_area_and_turn_the_area_vector", "C212_translations_keep_the_area_vector", "C213_small_triangles_are_not_divided", "C213_the_division_ends_with_small_triangles_that_cover_the_triangle", "C214_a_divided_triangle_has_a_piece_turned_over", "C214_the_pieces_keep_the_orientation_refuted"], "statement_broken": [], "secs": 25, "id": "tr8"}
{"failed_lemmas": ["TriangleP2.tri_new_ok"], "theorems_failed": ["C212_every_triangle_that_is_not_flat_is_made", "C212_rotations_keep_the_area_and_turn_the_area_vector", "C212_translations_keep_the_area_vector", "C213_small_triangles_are_not_divided", "C213_the_division_ends_with_small_triangles_that_cover_the_triangle", "C214_a_divided_triangle_has_a_piece_turned_over", "C214_the_pieces_keep_the_orientation_refuted"], "statement_broken": [], "secs": 23, "id": "tr9"}
{"failed_lemmas": ["TriangleP5.normal_ok", "TriangleP5.flat_no_triangle"], "theorems_failed": ["C212_flat_triangles_are_refused", "C212_the_normal_is_along_the_area_vector"], "statement_broken": [], "secs": 22, "id": "tr10"}
{"failed_lemmas": ["TriangleP5.normal_ok"], "theorems_failed": ["C212_the_normal_is_along_the_area_vector"], "statement_broken": [], "secs": 20, "id": "tr11"}
{"failed_lemmas": ["TriangleP5.translated", "TriangleP5.rotated_ok"], "theorems_failed": ["C212_rotations_keep_the_area_and_turn_the_area_vector", "C212_translations_keep_the_area_vector"], "statement_broken": [], "secs": 22, "id": "tr12"}
{"failed_lemmas": ["TriangleP5.translated"], "theorems_failed": ["C212_translations_keep_the_area_vector"], "statement_broken": [], "secs": 21, "id": "tr13"}
{"failed_lemmas": ["TriangleP5.rotated_ok"], "theorems_failed": ["C212_rotations_keep_the_area_and_turn_the_area_vector"], "statement_broken": [], "secs": 21, "id": "tr14"}
{"failed_lemmas": ["TriangleP.diam_is", "TriangleP.bisect_cases", "TriangleP4.subdescription_ok"], "theorems_failed": ["C213_it_never_ends_without_a_positive_resolution", "C213_small_triangles_are_not_divided", "C213_the_division_ends_with_small_triangles_that_cover_the_triangle", "C214_a_divided_triangle_has_a_piece_turned_over", "C214_the_pieces_keep_the_orientation_refuted", "C215_the_samples_are_in_the_triangle_and_nowhere_farther_than_the_resolution"], "statement_broken": [], "secs": 27, "id": "tr15"}
{"failed_lemmas": ["TriangleP.bisect_cases", "TriangleP4.subdescription_ok"], "theorems_failed": ["C213_it_never_ends_without_a_positive_resolution", "C213_small_triangles_are_not_divided", "C213_the_division_ends_with_small_triangles_that_cover_the_triangle", "C214_a_divided_triangle_has_a_piece_turned_over", "C214_the_pieces_keep_the_orientation_refuted", "C215_the_samples_are_in_the_triangle_and_nowhere_farther_than_the_resolution"], "statement_broken": [], "secs": 24, "id": "tr16"}
{"failed_lemmas": ["TriangleP.diam_is", "TriangleP.bisect_cases", "TriangleP4.subdescription_ok"], "theorems_failed": ["C213_it_never_ends_without_a_positive_resolution", "C213_small_triangles_are_not_divided", "C213_the_division_ends_with_small_triangles_that_cover_the_triangle", "C214_a_divided_triangle_has_a_piece_turned_over", "C214_the_pieces_keep_the_orientation_refuted", "C215_the_samples_are_in_the_triangle_and_nowhere_farther_than_the_resolution"], "statement_broken": [], "secs": 28, "id": "tr17"}
{"failed_lemmas": ["TriangleP.D_mid", "TriangleP.D_median", "TriangleP.D_midline", "TriangleP2.in_child", "TriangleP2.child_vec"], "theorems_failed": ["C213_it_never_ends_without_a_positive_resolution", "C213_the_division_ends_with_small_triangles_that_cover_the_triangle", "C214_a_divided_triangle_has_a_piece_turned_over", "C214_the_pieces_keep_the_orientation_refuted"], "statement_broken": [], "secs": 30, "id": "tr18"}
{"failed_lemmas": ["TriangleP.bisect_cases"], "theorems_failed": ["C213_it_never_ends_without_a_positive_resolution", "C213_small_triangles_are_not_divided", "C213_the_division_ends_with_small_triangles_that_cover_the_triangle", "C214_a_divided_triangle_has_a_piece_turned_over", "C214_the_pieces_keep_the_orientation_refuted"], "statement_broken": [], "secs": 19, "id": "tr19"}
{"failed_lemmas": ["TriangleP.bisect_cases"], "theorems_failed": ["C213_it_never_ends_without_a_positive_resolution", "C213_small_triangles_are_not_divided", "C213_the_division_ends_with_small_triangles_that_cover_the_triangle", "C214_a_divided_triangle_has_a_piece_turned_over", "C214_the_pieces_keep_the_orientation_refuted"], "statement_broken": [], "secs": 21, "id": "tr20"}
{"failed_lemmas": ["TriangleP.bisect_cases"], "theorems_failed": ["C213_it_never_ends_without_a_positive_resolution", "C213_small_triangles_are_not_divided", "C213_the_division_ends_with_small_triangles_that_cover_the_triangle", "C214_a_divided_triangle_has_a_piece_turned_over", "C214_the_pieces_keep_the_orientation_refuted"], "statement_broken": [], "secs": 20, "id": "tr21"}
{"failed_lemmas": ["TriangleP.bisect_cases"], "theorems_failed": ["C213_it_never_ends_without_a_positive_resolution", "C213_small_triangles_are_not_divided", "C213_the_division_ends_with_small_triangles_that_cover_the_triangle", "C214_a_divided_triangle_has_a_piece_turned_over", "C214_the_pieces_keep_the_orientation_refuted"], "statement_broken": [], "secs": 19, "id": "tr22"}
{"failed_lemmas": ["TriangleP.bisect_cases"], "theorems_failed": ["C213_it_never_ends_without_a_positive_resolution", "C213_small_triangles_are_not_divided", "C213_the_division_ends_with_small_triangles_that_cover_the_triangle", "C214_a_divided_triangle_has_a_piece_turned_over", "C214_the_pieces_keep_the_orientation_refuted"], "statement_broken": [], "secs": 21, "id": "tr23"}
{"failed_lemmas": ["TriangleP2.loop_unfold"], "theorems_failed": ["C213_it_never_ends_without_a_positive_resolution", "C213_small_triangles_are_not_divided", "C213_the_division_ends_with_small_triangles_that_cover_the_triangle", "C214_a_divided_triangle_has_a_piece_turned_over", "C214_the_pieces_keep_the_orientation_refuted"], "statement_broken": [], "secs": 21, "id": "tr24"}
{"failed_lemmas": ["TriangleP2.loop_unfold"], "theorems_failed": ["C213_it_never_ends_without_a_positive_resolution", "C213_small_triangles_are_not_divided", "C213_the_division_ends_with_small_triangles_that_cover_the_triangle", "C214_a_divided_triangle_has_a_piece_turned_over", "C214_the_pieces_keep_the_orientation_refuted"], "statement_broken": [], "secs": 21, "id": "tr25"}
{"failed_lemmas": ["TriangleP3.bisect_main", "TriangleP3.bisect_small", "TriangleP5.turned"], "theorems_failed": ["C213_small_triangles_are_not_divided", "C213_the_division_ends_with_small_triangles_that_cover_the_triangle", "C214_a_divided_triangle_has_a_piece_turned_over", "C214_the_pieces_keep_the_orientation_refuted"], "statement_broken": [], "secs": 29, "id": "tr26"}
{"failed_lemmas": ["TriangleP4.sub_points"], "theorems_failed": ["C215_the_samples_are_in_the_triangle_and_nowhere_farther_than_the_resolution"], "statement_broken": [], "secs": 23, "id": "tr27"}
{"failed_lemmas": ["TriangleP4.sub_points"], "theorems_failed": ["C215_the_samples_are_in_the_triangle_and_nowhere_farther_than_the_resolution"], "statement_broken": [], "secs": 23, "id": "tr28"}
{"failed_lemmas": ["TriangleP4.sub_points"], "theorems_failed": ["C215_the_samples_are_in_the_triangle_and_nowhere_farther_than_the_resolution"], "statement_broken": [], "secs": 22, "id": "tr29"}
{"failed_lemmas": ["TriangleP4.sub_points"], "theorems_failed": ["C215_the_samples_are_in_the_triangle_and_nowhere_farther_than_the_resolution"], "statement_broken": [], "secs": 21, "id": "tr30"}
{"failed_lemmas": ["TriangleP4.sub_points"], "theorems_failed": ["C215_the_samples_are_in_the_triangle_and_nowhere_farther_than_the_resolution"], "statement_broken": [], "secs": 21, "id": "tr31"}
{"failed_lemmas": ["TriangleP4.sub_points"], "theorems_failed": ["C215_the_samples_are_in_the_triangle_and_nowhere_farther_than_the_resolution"], "statement_broken": [], "secs": 21, "id": "tr32"}
{"failed_lemmas": ["TriangleP4.sub_points"], "theorems_failed": ["C215_the_samples_are_in_the_triangle_and_nowhere_farther_than_the_resolution"], "statement_broken": [], "secs": 21, "id": "tr33"}
{"failed_lemmas": ["TriangleP4.sub_points"], "theorems_failed": ["C215_the_samples_are_in_the_triangle_and_nowhere_farther_than_the_resolution"], "statement_broken": [], "secs": 20, "id": "tr34"}
{"failed_lemmas": ["TriangleP4.sub_points"], "theorems_failed": ["C215_the_samples_are_in_the_triangle_and_nowhere_farther_than_the_resolution"], "statement_broken": [], "secs": 19, "id": "tr35"}
{"failed_lemmas": ["TriangleP4.sub_points"], "theorems_failed": ["C215_the_samples_are_in_the_triangle_and_nowhere_farther_than_the_resolution"], "statement_broken": [], "secs": 20, "id": "tr36"}
{"failed_lemmas": ["TriangleP4.sub_points"], "theorems_failed": ["C215_the_samples_are_in_the_triangle_and_nowhere_farther_than_the_resolution"], "statement_broken": [], "secs": 22, "id": "tr37"}
{"failed_lemmas": ["TriangleP4.subdescription_ok"], "theorems_failed": ["C215_the_samples_are_in_the_triangle_and_nowhere_farther_than_the_resolution"], "statement_broken": [], "secs": 23, "id": "tr38"}
{"failed_lemmas": ["TriangleP4.subdescription_ok"], "theorems_failed": ["C215_the_samples_are_in_the_triangle_and_nowhere_farther_than_the_resolution"], "statement_broken": [], "secs": 24, "id": "tr39"}
{"failed_lemmas": ["TriangleP4.subdescription_ok"], "theorems_failed": ["C215_the_samples_are_in_the_triangle_and_nowhere_farther_than_the_resolution"], "statement_broken": [], "secs": 26, "id": "tr40"}
{"failed_lemmas": ["TriangleP5.attrs_lost", "TriangleP5.attrs_moved_refuted"], "theorems_failed": ["C216_a_triangle_has_the_attributes_it_was_made_with_refuted", "C216_moved_and_copied_triangles_keep_their_attributes_refuted", "C216_the_constructor_forgets_its_attributes"], "statement_broken": [], "secs": 28, "id": "tr41"}
{"failed_lemmas": ["TriangleP5.attrs_lost", "TriangleP5.attrs_moved_refuted"], "theorems_failed": ["C216_a_triangle_has_the_attributes_it_was_made_with_refuted", "C216_moved_and_copied_triangles_keep_their_attributes_refuted", "C216_the_constructor_forgets_its_attributes"], "statement_broken": [], "secs": 27, "id": "tr42"}
{"failed_lemmas": ["TriangleP5.attrs_moved_refuted"], "theorems_failed": ["C216_moved_and_copied_triangles_keep_their_attributes_refuted"], "statement_broken": [], "secs": 22, "id": "tr43"}
