{"failed_lemmas": ["CurvesP3.circle_moment_shift"], "theorems_failed": ["C103_second_moment_follows_huygens"], "statement_broken": [], "secs": 55, "id": "ge15"}
{"failed_lemmas": ["CurvesP10.circle2_of_sense"], "theorems_failed": ["C103_sense_of_a_circle_of_given_center_and_radius", "C103_sense_of_the_circle_through_three_points"], "statement_broken": [], "secs": 32, "id": "cu15"}
{"failed_lemmas": ["CurvesP10.length_first_return"], "theorems_failed": ["C106_the_length_is_the_first_return_to_the_start"], "statement_broken": [], "secs": 31, "id": "cu21"}
{"failed_lemmas": ["CurvesP10.reverse_points"], "theorems_failed": ["C103_reverse_goes_through_the_points_backwards"], "statement_broken": [], "secs": 30, "id": "cu25"}
{"failed_lemmas": ["CurvesP10.circle3_box_quarters"], "theorems_failed": ["C107_bounding_box_is_the_least_with_the_quarter_points"], "statement_broken": [], "secs": 30, "id": "cu48"}
{"failed_lemmas": ["EdgesP13.sg2_local_discretization_spec"], "theorems_failed": ["C108_local_discretization"], "statement_broken": [], "secs": 30, "id": "ed16"}
{"failed_lemmas": [], "theorems_failed": [], "statement_broken": [], "secs": 25, "id": "ed32"}
{"failed_lemmas": ["EdgesP13.sg3_line_complete", "EdgesP13.sg3_line_sound"], "theorems_failed": ["C113_line_intersections_are_on_both", "C113_line_intersections_finds_the_common_point"], "statement_broken": [], "secs": 29, "id": "ed53"}
{"failed_lemmas": ["EdgesP13.sg3_line_sound"], "theorems_failed": ["C113_line_intersections_are_on_both"], "statement_broken": [], "secs": 29, "id": "ed54"}
{"failed_lemmas": ["EdgesP13.sg3_distance_points"], "theorems_failed": ["C113_points_returned_with_the_distance"], "statement_broken": [], "secs": 23, "id": "ed59"}
{"failed_lemmas": ["ArcsP13.arc_new_null"], "theorems_failed": ["C115_an_arc_of_null_radius_is_rejected"], "statement_broken": [], "secs": 31, "id": "ar3"}
{"failed_lemmas": ["ArcsP13.get_angle_ok"], "theorems_failed": ["C115_angle_of_a_point_counted_from_the_start"], "statement_broken": [], "secs": 33, "id": "ar8"}
{"failed_lemmas": ["ArcsP13.abscissa_start"], "theorems_failed": ["C116_abscissa_of_the_start"], "statement_broken": [], "secs": 29, "id": "ar27"}
{"failed_lemmas": ["GridP3.single_point_grid"], "theorems_failed": ["C159_grid_of_a_single_point"], "statement_broken": [], "secs": 8, "id": "gr2"}
{"failed_lemmas": ["GridP3.direction_index_found", "GridP3.direction_index_absent"], "theorems_failed": ["C159_find_direction_index", "C159_find_direction_index_of_an_absent_axis_fails"], "statement_broken": [], "secs": 8, "id": "gr13"}
{"failed_lemmas": ["StlP3.short_facet"], "theorems_failed": ["C164_a_facet_with_fewer_than_three_vertices_is_refused"], "statement_broken": [], "secs": 158, "id": "st16"}
