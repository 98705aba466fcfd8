{"failed_lemmas": ["ArcsP.rotate_point", "ArcsP2.reverse_trigo", "ArcsP3.ortho_trigo", "ArcsP4.direction_wrong", "ArcsP5.rotation_shift", "ArcsP8.straight_moments_ok", "P_Arcs.C115_nonvacuous"], "theorems_failed": ["C115_abscissa_0_is_the_start", "C115_abscissa_length_is_the_end", "C115_discretization_is_regular", "C115_every_point_of_the_arc_has_an_abscissa", "C115_middle_point", "C115_nonvacuous", "C115_normal_vector_points_to_the_center", "C115_point_at_abscissa_is_on_the_arc", "C115_reverse_is_the_same_set", "C116_abscissa_of_point_at_abscissa", "C116_abscissas_are_in_range", "C116_arc_through_three_points", "C116_point_belongs_exactly", "C116_points_of_the_arc_belong", "C116_points_of_the_circle_belong_iff_on_the_arc_or_near_an_end", "C116_points_that_belong_are_near_the_arc", "C117_area_between_the_arc_and_its_chord", "C117_center_of_mass_of_the_sector", "C117_center_of_mass_of_the_segment", "C117_second_moments_of_the_segment", "C117_segment_area", "C118_arc_intersections_are_those_of_the_circle_on_the_first_arc", "C118_bounding_rectangle_touches_the_arc", "C118_circle_arc_intersections", "C118_line_intersections_of_a_secant", "C118_linesegment_intersections_are_on_both", "C118_point_distance_within_the_tolerance", "C118_rotation", "C119_direction_vector_is_the_velocity_refuted", "C119_direction_vector_up_to_the_orientation", "C120_point_belongs_respects_its_tolerance_refuted", "C122_linesegment_intersections_finds_the_common_points_refuted", "C122_the_bounding_rectangle_contains_the_arc_refuted", "C122_the_bounding_rectangle_is_that_of_20_points", "C123_arc_intersections_are_on_both_arcs_refuted", "C123_straight_line_point_belongs_is_the_region_refuted"], "statement_broken": [], "secs": 50, "id": "ar1"}
{"failed_lemmas": ["ArcsP.point_angle_ok"], "theorems_failed": ["C115_abscissa_0_is_the_start", "C115_abscissa_length_is_the_end", "C115_angle_and_length", "C115_complementary", "C115_discretization_is_regular", "C115_every_point_of_the_arc_has_an_abscissa", "C115_middle_point", "C115_nonvacuous", "C115_normal_vector_points_to_the_center", "C115_point_at_abscissa_is_on_the_arc", "C115_reverse_is_the_same_set", "C115_split_inside", "C115_the_constructor_joins_two_points_of_the_circle", "C116_abscissa_of_point_at_abscissa", "C116_abscissas_are_in_range", "C116_arc_through_three_points", "C116_nonvacuous", "C116_point_belongs_exactly", "C116_points_of_the_arc_belong", "C116_points_of_the_circle_belong_iff_on_the_arc_or_near_an_end", "C116_points_that_belong_are_near_the_arc", "C117_area_between_the_arc_and_its_chord", "C117_area_of_the_sector", "C117_center_of_mass_of_the_sector", "C117_center_of_mass_of_the_segment", "C117_nonvacuous", "C117_second_moments_about_the_center", "C117_second_moments_of_the_segment", "C117_segment_area", "C117_sign_of_the_area", "C118_arc_intersections_are_those_of_the_circle_on_the_first_arc", "C118_bounding_rectangle_touches_the_arc", "C118_circle_arc_intersections", "C118_line_intersections_of_a_secant", "C118_linesegment_intersections_are_on_both", "C118_nonvacuous", "C118_offset", "C118_point_distance_within_the_tolerance", "C118_rotation", "C118_translation", "C119_direction_vector_is_the_velocity_refuted", "C119_direction_vector_up_to_the_orientation", "C120_point_belongs_respects_its_tolerance_refuted", "C121_second_moments_about_any_point_refuted", "C121_second_moments_of_a_clockwise_arc_refuted", "C122_linesegment_intersections_finds_the_common_points_refuted", "C122_the_bounding_rectangle_contains_the_arc_refuted", "C122_the_bounding_rectangle_is_that_of_20_points", "C123_arc_intersections_are_on_both_arcs_refuted", "C123_axial_symmetry_of_an_arc_refuted", "C123_straight_line_point_belongs_is_the_region_refuted"], "statement_broken": [], "secs": 36, "id": "ar2"}
{"failed_lemmas": [], "theorems_failed": [], "statement_broken": [], "secs": 35, "id": "ar3"}
{"failed_lemmas": ["ArcsP.arc_angles", "ArcsP4.arc_from_angles"], "theorems_failed": ["C115_abscissa_0_is_the_start", "C115_abscissa_length_is_the_end", "C115_angle_and_length", "C115_complementary", "C115_discretization_is_regular", "C115_every_point_of_the_arc_has_an_abscissa", "C115_middle_point", "C115_nonvacuous", "C115_normal_vector_points_to_the_center", "C115_point_at_abscissa_is_on_the_arc", "C115_reverse_is_the_same_set", "C115_split_inside", "C116_abscissa_of_point_at_abscissa", "C116_abscissas_are_in_range", "C116_arc_through_three_points", "C116_nonvacuous", "C116_point_belongs_exactly", "C116_points_of_the_arc_belong", "C116_points_of_the_circle_belong_iff_on_the_arc_or_near_an_end", "C116_points_that_belong_are_near_the_arc", "C117_area_between_the_arc_and_its_chord", "C117_area_of_the_sector", "C117_center_of_mass_of_the_sector", "C117_center_of_mass_of_the_segment", "C117_nonvacuous", "C117_second_moments_about_the_center", "C117_second_moments_of_the_segment", "C117_segment_area", "C117_sign_of_the_area", "C118_arc_intersections_are_those_of_the_circle_on_the_first_arc", "C118_bounding_rectangle_touches_the_arc", "C118_circle_arc_intersections", "C118_line_intersections_of_a_secant", "C118_linesegment_intersections_are_on_both", "C118_nonvacuous", "C118_offset", "C118_point_distance_within_the_tolerance", "C118_rotation", "C118_translation", "C119_direction_vector_is_the_velocity_refuted", "C119_direction_vector_up_to_the_orientation", "C120_point_belongs_respects_its_tolerance_refuted", "C121_second_moments_about_any_point_refuted", "C121_second_moments_of_a_clockwise_arc_refuted", "C122_linesegment_intersections_finds_the_common_points_refuted", "C122_the_bounding_rectangle_contains_the_arc_refuted", "C122_the_bounding_rectangle_is_that_of_20_points", "C123_arc_intersections_are_on_both_arcs_refuted", "C123_axial_symmetry_of_an_arc_refuted", "C123_straight_line_point_belongs_is_the_region_refuted"], "statement_broken": [], "secs": 38, "id": "ar4"}
{"failed_lemmas": ["ArcsP.arc_angles", "ArcsP4.arc_from_angles"], "theorems_failed": ["C115_abscissa_0_is_the_start", "C115_abscissa_length_is_the_end", "C115_angle_and_length", "C115_complementary", "C115_discretization_is_regular", "C115_every_point_of_the_arc_has_an_abscissa", "C115_middle_point", "C115_nonvacuous", "C115_normal_vector_points_to_the_center", "C115_point_at_abscissa_is_on_the_arc", "C115_reverse_is_the_same_set", "C115_split_inside", "C116_abscissa_of_point_at_abscissa", "C116_abscissas_are_in_range", "C116_arc_through_three_points", "C116_nonvacuous", "C116_point_belongs_exactly", "C116_points_of_the_arc_belong", "C116_points_of_the_circle_belong_iff_on_the_arc_or_near_an_end", "C116_points_that_belong_are_near_the_arc", "C117_area_between_the_arc_and_its_chord", "C117_area_of_the_sector", "C117_center_of_mass_of_the_sector", "C117_center_of_mass_of_the_segment", "C117_nonvacuous", "C117_second_moments_about_the_center", "C117_second_moments_of_the_segment", "C117_segment_area", "C117_sign_of_the_area", "C118_arc_intersections_are_those_of_the_circle_on_the_first_arc", "C118_bounding_rectangle_touches_the_arc", "C118_circle_arc_intersections", "C118_line_intersections_of_a_secant", "C118_linesegment_intersections_are_on_both", "C118_nonvacuous", "C118_offset", "C118_point_distance_within_the_tolerance", "C118_rotation", "C118_translation", "C119_direction_vector_is_the_velocity_refuted", "C119_direction_vector_up_to_the_orientation", "C120_point_belongs_respects_its_tolerance_refuted", "C121_second_moments_about_any_point_refuted", "C121_second_moments_of_a_clockwise_arc_refuted", "C122_linesegment_intersections_finds_the_common_points_refuted", "C122_the_bounding_rectangle_contains_the_arc_refuted", "C122_the_bounding_rectangle_is_that_of_20_points", "C123_arc_intersections_are_on_both_arcs_refuted", "C123_axial_symmetry_of_an_arc_refuted", "C123_straight_line_point_belongs_is_the_region_refuted"], "statement_broken": [], "secs": 34, "id": "ar5"}
{"failed_lemmas": ["ArcsP.arc_angles"], "theorems_failed": ["C115_abscissa_0_is_the_start", "C115_abscissa_length_is_the_end", "C115_angle_and_length", "C115_complementary", "C115_discretization_is_regular", "C115_every_point_of_the_arc_has_an_abscissa", "C115_middle_point", "C115_normal_vector_points_to_the_center", "C115_point_at_abscissa_is_on_the_arc", "C115_reverse_is_the_same_set", "C115_split_inside", "C116_abscissa_of_point_at_abscissa", "C116_abscissas_are_in_range", "C116_arc_through_three_points", "C116_nonvacuous", "C116_point_belongs_exactly", "C116_points_of_the_arc_belong", "C116_points_of_the_circle_belong_iff_on_the_arc_or_near_an_end", "C116_points_that_belong_are_near_the_arc", "C117_area_between_the_arc_and_its_chord", "C117_area_of_the_sector", "C117_center_of_mass_of_the_sector", "C117_center_of_mass_of_the_segment", "C117_second_moments_about_the_center", "C117_second_moments_of_the_segment", "C117_segment_area", "C117_sign_of_the_area", "C118_arc_intersections_are_those_of_the_circle_on_the_first_arc", "C118_bounding_rectangle_touches_the_arc", "C118_circle_arc_intersections", "C118_line_intersections_of_a_secant", "C118_linesegment_intersections_are_on_both", "C118_offset", "C118_point_distance_within_the_tolerance", "C118_rotation", "C118_translation", "C119_direction_vector_is_the_velocity_refuted", "C119_direction_vector_up_to_the_orientation", "C120_point_belongs_respects_its_tolerance_refuted", "C121_second_moments_about_any_point_refuted", "C121_second_moments_of_a_clockwise_arc_refuted", "C122_linesegment_intersections_finds_the_common_points_refuted", "C122_the_bounding_rectangle_contains_the_arc_refuted", "C122_the_bounding_rectangle_is_that_of_20_points", "C123_arc_intersections_are_on_both_arcs_refuted", "C123_straight_line_point_belongs_is_the_region_refuted"], "statement_broken": [], "secs": 35, "id": "ar6"}
{"failed_lemmas": ["ArcsP.angle_ok"], "theorems_failed": ["C115_abscissa_length_is_the_end", "C115_angle_and_length", "C115_complementary", "C115_discretization_is_regular", "C115_every_point_of_the_arc_has_an_abscissa", "C115_middle_point", "C115_point_at_abscissa_is_on_the_arc", "C115_reverse_is_the_same_set", "C115_split_inside", "C116_abscissa_of_point_at_abscissa", "C116_abscissas_are_in_range", "C116_arc_through_three_points", "C117_center_of_mass_of_the_sector", "C117_center_of_mass_of_the_segment", "C118_bounding_rectangle_touches_the_arc", "C118_offset", "C118_point_distance_within_the_tolerance", "C118_rotation", "C118_translation", "C122_linesegment_intersections_finds_the_common_points_refuted", "C122_the_bounding_rectangle_contains_the_arc_refuted", "C122_the_bounding_rectangle_is_that_of_20_points"], "statement_broken": [], "secs": 35, "id": "ar7"}
{"failed_lemmas": [], "theorems_failed": [], "statement_broken": [], "secs": 33, "id": "ar8"}
{"failed_lemmas": ["ArcsP.arc_at_point"], "theorems_failed": ["C115_abscissa_0_is_the_start", "C115_abscissa_length_is_the_end", "C115_discretization_is_regular", "C115_every_point_of_the_arc_has_an_abscissa", "C115_middle_point", "C115_normal_vector_points_to_the_center", "C115_point_at_abscissa_is_on_the_arc", "C116_abscissa_of_point_at_abscissa", "C117_center_of_mass_of_the_sector", "C117_center_of_mass_of_the_segment", "C118_bounding_rectangle_touches_the_arc", "C118_point_distance_within_the_tolerance", "C119_direction_vector_is_the_velocity_refuted", "C119_direction_vector_up_to_the_orientation", "C122_linesegment_intersections_finds_the_common_points_refuted", "C122_the_bounding_rectangle_contains_the_arc_refuted", "C122_the_bounding_rectangle_is_that_of_20_points"], "statement_broken": [], "secs": 32, "id": "ar9"}
{"failed_lemmas": ["ArcsP.arc_at_point"], "theorems_failed": ["C115_abscissa_0_is_the_start", "C115_abscissa_length_is_the_end", "C115_discretization_is_regular", "C115_every_point_of_the_arc_has_an_abscissa", "C115_middle_point", "C115_normal_vector_points_to_the_center", "C115_point_at_abscissa_is_on_the_arc", "C116_abscissa_of_point_at_abscissa", "C117_center_of_mass_of_the_sector", "C117_center_of_mass_of_the_segment", "C118_bounding_rectangle_touches_the_arc", "C118_point_distance_within_the_tolerance", "C119_direction_vector_is_the_velocity_refuted", "C119_direction_vector_up_to_the_orientation", "C122_linesegment_intersections_finds_the_common_points_refuted", "C122_the_bounding_rectangle_contains_the_arc_refuted", "C122_the_bounding_rectangle_is_that_of_20_points"], "statement_broken": [], "secs": 34, "id": "ar10"}
{"failed_lemmas": ["ArcsP.middle_ok", "ArcsP6.center_of_mass_value", "ArcsP7.straight_com_value"], "theorems_failed": ["C115_middle_point", "C117_center_of_mass_of_the_sector", "C117_center_of_mass_of_the_segment"], "statement_broken": [], "secs": 33, "id": "ar11"}
{"failed_lemmas": ["ArcsP3.normal_ok"], "theorems_failed": ["C115_normal_vector_points_to_the_center", "C119_direction_vector_is_the_velocity_refuted", "C119_direction_vector_up_to_the_orientation"], "statement_broken": [], "secs": 32, "id": "ar12"}
{"failed_lemmas": ["ArcsP3.direction_ok"], "theorems_failed": ["C119_direction_vector_is_the_velocity_refuted", "C119_direction_vector_up_to_the_orientation"], "statement_broken": [], "secs": 32, "id": "ar13"}
{"failed_lemmas": ["ArcsP3.number_points_default"], "theorems_failed": ["C115_discretization_default_number"], "statement_broken": [], "secs": 29, "id": "ar14"}
{"failed_lemmas": ["ArcsP3.number_points_resolution"], "theorems_failed": ["C115_discretization_angle_resolution"], "statement_broken": [], "secs": 31, "id": "ar15"}
{"failed_lemmas": ["ArcsP3.discretization_ok"], "theorems_failed": ["C115_discretization_is_regular", "C118_bounding_rectangle_touches_the_arc", "C118_point_distance_within_the_tolerance", "C122_linesegment_intersections_finds_the_common_points_refuted", "C122_the_bounding_rectangle_contains_the_arc_refuted", "C122_the_bounding_rectangle_is_that_of_20_points"], "statement_broken": [], "secs": 30, "id": "ar16"}
{"failed_lemmas": ["ArcsP3.discretization_ok"], "theorems_failed": ["C115_discretization_is_regular", "C118_bounding_rectangle_touches_the_arc", "C118_point_distance_within_the_tolerance", "C122_linesegment_intersections_finds_the_common_points_refuted", "C122_the_bounding_rectangle_contains_the_arc_refuted", "C122_the_bounding_rectangle_is_that_of_20_points"], "statement_broken": [], "secs": 33, "id": "ar17"}
{"failed_lemmas": ["ArcsP2.clockwise_ok", "ArcsP3.reverse_arc"], "theorems_failed": ["C115_reverse_is_the_same_set", "C116_abscissa_of_point_at_abscissa", "C116_abscissas_are_in_range", "C116_arc_through_three_points", "C116_point_belongs_exactly", "C116_points_of_the_arc_belong", "C116_points_of_the_circle_belong_iff_on_the_arc_or_near_an_end", "C116_points_that_belong_are_near_the_arc", "C118_arc_intersections_are_those_of_the_circle_on_the_first_arc", "C118_circle_arc_intersections", "C118_line_intersections_of_a_secant", "C118_linesegment_intersections_are_on_both", "C118_point_distance_within_the_tolerance", "C120_point_belongs_respects_its_tolerance_refuted", "C123_arc_intersections_are_on_both_arcs_refuted", "C123_straight_line_point_belongs_is_the_region_refuted"], "statement_broken": [], "secs": 39, "id": "ar18"}
{"failed_lemmas": ["ArcsP3.complementary_arc"], "theorems_failed": ["C115_complementary", "C116_arc_through_three_points"], "statement_broken": [], "secs": 41, "id": "ar19"}
{"failed_lemmas": ["ArcsP3.split_inside"], "theorems_failed": ["C115_split_inside"], "statement_broken": [], "secs": 31, "id": "ar20"}
{"failed_lemmas": ["ArcsP3.split_at_end"], "theorems_failed": ["C115_split_at_the_end"], "statement_broken": [], "secs": 34, "id": "ar21"}
{"failed_lemmas": ["ArcsP2.clockwise_ok"], "theorems_failed": ["C116_abscissa_of_point_at_abscissa", "C116_abscissas_are_in_range", "C116_arc_through_three_points", "C116_point_belongs_exactly", "C116_points_of_the_arc_belong", "C116_points_of_the_circle_belong_iff_on_the_arc_or_near_an_end", "C116_points_that_belong_are_near_the_arc", "C118_arc_intersections_are_those_of_the_circle_on_the_first_arc", "C118_circle_arc_intersections", "C118_line_intersections_of_a_secant", "C118_linesegment_intersections_are_on_both", "C118_point_distance_within_the_tolerance", "C120_point_belongs_respects_its_tolerance_refuted", "C123_arc_intersections_are_on_both_arcs_refuted", "C123_straight_line_point_belongs_is_the_region_refuted"], "statement_broken": [], "secs": 35, "id": "ar22"}
{"failed_lemmas": ["ArcsP2.belongs_iff"], "theorems_failed": ["C116_arc_through_three_points", "C116_point_belongs_exactly", "C116_points_of_the_arc_belong", "C116_points_of_the_circle_belong_iff_on_the_arc_or_near_an_end", "C116_points_that_belong_are_near_the_arc", "C118_arc_intersections_are_those_of_the_circle_on_the_first_arc", "C118_circle_arc_intersections", "C118_line_intersections_of_a_secant", "C118_linesegment_intersections_are_on_both", "C118_point_distance_within_the_tolerance", "C120_point_belongs_respects_its_tolerance_refuted", "C123_arc_intersections_are_on_both_arcs_refuted", "C123_straight_line_point_belongs_is_the_region_refuted"], "statement_broken": [], "secs": 33, "id": "ar23"}
{"failed_lemmas": ["ArcsP2.belongs_iff"], "theorems_failed": ["C116_arc_through_three_points", "C116_point_belongs_exactly", "C116_points_of_the_arc_belong", "C116_points_of_the_circle_belong_iff_on_the_arc_or_near_an_end", "C116_points_that_belong_are_near_the_arc", "C118_arc_intersections_are_those_of_the_circle_on_the_first_arc", "C118_circle_arc_intersections", "C118_line_intersections_of_a_secant", "C118_linesegment_intersections_are_on_both", "C118_point_distance_within_the_tolerance", "C120_point_belongs_respects_its_tolerance_refuted", "C123_arc_intersections_are_on_both_arcs_refuted", "C123_straight_line_point_belongs_is_the_region_refuted"], "statement_broken": [], "secs": 35, "id": "ar24"}
{"failed_lemmas": ["ArcsP2.belongs_iff"], "theorems_failed": ["C116_arc_through_three_points", "C116_point_belongs_exactly", "C116_points_of_the_arc_belong", "C116_points_of_the_circle_belong_iff_on_the_arc_or_near_an_end", "C116_points_that_belong_are_near_the_arc", "C118_arc_intersections_are_those_of_the_circle_on_the_first_arc", "C118_circle_arc_intersections", "C118_line_intersections_of_a_secant", "C118_linesegment_intersections_are_on_both", "C118_point_distance_within_the_tolerance", "C120_point_belongs_respects_its_tolerance_refuted", "C123_arc_intersections_are_on_both_arcs_refuted", "C123_straight_line_point_belongs_is_the_region_refuted"], "statement_broken": [], "secs": 35, "id": "ar25"}
{"failed_lemmas": ["ArcsP2.abscissa_at"], "theorems_failed": ["C116_abscissa_of_point_at_abscissa"], "statement_broken": [], "secs": 34, "id": "ar26"}
{"failed_lemmas": [], "theorems_failed": [], "statement_broken": [], "secs": 30, "id": "ar27"}
{"failed_lemmas": ["ArcsP2.abscissa_sound"], "theorems_failed": ["C116_abscissas_are_in_range"], "statement_broken": [], "secs": 34, "id": "ar28"}
{"failed_lemmas": ["ArcsP4.three_points_ok"], "theorems_failed": ["C116_arc_through_three_points"], "statement_broken": [], "secs": 33, "id": "ar29"}
{"failed_lemmas": ["ArcsP4.three_points_ok"], "theorems_failed": ["C116_arc_through_three_points"], "statement_broken": [], "secs": 28, "id": "ar30"}
{"failed_lemmas": ["ArcsP6.area_ok", "ArcsP6.int_gx", "ArcsP6.center_of_mass_ok", "ArcsP7.second_moment_wrong", "ArcsP7.straight_abs"], "theorems_failed": ["C117_area_of_the_sector", "C117_center_of_mass_of_the_sector", "C117_center_of_mass_of_the_segment", "C117_segment_area", "C121_second_moments_about_any_point_refuted"], "statement_broken": [], "secs": 40, "id": "ar31"}
{"failed_lemmas": ["ArcsP6.center_of_mass_value"], "theorems_failed": ["C117_center_of_mass_of_the_sector", "C117_center_of_mass_of_the_segment"], "statement_broken": [], "secs": 32, "id": "ar32"}
{"failed_lemmas": ["ArcsP6.center_of_mass_value"], "theorems_failed": ["C117_center_of_mass_of_the_sector", "C117_center_of_mass_of_the_segment"], "statement_broken": [], "secs": 33, "id": "ar33"}
{"failed_lemmas": ["ArcsP7.straight_area_value"], "theorems_failed": ["C117_area_between_the_arc_and_its_chord", "C117_center_of_mass_of_the_segment", "C117_segment_area", "C117_sign_of_the_area"], "statement_broken": [], "secs": 29, "id": "ar34"}
{"failed_lemmas": ["ArcsP7.straight_area_value"], "theorems_failed": ["C117_area_between_the_arc_and_its_chord", "C117_center_of_mass_of_the_segment", "C117_segment_area", "C117_sign_of_the_area"], "statement_broken": [], "secs": 31, "id": "ar35"}
{"failed_lemmas": ["ArcsP7.sector_moments_value"], "theorems_failed": ["C117_second_moments_about_the_center", "C117_second_moments_of_the_segment", "C121_second_moments_about_any_point_refuted", "C121_second_moments_of_a_clockwise_arc_refuted"], "statement_broken": [], "secs": 30, "id": "ar36"}
{"failed_lemmas": ["ArcsP7.sector_moments_value"], "theorems_failed": ["C117_second_moments_about_the_center", "C117_second_moments_of_the_segment", "C121_second_moments_about_any_point_refuted", "C121_second_moments_of_a_clockwise_arc_refuted"], "statement_broken": [], "secs": 30, "id": "ar37"}
{"failed_lemmas": ["ArcsP7.second_moment_ok", "ArcsP8.straight_moments_ok"], "theorems_failed": ["C117_second_moments_about_the_center", "C117_second_moments_of_the_segment"], "statement_broken": [], "secs": 35, "id": "ar38"}
{"failed_lemmas": ["ArcsP8.straight_moments_ok"], "theorems_failed": ["C117_second_moments_of_the_segment"], "statement_broken": [], "secs": 36, "id": "ar39"}
{"failed_lemmas": ["ArcsP7.straight_com_value"], "theorems_failed": ["C117_center_of_mass_of_the_segment"], "statement_broken": [], "secs": 36, "id": "ar40"}
{"failed_lemmas": ["ArcsP7.straight_com_value"], "theorems_failed": ["C117_center_of_mass_of_the_segment"], "statement_broken": [], "secs": 35, "id": "ar41"}
{"failed_lemmas": ["ArcsP9.rectangle_samples"], "theorems_failed": ["C118_bounding_rectangle_touches_the_arc", "C118_point_distance_within_the_tolerance", "C122_linesegment_intersections_finds_the_common_points_refuted", "C122_the_bounding_rectangle_contains_the_arc_refuted", "C122_the_bounding_rectangle_is_that_of_20_points"], "statement_broken": [], "secs": 34, "id": "ar42"}
{"failed_lemmas": ["ArcsP10.line_secant", "ArcsP11.straight_belongs_wrong"], "theorems_failed": ["C118_line_intersections_of_a_secant", "C123_straight_line_point_belongs_is_the_region_refuted"], "statement_broken": [], "secs": 34, "id": "ar43"}
{"failed_lemmas": ["ArcsP10.linesegment_sound", "ArcsP12.foot_segment"], "theorems_failed": ["C118_linesegment_intersections_are_on_both", "C118_point_distance_within_the_tolerance"], "statement_broken": [], "secs": 35, "id": "ar44"}
{"failed_lemmas": ["ArcsP10.linesegment_missed", "ArcsP10.linesegment_sound", "ArcsP12.foot_segment"], "theorems_failed": ["C118_linesegment_intersections_are_on_both", "C118_point_distance_within_the_tolerance", "C122_linesegment_intersections_finds_the_common_points_refuted"], "statement_broken": [], "secs": 38, "id": "ar45"}
{"failed_lemmas": ["ArcsP10.arcs_secant"], "theorems_failed": ["C118_arc_intersections_are_those_of_the_circle_on_the_first_arc", "C123_arc_intersections_are_on_both_arcs_refuted"], "statement_broken": [], "secs": 31, "id": "ar46"}
{"failed_lemmas": ["ArcsP10.circle_arc_secant"], "theorems_failed": ["C118_circle_arc_intersections"], "statement_broken": [], "secs": 32, "id": "ar47"}
{"failed_lemmas": ["ArcsP12.point_distance_ok"], "theorems_failed": ["C118_point_distance_within_the_tolerance"], "statement_broken": [], "secs": 36, "id": "ar48"}
{"failed_lemmas": ["ArcsP12.point_distance_ok"], "theorems_failed": ["C118_point_distance_within_the_tolerance"], "statement_broken": [], "secs": 37, "id": "ar49"}
{"failed_lemmas": ["ArcsP11.straight_belongs_wrong"], "theorems_failed": ["C123_straight_line_point_belongs_is_the_region_refuted"], "statement_broken": [], "secs": 33, "id": "ar50"}
{"failed_lemmas": ["ArcsP5.rotation_arc"], "theorems_failed": ["C118_rotation"], "statement_broken": [], "secs": 33, "id": "ar51"}
{"failed_lemmas": ["ArcsP4.translation_arc"], "theorems_failed": ["C118_translation"], "statement_broken": [], "secs": 35, "id": "ar52"}
{"failed_lemmas": ["ArcsP5.offset_arc", "ArcsP5.offset_none"], "theorems_failed": ["C118_offset", "C118_offset_beyond_the_center"], "statement_broken": [], "secs": 34, "id": "ar53"}
{"failed_lemmas": ["ArcsP5.offset_arc"], "theorems_failed": ["C118_offset"], "statement_broken": [], "secs": 36, "id": "ar54"}
{"failed_lemmas": ["ArcsP5.mirror_wrong"], "theorems_failed": ["C123_axial_symmetry_of_an_arc_refuted"], "statement_broken": [], "secs": 33, "id": "ar55"}
{"failed_lemmas": ["GridP2.linspace_nth"], "theorems_failed": ["C159_grid_by_rows_of_x", "C159_grid_by_rows_of_y", "C159_limits_xy_are_the_requested_limits", "C159_points_xy_are_the_requested_numbers", "C159_the_direction_only_changes_the_order", "C162_grid_pattern_of_any_grid_refuted"], "statement_broken": [], "secs": 6, "id": "gr1"}
{"failed_lemmas": [], "theorems_failed": [], "statement_broken": [], "secs": 5, "id": "gr2"}
{"failed_lemmas": ["GridP2.properties_x", "GridP2.properties_points"], "theorems_failed": ["C159_grid_by_rows_of_x", "C159_limits_xy_are_the_requested_limits", "C159_points_xy_are_the_requested_numbers", "C159_the_direction_only_changes_the_order", "C162_grid_pattern_of_any_grid_refuted"], "statement_broken": [], "secs": 9, "id": "gr3"}
{"failed_lemmas": ["GridP2.properties_y", "GridP2.properties_points"], "theorems_failed": ["C159_grid_by_rows_of_y", "C159_limits_xy_are_the_requested_limits", "C159_points_xy_are_the_requested_numbers", "C159_the_direction_only_changes_the_order"], "statement_broken": [], "secs": 9, "id": "gr4"}
{"failed_lemmas": ["GridP2.properties_accepted", "GridP2.properties_rejected"], "theorems_failed": ["C159_accepted_directions", "C159_limits_xy_are_the_requested_limits", "C159_other_directions_are_rejected", "C159_points_xy_are_the_requested_numbers", "C159_the_direction_only_changes_the_order"], "statement_broken": [], "secs": 8, "id": "gr5"}
{"failed_lemmas": ["GridP2.chunks_ok"], "theorems_failed": ["C160_from_points_keeps_the_points_in_order"], "statement_broken": [], "secs": 8, "id": "gr6"}
{"failed_lemmas": ["GridP2.from_points_zero"], "theorems_failed": ["C160_rows_of_no_point_are_rejected"], "statement_broken": [], "secs": 10, "id": "gr7"}
{"failed_lemmas": ["GridP2.properties_points", "GridP2.from_points_ok"], "theorems_failed": ["C159_the_direction_only_changes_the_order", "C160_from_points_keeps_the_points_in_order"], "statement_broken": [], "secs": 11, "id": "gr8"}
{"failed_lemmas": ["GridP2.pattern_square", "GridP2.pattern_not_square"], "theorems_failed": ["C161_grid_pattern_of_a_square_grid", "C162_grid_pattern_of_any_grid_refuted", "C162_grid_pattern_of_any_other_grid_fails"], "statement_broken": [], "secs": 14, "id": "gr9"}
{"failed_lemmas": ["GridP2.pattern_square", "GridP2.pattern_not_square"], "theorems_failed": ["C161_grid_pattern_of_a_square_grid", "C162_grid_pattern_of_any_grid_refuted", "C162_grid_pattern_of_any_other_grid_fails"], "statement_broken": [], "secs": 11, "id": "gr10"}
{"failed_lemmas": ["GridP2.limits_ok"], "theorems_failed": ["C159_limits_xy_are_the_requested_limits"], "statement_broken": [], "secs": 8, "id": "gr11"}
{"failed_lemmas": ["GridP2.limits_ok"], "theorems_failed": ["C159_limits_xy_are_the_requested_limits"], "statement_broken": [], "secs": 8, "id": "gr12"}
{"failed_lemmas": [], "theorems_failed": [], "statement_broken": [], "secs": 7, "id": "gr13"}
{"failed_lemmas": ["GridP2.points_xy_ok"], "theorems_failed": ["C159_points_xy_are_the_requested_numbers"], "statement_broken": [], "secs": 9, "id": "gr14"}
{"failed_lemmas": ["GridP2.displacement_ok"], "theorems_failed": ["C160_displacement"], "statement_broken": [], "secs": 8, "id": "gr15"}
{"failed_lemmas": ["StlP.le_roundtrip"], "theorems_failed": ["C163_a_truncated_file_is_refused", "C163_binary_round_trip", "C165_the_name_survives_a_binary_file_refuted"], "statement_broken": [], "secs": 144, "id": "st1"}
{"failed_lemmas": ["StlP.read_app", "StlP.read_facets_length", "StlP.truncated"], "theorems_failed": ["C163_a_truncated_file_is_refused", "C163_binary_round_trip", "C165_the_name_survives_a_binary_file_refuted"], "statement_broken": [], "secs": 124, "id": "st2"}
{"failed_lemmas": ["StlP.read_point_app"], "theorems_failed": ["C163_binary_round_trip", "C165_the_name_survives_a_binary_file_refuted"], "statement_broken": [], "secs": 131, "id": "st3"}
{"failed_lemmas": ["StlP.pad_length", "StlP.pad_short"], "theorems_failed": ["C163_a_truncated_file_is_refused", "C163_binary_round_trip", "C163_every_mesh_below_2_to_the_32_triangles_is_saved", "C163_nonvacuous", "C163_the_name_is_padded_with_zeros", "C165_the_name_survives_a_binary_file_refuted"], "statement_broken": [], "secs": 127, "id": "st4"}
{"failed_lemmas": ["StlP.pad_short"], "theorems_failed": ["C163_the_name_is_padded_with_zeros", "C165_the_name_survives_a_binary_file_refuted"], "statement_broken": [], "secs": 124, "id": "st5"}
{"failed_lemmas": ["StlP.read_facets_app", "StlP.save_total"], "theorems_failed": ["C163_a_truncated_file_is_refused", "C163_binary_round_trip", "C163_every_mesh_below_2_to_the_32_triangles_is_saved", "C163_nonvacuous", "C165_the_name_survives_a_binary_file_refuted"], "statement_broken": [], "secs": 129, "id": "st6"}
{"failed_lemmas": ["StlP.read_facets_app"], "theorems_failed": ["C163_binary_round_trip", "C165_the_name_survives_a_binary_file_refuted"], "statement_broken": [], "secs": 138, "id": "st7"}
{"failed_lemmas": ["StlP.read_facets_app", "StlP.save_total"], "theorems_failed": ["C163_a_truncated_file_is_refused", "C163_binary_round_trip", "C163_every_mesh_below_2_to_the_32_triangles_is_saved", "C163_nonvacuous", "C165_the_name_survives_a_binary_file_refuted"], "statement_broken": [], "secs": 133, "id": "st8"}
{"failed_lemmas": ["StlP.save_load", "StlP.save_total", "StlP.save_too_many", "StlP.truncated"], "theorems_failed": ["C163_a_truncated_file_is_refused", "C163_binary_round_trip", "C163_every_mesh_below_2_to_the_32_triangles_is_saved", "C163_nonvacuous", "C163_too_many_triangles_are_refused", "C165_the_name_survives_a_binary_file_refuted"], "statement_broken": [], "secs": 147, "id": "st9"}
{"failed_lemmas": ["StlP.read_facets_app", "StlP.read_facets_length", "StlP.truncated"], "theorems_failed": ["C163_a_truncated_file_is_refused", "C163_binary_round_trip", "C165_the_name_survives_a_binary_file_refuted"], "statement_broken": [], "secs": 141, "id": "st10"}
{"failed_lemmas": ["StlP.save_load"], "theorems_failed": ["C163_binary_round_trip", "C165_the_name_survives_a_binary_file_refuted"], "statement_broken": [], "secs": 116, "id": "st11"}
{"failed_lemmas": ["StlP.save_load", "StlP.truncated"], "theorems_failed": ["C163_a_truncated_file_is_refused", "C163_binary_round_trip", "C165_the_name_survives_a_binary_file_refuted"], "statement_broken": [], "secs": 135, "id": "st12"}
{"failed_lemmas": ["StlP2.remove_one", "StlP2.tab_wrong"], "theorems_failed": ["C164_text_files_are_read", "C165_indentation_by_tabs_is_accepted_refuted"], "statement_broken": [], "secs": 152, "id": "st13"}
{"failed_lemmas": ["StlP2.vertex_step"], "theorems_failed": ["C164_text_files_are_read"], "statement_broken": [], "secs": 127, "id": "st14"}
{"failed_lemmas": ["StlP2.end_step"], "theorems_failed": ["C164_text_files_are_read"], "statement_broken": [], "secs": 123, "id": "st15"}
{"failed_lemmas": [], "theorems_failed": [], "statement_broken": [], "secs": 135, "id": "st16"}
{"failed_lemmas": ["StlP2.vertex_step"], "theorems_failed": ["C164_text_files_are_read"], "statement_broken": [], "secs": 157, "id": "st17"}
{"failed_lemmas": ["StlP2.load_text", "StlP2.text_name"], "theorems_failed": ["C164_text_files_are_read", "C165_the_name_of_a_text_file_keeps_its_line_feed"], "statement_broken": [], "secs": 144, "id": "st18"}
{"failed_lemmas": ["StlP.clean_flat_filter"], "theorems_failed": ["C163_clean_flat_triangles"], "statement_broken": [], "secs": 141, "id": "st19"}
{"failed_lemmas": ["StlP.clean_flat_filter"], "theorems_failed": ["C163_clean_flat_triangles"], "statement_broken": [], "secs": 150, "id": "st20"}
