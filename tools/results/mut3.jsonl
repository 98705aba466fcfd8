{"failed_lemmas": ["PolygonP.edges_sides", "PolyAreaP.roll_right_sides", "PolyAreaP.roll_left_sides"], "theorems_failed": ["C58_area_cut", "C58_area_cyclic", "C58_area_fan", "C58_area_reversal", "C58_area_rotation", "C58_area_scale", "C58_area_translation", "C58_include_edge_monotone", "C58_nonvacuous", "C58_point_belongs", "C58_point_belongs_boundary", "C58_point_belongs_cyclic", "C58_point_belongs_even_odd", "C58_point_belongs_reversal", "C58_point_belongs_translation", "C58_point_belongs_triangle", "C58_triangle_area", "C69_center_of_mass", "C69_center_of_mass_total", "C69_center_of_mass_translation", "C69_center_of_mass_triangle", "C69_nonvacuous", "C69_second_moment_parallel_axes", "C69_second_moment_translation"], "statement_broken": [], "secs": 20, "id": "po1"}
{"failed_lemmas": ["PolygonP.step_spec"], "theorems_failed": ["C58_include_edge_monotone", "C58_point_belongs", "C58_point_belongs_boundary", "C58_point_belongs_cyclic", "C58_point_belongs_even_odd", "C58_point_belongs_reversal", "C58_point_belongs_translation", "C58_point_belongs_triangle"], "statement_broken": [], "secs": 19, "id": "po2"}
{"failed_lemmas": ["PolygonP.step_spec"], "theorems_failed": ["C58_include_edge_monotone", "C58_point_belongs", "C58_point_belongs_boundary", "C58_point_belongs_cyclic", "C58_point_belongs_even_odd", "C58_point_belongs_reversal", "C58_point_belongs_translation", "C58_point_belongs_triangle"], "statement_broken": [], "secs": 19, "id": "po3"}
{"failed_lemmas": ["PolygonP.loop_spec"], "theorems_failed": ["C58_include_edge_monotone", "C58_point_belongs", "C58_point_belongs_boundary", "C58_point_belongs_cyclic", "C58_point_belongs_even_odd", "C58_point_belongs_reversal", "C58_point_belongs_translation", "C58_point_belongs_triangle"], "statement_broken": [], "secs": 23, "id": "po4"}
{"failed_lemmas": ["PolygonP.loop_spec"], "theorems_failed": ["C58_include_edge_monotone", "C58_point_belongs", "C58_point_belongs_boundary", "C58_point_belongs_cyclic", "C58_point_belongs_even_odd", "C58_point_belongs_reversal", "C58_point_belongs_translation", "C58_point_belongs_triangle"], "statement_broken": [], "secs": 21, "id": "po5"}
{"failed_lemmas": ["PolyAreaP.area_fan"], "theorems_failed": ["C58_area_cut", "C58_area_cyclic", "C58_area_fan", "C58_area_reversal", "C58_area_rotation", "C58_area_scale", "C58_area_translation", "C58_nonvacuous", "C58_triangle_area", "C69_second_moment_parallel_axes"], "statement_broken": [], "secs": 21, "id": "po6"}
{"failed_lemmas": ["PolyAreaP.area_fan"], "theorems_failed": ["C58_area_cut", "C58_area_cyclic", "C58_area_fan", "C58_area_reversal", "C58_area_rotation", "C58_area_scale", "C58_area_translation", "C58_nonvacuous", "C58_triangle_area", "C69_second_moment_parallel_axes"], "statement_broken": [], "secs": 20, "id": "po7"}
{"failed_lemmas": ["PolyAreaP.com_eq"], "theorems_failed": ["C69_center_of_mass", "C69_center_of_mass_total", "C69_center_of_mass_translation", "C69_center_of_mass_triangle", "C69_nonvacuous", "C69_second_moment_parallel_axes"], "statement_broken": [], "secs": 19, "id": "po8"}
{"failed_lemmas": [], "theorems_failed": [], "statement_broken": [], "secs": 19, "id": "po9"}
{"failed_lemmas": ["PolyAreaP.com_eq"], "theorems_failed": ["C69_center_of_mass", "C69_center_of_mass_total", "C69_center_of_mass_translation", "C69_center_of_mass_triangle", "C69_nonvacuous", "C69_second_moment_parallel_axes"], "statement_broken": [], "secs": 20, "id": "po10"}
{"failed_lemmas": ["PolyAreaP.second_moment_eq"], "theorems_failed": ["C69_second_moment_parallel_axes", "C69_second_moment_translation"], "statement_broken": [], "secs": 25, "id": "po11"}
{"failed_lemmas": ["PolyAreaP.second_moment_eq"], "theorems_failed": ["C69_second_moment_parallel_axes", "C69_second_moment_translation"], "statement_broken": [], "secs": 18, "id": "po12"}
{"failed_lemmas": ["PolyAreaP.second_moment_eq"], "theorems_failed": ["C69_second_moment_parallel_axes", "C69_second_moment_translation"], "statement_broken": [], "secs": 19, "id": "po13"}
{"failed_lemmas": [], "theorems_failed": [], "statement_broken": [], "secs": 17, "id": "po14"}
{"failed_lemmas": ["PolyAreaP.polygon_eq_spec"], "theorems_failed": ["C70_equal_lengths_partial"], "statement_broken": [], "secs": 25, "id": "po15"}
{"failed_lemmas": ["PolyAreaP.polygon_distance_spec", "PolyAreaP.polygon_distance_wrong"], "theorems_failed": ["C71_first_point_partial", "C71_minimum_refuted"], "statement_broken": [], "secs": 23, "id": "po16"}
{"failed_lemmas": [], "statement_broken": ["theories/Model/Polygon.v:105"], "timeout": [], "tail": "COQDEP VFILES\nCOQC theories/Model/Polygon.v\nFile \"./theories/Model/Polygon.v\", line 105, characters 0-76:\nError:\nThe following term contains unresolved implicit arguments:\n  (fun (pts : list vec2) (_ : ?T) (a : R) =>\n   map (fun p : vec2 => rotation2 p O2D a) pts)\nMore precisely: \n- ?T: Cannot infer the type of c in environment:\n  pts : list vec2\n\nmake: *** [Makefile:793: theories/Model/Polygon.vo] Error 1\nmake: Target 'theories/Props/P_Polygon.vo' not remade because of errors.\n", "id": "po17"}
{"failed_lemmas": [], "theorems_failed": [], "statement_broken": [], "secs": 17, "id": "po18"}
{"failed_lemmas": [], "theorems_failed": [], "statement_broken": [], "secs": 17, "id": "po19"}
{"failed_lemmas": ["PolyAreaP.triangle_area_agrees"], "theorems_failed": ["C58_triangle_area"], "statement_broken": [], "secs": 20, "id": "po20"}
{"failed_lemmas": ["BBox2P.rect_area_pos", "BBox2P.rect_common_le", "BBox2P.rect_intersection_exact"], "theorems_failed": ["C42_area_bounds", "C42_area_exact"], "statement_broken": [], "secs": 18, "id": "bb1"}
{"failed_lemmas": [], "theorems_failed": [], "statement_broken": [], "secs": 11, "id": "bb2"}
{"failed_lemmas": [], "theorems_failed": [], "statement_broken": [], "secs": 10, "id": "bb3"}
{"failed_lemmas": ["BBoxP.rect_is_intersecting_spec"], "theorems_failed": ["C40_rectangle_distance_is_minimum", "C40_rectangle_distance_symmetric", "C42_area_bounds", "C42_area_exact", "C42_area_exact_refuted", "C42_area_symmetric", "C73_rectangle_is_intersecting_interiors", "C73_rectangle_is_intersecting_symmetric"], "statement_broken": [], "secs": 13, "id": "bb4"}
{"failed_lemmas": ["BBox2P.is_inside_rect_spec"], "theorems_failed": ["C42_area_exact_refuted", "C42_nonvacuous"], "statement_broken": [], "secs": 12, "id": "bb5"}
{"failed_lemmas": ["BBox2P.rect_point_belongs_spec"], "theorems_failed": ["C41_rectangle_inside_refuted", "C41_rectangle_inside_value_partial", "C41_rectangle_outside", "C73_rectangle_point_belongs"], "statement_broken": [], "secs": 12, "id": "bb6"}
{"failed_lemmas": ["BBox2P.rect_intersection_exact", "BBox2P.rect_intersection_sym", "BBox2P.rect_intersection_bounds", "BBox2P.rect_intersection_tolerance_wrong"], "theorems_failed": ["C42_area_bounds", "C42_area_exact", "C42_area_exact_refuted", "C42_area_symmetric"], "statement_broken": [], "secs": 21, "id": "bb7"}
{"failed_lemmas": ["BBoxP.rect_distance_eq"], "theorems_failed": ["C40_rectangle_distance_is_minimum", "C40_rectangle_distance_symmetric"], "statement_broken": [], "secs": 12, "id": "bb8"}
{"failed_lemmas": ["BBox2P.axis_gap_spec"], "theorems_failed": ["C41_box_outside", "C41_rectangle_outside"], "statement_broken": [], "secs": 10, "id": "bb9"}
{"failed_lemmas": ["BBox2P.rect_point_inside_value"], "theorems_failed": ["C41_rectangle_inside_value_partial"], "statement_broken": [], "secs": 13, "id": "bb10"}
{"failed_lemmas": ["BBoxP.rect_from_points_least"], "theorems_failed": ["C39_rectangle_from_points_least"], "statement_broken": [], "secs": 11, "id": "bb11"}
{"failed_lemmas": ["BBox2P.points_inside_nth"], "theorems_failed": ["C43_octree_covers", "C43_octree_disjoint_interiors", "C43_octree_half_size", "C43_octree_is_the_eight_octants", "C43_points_are_cell_centers", "C43_points_count", "C43_points_in_order", "C43_points_inside"], "statement_broken": [], "secs": 14, "id": "bb12"}
{"failed_lemmas": ["BBoxP.bbox_add_least"], "theorems_failed": ["C39_add_least_upper_bound"], "statement_broken": [], "secs": 11, "id": "bb13"}
{"failed_lemmas": ["BBoxP.from_boxes_least"], "theorems_failed": ["C39_from_bounding_boxes_least"], "statement_broken": [], "secs": 12, "id": "bb14"}
{"failed_lemmas": ["BBox2P.box_common_le", "BBox2P.intersection_volume_exact", "BBox2P.bbox_scale_spec"], "theorems_failed": ["C42_volume_exact", "C73_scale_center_size_volume"], "statement_broken": [], "secs": 23, "id": "bb15"}
{"failed_lemmas": ["BBox2P.points_inside_nth"], "theorems_failed": ["C43_octree_covers", "C43_octree_disjoint_interiors", "C43_octree_half_size", "C43_octree_is_the_eight_octants", "C43_points_are_cell_centers", "C43_points_count", "C43_points_in_order", "C43_points_inside"], "statement_broken": [], "secs": 14, "id": "bb16"}
{"failed_lemmas": ["BBox2P.points_inside_nth"], "theorems_failed": ["C43_octree_covers", "C43_octree_disjoint_interiors", "C43_octree_half_size", "C43_octree_is_the_eight_octants", "C43_points_are_cell_centers", "C43_points_count", "C43_points_in_order", "C43_points_inside"], "statement_broken": [], "secs": 18, "id": "bb17"}
{"failed_lemmas": ["BBox2P.bbox_scale_spec"], "theorems_failed": ["C73_scale_center_size_volume"], "statement_broken": [], "secs": 24, "id": "bb18"}
{"failed_lemmas": ["BBoxP.bbox_is_intersecting_spec"], "theorems_failed": ["C40_box_distance_is_minimum_or_zero_within_tolerance", "C40_box_distance_symmetric", "C40_box_distance_zero_when_sharing_a_point", "C40_nonvacuous", "C42_volume_exact", "C42_volume_nonnegative_refuted", "C42_volume_symmetric", "C73_is_intersecting_criterion", "C73_is_intersecting_exact_at_zero_tolerance", "C73_is_intersecting_no_false_negative", "C73_is_intersecting_symmetric"], "statement_broken": [], "secs": 14, "id": "bb19"}
{"failed_lemmas": ["BBox2P.is_inside_bbox_spec"], "theorems_failed": ["C42_volume_nonnegative_refuted"], "statement_broken": [], "secs": 18, "id": "bb20"}
{"failed_lemmas": ["BBox2P.intersection_volume_sym", "BBox2P.intersection_volume_exact", "BBox2P.intersection_volume_negative"], "theorems_failed": ["C42_volume_exact", "C42_volume_nonnegative_refuted", "C42_volume_symmetric"], "statement_broken": [], "secs": 27, "id": "bb21"}
{"failed_lemmas": ["BBoxP.distance_to_bbox_eq"], "theorems_failed": ["C40_box_distance_is_minimum_or_zero_within_tolerance", "C40_box_distance_symmetric"], "statement_broken": [], "secs": 15, "id": "bb22"}
{"failed_lemmas": ["BBox2P.bbox_point_belongs_spec"], "theorems_failed": ["C41_box_inside_distance_to_boundary", "C41_box_lower_bound_partial", "C41_box_nonnegative_refuted", "C73_box_point_belongs"], "statement_broken": [], "secs": 15, "id": "bb23"}
{"failed_lemmas": ["BBox2P.bbox_point_inside"], "theorems_failed": ["C41_box_inside_distance_to_boundary"], "statement_broken": [], "secs": 12, "id": "bb24"}
{"failed_lemmas": ["BBox2P.bbox_is_close_spec"], "theorems_failed": ["C73_is_close", "C73_is_close_zero_is_equality"], "statement_broken": [], "secs": 18, "id": "bb25"}
{"failed_lemmas": ["BBox2P.octree_boxes"], "theorems_failed": ["C43_octree_covers", "C43_octree_disjoint_interiors", "C43_octree_half_size", "C43_octree_is_the_eight_octants"], "statement_broken": [], "secs": 16, "id": "bb26"}
{"failed_lemmas": ["BBox2P.get_index_from_spec", "P_BBox.C50_nonvacuous"], "theorems_failed": ["C50_in_list_agrees_with_index", "C50_index_is_first_close", "C50_index_none", "C50_nonvacuous"], "statement_broken": [], "secs": 17, "id": "bb27"}
{"failed_lemmas": ["BBox2P.dd_snoc"], "theorems_failed": ["C50_delete_double_point_first_occurrence", "C50_delete_double_point_members", "C50_delete_double_point_nodup"], "statement_broken": [], "secs": 20, "id": "bb28"}
{"failed_lemmas": ["BBox2P.element_in_list_spec", "P_BBox.C50_nonvacuous"], "theorems_failed": ["C50_element_in_list", "C50_in_list_agrees_with_index", "C50_nonvacuous", "C50_point_in_list_agrees"], "statement_broken": [], "secs": 22, "id": "bb29"}
{"failed_lemmas": ["BBox2P.points_inside_nth", "BBox2P.octree_boxes", "BBox2P.bbox_scale_spec", "BBox2P.bbox_scale_1", "BBox2P.bbox_scale_scale", "BBox2P.bbox_scale_grows"], "theorems_failed": ["C43_octree_covers", "C43_octree_disjoint_interiors", "C43_octree_half_size", "C43_octree_is_the_eight_octants", "C43_points_are_cell_centers", "C43_points_count", "C43_points_in_order", "C43_points_inside", "C73_scale_by_one", "C73_scale_center_size_volume", "C73_scale_composes", "C73_scale_grows"], "statement_broken": [], "secs": 42, "id": "bb30"}
{"failed_lemmas": [], "theorems_failed": [], "statement_broken": [], "secs": 14, "id": "bb31"}
{"failed_lemmas": ["BBox2P.eqb3_eq"], "theorems_failed": ["C50_delete_double_point_first_occurrence", "C50_delete_double_point_members", "C50_delete_double_point_nodup", "C50_point_equality"], "statement_broken": [], "secs": 24, "id": "bb32"}
