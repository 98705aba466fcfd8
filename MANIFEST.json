{
 "claims": [
  {
   "property": "C01",
   "status": "proved",
   "theorems": [
    "C01_flood_fill_2d",
    "C01_flood_fill_3d",
    "C01_flood_fill_out_of_range_2d",
    "C01_flood_fill_out_of_range_3d"
   ],
   "note": ""
  },
  {
   "property": "C02",
   "status": "proved",
   "theorems": [
    "C02_fill_outer_voxels",
    "C02_fill_outer_pixels"
   ],
   "note": ""
  },
  {
   "property": "C03",
   "status": "proved",
   "theorems": [
    "C03_fill_enclosed_voxels",
    "C03_fill_enclosed_pixels",
    "C03_fill_enclosed_idempotent"
   ],
   "note": ""
  },
  {
   "property": "C04",
   "status": "partial",
   "theorems": [
    "C04_is_hollow_refuted",
    "C04_is_hollow_voxels_actual_partial",
    "C04_is_hollow_pixels_actual_partial"
   ],
   "note": "REFUTED: is_hollow answers the opposite (True for a solid voxel, False for a hollow shell); the exact behaviour is proved."
  },
  {
   "property": "C05",
   "status": "proved",
   "theorems": [
    "C05_union_voxels",
    "C05_difference_voxels",
    "C05_intersection_voxels",
    "C05_symmetric_difference_voxels",
    "C05_union_pixels",
    "C05_difference_pixels",
    "C05_intersection_pixels",
    "C05_symmetric_difference_pixels",
    "C05_different_sizes",
    "C05_different_sizes_pixels",
    "C05_is_intersecting_voxels"
   ],
   "note": "The statement is restricted to what the code does; the unrestricted clause is C158 (REFUTED)."
  },
  {
   "property": "C06",
   "status": "proved",
   "theorems": [
    "C06_crop_voxels",
    "C06_crop_idempotent",
    "C06_crop_canonical",
    "C06_equality",
    "C06_crop_pixels",
    "C06_crop_idempotent_pixels",
    "C06_crop_canonical_pixels"
   ],
   "note": ""
  },
  {
   "property": "C07",
   "status": "proved",
   "theorems": [
    "C07_points_matrix_points",
    "C07_matrix_points_matrix",
    "C07_voxel_centers",
    "C07_pixel_centers"
   ],
   "note": ""
  },
  {
   "property": "C08",
   "status": "partial",
   "theorems": [
    "C08_flood_fill_points_refuted",
    "C08_start_index_actual_partial"
   ],
   "note": "REFUTED: the start index is one too large on each axis (exact behaviour proved); filling from the only voxel raises IndexError."
  },
  {
   "property": "C09",
   "status": "proved",
   "theorems": [
    "C09_inverse_voxels",
    "C09_inverse_involutive",
    "C09_inverse_pixels",
    "C09_inverse_involutive_pixels"
   ],
   "note": ""
  },
  {
   "property": "C10",
   "status": "proved",
   "theorems": [
    "C10_union_is_the_set_union",
    "C10_difference_is_the_set_difference",
    "C10_intersection_is_the_set_intersection",
    "C10_symmetric_difference_is_the_set_symmetric_difference",
    "C10_different_sizes_are_rejected",
    "C10_a_shallower_tree_off_the_origin_is_rejected",
    "C10_root_is_moved_to_the_origin"
   ],
   "note": "Octrees of lists of any depth, roots at the origin as the class creates them; a root placed elsewhere by hand is moved (C10_root_is_moved_to_the_origin). Coordinates are exact multiples of 1e-9."
  },
  {
   "property": "C11",
   "status": "proved",
   "theorems": [
    "C11_points_to_octree_to_points"
   ],
   "note": "Every non-empty list of centers of the implicit grid; even number of 1e-9 as voxel size (the class asks for fewer than 9 decimals)."
  },
  {
   "property": "C12",
   "status": "proved",
   "theorems": [
    "C12_is_intersecting_decides_overlapping_voxels",
    "C12_is_intersecting_decides_a_common_voxel"
   ],
   "note": "Also for different voxel sizes: decides whether two voxels have overlapping open cubes. Termination included (a number of loop turns is exhibited)."
  },
  {
   "property": "C13",
   "status": "proved",
   "theorems": [
    "C13_exported_cubes_partition_the_voxelization",
    "C13_every_full_cube_lies_in_an_exported_cube"
   ],
   "note": "Cubes of the octree, every voxel in exactly one, only voxels covered, and every full cube of the octree contained in an exported one (maximal merge)."
  },
  {
   "property": "C14",
   "status": "proved",
   "theorems": [
    "C14_union_keeps_the_indices_of_both",
    "C14_intersection_keeps_the_indices_of_both",
    "C14_difference_keeps_the_indices_of_the_first",
    "C14_symmetric_difference_keeps_the_indices",
    "C14_union_entries_denote_the_same_triangles",
    "C14_voxels_are_the_cells_with_entries"
   ],
   "note": "All four operators."
  },
  {
   "property": "C15",
   "status": "proved",
   "theorems": [
    "C15_boundary_faces",
    "C15_only_faces",
    "C15_no_repetition"
   ],
   "note": ""
  },
  {
   "property": "C16",
   "status": "proved",
   "theorems": [
    "C16_layers"
   ],
   "note": ""
  },
  {
   "property": "C17",
   "status": "proved",
   "theorems": [
    "C17_a_cubic_voxel_that_meets_the_triangle_is_reported",
    "C17_every_non_cubic_box_misses_a_triangle_inside_it"
   ],
   "note": "The statement is restricted to what the code does; the unrestricted clause is C155 (REFUTED)."
  },
  {
   "property": "C18",
   "status": "partial",
   "theorems": [
    "C18_no_false_positive_refuted"
   ],
   "note": "REFUTED even for a unit cube (wrong radius in _calculate_axis_values); C184 is the true part."
  },
  {
   "property": "C19",
   "status": "proved",
   "theorems": [
    "C19_every_voxel_that_meets_the_box_is_a_candidate",
    "C19_candidates_are_voxels_near_the_box",
    "C19_candidates_are_different"
   ],
   "note": "Coverage, nearness (less than two voxels) and absence of duplicates (size >= 1e-9)."
  },
  {
   "property": "C20",
   "status": "proved",
   "theorems": [
    "C20_every_pixel_met_by_a_segment_is_returned",
    "C20_every_returned_pixel_is_met_up_to_rounding",
    "C20_pixels_are_different"
   ],
   "note": "The statement is restricted to what the code does; the unrestricted clause is C157 (REFUTED)."
  },
  {
   "property": "C21",
   "status": "proved",
   "theorems": [
    "C21_consistent_iff_shape",
    "C21_triangles_vertices",
    "C21_add",
    "C21_from_meshes",
    "C21_different_classes"
   ],
   "note": ""
  },
  {
   "property": "C22",
   "status": "proved",
   "theorems": [
    "C22_merge_vertices"
   ],
   "note": ""
  },
  {
   "property": "C23",
   "status": "proved",
   "theorems": [
    "C23_merge_triangles",
    "C23_merge_triangles_idempotent"
   ],
   "note": ""
  },
  {
   "property": "C24",
   "status": "proved",
   "theorems": [
    "C24_split",
    "C24_split_count",
    "C24_split_then_merge"
   ],
   "note": ""
  },
  {
   "property": "C25",
   "status": "proved",
   "theorems": [
    "C25_remove_degenerate",
    "C25_remove_degenerate_default",
    "C25_remove_large"
   ],
   "note": ""
  },
  {
   "property": "C26",
   "status": "proved",
   "theorems": [
    "C26_mesh_border"
   ],
   "note": ""
  },
  {
   "property": "C27",
   "status": "proved",
   "theorems": [
    "C27_dict_roundtrip_3d"
   ],
   "note": "The statement is restricted to what the code does; the unrestricted clause is C145 (REFUTED)."
  },
  {
   "property": "C28",
   "status": "proved",
   "theorems": [
    "C28_linear_search_on_the_domain",
    "C28_linear_search_at_and_beyond_the_end",
    "C28_linear_search_before_the_domain",
    "C28_binary_search_terminates_and_agrees",
    "C28_binary_search_in_the_band",
    "C28_binary_search_outside_the_domain_never_terminates"
   ],
   "note": "Proved; findings: find_span_binsearch loops forever outside the domain."
  },
  {
   "property": "C29",
   "status": "proved",
   "theorems": [
    "C29_basis_functions_are_cox_de_boor",
    "C29_basis_nonnegative_partition_of_unity",
    "C29_other_functions_vanish",
    "C29_single_basis_function",
    "C29_basis_functions_of_all_degrees",
    "C29_coefficient_matrix_rows"
   ],
   "note": ""
  },
  {
   "property": "C30",
   "status": "proved",
   "theorems": [
    "C30_evaluation_is_the_textbook_curve",
    "C30_sampled_evaluation",
    "C30_point_in_hull_of_active_control_points",
    "C30_clamped_ends"
   ],
   "note": ""
  },
  {
   "property": "C31",
   "status": "proved",
   "theorems": [
    "C31_full_insertion_keeps_the_curve",
    "C31_knot_vector_of_the_result",
    "C31_no_insertion",
    "C31_too_many_insertions_rejected"
   ],
   "note": "The statement is restricted to what the code does; the unrestricted clause is C149 (REFUTED)."
  },
  {
   "property": "C32",
   "status": "proved",
   "theorems": [
    "C32_split_gives_the_two_parts",
    "C32_split_at_the_ends_rejected"
   ],
   "note": ""
  },
  {
   "property": "C33",
   "status": "proved",
   "theorems": [
    "C33_distinct_knots_with_their_multiplicities",
    "C33_expansion_gives_the_knot_vector_back",
    "C33_multiplicity_counts_occurrences"
   ],
   "note": "The statement is restricted to what the code does; the unrestricted clause is C150 (REFUTED)."
  },
  {
   "property": "C34",
   "status": "proved",
   "theorems": [
    "C34_generated_clamped_knot_vector",
    "C34_generated_unclamped_knot_vector",
    "C34_zero_degree_or_points_rejected",
    "C34_standardized_knot_vector",
    "C34_standardize_errors",
    "C34_constructor_normalises_the_parameter"
   ],
   "note": ""
  },
  {
   "property": "C35",
   "status": "proved",
   "theorems": [
    "C35_new_knot_inserted"
   ],
   "note": "The statement is restricted to what the code does; the unrestricted clause is C151 (REFUTED)."
  },
  {
   "property": "C36",
   "status": "proved",
   "theorems": [
    "C36_lu_decomposition",
    "C36_not_square_rejected",
    "C36_forward_substitution",
    "C36_backward_substitution",
    "C36_solution",
    "C36_zero_pivot_gives_wrong_factors"
   ],
   "note": "Proved under 'no zero pivot' as stated; finding: a zero pivot silently gives L*U <> A (no pivoting)."
  },
  {
   "property": "C37",
   "status": "proved",
   "theorems": [
    "C37_binomial_coefficient"
   ],
   "note": ""
  },
  {
   "property": "C38",
   "status": "proved",
   "theorems": [
    "C38_flip_transposes_the_net",
    "C38_flip_twice_is_the_identity",
    "C38_ctrlpts2d_to_ctrlpts_is_row_major",
    "C38_separate_ctrlpts_weights_inverts_weighting",
    "C38_control_points_table_rows",
    "C38_refinement_in_v_inserts_every_knot"
   ],
   "note": "Index arithmetic of nets, weights, v refinement; the u refinement is C172."
  },
  {
   "property": "C39",
   "status": "proved",
   "theorems": [
    "C39_from_points_least",
    "C39_from_points_total",
    "C39_rectangle_from_points_least",
    "C39_rectangle_from_points_total",
    "C39_from_bounding_boxes_least",
    "C39_from_bounding_boxes_total",
    "C39_add_least_upper_bound",
    "C39_add_commutative",
    "C39_add_associative",
    "C39_add_idempotent",
    "C39_bounds_order_is_inclusion",
    "C39_rectangle_bounds_order_is_inclusion",
    "C39_corners_give_back_the_box"
   ],
   "note": ""
  },
  {
   "property": "C40",
   "status": "proved",
   "theorems": [
    "C40_rectangle_distance_is_minimum",
    "C40_rectangle_distance_symmetric",
    "C40_box_distance_is_minimum_or_zero_within_tolerance",
    "C40_box_distance_zero_when_sharing_a_point",
    "C40_box_distance_symmetric"
   ],
   "note": ""
  },
  {
   "property": "C41",
   "status": "proved",
   "theorems": [
    "C41_box_outside",
    "C41_box_inside_distance_to_boundary",
    "C41_rectangle_outside"
   ],
   "note": "Outside and inside-box cases; the other cases are C173."
  },
  {
   "property": "C42",
   "status": "proved",
   "theorems": [
    "C42_area_exact",
    "C42_area_symmetric",
    "C42_area_bounds",
    "C42_volume_exact",
    "C42_volume_symmetric"
   ],
   "note": "The statement is restricted to what the code does; the unrestricted clause is C124 (REFUTED)."
  },
  {
   "property": "C43",
   "status": "proved",
   "theorems": [
    "C43_points_count",
    "C43_points_in_order",
    "C43_points_are_cell_centers",
    "C43_points_total",
    "C43_points_inside",
    "C43_octree_is_the_eight_octants",
    "C43_octree_covers",
    "C43_octree_disjoint_interiors",
    "C43_octree_half_size"
   ],
   "note": ""
  },
  {
   "property": "C44",
   "status": "proved",
   "theorems": [
    "C44_cubic_box_reports_every_triangle_it_meets"
   ],
   "note": "The statement is restricted to what the code does; the unrestricted clause is C156 (REFUTED)."
  },
  {
   "property": "C45",
   "status": "proved",
   "theorems": [
    "C45_cos_image_is_the_exact_image",
    "C45_sin_image_is_the_exact_image"
   ],
   "note": ""
  },
  {
   "property": "C46",
   "status": "proved",
   "theorems": [
    "C46_angle_with_given_cosine_and_sine",
    "C46_inverts_cos_and_sin",
    "C46_range"
   ],
   "note": ""
  },
  {
   "property": "C47",
   "status": "proved",
   "theorems": [
    "C47_euler_angles_give_a_rotation",
    "C47_rotation_rebuilt_from_its_euler_angles"
   ],
   "note": "The statement is restricted to what the code does; the unrestricted clause is C125 (REFUTED)."
  },
  {
   "property": "C48",
   "status": "proved",
   "theorems": [
    "C48_clockwise_angle_rotates_onto_the_second",
    "C48_null_vector",
    "C48_aligned_vectors_are_a_full_turn_apart"
   ],
   "note": "The statement is restricted to what the code does; the unrestricted clause is C154 (REFUTED)."
  },
  {
   "property": "C49",
   "status": "partial",
   "theorems": [
    "C49_default_range_refuted",
    "C49_three_quarter_turn"
   ],
   "note": "REFUTED: the result is in [0, 2 pi) whatever min_angle, except when snapped to min_angle or min_angle + 2 pi (C180)."
  },
  {
   "property": "C50",
   "status": "proved",
   "theorems": [
    "C50_element_in_list",
    "C50_index_is_first_close",
    "C50_index_none",
    "C50_in_list_agrees_with_index",
    "C50_is_close_symmetric",
    "C50_point_in_list_agrees",
    "C50_point_equality",
    "C50_delete_double_point_members",
    "C50_delete_double_point_nodup",
    "C50_delete_double_point_first_occurrence"
   ],
   "note": ""
  },
  {
   "property": "C51",
   "status": "proved",
   "theorems": [
    "C51_arguments_split_at_top_level_commas",
    "C51_last_parenthesised_argument_lost_without_final_parenthesis"
   ],
   "note": "The statement is restricted to what the code does; the unrestricted clause is C153 (REFUTED)."
  },
  {
   "property": "C52",
   "status": "proved",
   "theorems": [
    "C52_set_to_list_splits_at_commas",
    "C52_identifier_lists_round_trip",
    "C52_identifiers_parse_back",
    "C52_empty_list_gives_an_empty_text",
    "C52_written_lists_are_step_ids_to_str"
   ],
   "note": ""
  },
  {
   "property": "C53",
   "status": "proved",
   "theorems": [
    "C53_product_writer_fresh_ids",
    "C53_geometric_context_writer_fresh_ids",
    "C53_assembly_definition_writer_fresh_ids",
    "C53_the_context_assigns_the_three_units"
   ],
   "note": ""
  },
  {
   "property": "C54",
   "status": "proved",
   "theorems": [
    "C54_dot3_sym",
    "C54_dot3_add",
    "C54_dot3_scale",
    "C54_cross3_antisymmetric",
    "C54_cross3_add",
    "C54_cross3_scale",
    "C54_cross3_orthogonal_left",
    "C54_cross3_orthogonal_right",
    "C54_cross3_norm",
    "C54_norm3_zero",
    "C54_norm2_zero",
    "C54_norm3_homogeneous",
    "C54_norm2_homogeneous",
    "C54_cauchy3",
    "C54_cauchy2",
    "C54_norm3_triangle",
    "C54_norm2_triangle",
    "C54_unit_vector3",
    "C54_unit_vector2",
    "C54_unit_vector3_null",
    "C54_unit_vector2_null",
    "C54_distance3_zero",
    "C54_distance3_triangle",
    "C54_distance2_zero",
    "C54_distance2_triangle",
    "C54_is_close3",
    "C54_is_close2",
    "C54_middle_point3",
    "C54_middle_point2",
    "C54_normal_vector2",
    "C54_colinear_complete",
    "C54_colinear_sound",
    "C54_colinear_null",
    "C54_vector_projection",
    "C54_deterministic_normal",
    "C54_cross3_right_handed",
    "C54_cross3_determinant",
    "C54_cross2",
    "C54_cross2_sign",
    "C54_cross2_norm",
    "C54_dot2_coordinates",
    "C54_norm2_dot",
    "C54_norm3_dot",
    "C54_division3",
    "C54_division2",
    "C54_division3_by_zero",
    "C54_division2_by_zero",
    "C54_group_laws3",
    "C54_group_laws2",
    "C54_scalar_laws3",
    "C54_scalar_laws2",
    "C54_perpendicular",
    "C54_unit_normal_vector2",
    "C54_unit_normal_vector2_total"
   ],
   "note": "The statement is restricted to what the code does; the unrestricted clause is C126 (REFUTED)."
  },
  {
   "property": "C55",
   "status": "proved",
   "theorems": [
    "C55_rotation2_isometry",
    "C55_rotation2_center",
    "C55_rotation2_compose",
    "C55_rotation2_full_turn",
    "C55_rotation2_orientation",
    "C55_rotation3_isometry",
    "C55_rotation3_compose",
    "C55_rotation3_full_turn",
    "C55_rotation3_zero",
    "C55_rotation3_axis",
    "C55_rotation3_orientation",
    "C55_rotation3_angle",
    "C55_rotation2_angle",
    "C55_translation3_vector",
    "C55_translation2_vector",
    "C55_translation2_isometry",
    "C55_translation3_isometry",
    "C55_x_rotation_sense",
    "C55_y_rotation_sense",
    "C55_z_rotation_sense"
   ],
   "note": "The statement is restricted to what the code does; the unrestricted clause is C127 (REFUTED)."
  },
  {
   "property": "C56",
   "status": "proved",
   "theorems": [
    "C56_basis2_global_local_global",
    "C56_basis2_local_global_local",
    "C56_frame2_global_local_global",
    "C56_frame2_local_global_local",
    "C56_frame2_composition",
    "C56_frame2_mapping_roundtrip",
    "C56_frame2_mapping_points",
    "C56_frame2_rotation",
    "C56_frame2_translation",
    "C56_basis3_global_local_global",
    "C56_basis3_local_global_local",
    "C56_frame3_global_local_global",
    "C56_frame3_local_global_local",
    "C56_direct_frame_roundtrip",
    "C56_direct_local_coordinates",
    "C56_direct_inverse_is_transpose",
    "C56_basis3_sub_add",
    "C56_basis3_neg",
    "C56_frame3_composition",
    "C56_frame3_sub_add",
    "C56_basis2_coordinates",
    "C56_frame2_coordinates",
    "C56_basis3_coordinates",
    "C56_frame3_coordinates",
    "C56_frame3_translation",
    "C56_frame3_rotation",
    "C56_frame3_rotation_about_origin",
    "C56_frame2_rotation_origin_only",
    "C56_frame2_rotation_about_origin",
    "C56_frame3_mapping_roundtrip",
    "C56_frame3_mapping_total",
    "C56_frame3_mapping_points"
   ],
   "note": "The statement is restricted to what the code does; the unrestricted clause is C128 (REFUTED)."
  },
  {
   "property": "C57",
   "status": "proved",
   "theorems": [
    "C57_product33_associative",
    "C57_product22_associative",
    "C57_product33_distributive",
    "C57_identity33",
    "C57_identity22",
    "C57_determinant33_multiplicative",
    "C57_determinant22_multiplicative",
    "C57_inverse33",
    "C57_inverse22",
    "C57_inverse33_total",
    "C57_inverse22_total",
    "C57_inverse33_error",
    "C57_inverse22_error",
    "C57_apply22_compose",
    "C57_apply33",
    "C57_apply33_exact",
    "C57_sum22",
    "C57_sum33",
    "C57_scalar33",
    "C57_scalar33_determinant",
    "C57_apply22",
    "C57_determinant22",
    "C57_determinant33"
   ],
   "note": "The statement is restricted to what the code does; the unrestricted clause is C129 (REFUTED)."
  },
  {
   "property": "C58",
   "status": "proved",
   "theorems": [
    "C58_sides",
    "C58_area_fan",
    "C58_area_cyclic",
    "C58_area_reversal",
    "C58_area_translation",
    "C58_area_rotation",
    "C58_area_scale",
    "C58_area_cut",
    "C58_rotation_points",
    "C58_translation_points",
    "C58_moves_length",
    "C58_triangle_area_value",
    "C58_triangle_area",
    "C58_point_belongs",
    "C58_point_belongs_boundary",
    "C58_point_belongs_even_odd",
    "C58_point_belongs_cyclic",
    "C58_point_belongs_reversal",
    "C58_point_belongs_translation",
    "C58_point_belongs_triangle",
    "C58_include_edge_monotone",
    "C58_point_belongs_degenerate"
   ],
   "note": ""
  },
  {
   "property": "C59",
   "status": "proved",
   "theorems": [
    "C59_translation_grid",
    "C59_translation_grid_count",
    "C59_translation_any",
    "C59_translation_count"
   ],
   "note": ""
  },
  {
   "property": "C60",
   "status": "proved",
   "theorems": [
    "C60_watertight",
    "C60_sides_total"
   ],
   "note": ""
  },
  {
   "property": "C61",
   "status": "proved",
   "theorems": [
    "C61_or"
   ],
   "note": "The statement is restricted to what the code does; the unrestricted clause is C146 (REFUTED)."
  },
  {
   "property": "C62",
   "status": "proved",
   "theorems": [
    "C62_from_two_vectors",
    "C62_from_3_points",
    "C62_from_point_and_normal",
    "C62_from_point_and_normal_total",
    "C62_from_step",
    "C62_from_step_side",
    "C62_from_step_axis_only",
    "C62_from_step_ref_only",
    "C62_from_step_default",
    "C62_euler_matrix",
    "C62_from_point_and_vector",
    "C62_from_point_and_vector_total",
    "C62_rotation_direct",
    "C62_euler_direct",
    "C62_is_orthonormal_sound",
    "C62_is_orthonormal_complete"
   ],
   "note": "The statement is restricted to what the code does; the unrestricted clause is C130 (REFUTED)."
  },
  {
   "property": "C63",
   "status": "proved",
   "theorems": [
    "C63_line_intersection_found",
    "C63_line_intersection_unique",
    "C63_line_intersection_parallel",
    "C63_segment_intersection_complete",
    "C63_segment_intersection"
   ],
   "note": "The statement is restricted to what the code does; the unrestricted clause is C147 (REFUTED)."
  },
  {
   "property": "C64",
   "status": "proved",
   "theorems": [
    "C64_distance3_minimal",
    "C64_distance2_minimal",
    "C64_distance3_total",
    "C64_distance2_total"
   ],
   "note": ""
  },
  {
   "property": "C65",
   "status": "partial",
   "theorems": [
    "C65_minimal_distance_refuted"
   ],
   "note": "REFUTED: the 3D segment-segment distance of core_compiled uses a wrong determinant; C183 is the true part."
  },
  {
   "property": "C66",
   "status": "proved",
   "theorems": [
    "C66_lines_minimal",
    "C66_lines_touch",
    "C66_points_on_lines"
   ],
   "note": "The statement is restricted to what the code does; the unrestricted clause is C131 (REFUTED)."
  },
  {
   "property": "C67",
   "status": "proved",
   "theorems": [
    "C67_projection2",
    "C67_projection3",
    "C67_projection2_total",
    "C67_line_projection_agrees",
    "C67_symmetry",
    "C67_symmetry_involutive",
    "C67_symmetry_isometry",
    "C67_point_at_abscissa",
    "C67_abscissa_of_projection"
   ],
   "note": ""
  },
  {
   "property": "C68",
   "status": "proved",
   "theorems": [
    "C68_nearest_point3",
    "C68_nearest_point3_empty",
    "C68_nearest_point2",
    "C68_in_list3",
    "C68_in_list2",
    "C68_mean_point",
    "C68_mean_point_total",
    "C68_mean_point_order"
   ],
   "note": ""
  },
  {
   "property": "C69",
   "status": "proved",
   "theorems": [
    "C69_center_of_mass",
    "C69_center_of_mass_integral",
    "C69_center_of_mass_small",
    "C69_center_of_mass_flat",
    "C69_area_integral",
    "C69_second_moment_integrals",
    "C69_barycenter_mean",
    "C69_barycenter_total",
    "C69_barycenter_empty",
    "C69_center_of_mass_total",
    "C69_center_of_mass_triangle",
    "C69_center_of_mass_translation",
    "C69_second_moment_translation",
    "C69_second_moment_parallel_axes"
   ],
   "note": ""
  },
  {
   "property": "C70",
   "status": "partial",
   "theorems": [
    "C70_prefix_refuted"
   ],
   "note": "REFUTED: zip-prefix comparison; C181 is the true part."
  },
  {
   "property": "C71",
   "status": "partial",
   "theorems": [
    "C71_first_point_partial",
    "C71_minimum_refuted"
   ],
   "note": "REFUTED: measured from the first point only; exact behaviour proved."
  },
  {
   "property": "C72",
   "status": "proved",
   "theorems": [
    "C72_plane_projection",
    "C72_plane_projection_minimal",
    "C72_plane_projection_error",
    "C72_to_3d_then_to_2d",
    "C72_to_2d_then_to_3d"
   ],
   "note": "plane_projection2d is C174."
  },
  {
   "property": "C73",
   "status": "proved",
   "theorems": [
    "C73_is_intersecting_criterion",
    "C73_is_intersecting_no_false_negative",
    "C73_is_intersecting_exact_at_zero_tolerance",
    "C73_is_intersecting_symmetric",
    "C73_rectangle_is_intersecting_interiors",
    "C73_rectangle_is_intersecting_symmetric",
    "C73_rectangle_point_belongs",
    "C73_box_point_belongs",
    "C73_scale_center_size_volume",
    "C73_scale_by_one",
    "C73_scale_composes",
    "C73_scale_grows",
    "C73_rectangle_is_inside",
    "C73_box_is_inside",
    "C73_box_center",
    "C73_rectangle_center",
    "C73_box_size_and_volume",
    "C73_rectangle_bounding_points_area",
    "C73_rectangle_bounding_points",
    "C73_box_corner_points",
    "C73_is_close",
    "C73_is_close_zero_is_equality"
   ],
   "note": ""
  },
  {
   "property": "C74",
   "status": "proved",
   "theorems": [
    "C74_area_is_sum_of_triangle_areas",
    "C74_area_nonnegative",
    "C74_resize_scales_every_triangle",
    "C74_resize_area",
    "C74_remove_degenerate_keeps_area",
    "C74_concatenation_adds_areas",
    "C74_bounding_box_contains_every_triangle"
   ],
   "note": ""
  },
  {
   "property": "C75",
   "status": "partial",
   "theorems": [
    "C75_all_proper_triangles_refuted"
   ],
   "note": "REFUTED: triangles with a side of at most 1e-3 are dropped; the exact set is C182."
  },
  {
   "property": "C76",
   "status": "proved",
   "theorems": [
    "C76_minimum_distance_of_vertices"
   ],
   "note": ""
  },
  {
   "property": "C77",
   "status": "proved",
   "theorems": [
    "C77_reverse"
   ],
   "note": "The statement is restricted to what the code does; the unrestricted clause is C148 (REFUTED)."
  },
  {
   "property": "C78",
   "status": "proved",
   "theorems": [
    "C78_angle_of_two_vectors",
    "C78_null_vector_rejected"
   ],
   "note": ""
  },
  {
   "property": "C79",
   "status": "proved",
   "theorems": [
    "C79_interior_point_is_half_way_clockwise",
    "C79_interior_point_in_the_plane_of_the_circle"
   ],
   "note": "For circles of space; angles in the last 6.3e-9 of the turn are excluded."
  },
  {
   "property": "C80",
   "status": "proved",
   "theorems": [
    "C80_export_is_closed_consistent_and_denotes_the_model",
    "C80_unique_ids_without_nested_assemblies",
    "C80_export_succeeds_exactly_on_exportable_models",
    "C80_compound_writes_plain_shells_only",
    "C80_the_file_has_one_statement_per_line",
    "C80_vector2d_refers_to_itself"
   ],
   "note": "Exporting every primitive once is C175."
  },
  {
   "property": "C81",
   "status": "proved",
   "theorems": [
    "C81_from_triangles_lists_the_triangles_of_each_voxel"
   ],
   "note": "The triangle/cube test is a parameter (assumed monotone and local; the bounding box test is given as an instance); vertices are multiples of 1e-9."
  },
  {
   "property": "C82",
   "status": "proved",
   "theorems": [
    "C82_pairs_are_located_in_their_common_voxels",
    "C82_pairs_of_two_shells_are_the_pairs_with_a_common_voxel"
   ],
   "note": "Threshold 0 is treated as no threshold, as in the code; the NoDup hypotheses hold for octrees built from triangles."
  },
  {
   "property": "C83",
   "status": "proved",
   "theorems": [
    "C83_inner_growing_export_partitions_and_merges_deep_blocks"
   ],
   "note": "One call of get_inner_growing_voxel_centers; layer_dict is a total function (no KeyError)."
  },
  {
   "property": "C84",
   "status": "proved",
   "theorems": [
    "C84_voxel_matrix_of_triangles",
    "C84_triangles_with_two_equal_vertices_mark_nothing"
   ],
   "note": "Sizes that are a whole even number of 1e-9 (centers exact at 9 digits); triangles with two equal vertices are skipped by the code (separate theorem)."
  },
  {
   "property": "C85",
   "status": "proved",
   "theorems": [
    "C85_point2d_to_3d_is_the_point_of_the_clamped_parameters",
    "C85_evaluate_samples_the_surface_on_a_regular_grid",
    "C85_every_point_is_a_convex_combination_of_the_control_points",
    "C85_a_clamped_surface_interpolates_its_corners",
    "C85_the_constructor_normalises_the_knots"
   ],
   "note": ""
  },
  {
   "property": "C86",
   "status": "proved",
   "theorems": [
    "C86_insertion_in_u_keeps_the_surface",
    "C86_insertion_in_v_keeps_the_surface",
    "C86_insertion_in_both_directions_keeps_the_surface",
    "C86_too_many_insertions_in_u_raise",
    "C86_too_many_insertions_in_v_raise"
   ],
   "note": ""
  },
  {
   "property": "C87",
   "status": "proved",
   "theorems": [
    "C87_split_surface_u_gives_the_two_parts",
    "C87_split_surface_v_gives_the_two_parts",
    "C87_split_u_at_an_end_raises",
    "C87_split_v_at_an_end_raises"
   ],
   "note": ""
  },
  {
   "property": "C88",
   "status": "partial",
   "theorems": [
    "C88_extract_curve_u_actual",
    "C88_extract_curve_v_actual",
    "C88_extract_curve_u_is_ill_formed_when_the_sizes_differ",
    "C88_the_extracted_curve_is_a_valid_curve_refuted",
    "C88_border_u_is_ill_formed_when_the_sizes_differ",
    "C88_border_v_is_ill_formed_when_the_sizes_differ",
    "C88_the_border_curves_are_valid_refuted"
   ],
   "note": "REFUTED: the extracted curve gets the degree and knots of the other direction (ill-formed whenever the numbers of points differ); its points are those of the iso-curve."
  },
  {
   "property": "C89",
   "status": "proved",
   "theorems": [
    "C89_the_first_and_last_v_curves_are_the_u_borders",
    "C89_the_first_and_last_u_curves_are_the_v_borders"
   ],
   "note": "extract_curves is C88 and C176."
  },
  {
   "property": "C90",
   "status": "proved",
   "theorems": [
    "C90_circumcircle",
    "C90_circumcircle_flat",
    "C90_incircle",
    "C90_incircle_total"
   ],
   "note": ""
  },
  {
   "property": "C91",
   "status": "proved",
   "theorems": [
    "C91_check_consistency",
    "C91_check_consistency_of_nonnegative_indices",
    "C91_no_triangle"
   ],
   "note": "The statement is restricted to what the code does; the unrestricted clause is C152 (REFUTED)."
  },
  {
   "property": "C92",
   "status": "proved",
   "theorems": [
    "C92_cylinder_points_lie_on_the_cylinder",
    "C92_cone_points_lie_on_the_cone",
    "C92_sphere_points_lie_on_the_sphere",
    "C92_torus_points_lie_on_the_torus",
    "C92_every_point_of_the_cylinder_is_reached",
    "C92_every_point_of_the_cone_is_reached",
    "C92_every_point_of_the_sphere_is_reached",
    "C92_every_point_of_the_torus_is_reached",
    "C92_cylinder_scalar_and_array_versions_agree",
    "C92_cone_scalar_and_array_versions_agree",
    "C92_sphere_scalar_and_array_versions_agree",
    "C92_torus_scalar_and_array_versions_agree"
   ],
   "note": ""
  },
  {
   "property": "C93",
   "status": "proved",
   "theorems": [
    "C93_cylinder_parameters_are_recovered",
    "C93_sphere_parameters_are_recovered",
    "C93_cone_parameters_are_recovered_above_the_apex",
    "C93_torus_parameters_are_recovered_for_minor_below_twice_major"
   ],
   "note": "The other cases are C177."
  },
  {
   "property": "C94",
   "status": "proved",
   "theorems": [
    "C94_cylinder_point_distance",
    "C94_cylinder_distance_is_minimal",
    "C94_cylinder_distance_is_attained",
    "C94_torus_point_distance",
    "C94_torus_distance_is_minimal",
    "C94_torus_distance_is_attained"
   ],
   "note": "With minimality; spheres and cones are C178."
  },
  {
   "property": "C95",
   "status": "proved",
   "theorems": [
    "C95_sphere_point_belongs_is_sound",
    "C95_sphere_point_belongs_is_complete",
    "C95_torus_point_belongs_is_sound",
    "C95_torus_point_belongs_is_complete",
    "C95_cone_point_belongs_is_sound",
    "C95_cone_point_belongs_is_complete_above_the_apex"
   ],
   "note": "The other cases are C179."
  },
  {
   "property": "C96",
   "status": "proved",
   "theorems": [
    "C96_sphere_bounding_box_contains_the_sphere",
    "C96_torus_bounding_box_contains_the_torus"
   ],
   "note": ""
  },
  {
   "property": "C97",
   "status": "proved",
   "theorems": [
    "C97_point_belongs_is_height_within_tolerance",
    "C97_no_point_of_the_plane_is_closer_than_the_height",
    "C97_the_height_is_attained",
    "C97_point_distance_is_the_height_up_to_the_rounding"
   ],
   "note": ""
  },
  {
   "property": "C98",
   "status": "proved",
   "theorems": [
    "C98_from_3_points_contains_the_points_and_is_direct",
    "C98_from_3_points_fails_exactly_on_collinear_points",
    "C98_from_normal_is_the_plane_normal_to_the_vector",
    "C98_from_normal_always_succeeds_on_unit_vectors",
    "C98_from_plane_vectors",
    "C98_from_points_needs_three_points",
    "C98_from_points_contains_the_first_point_and_two_others",
    "C98_from_points_fails_exactly_on_aligned_points"
   ],
   "note": "The statement is restricted to what the code does; the unrestricted clause is C132 (REFUTED)."
  },
  {
   "property": "C99",
   "status": "proved",
   "theorems": [
    "C99_line_intersection_is_on_both",
    "C99_line_intersection_is_unique",
    "C99_line_intersection_is_empty_exactly_for_small_dot_products",
    "C99_segment_intersection_is_on_both",
    "C99_segment_intersection_is_found",
    "C99_segment_intersection_never_fails"
   ],
   "note": "The statement is restricted to what the code does; the unrestricted clause is C133 (REFUTED)."
  },
  {
   "property": "C100",
   "status": "proved",
   "theorems": [
    "C100_two_planes_intersection_is_a_common_line_or_empty",
    "C100_every_common_point_is_near_the_line"
   ],
   "note": ""
  },
  {
   "property": "C101",
   "status": "proved",
   "theorems": [
    "C101_angle_between_planes",
    "C101_is_parallel_iff_normals_are_parallel",
    "C101_is_coincident_iff",
    "C101_planes_with_the_same_points_are_coincident",
    "C101_plane_between_two_planes_bisects",
    "C101_plane_between_parallel_planes_fails",
    "C101_point2d_to_3d_rounds_to_12_digits",
    "C101_parametric_points_are_on_the_plane",
    "C101_parameters_are_recovered",
    "C101_every_point_of_the_plane_has_parameters"
   ],
   "note": ""
  },
  {
   "property": "C102",
   "status": "proved",
   "theorems": [
    "C102_line2d_point_distance_is_the_distance",
    "C102_line2d_point_distance_of_a_degenerate_line",
    "C102_line2d_point_belongs_is_within_tolerance",
    "C102_line2d_intersections_are_the_common_points",
    "C102_line2d_distance_of_crossing_lines_is_zero",
    "C102_line2d_distance_of_parallel_lines_is_a_point",
    "C102_line3d_point_distance_is_the_distance",
    "C102_line3d_point_distance_of_a_degenerate_line",
    "C102_line3d_point_belongs_is_within_tolerance",
    "C102_line3d_distance_of_non_parallel_lines",
    "C102_line3d_distance_of_parallel_lines",
    "C102_line3d_intersection_is_a_common_point_within_tolerance",
    "C102_line3d_intersection_finds_the_common_point",
    "C102_line3d_skew_to",
    "C102_line3d_line_intersections_of_disjoint_lines_is_a_list_with_none"
   ],
   "note": "The statement is restricted to what the code does; the unrestricted clause is C134 (REFUTED)."
  },
  {
   "property": "C103",
   "status": "proved",
   "theorems": [
    "C103_from_3_points_passes_through_the_points",
    "C103_from_3_points_fails_exactly_on_aligned_points",
    "C103_the_circle_through_three_points_is_unique",
    "C103_point_belongs_with_edge",
    "C103_point_belongs_without_edge",
    "C103_point_distance_is_a_lower_bound",
    "C103_point_distance_is_attained",
    "C103_bounding_rectangle_contains_the_disc",
    "C103_bounding_rectangle_is_the_smallest",
    "C103_translation_moves_every_point",
    "C103_axial_symmetry_moves_the_centre",
    "C103_point_symmetric_moves_the_centre_to_twice_the_point",
    "C103_rotation_moves_every_point",
    "C103_reverse_keeps_the_points",
    "C103_reverse_goes_through_the_points_backwards",
    "C103_sense_of_a_circle_of_given_center_and_radius",
    "C103_sense_of_the_circle_through_three_points",
    "C103_second_moment_follows_huygens"
   ],
   "note": "The statement is restricted to what the code does; the unrestricted clause is C135 (REFUTED)."
  },
  {
   "property": "C104",
   "status": "proved",
   "theorems": [
    "C104_far_lines_give_nothing",
    "C104_far_lines_have_no_common_point",
    "C104_secant_lines_give_exactly_the_common_points",
    "C104_lines_through_the_centre_give_the_ends_of_a_diameter"
   ],
   "note": "The statement is restricted to what the code does; the unrestricted clause is C136 (REFUTED)."
  },
  {
   "property": "C105",
   "status": "proved",
   "theorems": [
    "C105_disjoint_circles_give_nothing",
    "C105_secant_circles_give_exactly_the_common_points",
    "C105_duplicates_are_removed"
   ],
   "note": "The statement is restricted to what the code does; the unrestricted clause is C137 (REFUTED)."
  },
  {
   "property": "C106",
   "status": "proved",
   "theorems": [
    "C106_every_parameter_gives_a_point_of_the_circle",
    "C106_point_at_abscissa_is_the_point_at_that_arc_length",
    "C106_point_at_abscissa_of_a_null_circle",
    "C106_the_length_is_the_first_return_to_the_start",
    "C106_abscissa_of_a_point_is_its_arc_length",
    "C106_abscissa_then_point_at_abscissa_is_the_identity",
    "C106_abscissa_of_a_point_off_the_circle_fails",
    "C106_discretization_points_are_evenly_spaced",
    "C106_discretization_is_closed",
    "C106_every_parameter_gives_a_point_of_the_3d_circle",
    "C106_every_point_of_the_3d_circle_has_a_parameter",
    "C106_point_at_abscissa_of_a_3d_circle",
    "C106_abscissa_of_a_point_of_a_3d_circle",
    "C106_discretization_of_a_3d_circle"
   ],
   "note": "Proved; abscissas in the last 2*pi*1e-9 of the turn are mapped to 0 (the returned point is within that arc length). 3D abscissa under the hypothesis that the coordinates are not below 1e-16 (snapping of Matrix33.vector_multiplication)."
  },
  {
   "property": "C107",
   "status": "proved",
   "theorems": [
    "C107_from_3_points_passes_through_the_points_within_2e_6",
    "C107_from_3_points_fails_on_equal_points",
    "C107_from_3_points_fails_on_aligned_points",
    "C107_from_center_normal",
    "C107_points_of_the_circle_belong",
    "C107_belonging_points_are_near_the_circle",
    "C107_bounding_box_is_the_least_with_the_quarter_points",
    "C107_bounding_box_never_fails",
    "C107_reverse_keeps_the_points_and_reverses_the_sense"
   ],
   "note": "The statement is restricted to what the code does; the unrestricted clause is C138 (REFUTED)."
  },
  {
   "property": "C108",
   "status": "proved",
   "theorems": [
    "C108_a_segment_joins_two_different_points",
    "C108_a_segment_of_one_point_is_rejected",
    "C108_abscissa_0_is_the_start",
    "C108_abscissa_length_is_the_end",
    "C108_the_middle_is_at_half_length",
    "C108_abscissas_measure_distances",
    "C108_point_at_abscissa_is_on_the_line",
    "C108_abscissa_of_point_at_abscissa",
    "C108_point_at_abscissa_of_abscissa",
    "C108_abscissa_of_any_point_is_that_of_its_projection",
    "C108_discretization_is_regular",
    "C108_abscissa_discretization",
    "C108_local_discretization",
    "C108_reverse",
    "C108_direction_independent_is_close",
    "C108_abscissa_0_is_the_start_3d",
    "C108_abscissa_length_is_the_end_3d",
    "C108_the_middle_is_at_half_length_3d",
    "C108_abscissas_measure_distances_3d",
    "C108_abscissa_of_point_at_abscissa_3d",
    "C108_point_at_abscissa_of_abscissa_3d",
    "C108_abscissa_of_any_point_is_that_of_its_projection_3d",
    "C108_discretization_is_regular_3d"
   ],
   "note": "The statement is restricted to what the code does; the unrestricted clause is C139 (REFUTED)."
  },
  {
   "property": "C109",
   "status": "proved",
   "theorems": [
    "C109_point_distance_is_the_distance",
    "C109_point_distance_is_the_distance_3d",
    "C109_point_belongs_is_within_tolerance",
    "C109_point_belongs_is_within_tolerance_3d",
    "C109_split_cuts_the_segment_in_two",
    "C109_split_cuts_the_segment_in_two_3d",
    "C109_trim_joins_the_two_points"
   ],
   "note": "The statement is restricted to what the code does; the unrestricted clause is C140 (REFUTED)."
  },
  {
   "property": "C110",
   "status": "proved",
   "theorems": [
    "C110_line_intersections_are_on_both",
    "C110_line_intersections_finds_the_common_point",
    "C110_line_intersections_of_a_line_that_stays_away",
    "C110_line_crossings_are_line_intersections",
    "C110_line_crossings_leave_out_the_ends",
    "C110_intersections_are_on_both",
    "C110_intersections_finds_the_common_point",
    "C110_intersections_never_raises",
    "C110_bounding_rectangle_contains_the_segment",
    "C110_bounding_rectangle_is_the_least"
   ],
   "note": "The statement is restricted to what the code does; the unrestricted clause is C141 (REFUTED)."
  },
  {
   "property": "C111",
   "status": "proved",
   "theorems": [
    "C111_distance_between_segments_is_the_least",
    "C111_distance_between_disjoint_segments_is_exact",
    "C111_distance_to_a_line_is_the_least"
   ],
   "note": "The statement is restricted to what the code does; the unrestricted clause is C142 (REFUTED)."
  },
  {
   "property": "C112",
   "status": "proved",
   "theorems": [
    "C112_the_shared_section_is_on_both",
    "C112_the_shared_section_of_overlapping_segments"
   ],
   "note": "The statement is restricted to what the code does; the unrestricted clause is C143 (REFUTED)."
  },
  {
   "property": "C113",
   "status": "proved",
   "theorems": [
    "C113_intersections_are_on_both",
    "C113_intersections_finds_the_common_point",
    "C113_line_intersections_are_on_both",
    "C113_line_intersections_finds_the_common_point",
    "C113_bounding_box_contains_the_segment",
    "C113_bounding_box_is_the_least",
    "C113_distance_when_the_common_perpendicular_meets_both",
    "C113_distance_is_never_too_small",
    "C113_points_returned_with_the_distance",
    "C113_to_bspline_curve_points"
   ],
   "note": "The statement is restricted to what the code does; the unrestricted clause is C144 (REFUTED)."
  },
  {
   "property": "C114",
   "status": "proved",
   "theorems": [
    "C114_a_pixel_corner_reported_inside_is_in_the_triangle",
    "C114_a_pixel_corner_inside_is_reported",
    "C114_a_triangle_meeting_the_pixel_is_reported",
    "C114_a_reported_triangle_meets_the_enlarged_pixel",
    "C114_a_triangle_of_a_face_is_reported"
   ],
   "note": ""
  },
  {
   "property": "C115",
   "status": "proved",
   "theorems": [
    "C115_the_constructor_joins_two_points_of_the_circle",
    "C115_angle_and_length",
    "C115_the_angle_is_determined",
    "C115_abscissa_0_is_the_start",
    "C115_abscissa_length_is_the_end",
    "C115_point_at_abscissa_is_on_the_arc",
    "C115_every_point_of_the_arc_has_an_abscissa",
    "C115_middle_point",
    "C115_normal_vector_points_to_the_center",
    "C115_discretization_is_regular",
    "C115_an_arc_of_null_radius_is_rejected",
    "C115_angle_of_a_point_counted_from_the_start",
    "C115_discretization_in_one_point_fails",
    "C115_discretization_given_number",
    "C115_discretization_default_number",
    "C115_discretization_angle_resolution",
    "C115_reverse_is_the_same_set",
    "C115_complementary",
    "C115_split_at_the_start",
    "C115_split_at_the_end",
    "C115_split_inside"
   ],
   "note": "For ends whose angle is not in the last 6.3e-9 of the turn (the code takes these for 0)."
  },
  {
   "property": "C116",
   "status": "proved",
   "theorems": [
    "C116_points_of_the_arc_belong",
    "C116_points_of_the_circle_belong_iff_on_the_arc_or_near_an_end",
    "C116_point_belongs_exactly",
    "C116_points_that_belong_are_near_the_arc",
    "C116_abscissa_of_point_at_abscissa",
    "C116_abscissas_are_in_range",
    "C116_abscissa_of_the_start",
    "C116_abscissa_of_the_end",
    "C116_three_aligned_points_are_rejected",
    "C116_arc_through_three_points"
   ],
   "note": ""
  },
  {
   "property": "C117",
   "status": "proved",
   "theorems": [
    "C117_area_of_the_sector",
    "C117_sector_integrals_are_unique",
    "C117_center_of_mass_of_the_sector",
    "C117_second_moments_about_the_center",
    "C117_area_between_the_arc_and_its_chord",
    "C117_swept_areas_are_unique",
    "C117_sign_of_the_area",
    "C117_segment_area",
    "C117_center_of_mass_of_the_segment",
    "C117_second_moments_of_the_segment"
   ],
   "note": ""
  },
  {
   "property": "C118",
   "status": "proved",
   "theorems": [
    "C118_line_intersections_of_a_secant",
    "C118_line_intersections_of_a_far_line",
    "C118_linesegment_intersections_are_on_both",
    "C118_circle_arc_intersections",
    "C118_arc_intersections_are_those_of_the_circle_on_the_first_arc",
    "C118_point_distance_within_the_tolerance",
    "C118_translation",
    "C118_rotation",
    "C118_offset",
    "C118_offset_beyond_the_center",
    "C118_bounding_rectangle_touches_the_arc"
   ],
   "note": "General position hypotheses (clearly secant, centers apart, distance to the origin not in ]0, 1e-6]) are those of the circle theorems C106-C107."
  },
  {
   "property": "C119",
   "status": "partial",
   "theorems": [
    "C119_direction_vector_up_to_the_orientation",
    "C119_direction_vector_is_the_velocity_refuted"
   ],
   "note": "REFUTED: on a clockwise arc direction_vector is opposite to the motion (C119_..._refuted); the exact relation for both orientations is proved."
  },
  {
   "property": "C120",
   "status": "partial",
   "theorems": [
    "C120_point_belongs_respects_its_tolerance_refuted"
   ],
   "note": "REFUTED: points up to 0.5 % of the radius away from the arc are accepted whatever the tolerance; the exact acceptance region is C116."
  },
  {
   "property": "C121",
   "status": "partial",
   "theorems": [
    "C121_second_moments_about_any_point_refuted",
    "C121_second_moments_of_a_clockwise_arc_refuted"
   ],
   "note": "REFUTED: Huygens' term is added to the moments about the center of the circle instead of the center of mass, and for a clockwise circle the product moment is that of the flipped axes; about the center and in the circle's axes it is proved in C117."
  },
  {
   "property": "C122",
   "status": "partial",
   "theorems": [
    "C122_the_bounding_rectangle_contains_the_arc_refuted",
    "C122_the_bounding_rectangle_is_that_of_20_points",
    "C122_linesegment_intersections_finds_the_common_points_refuted"
   ],
   "note": "REFUTED: the rectangle of 20 sample points misses the top of a half circle by 2e-3 of the radius, and linesegment_intersections, which starts with that rectangle, misses a crossing there; the rectangle of the samples is proved exactly."
  },
  {
   "property": "C123",
   "status": "partial",
   "theorems": [
    "C123_arc_intersections_are_on_both_arcs_refuted",
    "C123_straight_line_point_belongs_is_the_region_refuted",
    "C123_axial_symmetry_of_an_arc_refuted"
   ],
   "note": "REFUTED: arc_intersections only tests the first arc; straight_line_point_belongs accepts a point on the other side of the chord; axial_symmetry keeps the circle, so the mirrored ends are not on it. The part on the first arc is proved in C118."
  },
  {
   "property": "C124",
   "status": "partial",
   "theorems": [
    "C124_area_exact_refuted",
    "C124_volume_nonnegative_refuted"
   ],
   "note": "REFUTED, split off C42 (the unrestricted clause). REFUTED in part: within the 1e-6 tolerance the result is not the measure of the intersection and the volume can be negative; exact away from the tolerance."
  },
  {
   "property": "C125",
   "status": "partial",
   "theorems": [
    "C125_direction_to_euler_angles_refuted"
   ],
   "note": "REFUTED, split off C47 (the unrestricted clause). Round trip proved for every rotation matrix; REFUTED for direction_to_euler_angles: the matrix repeats v.y and w.z."
  },
  {
   "property": "C126",
   "status": "partial",
   "theorems": [
    "C126_deterministic_normal_refuted"
   ],
   "note": "REFUTED, split off C54 (the unrestricted clause). REFUTED in part: deterministic_unit_normal_vector raises on the non-zero vector (0,1e-8,0); the other laws are proved."
  },
  {
   "property": "C127",
   "status": "partial",
   "theorems": [
    "C127_x_rotation_refuted",
    "C127_rotation3_nonunit_refuted"
   ],
   "note": "REFUTED, split off C55 (the unrestricted clause). REFUTED in part: x/y/z_rotation turn in the opposite sense to rotation(axis); rotation about a non-unit axis is not an isometry. The rest is proved."
  },
  {
   "property": "C128",
   "status": "partial",
   "theorems": [
    "C128_frame3_neg_refuted"
   ],
   "note": "REFUTED, split off C56 (the unrestricted clause). REFUTED in part: Frame3D.__neg__ puts the origin of the inverse at the wrong place; the 3D local/global round trip holds up to the 1e-16 snapping in the matrix-vector product (exact when nothing is snapped)."
  },
  {
   "property": "C129",
   "status": "partial",
   "theorems": [
    "C129_small_scale_refuted"
   ],
   "note": "REFUTED, split off C57 (the unrestricted clause). REFUTED in part: invertible matrices of small determinant (<=1e-12 / 1e-10) are rejected with ValueError; otherwise inverse is a two-sided inverse."
  },
  {
   "property": "C130",
   "status": "partial",
   "theorems": [
    "C130_from_two_vectors_refuted",
    "C130_from_point_and_vector_refuted"
   ],
   "note": "REFUTED, split off C62 (the unrestricted clause). REFUTED in part: from_two_vectors is not orthonormal for a non-unit first vector; from_point_and_vector is left-handed when vector = -main_axis."
  },
  {
   "property": "C131",
   "status": "partial",
   "theorems": [
    "C131_parallel_lines_refuted"
   ],
   "note": "REFUTED, split off C66 (the unrestricted clause). "
  },
  {
   "property": "C132",
   "status": "partial",
   "theorems": [
    "C132_from_normal_is_direct_refuted",
    "C132_from_points_contains_the_first_three_points_refuted"
   ],
   "note": "REFUTED, split off C98 (the unrestricted clause). Proved what each constructor returns. REFUTED: from_normal gives a left-handed frame for every unit normal; from_points with four or more points need not contain the third point."
  },
  {
   "property": "C133",
   "status": "partial",
   "theorems": [
    "C133_line_intersection_depends_only_on_the_line_refuted"
   ],
   "note": "REFUTED, split off C99 (the unrestricted clause). Soundness and completeness proved. REFUTED: the 1e-6 threshold is on the unnormalised direction, so the same line given by two close points has no intersection."
  },
  {
   "property": "C134",
   "status": "partial",
   "theorems": [
    "C134_line2d_distance_is_the_distance_refuted",
    "C134_line3d_distance_is_the_distance_refuted",
    "C134_line3d_intersection_is_on_both_lines_refuted"
   ],
   "note": "REFUTED, split off C102 (the unrestricted clause). REFUTED in three places: Line2D.line_distance returns a point for parallel lines; Line3D takes lines at an angle below about 1.4e-3 rad for parallel; Line3D.intersection takes short directions for perpendicular ones. Proved outside these cases."
  },
  {
   "property": "C135",
   "status": "partial",
   "theorems": [
    "C135_point_symmetric_is_the_symmetry_refuted"
   ],
   "note": "REFUTED, split off C103 (the unrestricted clause). REFUTED for point_symmetric (the centre becomes 2*point); everything else proved for all inputs."
  },
  {
   "property": "C136",
   "status": "partial",
   "theorems": [
    "C136_tangent_lines_give_a_common_point_refuted",
    "C136_line_intersections_never_fails_refuted"
   ],
   "note": "REFUTED, split off C104 (the unrestricted clause). REFUTED: a tangent line gives a point off the circle (-b/2*a), a vertical line within 1e-9 outside raises ValueError. Proved exact for secant lines (d^2 + 1e-6 < r^2), for far lines, and within 2e-6 for lines through the centre; centre at the origin or further than 1e-6 from it."
  },
  {
   "property": "C137",
   "status": "partial",
   "theorems": [
    "C137_returned_points_are_on_both_circles_refuted"
   ],
   "note": "REFUTED, split off C105 (the unrestricted clause). REFUTED when |r1 - a| < 1e-6 (h is set to 0: a small circle centred on a big one). Proved exact otherwise."
  },
  {
   "property": "C138",
   "status": "partial",
   "theorems": [
    "C138_from_3_points_passes_through_the_points_refuted",
    "C138_bounding_box_contains_the_circle_refuted"
   ],
   "note": "REFUTED, split off C107 (the unrestricted clause). REFUTED: from_3_points of nearly aligned points with the second one at an end; bounding box of tilted circles. Proved within 2e-6 otherwise."
  },
  {
   "property": "C139",
   "status": "partial",
   "theorems": [
    "C139_abscissa_rejects_points_off_the_segment_refuted"
   ],
   "note": "REFUTED, split off C108 (the unrestricted clause). Everything proved for 2D and 3D segments except the last sentence, which is REFUTED: abscissa projects the point, so points off the segment get an abscissa (_refuted, with the exact behaviour in ..._is_that_of_its_projection)."
  },
  {
   "property": "C140",
   "status": "partial",
   "theorems": [
    "C140_split_keeps_the_points_refuted",
    "C140_trim_of_any_two_points_refuted"
   ],
   "note": "REFUTED, split off C109 (the unrestricted clause). Distance, belonging and split of points of the segment proved; trim proved for points more than 1e-4 apart. REFUTED parts: split accepts a point off the segment; trim of two points closer than 1e-4 returns the piece from the start of the segment."
  },
  {
   "property": "C141",
   "status": "partial",
   "theorems": [
    "C141_intersections_finds_every_common_point_refuted"
   ],
   "note": "REFUTED, split off C110 (the unrestricted clause). Soundness, completeness (directions whose |cos| is not within the tolerance of 1, determinant above 1e-15) and totality proved. REFUTED without the angle hypothesis: segments that cross at an angle of 1e-3 give []."
  },
  {
   "property": "C142",
   "status": "partial",
   "theorems": [
    "C142_distance_of_crossing_segments_is_zero_refuted"
   ],
   "note": "REFUTED, split off C111 (the unrestricted clause). Proved outside of the near-parallel crossing segments, which are REFUTED (a crossing pair gets a nonzero distance)."
  },
  {
   "property": "C143",
   "status": "partial",
   "theorems": [
    "C143_the_shared_section_never_raises_refuted"
   ],
   "note": "REFUTED, split off C112 (the unrestricted clause). Soundness and exactness on overlaps proved; `never raises` REFUTED (NotImplementedError when an end of the first is on the second while neither end of the second is on the first)."
  },
  {
   "property": "C144",
   "status": "partial",
   "theorems": [
    "C144_distance_is_the_least_refuted",
    "C144_contains_is_membership_refuted",
    "C144_to_bspline_curve_covers_the_segment_refuted"
   ],
   "note": "REFUTED, split off C113 (the unrestricted clause). Intersections and box proved; distance proved when the common perpendicular meets both segments, and never below the true distance (2e-6); REFUTED in general (the two feet are clamped independently). __contains__ and to_bspline_curve REFUTED (unnormalised rotation axis; abscissas i/length instead of i*length/resolution)."
  },
  {
   "property": "C145",
   "status": "partial",
   "theorems": [
    "C145_dict_roundtrip_2d_refuted"
   ],
   "note": "REFUTED, split off C27 (the unrestricted clause). Proved for Mesh3D; REFUTED for Mesh2D (dict_to_object reshapes 2D vertices to rows of three)."
  },
  {
   "property": "C146",
   "status": "partial",
   "theorems": [
    "C146_or_empty_refuted"
   ],
   "note": "REFUTED, split off C61 (the unrestricted clause). Proved when both meshes have triangles; REFUTED when one is empty (merge returns the other operand untouched) and for from_meshes of a single mesh."
  },
  {
   "property": "C147",
   "status": "partial",
   "theorems": [
    "C147_segment_intersection_refuted"
   ],
   "note": "REFUTED, split off C63 (the unrestricted clause). REFUTED in part: segment_intersection accepts points outside one of the segments (`or`)."
  },
  {
   "property": "C148",
   "status": "partial",
   "theorems": [
    "C148_reverse_rational_refuted"
   ],
   "note": "REFUTED, split off C77 (the unrestricted clause). Proved for curves without weights (or palindromic weights); REFUTED for rational curves (weights not reversed)."
  },
  {
   "property": "C149",
   "status": "partial",
   "theorems": [
    "C149_partial_insertion_refuted",
    "C149_bezier_insertion_refuted"
   ],
   "note": "REFUTED, split off C31 (the unrestricted clause). Proved for full insertion (num = degree - multiplicity, what split_curve uses); REFUTED for every smaller num (one control point is duplicated) and for BezierCurve objects (the knot is dropped)."
  },
  {
   "property": "C150",
   "status": "partial",
   "theorems": [
    "C150_close_knots_refuted"
   ],
   "note": "REFUTED, split off C33 (the unrestricted clause). Proved for knot vectors whose distinct knots differ by more than 1e-15; REFUTED for closer knots (multiplicities are over-counted)."
  },
  {
   "property": "C151",
   "status": "partial",
   "theorems": [
    "C151_existing_knot_refuted",
    "C151_knot_past_the_end_refuted"
   ],
   "note": "REFUTED, split off C35 (the unrestricted clause). Proved for a new knot below some existing knot; REFUTED for an existing knot (listed twice) and for a knot past the end (not inserted)."
  },
  {
   "property": "C152",
   "status": "partial",
   "theorems": [
    "C152_negative_index_refuted"
   ],
   "note": "REFUTED, split off C91 (the unrestricted clause). "
  },
  {
   "property": "C153",
   "status": "partial",
   "theorems": [
    "C153_parenthesis_in_a_string_refuted"
   ],
   "note": "REFUTED, split off C51 (the unrestricted clause). Proved for arguments whose strings have matched parentheses; REFUTED for a string containing an unmatched ')' (the argument list is cut there)."
  },
  {
   "property": "C154",
   "status": "partial",
   "theorems": [
    "C154_range_refuted"
   ],
   "note": "REFUTED, split off C48 (the unrestricted clause). REFUTED for the range: aligned vectors give 2 pi. The rotation property holds with range (0, 2 pi]."
  },
  {
   "property": "C155",
   "status": "partial",
   "theorems": [
    "C155_no_false_negative_refuted"
   ],
   "note": "REFUTED, split off C17 (the unrestricted clause). REFUTED for non-cubic extents: _calculate_axis_values pairs the extents with the wrong edge components, so every box with different extents misses some triangle inside it. Proved for cubes (the only voxels the library builds)."
  },
  {
   "property": "C156",
   "status": "partial",
   "theorems": [
    "C156_no_false_negative_refuted"
   ],
   "note": "REFUTED, split off C44 (the unrestricted clause). REFUTED for boxes that are not cubes (same defect as C17). Proved for cubes."
  },
  {
   "property": "C157",
   "status": "partial",
   "theorems": [
    "C157_short_segments_are_missed_refuted"
   ],
   "note": "REFUTED, split off C20 (the unrestricted clause). REFUTED for very short segments ((|dx|+|dy|)*size < 1e-9): the line equation is rounded to 9 digits. Proved for the others: all met pixels are returned, and returned pixels are met up to the rounding."
  },
  {
   "property": "C158",
   "status": "partial",
   "theorems": [
    "C158_large_voxels_refuted"
   ],
   "note": "REFUTED, split off C05 (the unrestricted clause). Proved for element sizes up to 1.0 (size_ok); REFUTED for larger elements (union of a 2.0 voxel with itself is empty; ValueError for a row of two)."
  },
  {
   "property": "C159",
   "status": "proved",
   "theorems": [
    "C159_grid_by_rows_of_x",
    "C159_grid_by_rows_of_y",
    "C159_the_direction_only_changes_the_order",
    "C159_accepted_directions",
    "C159_other_directions_are_rejected",
    "C159_points_xy_are_the_requested_numbers",
    "C159_limits_xy_are_the_requested_limits",
    "C159_grid_of_a_single_point",
    "C159_find_direction_index",
    "C159_find_direction_index_of_an_absent_axis_fails"
   ],
   "note": ""
  },
  {
   "property": "C160",
   "status": "proved",
   "theorems": [
    "C160_from_points_keeps_the_points_in_order",
    "C160_rows_of_no_point_are_rejected",
    "C160_displacement",
    "C160_displacement_of_a_smaller_grid_fails"
   ],
   "note": ""
  },
  {
   "property": "C161",
   "status": "proved",
   "theorems": [
    "C161_grid_pattern_of_a_square_grid"
   ],
   "note": ""
  },
  {
   "property": "C162",
   "status": "partial",
   "theorems": [
    "C162_grid_pattern_of_any_other_grid_fails",
    "C162_grid_pattern_of_any_grid_refuted"
   ],
   "note": "REFUTED: rows and columns are exchanged, so every grid with different numbers (at least 2) of rows and columns raises IndexError (proved for all of them)."
  },
  {
   "property": "C163",
   "status": "proved",
   "theorems": [
    "C163_binary_round_trip",
    "C163_every_mesh_below_2_to_the_32_triangles_is_saved",
    "C163_too_many_triangles_are_refused",
    "C163_the_name_is_padded_with_zeros",
    "C163_a_truncated_file_is_refused",
    "C163_clean_flat_triangles"
   ],
   "note": "Coordinates are modelled by their 32-bit patterns (float rounding and the unit factors are outside the model)."
  },
  {
   "property": "C164",
   "status": "proved",
   "theorems": [
    "C164_text_files_are_read",
    "C164_a_facet_with_fewer_than_three_vertices_is_refused"
   ],
   "note": ""
  },
  {
   "property": "C165",
   "status": "partial",
   "theorems": [
    "C165_the_name_survives_a_binary_file_refuted",
    "C165_the_name_of_a_text_file_keeps_its_line_feed",
    "C165_indentation_by_tabs_is_accepted_refuted",
    "C165_trailing_spaces_are_accepted_refuted"
   ],
   "note": "REFUTED: the name comes back with zeros (binary) or its line feed (text); lines indented with a tab or ending with a space raise ValueError."
  },
  {
   "property": "C166",
   "status": "proved",
   "theorems": [
    "C166_a_corner_is_rounded_by_the_tangent_arc",
    "C166_the_three_points_of_the_arc_are_not_aligned",
    "C166_the_arc_has_the_radius_and_the_center",
    "C166_every_corner_has_a_half_angle",
    "C166_the_half_angle_is_determined",
    "C166_a_straight_corner_cannot_be_rounded"
   ],
   "note": "Corner geometry over the reals; corners with |u1+u2| <= 1e-6 (almost straight) are excluded except exactly straight ones, which fail."
  },
  {
   "property": "C167",
   "status": "proved",
   "theorems": [
    "C167_the_primitives_are_connected_in_order",
    "C167_segments_lie_on_the_sides_and_arcs_are_tangent"
   ],
   "note": "For all polylines; the geometric part assumes that the roundings fit (side_fits), which C168/C169 give for consecutive corners."
  },
  {
   "property": "C168",
   "status": "proved",
   "theorems": [
    "C168_accepted_consecutive_corners_do_not_overlap",
    "C168_overlapping_consecutive_corners_are_refused"
   ],
   "note": "Both directions, for consecutive indices."
  },
  {
   "property": "C169",
   "status": "proved",
   "theorems": [
    "C169_adapted_radii_do_not_overlap"
   ],
   "note": "scipy.linprog is a parameter; only the feasibility of its answer is assumed."
  },
  {
   "property": "C170",
   "status": "partial",
   "theorems": [
    "C170_a_radius_too_large_for_its_sides_is_refused_refuted",
    "C170_the_last_and_the_first_corner_are_checked_refuted",
    "C170_adapted_radii_fit_their_sides_refuted"
   ],
   "note": "REFUTED: points (0,0),(1,0),(1,1) with radius {1: 3} are accepted and the wire goes back to (-2,0); the closed square of side 10 with radius {0: 9, 3: 9} is accepted and its closing segment runs backwards; with adapt_radius, (0,0),(1,0),(1,10),(11,10) with {1: 5, 2: 6} keeps the radius 4 on a side of length 1."
  },
  {
   "property": "C171",
   "status": "proved",
   "theorems": [
    "C171_every_side_moves_by_the_offset",
    "C171_radii_of_the_offset",
    "C171_the_offset_roundings_are_concentric"
   ],
   "note": "For corners whose turn is exactly zero or larger than about 1e-6; concentricity is stated per corner."
  },
  {
   "property": "C172",
   "status": "partial",
   "theorems": [
    "C172_refinement_keeps_the_surface_and_inserts_the_last_u_knot_partial",
    "C172_refinement_in_u_inserts_every_knot_refuted"
   ],
   "note": "REFUTED: every u knot is inserted into the original surface, so only the last one remains."
  },
  {
   "property": "C173",
   "status": "partial",
   "theorems": [
    "C173_box_lower_bound_partial",
    "C173_box_nonnegative_refuted",
    "C173_rectangle_inside_value_partial",
    "C173_rectangle_inside_refuted"
   ],
   "note": "REFUTED: the inside branch of BoundingRectangle uses y - xmin; BoundingBox returns a negative distance for points less than 1e-6 outside."
  },
  {
   "property": "C174",
   "status": "partial",
   "theorems": [
    "C174_plane_projection2d_actual",
    "C174_plane_projection2d_gives_the_coordinates_in_the_plane_refuted"
   ],
   "note": "REFUTED: plane_projection2d does not subtract the coordinates of the origin; the exact value is proved."
  },
  {
   "property": "C175",
   "status": "partial",
   "theorems": [
    "C175_nested_components_are_written_twice_refuted",
    "C175_some_closed_shells_cannot_be_exported_refuted",
    "C175_compound_drops_members_refuted",
    "C175_to_step_face_ids_dangling_reference_refuted"
   ],
   "note": "REFUTED: nested components are written twice (duplicate identifiers), closed shells of other classes (Sphere, ClosedTriangleShell3D...) raise ValueError, a compound drops members of other classes, to_step_face_ids references an undefined #7."
  },
  {
   "property": "C176",
   "status": "proved",
   "theorems": [
    "C176_extract_curve_u_when_both_directions_agree",
    "C176_extract_curve_v_when_both_directions_agree",
    "C176_extract_curves_borders_when_both_directions_agree",
    "C176_extract_curves_v_borders_when_both_directions_agree"
   ],
   "note": "The true part of C88."
  },
  {
   "property": "C177",
   "status": "partial",
   "theorems": [
    "C177_cone_below_the_apex_refuted",
    "C177_deep_spindle_torus_refuted"
   ],
   "note": "REFUTED for the cone below the apex (theta is off by pi) and for spindle tori with minor >= 2 major (minor = 3, major = 1)."
  },
  {
   "property": "C178",
   "status": "partial",
   "theorems": [
    "C178_sphere_projection_fixes_the_points_of_the_sphere_partial",
    "C178_cone_projection_fixes_the_points_above_the_apex_partial",
    "C178_sphere_point_distance_is_minimal_refuted"
   ],
   "note": "REFUTED for SphericalSurface3D.point_distance off the surface ((2,0,1) and r=1: 2 instead of sqrt 5 - 1); proved only that the points of the surface are fixed."
  },
  {
   "property": "C179",
   "status": "partial",
   "theorems": [
    "C179_cylinder_point_belongs_compares_squares",
    "C179_cylinder_point_belongs_is_sound_refuted",
    "C179_cone_point_belongs_is_complete_refuted"
   ],
   "note": "REFUTED for the cone below the apex and for CylindricalSurface3D.point_belongs (squares are compared: with r=1e-3 the axis belongs at the default tolerance)."
  },
  {
   "property": "C180",
   "status": "proved",
   "theorems": [
    "C180_congruent_up_to_snapping",
    "C180_range_when_min_angle_is_zero"
   ],
   "note": "The true part of C49."
  },
  {
   "property": "C181",
   "status": "proved",
   "theorems": [
    "C181_equal_lengths"
   ],
   "note": "The true part of C70."
  },
  {
   "property": "C182",
   "status": "proved",
   "theorems": [
    "C182_exported_triangles"
   ],
   "note": "The exact set exported."
  },
  {
   "property": "C183",
   "status": "proved",
   "theorems": [
    "C183_points_on_segments"
   ],
   "note": "The true part of C65."
  },
  {
   "property": "C184",
   "status": "proved",
   "theorems": [
    "C184_a_reported_box_is_near_the_bounds_of_the_triangle",
    "C184_the_separating_axis_test_needs_the_bounds_and_the_plane",
    "C184_the_separating_axis_test_needs_the_nine_edge_axes"
   ],
   "note": "The true part of C18."
  },
  {
   "property": "C185",
   "status": "proved",
   "theorems": [
    "C185_a_wire_is_ordered_when_its_edges_follow",
    "C185_a_contour_is_ordered_when_it_closes_too",
    "C185_closed_contours",
    "C185_followed_by",
    "C185_segments_of_the_plane_are_edges",
    "C185_segments_of_space_are_edges",
    "C185_segments_of_the_plane_are_measured",
    "C185_segments_of_space_are_measured",
    "C185_the_same_segment_of_the_plane",
    "C185_the_same_segment_of_space"
   ],
   "note": ""
  },
  {
   "property": "C186",
   "status": "proved",
   "theorems": [
    "C186_ordering_keeps_the_edges_and_joins_them",
    "C186_ordering_fails_with_two_errors_only",
    "C186_order_wire_orders_unordered_wires",
    "C186_an_ordered_contour_is_left_alone",
    "C186_wires_put_together_are_ordered",
    "C186_a_connected_wire_without_crossings_is_ordered",
    "C186_a_connected_contour_without_crossings_is_closed"
   ],
   "note": ""
  },
  {
   "property": "C187",
   "status": "partial",
   "theorems": [
    "C187_every_closed_contour_can_be_ordered_refuted",
    "C187_ordering_gives_ordered_contours_refuted"
   ],
   "note": "REFUTED: a closed contour that passes twice through a point, given in another order, raises NotImplementedError (greedy chaining closes the first loop); order_contour returns open chains without error."
  },
  {
   "property": "C188",
   "status": "proved",
   "theorems": [
    "C188_the_edges_are_split_in_maximal_wires",
    "C188_edges_of_one_wire_give_one_wire"
   ],
   "note": ""
  },
  {
   "property": "C189",
   "status": "partial",
   "theorems": [
    "C189_the_list_of_the_caller_is_emptied",
    "C189_the_list_of_the_caller_is_kept_refuted"
   ],
   "note": "REFUTED: the list of the caller is emptied (edges.pop / remove on the argument) as soon as it has two edges."
  },
  {
   "property": "C190",
   "status": "proved",
   "theorems": [
    "C190_inverting_a_wire",
    "C190_inverting_exchanges_the_ends"
   ],
   "note": ""
  },
  {
   "property": "C191",
   "status": "proved",
   "theorems": [
    "C191_the_length_is_the_sum_of_the_lengths",
    "C191_the_point_is_on_the_edge_of_the_abscissa",
    "C191_the_abscissa_of_the_end",
    "C191_abscissas_beyond_the_end_are_refused",
    "C191_the_wire_is_traversed_at_unit_speed_at_most",
    "C191_discretization",
    "C191_segments_of_the_plane_are_as_long_as_the_distance_of_their_ends",
    "C191_segments_of_space_are_as_long_as_the_distance_of_their_ends"
   ],
   "note": ""
  },
  {
   "property": "C192",
   "status": "partial",
   "theorems": [
    "C192_abscissas_before_the_start_extend_the_first_edge",
    "C192_abscissas_before_the_start_are_refused_refuted"
   ],
   "note": "REFUTED: a negative abscissa extrapolates the first edge."
  },
  {
   "property": "C193",
   "status": "proved",
   "theorems": [
    "C193_points_of_a_wire",
    "C193_a_point_off_the_wire_has_no_abscissa",
    "C193_the_first_edge_with_the_point_gives_the_abscissa",
    "C193_the_abscissa_leads_back_to_the_point",
    "C193_the_abscissa_of_the_point_at_an_abscissa"
   ],
   "note": ""
  },
  {
   "property": "C194",
   "status": "proved",
   "theorems": [
    "C194_the_edges_of_a_step_contour_follow_each_other",
    "C194_a_chain_with_reversed_edges_is_restored",
    "C194_edges_that_are_far_apart_are_refused"
   ],
   "note": ""
  },
  {
   "property": "C195",
   "status": "partial",
   "theorems": [
    "C195_an_open_step_contour_is_refused_refuted"
   ],
   "note": "REFUTED: an open chain is returned."
  },
  {
   "property": "C196",
   "status": "proved",
   "theorems": [
    "C196_the_contour_is_rotated",
    "C196_the_rotated_contour_is_ordered"
   ],
   "note": ""
  },
  {
   "property": "C197",
   "status": "partial",
   "theorems": [
    "C197_the_contour_is_lost_at_other_points",
    "C197_the_contour_starts_at_any_of_its_points_refuted"
   ],
   "note": "REFUTED: at a point that is not the start of an edge the result has no edges."
  },
  {
   "property": "C198",
   "status": "proved",
   "theorems": [
    "C198_a_wire_through_points",
    "C198_repeated_points_are_refused",
    "C198_a_contour_through_points",
    "C198_a_contour_through_closed_points"
   ],
   "note": ""
  },
  {
   "property": "C199",
   "status": "partial",
   "theorems": [
    "C199_a_contour_through_distinct_points_is_ordered_refuted"
   ],
   "note": "REFUTED: consecutive points closer than 1e-6 are skipped pairwise, so the gap left can exceed 1e-6."
  },
  {
   "property": "C200",
   "status": "proved",
   "theorems": [
    "C200_form_functions_are_the_weights_of_the_points",
    "C200_flat_elements_are_refused",
    "C200_the_area",
    "C200_the_sides_and_their_inward_normals",
    "C200_an_element_is_made"
   ],
   "note": ""
  },
  {
   "property": "C201",
   "status": "partial",
   "theorems": [
    "C201_every_triangle_that_is_not_flat_is_an_element_refuted"
   ],
   "note": "REFUTED: a right triangle with sides 1e-6 raises FlatElementError."
  },
  {
   "property": "C202",
   "status": "proved",
   "theorems": [
    "C202_the_volume",
    "C202_form_functions_are_the_weights_times_six_volumes"
   ],
   "note": ""
  },
  {
   "property": "C203",
   "status": "partial",
   "theorems": [
    "C203_form_functions_are_one_at_their_node_refuted"
   ],
   "note": "REFUTED: the coefficients are not divided by six times the volume: the first form function of the tetrahedron (0,0,0),(2,0,0),(0,2,0),(0,0,2) is 8 at its node."
  },
  {
   "property": "C204",
   "status": "proved",
   "theorems": [
    "C204_the_inscribed_circle_touches_the_sides",
    "C204_a_point_has_no_inscribed_circle",
    "C204_the_circumscribed_circle_goes_through_the_vertices",
    "C204_flat_triangles_have_no_circumscribed_circle"
   ],
   "note": ""
  },
  {
   "property": "C205",
   "status": "proved",
   "theorems": [
    "C205_the_aspect_ratio_compares_the_circles",
    "C205_flat_triangles",
    "C205_the_aspect_ratio_is_at_least_one",
    "C205_and_one_for_equilateral_triangles_only"
   ],
   "note": ""
  },
  {
   "property": "C206",
   "status": "proved",
   "theorems": [
    "C206_the_nodes_are_the_points_of_the_elements_once_each",
    "C206_nodes_are_distinct_points_of_elements",
    "C206_the_number_of_a_node",
    "C206_the_elements_of_a_node",
    "C206_the_first_element_that_has_the_point",
    "C206_no_element_has_the_point",
    "C206_the_bounding_rectangle",
    "C206_the_empty_mesh_has_no_rectangle"
   ],
   "note": ""
  },
  {
   "property": "C207",
   "status": "partial",
   "theorems": [
    "C207_the_nodes_of_a_mesh_are_pairwise_different_refuted"
   ],
   "note": "REFUTED: equal nodes may have different hashes, so that both stay."
  },
  {
   "property": "C208",
   "status": "proved",
   "theorems": [
    "C208_the_corrections",
    "C208_the_reference_must_be_a_group",
    "C208_the_nodes_are_merged",
    "C208_the_new_mesh_keeps_the_corrections"
   ],
   "note": ""
  },
  {
   "property": "C209",
   "status": "partial",
   "theorems": [
    "C209_the_first_corrections_stay",
    "C209_the_corrections_follow_the_reference_refuted"
   ],
   "note": "REFUTED: the first non empty corrections are kept and returned for every reference and tolerance."
  },
  {
   "property": "C210",
   "status": "partial",
   "theorems": [
    "C210_a_mesh_without_gmsh_cannot_be_merged",
    "C210_close_nodes_are_merged_refuted"
   ],
   "note": "REFUTED: a mesh without gmsh raises ValueError (the setter refuses None), and points within 1e-8 of a reference point stay."
  },
  {
   "property": "C211",
   "status": "proved",
   "theorems": [
    "C211_the_area_is_half_the_area_vector",
    "C211_the_height_is_the_distance_to_the_base_line",
    "C211_no_base_no_height",
    "C211_the_middle_is_the_mean_of_the_vertices"
   ],
   "note": ""
  },
  {
   "property": "C212",
   "status": "proved",
   "theorems": [
    "C212_the_normal_is_along_the_area_vector",
    "C212_every_triangle_that_is_not_flat_is_made",
    "C212_flat_triangles_are_refused",
    "C212_translations_keep_the_area_vector",
    "C212_rotations_keep_the_area_and_turn_the_area_vector"
   ],
   "note": ""
  },
  {
   "property": "C213",
   "status": "proved",
   "theorems": [
    "C213_the_division_ends_with_small_triangles_that_cover_the_triangle",
    "C213_small_triangles_are_not_divided",
    "C213_it_never_ends_without_a_positive_resolution"
   ],
   "note": ""
  },
  {
   "property": "C214",
   "status": "partial",
   "theorems": [
    "C214_a_divided_triangle_has_a_piece_turned_over",
    "C214_the_pieces_keep_the_orientation_refuted"
   ],
   "note": "REFUTED: every triangle that is divided has a piece whose normal points the other way (the second half is listed as (q, mid, r))"
  },
  {
   "property": "C215",
   "status": "proved",
   "theorems": [
    "C215_the_samples_are_in_the_triangle_and_nowhere_farther_than_the_resolution"
   ],
   "note": ""
  },
  {
   "property": "C216",
   "status": "partial",
   "theorems": [
    "C216_the_constructor_forgets_its_attributes",
    "C216_a_triangle_has_the_attributes_it_was_made_with_refuted",
    "C216_moved_and_copied_triangles_keep_their_attributes_refuted"
   ],
   "note": "REFUTED: PlaneFace3D.__init__ resets color, alpha and name to their defaults; copy, frame_mapping and dict_to_object pass the name as alpha"
  },
  {
   "property": "C217",
   "status": "proved",
   "theorems": [
    "C217_shells_that_touch_are_united_and_the_results_are_apart",
    "C217_an_empty_list_is_refused"
   ],
   "note": ""
  },
  {
   "property": "C218",
   "status": "partial",
   "theorems": [
    "C218_the_list_given_is_not_kept_refuted"
   ],
   "note": "REFUTED: the shells are popped from the caller's list, which is left empty."
  },
  {
   "property": "C219",
   "status": "proved",
   "theorems": [
    "C219_the_shells_are_the_chains_of_faces_that_share_vertices",
    "C219_open_means_an_edge_with_no_face_beyond",
    "C219_a_face_without_edges_is_a_KeyError"
   ],
   "note": ""
  },
  {
   "property": "C220",
   "status": "partial",
   "theorems": [
    "C220_a_face_alone_is_lost_refuted",
    "C220_a_face_alone_is_closed_refuted"
   ],
   "note": "REFUTED: a face that shares no vertex is no node of the graph: from_faces loses it, and is_shell_open finds a single face closed."
  },
  {
   "property": "C221",
   "status": "partial",
   "theorems": [
    "C221_the_graph_of_the_vertices_after_that_of_the_faces_refuted",
    "C221_the_graph_of_the_faces_with_another_option_refuted",
    "C221_the_graph_of_the_vertices_is_None_after_that_of_the_faces",
    "C221_the_first_option_is_kept",
    "C221_the_first_graph_of_the_vertices_is_right",
    "C221_the_first_graph_of_the_faces_is_right"
   ],
   "note": "REFUTED: vertices_graph tests the graph of the faces, so it is None once faces_graph was called; faces_graph keeps its first option."
  },
  {
   "property": "C222",
   "status": "proved",
   "theorems": [
    "C222_the_union_has_the_points_of_both",
    "C222_the_intersection_has_the_common_points",
    "C222_the_difference_as_a_closed_shell"
   ],
   "note": ""
  },
  {
   "property": "C223",
   "status": "partial",
   "theorems": [
    "C223_the_difference_may_have_points_of_the_second_shell_refuted",
    "C223_subtract_is_the_union_when_the_early_tests_answer"
   ],
   "note": "REFUTED: subtract returns the early answers of the union (both shells when disjoint, the outer one when nested)."
  },
  {
   "property": "C224",
   "status": "proved",
   "theorems": [
    "C224_no_face_covered_by_an_earlier_one_is_kept",
    "C224_faces_with_and_without_intersections",
    "C224_coincident_faces_are_merged_by_classes",
    "C224_covered_faces_are_removed"
   ],
   "note": ""
  },
  {
   "property": "C225",
   "status": "partial",
   "theorems": [
    "C225_a_face_that_covers_a_later_one_refuted",
    "C225_a_face_covered_twice_refuted"
   ],
   "note": "REFUTED: a face that covers a later-kept smaller one that came first stays with it; a face covered twice is removed twice: ValueError."
  },
  {
   "property": "C226",
   "status": "proved",
   "theorems": [
    "C226_the_volume_is_at_least_that_of_the_solid_and_right_when_the_centre_sees_every_face",
    "C226_the_box_is_that_of_the_corners",
    "C226_no_triangle_no_volume",
    "C226_the_volume_enclosed_does_not_depend_on_the_base_point",
    "C226_translations_keep_the_volume",
    "C226_boxes",
    "C226_the_sum_over_all_the_faces"
   ],
   "note": ""
  },
  {
   "property": "C227",
   "status": "partial",
   "theorems": [
    "C227_a_tetrahedron_has_twice_its_volume_refuted"
   ],
   "note": "REFUTED: absolute volumes of tetrahedra from the centre of the bounding box are added: the tetrahedron (0,0,0),(1,0,0),(0,1,0),(0,0,1) gets 1/3 instead of 1/6."
  },
  {
   "property": "C228",
   "status": "proved",
   "theorems": [
    "C228_every_point_once_and_the_triangles_in_order",
    "C228_equal_points_share_their_index",
    "C228_the_triangles_of_the_data_without_the_flat_ones",
    "C228_round_trip",
    "C228_an_index_too_large",
    "C228_the_triangulation_of_a_triangle_shell"
   ],
   "note": ""
  },
  {
   "property": "C229",
   "status": "proved",
   "theorems": [
    "C229_every_known_entity_that_is_met_is_listed_once_those_without_references_first",
    "C229_a_reference_to_no_entity_is_a_KeyError"
   ],
   "note": ""
  },
  {
   "property": "C230",
   "status": "partial",
   "theorems": [
    "C230_an_entity_before_one_it_refers_to_refuted"
   ],
   "note": "REFUTED: with 1 -> 3, 2; 2 -> 3; 3 -> 4 the list is 4, 2, 3, 1: 2 comes before 3 that it refers to (the reader recovers by instantiating the missing object first, C231)."
  },
  {
   "property": "C231",
   "status": "proved",
   "theorems": [
    "C231_an_entity_is_made_with_all_that_it_refers_to",
    "C231_every_entity_of_the_list_is_made_in_whatever_order",
    "C231_an_entity_that_fails_stops_the_reading"
   ],
   "note": ""
  },
  {
   "property": "C232",
   "status": "partial",
   "theorems": [
    "C232_a_reference_to_no_entity_loops_for_ever_refuted",
    "C232_two_entities_that_refer_to_each_other_loop_for_ever_refuted",
    "C232_every_reference_to_no_entity_loops_for_ever",
    "C232_every_pair_of_circular_references_loops_for_ever"
   ],
   "note": "REFUTED: _helper_instantiate catches the KeyError of the missing entity and tries again for ever: no fuel is enough, for every undefined reference and every pair of circular references."
  },
  {
   "property": "C233",
   "status": "proved",
   "theorems": [
    "C233_a_statement_with_a_label_is_read_as_written",
    "C233_a_statement_without_label_is_read_as_written"
   ],
   "note": ""
  },
  {
   "property": "C234",
   "status": "proved",
   "theorems": [
    "C234_the_parts_of_a_complex_entity_are_read_as_written"
   ],
   "note": ""
  },
  {
   "property": "C235",
   "status": "partial",
   "theorems": [
    "C235_the_references_in_a_list_of_lists_are_lost_refuted"
   ],
   "note": "REFUTED: #10=(BOUNDED_SURFACE()B_SPLINE_SURFACE(3,((#11,#12),(#13,#14)))); has no connection at all."
  },
  {
   "property": "C236",
   "status": "proved",
   "theorems": [
    "C236_the_statements_do_not_depend_on_the_line_breaks",
    "C236_the_entities_of_a_file",
    "C236_the_first_statement_that_fails"
   ],
   "note": ""
  },
  {
   "property": "C237",
   "status": "partial",
   "theorems": [
    "C237_the_blanks_of_a_single_string_are_lost_refuted",
    "C237_a_comma_in_the_last_string_cuts_it_refuted",
    "C237_a_string_before_a_list_of_lists_keeps_its_comma_refuted"
   ],
   "note": "REFUTED: 'automotive design' is read 'automotivedesign'; a comma in the last string cuts it in two arguments; a string before a list of lists keeps its comma."
  },
  {
   "property": "C238",
   "status": "partial",
   "theorems": [
    "C238_a_hash_in_a_string_is_a_connection_refuted",
    "C238_a_hash_in_a_string_makes_the_reading_fail_refuted"
   ],
   "note": "REFUTED: 'p #2, left' adds connection 2, 'part #B, left' raises ValueError."
  },
  {
   "property": "C239",
   "status": "partial",
   "theorems": [
    "C239_an_indented_statement_is_lost_refuted",
    "C239_the_second_statement_of_a_line_is_lost_refuted"
   ],
   "note": "REFUTED: a statement that starts with a blank is dropped; two statements on one line are read as the first only."
  },
  {
   "property": "C240",
   "status": "proved",
   "theorems": [
    "C240_integers_are_ordered",
    "C240_an_ascending_list",
    "C240_the_indexes_of_the_values_of_the_interval"
   ],
   "note": ""
  },
  {
   "property": "C241",
   "status": "proved",
   "theorems": [
    "C241_the_points_in_holes_are_removed_after_the_first",
    "C241_the_nodes_inside_that_are_not_vertices_and_outside_the_holes"
   ],
   "note": ""
  },
  {
   "property": "C242",
   "status": "partial",
   "theorems": [
    "C242_first_point_refuted"
   ],
   "note": "REFUTED: the point of index 0 is kept even in a hole (`if not index` takes 0 as absent). C241 proves the rest."
  },
  {
   "property": "C243",
   "status": "proved",
   "theorems": [
    "C243_the_grid_of_a_polygon_is_made_of_the_nodes_inside_that_are_not_vertices",
    "C243_the_points_kept_are_nodes_inside_that_are_not_vertices",
    "C243_the_nodes_outside_the_holes_are_kept",
    "C243_exactly_the_points_kept"
   ],
   "note": ""
  },
  {
   "property": "C244",
   "status": "partial",
   "theorems": [
    "C244_holes_removed_refuted"
   ],
   "note": "REFUTED: the keys of the dictionary of grid points are (row, place in the row, reversed on odd rows) but are looked up as (index of x, index of y): grid points in a hole are kept (and only points in the hole are ever removed, C243)."
  },
  {
   "property": "C245",
   "status": "proved",
   "theorems": [
    "C245_a_polygon_that_turns_left_is_trigonometric",
    "C245_a_polygon_that_turns_right_is_not",
    "C245_convex_polygons",
    "C245_translations",
    "C245_rotations",
    "C245_one_point_repeated",
    "C245_two_points_or_less",
    "C245_the_unit_square"
   ],
   "note": ""
  },
  {
   "property": "C246",
   "status": "partial",
   "theorems": [
    "C246_the_direction_of_simple_polygons_refuted"
   ],
   "note": "REFUTED: y = u.dot(ls1.normal_vector()) is not divided by the length of the side: is_trigo is False for a simple counterclockwise polygon of seven points, and True for the same polygon a thousand times smaller. C245 proves the polygons that always turn the same way."
  },
  {
   "property": "C247",
   "status": "proved",
   "theorems": [
    "C247_no_corner_turns_against_the_direction",
    "C247_one_point_repeated",
    "C247_convex_polygons_are_convex",
    "C247_no_points",
    "C247_polygons_that_turn_both_ways_are_not"
   ],
   "note": ""
  },
  {
   "property": "C248",
   "status": "partial",
   "theorems": [
    "C248_convex_refuted"
   ],
   "note": "REFUTED: only the turns are looked at: a pentagram is convex. C247 proves what is_convex decides."
  },
  {
   "property": "C249",
   "status": "partial",
   "theorems": [
    "C249_self_intersects_refuted",
    "C249_it_never_answers_no_in_general_position",
    "C249_it_never_answers_yes_for_aligned_points"
   ],
   "note": "REFUTED: the unit square raises IndexError, or self intersects when listed from another corner; proved: for three points or more in general position the answer is never False (neighbouring segments share an end, which counts as an intersection; _get_segments indexes past the end unless the last point is the rightmost)."
  },
  {
   "property": "C250",
   "status": "proved",
   "theorems": [
    "C250_find_sign_changes",
    "C250_the_steps_over_the_cut_are_reported_and_no_others"
   ],
   "note": ""
  },
  {
   "property": "C251",
   "status": "partial",
   "theorems": [
    "C251_steps_of_more_than_a_quarter_of_a_turn_refuted"
   ],
   "note": "REFUTED: the step from pi - 0.1 to 0.1 - pi/2 (1.77 on the circle) is taken as a passage through zero: the bound of 1.1 delta of the second isclose. C250 proves steps below pi/2.1."
  },
  {
   "property": "C252",
   "status": "proved",
   "theorems": [
    "C252_what_the_repair_does",
    "C252_the_angle_is_brought_on_the_side_of_the_reference",
    "C252_arcs_of_cylinders"
   ],
   "note": ""
  },
  {
   "property": "C253",
   "status": "proved",
   "theorems": [
    "C253_the_other_way_round",
    "C253_circles_make_a_full_turn"
   ],
   "note": ""
  },
  {
   "property": "C254",
   "status": "proved",
   "theorems": [
    "C254_the_points_once",
    "C254_a_repeated_point_changes_nothing"
   ],
   "note": ""
  },
  {
   "property": "C255",
   "status": "proved",
   "theorems": [
    "C255_the_hull_is_the_ring_of_the_simplices",
    "C255_the_direction_when_the_leftmost_point_has_a_neighbour_on_each_side"
   ],
   "note": ""
  },
  {
   "property": "C256",
   "status": "partial",
   "theorems": [
    "C256_the_direction_and_the_first_point_refuted"
   ],
   "note": "REFUTED: the hull (0,0), (1,1), (1/2,2) given by the simplices (0,1), (1,2), (2,0) comes out clockwise and starts at (1/2,2)."
  },
  {
   "property": "C257",
   "status": "proved",
   "theorems": [
    "C257_all_the_points_when_the_origin_does_not_come_after_the_first",
    "C257_only_copies_of_the_origin_are_lost"
   ],
   "note": ""
  },
  {
   "property": "C258",
   "status": "partial",
   "theorems": [
    "C258_the_origin_is_lost_refuted"
   ],
   "note": "REFUTED: [(1,0,0), (0,0,0)] gives [(1,0,0)]: `while remaining_points.any()` tests coordinates, not the number of points."
  },
  {
   "property": "C259",
   "status": "proved",
   "theorems": [
    "C259_one_closed_ring_for_each_label"
   ],
   "note": ""
  },
  {
   "property": "C260",
   "status": "proved",
   "theorems": [
    "C260_the_mean_of_the_coordinates",
    "C260_the_order_does_not_matter",
    "C260_in_every_box_around_the_points",
    "C260_no_point"
   ],
   "note": ""
  },
  {
   "property": "C261",
   "status": "proved",
   "theorems": [
    "C261_the_axis_goes_from_one_bound_to_the_other_by_equal_steps"
   ],
   "note": ""
  },
  {
   "property": "C262",
   "status": "proved",
   "theorems": [
    "C262_every_intersection_is_on_both",
    "C262_secant_lines_both_points_are_found",
    "C262_far_lines_have_none",
    "C262_nonvacuous"
   ],
   "note": ""
  },
  {
   "property": "C263",
   "status": "partial",
   "theorems": [
    "C263_tangent_lines_refuted",
    "C263_lines_outside_refuted"
   ],
   "note": "REFUTED: the line y = 1 tangent to the ellipse of axes 2 and 1 gives no point (the discriminant must be > 0); the line x = 2.000001, just outside, raises ValueError (math.sqrt of a negative number)."
  },
  {
   "property": "C264",
   "status": "proved",
   "theorems": [
    "C264_axis_aligned_ellipses_are_in_their_rectangle",
    "C264_nonvacuous"
   ],
   "note": ""
  },
  {
   "property": "C265",
   "status": "partial",
   "theorems": [
    "C265_the_bounding_rectangle_refuted",
    "C265_the_box_is_that_of_the_quarter_points",
    "C265_the_bounding_box_refuted"
   ],
   "note": "REFUTED: the rectangle and the box hold the four ends of the axes only; the ellipse of axes 2 and 1 whose major axis has the direction (3/5, 4/5) passes at (36/25, 23/25), outside."
  },
  {
   "property": "C266",
   "status": "proved",
   "theorems": [
    "C266_points_of_the_ellipse_are_accepted",
    "C266_accepted_points_nearly_satisfy_the_equation",
    "C266_ellipses_of_the_plane"
   ],
   "note": ""
  },
  {
   "property": "C267",
   "status": "proved",
   "theorems": [
    "C267_the_points_at_equal_parameters_anticlockwise",
    "C267_closed_from_the_end_of_the_major_axis_on_the_ellipse",
    "C267_three_dimensions",
    "C267_nonvacuous"
   ],
   "note": ""
  },
  {
   "property": "C268",
   "status": "partial",
   "theorems": [
    "C268_the_reversed_ellipse_has_the_same_points",
    "C268_and_the_same_discretization",
    "C268_reverse_refuted"
   ],
   "note": "REFUTED: reverse changes the sign of the minor axis and the discretization then runs the parameter from 2 pi to 0: the list of points is the same as before."
  },
  {
   "property": "C269",
   "status": "proved",
   "theorems": [
    "C269_rotation",
    "C269_translation",
    "C269_mapping_to_the_old_frame",
    "C269_mapping_to_a_new_frame",
    "C269_translation_in_space",
    "C269_rotation_in_space"
   ],
   "note": ""
  },
  {
   "property": "C270",
   "status": "proved",
   "theorems": [
    "C270_the_angle_of_the_point_of_parameter_t",
    "C270_every_point_has_an_angle",
    "C270_nonvacuous"
   ],
   "note": ""
  },
  {
   "property": "C271",
   "status": "proved",
   "theorems": [
    "C271_length",
    "C271_area"
   ],
   "note": ""
  },
  {
   "property": "C272",
   "status": "proved",
   "theorems": [
    "C272_the_points_of_the_ellipse_belong",
    "C272_the_projection_of_a_point_that_belongs_nearly_satisfies_the_equation"
   ],
   "note": ""
  },
  {
   "property": "C273",
   "status": "partial",
   "theorems": [
    "C273_point_belongs_refuted"
   ],
   "note": "REFUTED: the distance to the plane is not looked at; a point 5 above the end of the major axis belongs to the ellipse."
  },
  {
   "property": "C274",
   "status": "proved",
   "theorems": [
    "C274_line_and_upright_circle"
   ],
   "note": ""
  },
  {
   "property": "C275",
   "status": "proved",
   "theorems": [
    "C275_line_and_inclined_circle"
   ],
   "note": ""
  },
  {
   "property": "C276",
   "status": "partial",
   "theorems": [
    "C276_a_line_above_the_circle_refuted",
    "C276_the_error_of_every_near_parallel_line"
   ],
   "note": "REFUTED: a horizontal line at height 1/2 above a circle of radius 1 raises ZeroDivisionError; so does every such line at most a radius away from the centre"
  },
  {
   "property": "C277",
   "status": "partial",
   "theorems": [
    "C277_both_points_are_missed_refuted"
   ],
   "note": "REFUTED: a circle inclined by 1e-3 rad is taken as horizontal, its diameter along the slope is taken as crossing, and both points are missed"
  },
  {
   "property": "C278",
   "status": "proved",
   "theorems": [
    "C278_the_distance_to_the_circle"
   ],
   "note": ""
  },
  {
   "property": "C279",
   "status": "partial",
   "theorems": [
    "C279_no_distance_from_the_axis_refuted",
    "C279_no_distance_to_a_tiny_circle_refuted",
    "C279_the_error_of_every_point_of_the_axis"
   ],
   "note": "REFUTED: every point of the axis raises ZeroDivisionError (centre with at most 12 decimals), a circle of radius 1e-4 raises IndexError"
  },
  {
   "property": "C280",
   "status": "proved",
   "theorems": [
    "C280_line_of_the_plane_sound",
    "C280_line_of_the_plane_complete",
    "C280_line_across_the_plane",
    "C280_line_above_a_horizontal_ellipse"
   ],
   "note": ""
  },
  {
   "property": "C281",
   "status": "partial",
   "theorems": [
    "C281_the_points_are_in_the_wrong_place_refuted"
   ],
   "note": "REFUTED: for a horizontal ellipse the 2D points are not mapped back: they are at least 6 away from the ellipse of the witness"
  },
  {
   "property": "C282",
   "status": "proved",
   "theorems": [
    "C282_the_eight_corners",
    "C282_the_corners_differ",
    "C282_the_twelve_edges",
    "C282_the_six_faces",
    "C282_the_sides_of_the_specification"
   ],
   "note": ""
  },
  {
   "property": "C283",
   "status": "proved",
   "theorems": [
    "C283_the_volume",
    "C283_the_block_of_a_box",
    "C283_the_error_of_a_flat_box",
    "C283_a_block_of_non_zero_edges",
    "C283_every_block_has_non_zero_edges"
   ],
   "note": ""
  },
  {
   "property": "C284",
   "status": "partial",
   "theorems": [
    "C284_the_volume_of_a_slanted_block_refuted"
   ],
   "note": "REFUTED: the block with edges (1,0,0), (4,3,0), (0,0,1) has parallelepiped volume 3 and volume() 5 (the product of the lengths of the edges)"
  },
  {
   "property": "C285",
   "status": "proved",
   "theorems": [
    "C285_the_box_of_an_axis_parallel_block"
   ],
   "note": ""
  },
  {
   "property": "C286",
   "status": "partial",
   "theorems": [
    "C286_the_box_of_a_turned_block_refuted"
   ],
   "note": "REFUTED: the box is computed from u.x, v.y and w.z only: a vertex of a turned block is outside its bounding box"
  },
  {
   "property": "C287",
   "status": "partial",
   "theorems": [
    "C287_no_contour_of_any_block_refuted"
   ],
   "note": "REFUTED: face_contours3d raises IndexError for every block: the list of switched edges starts at the fifth edge and has eight elements, the indices 9 to 12 are taken in the edges"
  },
  {
   "property": "C288",
   "status": "proved",
   "theorems": [
    "C288_the_parts_fill_the_block",
    "C288_no_part_at_all"
   ],
   "note": ""
  },
  {
   "property": "C289",
   "status": "partial",
   "theorems": [
    "C289_the_parts_of_a_turned_block_refuted"
   ],
   "note": "REFUTED: the parts are parallel to the axes: a point of a turned block is in none of its parts"
  },
  {
   "property": "C290",
   "status": "proved",
   "theorems": [
    "C290_translation",
    "C290_rotation",
    "C290_change_of_frame"
   ],
   "note": ""
  },
  {
   "property": "C291",
   "status": "proved",
   "theorems": [
    "C291_the_box_of_a_cylinder",
    "C291_the_box_of_a_hollow_cylinder",
    "C291_the_box_of_a_cone",
    "C291_the_error_of_a_null_cylinder"
   ],
   "note": ""
  },
  {
   "property": "C292",
   "status": "proved",
   "theorems": [
    "C292_point_belongs",
    "C292_random_points",
    "C292_the_common_volume",
    "C292_the_error_without_draws"
   ],
   "note": ""
  },
  {
   "property": "C293",
   "status": "proved",
   "theorems": [
    "C293_from_end_points",
    "C293_the_error_of_equal_end_points",
    "C293_from_a_center_and_a_unit_axis"
   ],
   "note": ""
  },
  {
   "property": "C294",
   "status": "partial",
   "theorems": [
    "C294_an_axis_that_is_not_a_unit_vector_refuted"
   ],
   "note": "REFUTED: the axis is kept as it is: with axis (0,0,2) and length 1, the bounding box is 2 high and holds (0,0,1), that point_belongs rejects; the volume is the one of length 1"
  },
  {
   "property": "C295",
   "status": "proved",
   "theorems": [
    "C295_points_of_the_skin",
    "C295_no_point_at_a_coarse_resolution"
   ],
   "note": ""
  },
  {
   "property": "C296",
   "status": "proved",
   "theorems": [
    "C296_points_of_the_ball",
    "C296_point_belongs"
   ],
   "note": ""
  },
  {
   "property": "C297",
   "status": "proved",
   "theorems": [
    "C297_points_in_the_plane",
    "C297_points_without_bounds",
    "C297_only_one_bound",
    "C297_null_bounds",
    "C297_points_in_space",
    "C297_the_foci"
   ],
   "note": ""
  },
  {
   "property": "C298",
   "status": "partial",
   "theorems": [
    "C298_points_of_the_plane_refuted",
    "C298_minor_axis_one"
   ],
   "note": "REFUTED: the minor axis is to the power 1 (C298_points_of_the_plane_refuted); with a minor axis of 1 the points of both branches are accepted."
  },
  {
   "property": "C299",
   "status": "partial",
   "theorems": [
    "C299_the_height_over_the_plane",
    "C299_points_over_the_plane_refuted",
    "C299_points_of_a_hyperbola_in_space",
    "C299_points_of_a_parabola_in_space"
   ],
   "note": "REFUTED: the height over the plane plays no part (C299_points_over_the_plane_refuted); the points of the curve are accepted."
  },
  {
   "property": "C300",
   "status": "proved",
   "theorems": [
    "C300_the_common_points"
   ],
   "note": ""
  },
  {
   "property": "C301",
   "status": "partial",
   "theorems": [
    "C301_lines_parallel_to_the_second_axis",
    "C301_common_points_lost_refuted",
    "C301_lines_parallel_to_an_asymptote",
    "C301_a_point_on_them_refuted"
   ],
   "note": "REFUTED: TypeError for lines parallel to the second axis, no point for lines parallel to an asymptote, although they have common points."
  },
  {
   "property": "C302",
   "status": "proved",
   "theorems": [
    "C302_the_derivative",
    "C302_in_the_standard_frame",
    "C302_in_space"
   ],
   "note": ""
  },
  {
   "property": "C303",
   "status": "partial",
   "theorems": [
    "C303_in_other_frames_refuted"
   ],
   "note": "REFUTED: the derivative is taken at the ordinate of the point in the plane, not in the frame (C303_in_other_frames_refuted)."
  },
  {
   "property": "C304",
   "status": "partial",
   "theorems": [
    "C304_when_two_hyperbolas_are_equal",
    "C304_equality_refuted"
   ],
   "note": "REFUTED: equal hyperbolas are unequal, those that only differ by the second axis are equal."
  },
  {
   "property": "C305",
   "status": "proved",
   "theorems": [
    "C305_points_in_the_plane",
    "C305_points_in_space",
    "C305_points_that_belong"
   ],
   "note": ""
  },
  {
   "property": "C306",
   "status": "proved",
   "theorems": [
    "C306_the_common_points"
   ],
   "note": ""
  },
  {
   "property": "C307",
   "status": "partial",
   "theorems": [
    "C307_tangent_lines",
    "C307_the_point_of_a_tangent_line_refuted"
   ],
   "note": "REFUTED: the point is answered in the coordinates of the frame of the parabola (C307_tangent_lines)."
  },
  {
   "property": "C308",
   "status": "proved",
   "theorems": [
    "C308_the_derivative",
    "C308_in_the_plane",
    "C308_in_space"
   ],
   "note": ""
  },
  {
   "property": "C309",
   "status": "proved",
   "theorems": [
    "C309_the_arc_is_a_bezier_curve"
   ],
   "note": ""
  },
  {
   "property": "C310",
   "status": "proved",
   "theorems": [
    "C310_the_volume",
    "C310_the_volume_of_a_prism",
    "C310_the_skin_of_a_prism_is_closed"
   ],
   "note": ""
  },
  {
   "property": "C311",
   "status": "partial",
   "theorems": [
    "C311_the_other_side",
    "C311_negative_lengths_refuted",
    "C311_inner_contours_refuted"
   ],
   "note": "REFUTED: negative lengths give negative volumes (C311_negative_lengths_refuted); an inner contour far from the outer one is accepted when its area is not larger (C311_inner_contours_refuted)."
  },
  {
   "property": "C312",
   "status": "proved",
   "theorems": [
    "C312_when_it_is_accepted",
    "C312_the_faces_over_the_sides"
   ],
   "note": ""
  },
  {
   "property": "C313",
   "status": "partial",
   "theorems": [
    "C313_never_a_value_refuted",
    "C313_the_error"
   ],
   "note": "REFUTED: AttributeError for every profile, Vector3D has no attribute vector (C313_the_error)."
  },
  {
   "property": "C314",
   "status": "proved",
   "theorems": [
    "C314_the_placing_frame",
    "C314_when_it_fails",
    "C314_what_placing_does",
    "C314_a_placed_point"
   ],
   "note": ""
  },
  {
   "property": "C315",
   "status": "partial",
   "theorems": [
    "C315_the_displacement",
    "C315_frames_elsewhere_refuted"
   ],
   "note": "REFUTED: when the initial frame is not at the origin everything is displaced by the images of its origin (C315_the_displacement, C315_frames_elsewhere_refuted)."
  },
  {
   "property": "C316",
   "status": "proved",
   "theorems": [
    "C316_the_primitives",
    "C316_the_number_of_primitives",
    "C316_the_points_of_an_assembly",
    "C316_moving_an_assembly"
   ],
   "note": ""
  },
  {
   "property": "C317",
   "status": "proved",
   "theorems": [
    "C317_get_shells"
   ],
   "note": ""
  },
  {
   "property": "C318",
   "status": "proved",
   "theorems": [
    "C318_the_least_box",
    "C318_when_a_model_has_a_box",
    "C318_groups_with_boxes",
    "C318_groups_of_points",
    "C318_when_a_group_has_a_box",
    "C318_the_first_answer",
    "C318_the_next_answers",
    "C318_a_given_box"
   ],
   "note": ""
  },
  {
   "property": "C319",
   "status": "partial",
   "theorems": [
    "C319_points_refuted",
    "C319_changed_models_refuted"
   ],
   "note": "REFUTED: points beside a member that has a box are left out (C319_points_refuted); the box kept after the first call is not that of a changed list of primitives (C319_changed_models_refuted)."
  },
  {
   "property": "C320",
   "status": "proved",
   "theorems": [
    "C320_the_volume",
    "C320_any_order",
    "C320_equality",
    "C320_equal_models_have_equal_hashes",
    "C320_the_hash",
    "C320_when_a_moving_model_is_accepted",
    "C320_the_model_of_a_step",
    "C320_a_step_with_no_failure",
    "C320_a_missing_step"
   ],
   "note": ""
  },
  {
   "property": "C321",
   "status": "proved",
   "theorems": [
    "C321_both_angles",
    "C321_settled_angles_do_not_change",
    "C321_the_side_of_the_neighbour"
   ],
   "note": ""
  },
  {
   "property": "C322",
   "status": "proved",
   "theorems": [
    "C322_the_longitudes",
    "C322_the_side_of_the_neighbour"
   ],
   "note": ""
  }
 ]
}