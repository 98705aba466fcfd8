{"failed_lemmas": ["OctreeP.octant_of_in", "OctreeP.kid_map", "OctreeP2.opp_in", "OctreeP5.octants_nodup", "P_Octree.C10_nonvacuous", "P_Octree.C10_example", "P_Octree.C12_example", "P_Octree.C13_example", "P_Octree.C14_example", "P_Octree.C82_example", "P_Octree.C83_example"], "theorems_failed": ["C10_difference_is_the_set_difference", "C10_example", "C10_intersection_is_the_set_intersection", "C10_nonvacuous", "C10_symmetric_difference_is_the_set_symmetric_difference", "C10_union_is_the_set_union", "C11_points_to_octree_to_points", "C12_example", "C13_every_full_cube_lies_in_an_exported_cube", "C13_example", "C13_exported_cubes_partition_the_voxelization", "C14_difference_keeps_the_indices_of_the_first", "C14_example", "C14_intersection_keeps_the_indices_of_both", "C14_symmetric_difference_keeps_the_indices", "C14_union_entries_denote_the_same_triangles", "C14_union_keeps_the_indices_of_both", "C14_voxels_are_the_cells_with_entries", "C81_from_triangles_lists_the_triangles_of_each_voxel", "C82_example", "C82_pairs_are_located_in_their_common_voxels", "C82_pairs_of_two_shells_are_the_pairs_with_a_common_voxel", "C83_example", "C83_inner_growing_export_partitions_and_merges_deep_blocks"], "statement_broken": [], "secs": 26, "id": "oc1"}
{"failed_lemmas": ["OctreeP.kid_map", "OctreeP.entries_E", "P_Octree.C10_nonvacuous", "P_Octree.C13_example", "P_Octree.C83_example"], "theorems_failed": ["C10_difference_is_the_set_difference", "C10_intersection_is_the_set_intersection", "C10_nonvacuous", "C10_symmetric_difference_is_the_set_symmetric_difference", "C10_union_is_the_set_union", "C11_points_to_octree_to_points", "C13_example", "C14_difference_keeps_the_indices_of_the_first", "C14_intersection_keeps_the_indices_of_both", "C14_symmetric_difference_keeps_the_indices", "C14_union_entries_denote_the_same_triangles", "C14_union_keeps_the_indices_of_both", "C14_voxels_are_the_cells_with_entries", "C81_from_triangles_lists_the_triangles_of_each_voxel", "C82_pairs_are_located_in_their_common_voxels", "C82_pairs_of_two_shells_are_the_pairs_with_a_common_voxel", "C83_example"], "statement_broken": [], "secs": 20, "id": "oc2"}
{"failed_lemmas": ["OctreeP.sub_center_cc", "OctreeP2.union_moves_root", "P_Octree.C10_nonvacuous", "P_Octree.C10_example", "P_Octree.C12_example", "P_Octree.C13_example", "P_Octree.C82_example", "P_Octree.C83_example"], "theorems_failed": ["C10_difference_is_the_set_difference", "C10_example", "C10_intersection_is_the_set_intersection", "C10_nonvacuous", "C10_root_is_moved_to_the_origin", "C10_symmetric_difference_is_the_set_symmetric_difference", "C10_union_is_the_set_union", "C11_points_to_octree_to_points", "C12_example", "C12_is_intersecting_decides_a_common_voxel", "C12_is_intersecting_decides_overlapping_voxels", "C13_every_full_cube_lies_in_an_exported_cube", "C13_example", "C13_exported_cubes_partition_the_voxelization", "C14_voxels_are_the_cells_with_entries", "C81_from_triangles_lists_the_triangles_of_each_voxel", "C82_example", "C82_pairs_are_located_in_their_common_voxels", "C82_pairs_of_two_shells_are_the_pairs_with_a_common_voxel", "C83_example", "C83_inner_growing_export_partitions_and_merges_deep_blocks"], "statement_broken": [], "secs": 22, "id": "oc3"}
{"failed_lemmas": ["OctreeP.LC_S", "OctreeP2.union_moves_root", "P_Octree.C10_nonvacuous", "P_Octree.C10_example"], "theorems_failed": ["C10_difference_is_the_set_difference", "C10_example", "C10_intersection_is_the_set_intersection", "C10_nonvacuous", "C10_root_is_moved_to_the_origin", "C10_symmetric_difference_is_the_set_symmetric_difference", "C10_union_is_the_set_union", "C11_points_to_octree_to_points", "C12_is_intersecting_decides_a_common_voxel", "C12_is_intersecting_decides_overlapping_voxels", "C13_every_full_cube_lies_in_an_exported_cube", "C13_exported_cubes_partition_the_voxelization", "C14_voxels_are_the_cells_with_entries", "C83_inner_growing_export_partitions_and_merges_deep_blocks"], "statement_broken": [], "secs": 21, "id": "oc4"}
{"failed_lemmas": ["OctreeP.E_union"], "theorems_failed": ["C10_union_is_the_set_union", "C14_union_entries_denote_the_same_triangles", "C14_union_keeps_the_indices_of_both"], "statement_broken": [], "secs": 18, "id": "oc5"}
{"failed_lemmas": ["OctreeP.E_union", "P_Octree.C14_example"], "theorems_failed": ["C10_union_is_the_set_union", "C14_example", "C14_union_entries_denote_the_same_triangles", "C14_union_keeps_the_indices_of_both"], "statement_broken": [], "secs": 22, "id": "oc6"}
{"failed_lemmas": ["OctreeP.E_difference", "OctreeP.difference_height", "P_Octree.C10_example"], "theorems_failed": ["C10_difference_is_the_set_difference", "C10_example", "C14_difference_keeps_the_indices_of_the_first"], "statement_broken": [], "secs": 26, "id": "oc7"}
{"failed_lemmas": ["OctreeP.E_intersection", "OctreeP.intersection_height"], "theorems_failed": ["C10_intersection_is_the_set_intersection", "C14_intersection_keeps_the_indices_of_both", "C82_pairs_of_two_shells_are_the_pairs_with_a_common_voxel"], "statement_broken": [], "secs": 28, "id": "oc8"}
{"failed_lemmas": ["OctreeP.E_symmetric"], "theorems_failed": ["C10_symmetric_difference_is_the_set_symmetric_difference", "C14_symmetric_difference_keeps_the_indices"], "statement_broken": [], "secs": 23, "id": "oc9"}
{"failed_lemmas": ["OctreeP2.increment_spec"], "theorems_failed": ["C10_difference_is_the_set_difference", "C10_intersection_is_the_set_intersection", "C10_symmetric_difference_is_the_set_symmetric_difference", "C10_union_is_the_set_union", "C14_difference_keeps_the_indices_of_the_first", "C14_intersection_keeps_the_indices_of_both", "C14_symmetric_difference_keeps_the_indices", "C14_union_entries_denote_the_same_triangles", "C14_union_keeps_the_indices_of_both", "C82_pairs_of_two_shells_are_the_pairs_with_a_common_voxel"], "statement_broken": [], "secs": 22, "id": "oc10"}
{"failed_lemmas": [], "theorems_failed": [], "statement_broken": [], "secs": 23, "id": "oc11"}
{"failed_lemmas": ["OctreeP2.op_spec", "P_Octree.C10_example", "P_Octree.C14_example", "P_Octree.C82_example"], "theorems_failed": ["C10_difference_is_the_set_difference", "C10_example", "C10_intersection_is_the_set_intersection", "C10_symmetric_difference_is_the_set_symmetric_difference", "C10_union_is_the_set_union", "C14_difference_keeps_the_indices_of_the_first", "C14_example", "C14_intersection_keeps_the_indices_of_both", "C14_symmetric_difference_keeps_the_indices", "C14_union_entries_denote_the_same_triangles", "C14_union_keeps_the_indices_of_both", "C82_example", "C82_pairs_of_two_shells_are_the_pairs_with_a_common_voxel"], "statement_broken": [], "secs": 28, "id": "oc12"}
{"failed_lemmas": ["OctreeP2.op_spec", "OctreeP2.op_size_error"], "theorems_failed": ["C10_difference_is_the_set_difference", "C10_different_sizes_are_rejected", "C10_intersection_is_the_set_intersection", "C10_symmetric_difference_is_the_set_symmetric_difference", "C10_union_is_the_set_union", "C14_difference_keeps_the_indices_of_the_first", "C14_intersection_keeps_the_indices_of_both", "C14_symmetric_difference_keeps_the_indices", "C14_union_entries_denote_the_same_triangles", "C14_union_keeps_the_indices_of_both", "C82_pairs_of_two_shells_are_the_pairs_with_a_common_voxel"], "statement_broken": [], "secs": 28, "id": "oc13"}
{"failed_lemmas": ["OctreeP2.difference_entries"], "theorems_failed": ["C10_difference_is_the_set_difference", "C14_difference_keeps_the_indices_of_the_first"], "statement_broken": [], "secs": 25, "id": "oc14"}
{"failed_lemmas": ["OctreeP3.overlap1_spec"], "theorems_failed": ["C12_is_intersecting_decides_a_common_voxel", "C12_is_intersecting_decides_overlapping_voxels"], "statement_broken": [], "secs": 24, "id": "oc15"}
{"failed_lemmas": ["OctreeP3.run_one", "P_Octree.C12_example"], "theorems_failed": ["C12_example", "C12_is_intersecting_decides_a_common_voxel", "C12_is_intersecting_decides_overlapping_voxels"], "statement_broken": [], "secs": 23, "id": "oc16"}
{"failed_lemmas": ["OctreeP3.run_one"], "theorems_failed": ["C12_is_intersecting_decides_a_common_voxel", "C12_is_intersecting_decides_overlapping_voxels"], "statement_broken": [], "secs": 23, "id": "oc17"}
{"failed_lemmas": ["OctreeP.octant_of_in", "OctreeP.entries_E", "OctreeP.near_cc", "OctreeP2.octant_opp", "OctreeP2.ongrid_child", "OctreeP5.in_cube_octant"], "theorems_failed": ["C10_difference_is_the_set_difference", "C10_intersection_is_the_set_intersection", "C10_symmetric_difference_is_the_set_symmetric_difference", "C10_union_is_the_set_union", "C11_points_to_octree_to_points", "C12_is_intersecting_decides_a_common_voxel", "C12_is_intersecting_decides_overlapping_voxels", "C13_every_full_cube_lies_in_an_exported_cube", "C13_exported_cubes_partition_the_voxelization", "C14_difference_keeps_the_indices_of_the_first", "C14_intersection_keeps_the_indices_of_both", "C14_symmetric_difference_keeps_the_indices", "C14_union_entries_denote_the_same_triangles", "C14_union_keeps_the_indices_of_both", "C14_voxels_are_the_cells_with_entries", "C81_from_triangles_lists_the_triangles_of_each_voxel", "C82_pairs_are_located_in_their_common_voxels", "C82_pairs_of_two_shells_are_the_pairs_with_a_common_voxel", "C83_inner_growing_export_partitions_and_merges_deep_blocks"], "statement_broken": [], "secs": 29, "id": "oc18"}
{"failed_lemmas": ["OctreeP2.subdivide_E"], "theorems_failed": ["C11_points_to_octree_to_points"], "statement_broken": [], "secs": 27, "id": "oc19"}
{"failed_lemmas": ["OctreeP2.from_points_spec"], "theorems_failed": ["C11_points_to_octree_to_points"], "statement_broken": [], "secs": 22, "id": "oc20"}
{"failed_lemmas": ["OctreeP2.from_points_spec"], "theorems_failed": ["C11_points_to_octree_to_points"], "statement_broken": [], "secs": 22, "id": "oc21"}
{"failed_lemmas": ["OctreeP4.set_add_in", "OctreeP4.set_add_nodup"], "theorems_failed": ["C13_every_full_cube_lies_in_an_exported_cube", "C13_exported_cubes_partition_the_voxelization", "C82_pairs_are_located_in_their_common_voxels", "C82_pairs_of_two_shells_are_the_pairs_with_a_common_voxel", "C83_inner_growing_export_partitions_and_merges_deep_blocks"], "statement_broken": [], "secs": 22, "id": "oc22"}
{"failed_lemmas": ["OctreeP5.nonhom_gen", "P_Octree.C13_example"], "theorems_failed": ["C13_every_full_cube_lies_in_an_exported_cube", "C13_example", "C13_exported_cubes_partition_the_voxelization"], "statement_broken": [], "secs": 25, "id": "oc23"}
{"failed_lemmas": ["OctreeP5.nonhom_gen", "P_Octree.C13_example"], "theorems_failed": ["C13_every_full_cube_lies_in_an_exported_cube", "C13_example", "C13_exported_cubes_partition_the_voxelization"], "statement_broken": [], "secs": 20, "id": "oc24"}
{"failed_lemmas": ["OctreeP6.inner_gen", "P_Octree.C83_example"], "theorems_failed": ["C83_example", "C83_inner_growing_export_partitions_and_merges_deep_blocks"], "statement_broken": [], "secs": 22, "id": "oc25"}
{"failed_lemmas": ["OctreeP6.inner_gen"], "theorems_failed": ["C83_inner_growing_export_partitions_and_merges_deep_blocks"], "statement_broken": [], "secs": 21, "id": "oc26"}
{"failed_lemmas": ["OctreeP6.combinations2_in"], "theorems_failed": ["C82_pairs_are_located_in_their_common_voxels", "C82_pairs_of_two_shells_are_the_pairs_with_a_common_voxel"], "statement_broken": [], "secs": 19, "id": "oc27"}
{"failed_lemmas": ["OctreeP6.intersections_spec", "P_Octree.C82_example"], "theorems_failed": ["C82_example", "C82_pairs_are_located_in_their_common_voxels", "C82_pairs_of_two_shells_are_the_pairs_with_a_common_voxel"], "statement_broken": [], "secs": 21, "id": "oc28"}
{"failed_lemmas": ["OctreeP6.intersections_E", "P_Octree.C82_example"], "theorems_failed": ["C82_example", "C82_pairs_are_located_in_their_common_voxels", "C82_pairs_of_two_shells_are_the_pairs_with_a_common_voxel"], "statement_broken": [], "secs": 22, "id": "oc29"}
{"failed_lemmas": ["OctreeP6.triangles_E"], "theorems_failed": ["C81_from_triangles_lists_the_triangles_of_each_voxel"], "statement_broken": [], "secs": 22, "id": "oc30"}
{"failed_lemmas": ["OctreeP6.from_triangles_spec"], "theorems_failed": ["C81_from_triangles_lists_the_triangles_of_each_voxel"], "statement_broken": [], "secs": 23, "id": "oc31"}
{"failed_lemmas": ["OctreeP3.sizes_nth", "P_Octree.C12_example"], "theorems_failed": ["C12_example", "C12_is_intersecting_decides_a_common_voxel", "C12_is_intersecting_decides_overlapping_voxels"], "statement_broken": [], "secs": 22, "id": "oc32"}
{"failed_lemmas": ["SatP.abs3", "SatP2.slab_meets", "SatP2.slab_ok"], "theorems_failed": ["C17_a_cubic_voxel_that_meets_the_triangle_is_reported_partial", "C18_a_reported_box_is_near_the_bounds_of_the_triangle_partial", "C18_no_false_positive_refuted", "C18_the_separating_axis_test_needs_the_bounds_and_the_plane", "C44_cubic_box_reports_every_triangle_it_meets_partial", "C84_voxel_matrix_of_triangles"], "statement_broken": [], "secs": 43, "id": "sa1"}
{"failed_lemmas": ["SatP.sat_cubic", "SatP2.missed_triangle"], "theorems_failed": ["C17_a_cubic_voxel_that_meets_the_triangle_is_reported_partial", "C17_every_non_cubic_box_misses_a_triangle_inside_it", "C17_no_false_negative_refuted", "C44_cubic_box_reports_every_triangle_it_meets_partial", "C44_no_false_negative_refuted", "C84_voxel_matrix_of_triangles"], "statement_broken": [], "secs": 33, "id": "sa2"}
{"failed_lemmas": ["SatP.sat_cubic", "SatP2.sat_meaning", "SatP2.fp_reported"], "theorems_failed": ["C17_a_cubic_voxel_that_meets_the_triangle_is_reported_partial", "C18_a_reported_box_is_near_the_bounds_of_the_triangle_partial", "C18_no_false_positive_refuted", "C18_the_separating_axis_test_needs_the_bounds_and_the_plane", "C44_cubic_box_reports_every_triangle_it_meets_partial", "C84_voxel_matrix_of_triangles"], "statement_broken": [], "secs": 39, "id": "sa3"}
{"failed_lemmas": [], "theorems_failed": [], "statement_broken": [], "secs": 34, "id": "sa4"}
{"failed_lemmas": ["SatP.not_separating", "SatP2.missed_triangle", "SatP2.axis_ok"], "theorems_failed": ["C17_a_cubic_voxel_that_meets_the_triangle_is_reported_partial", "C17_every_non_cubic_box_misses_a_triangle_inside_it", "C17_no_false_negative_refuted", "C18_no_false_positive_refuted", "C44_cubic_box_reports_every_triangle_it_meets_partial", "C44_no_false_negative_refuted", "C84_voxel_matrix_of_triangles"], "statement_broken": [], "secs": 34, "id": "sa5"}
{"failed_lemmas": ["SatP4.line_eq_alt", "SatP4.corner_low"], "theorems_failed": ["C20_every_pixel_met_by_a_segment_is_returned_partial", "C20_every_returned_pixel_is_met_up_to_rounding", "C20_short_segments_are_missed_refuted", "C84_voxel_matrix_of_triangles"], "statement_broken": [], "secs": 36, "id": "sa6"}
{"failed_lemmas": ["SatP3.hit_iff"], "theorems_failed": ["C20_every_pixel_met_by_a_segment_is_returned_partial", "C20_every_returned_pixel_is_met_up_to_rounding", "C20_short_segments_are_missed_refuted", "C84_voxel_matrix_of_triangles"], "statement_broken": [], "secs": 34, "id": "sa7"}
{"failed_lemmas": [], "theorems_failed": [], "statement_broken": [], "secs": 31, "id": "sa8"}
{"failed_lemmas": [], "theorems_failed": [], "statement_broken": [], "secs": 33, "id": "sa9"}
{"failed_lemmas": ["SatP2.rectangles_overlap_spec"], "theorems_failed": ["C18_a_reported_box_is_near_the_bounds_of_the_triangle_partial"], "statement_broken": [], "secs": 35, "id": "sa10"}
{"failed_lemmas": ["SatP2.no_interface", "SatP2.block_meaning"], "theorems_failed": ["C17_every_non_cubic_box_misses_a_triangle_inside_it", "C17_no_false_negative_refuted", "C18_a_reported_box_is_near_the_bounds_of_the_triangle_partial", "C44_no_false_negative_refuted"], "statement_broken": [], "secs": 33, "id": "sa11"}
{"failed_lemmas": ["SatP2.intersects_meaning"], "theorems_failed": ["C18_a_reported_box_is_near_the_bounds_of_the_triangle_partial"], "statement_broken": [], "secs": 30, "id": "sa12"}
{"failed_lemmas": ["SatP.bbox_cubic", "SatExP.bbox_missed"], "theorems_failed": ["C44_cubic_box_reports_every_triangle_it_meets_partial", "C44_no_false_negative_refuted"], "statement_broken": [], "secs": 27, "id": "sa13"}
{"failed_lemmas": ["SatP3.axis_cover", "SatP3.axis_near", "VoxelizeP5.sat_sets"], "theorems_failed": ["C19_candidates_are_voxels_near_the_box", "C19_every_voxel_that_meets_the_box_is_a_candidate", "C84_voxel_matrix_of_triangles"], "statement_broken": [], "secs": 30, "id": "sa14"}
{"failed_lemmas": ["SatP3.axis_cover", "SatP3.axis_near", "VoxelizeP5.sat_sets"], "theorems_failed": ["C19_candidates_are_voxels_near_the_box", "C19_every_voxel_that_meets_the_box_is_a_candidate", "C84_voxel_matrix_of_triangles"], "statement_broken": [], "secs": 32, "id": "sa15"}
{"failed_lemmas": ["SatP3.grid_center_bounds", "SatP4.small_center", "SatP4.short_missed", "VoxelizeP.grid_exact", "VoxelizeP6.axis_origin_exact"], "theorems_failed": ["C20_every_pixel_met_by_a_segment_is_returned_partial", "C20_short_segments_are_missed_refuted", "C84_voxel_matrix_of_triangles"], "statement_broken": [], "secs": 39, "id": "sa16"}
{"failed_lemmas": ["SatP3.in_aabb", "SatP3.aabb_nodup"], "theorems_failed": ["C19_candidates_are_different", "C19_candidates_are_voxels_near_the_box", "C19_every_voxel_that_meets_the_box_is_a_candidate", "C84_voxel_matrix_of_triangles"], "statement_broken": [], "secs": 33, "id": "sa17"}
{"failed_lemmas": ["SatP4.in_segment_pixels"], "theorems_failed": ["C20_every_pixel_met_by_a_segment_is_returned_partial", "C20_every_returned_pixel_is_met_up_to_rounding", "C20_short_segments_are_missed_refuted", "C84_voxel_matrix_of_triangles"], "statement_broken": [], "secs": 31, "id": "sa18"}
{"failed_lemmas": ["VoxelizeP3.triangle_pixels"], "theorems_failed": ["C84_voxel_matrix_of_triangles"], "statement_broken": [], "secs": 29, "id": "sa19"}
{"failed_lemmas": ["SatP.trunc_neg"], "theorems_failed": ["C19_candidates_are_voxels_near_the_box", "C19_every_voxel_that_meets_the_box_is_a_candidate", "C20_every_pixel_met_by_a_segment_is_returned_partial", "C84_voxel_matrix_of_triangles"], "statement_broken": [], "secs": 27, "id": "sa20"}
{"failed_lemmas": ["VoxelizeP6.axis_inside", "VoxelizeP6.voxelize_ok"], "theorems_failed": ["C84_voxel_matrix_of_triangles"], "statement_broken": [], "secs": 18, "id": "vo1"}
{"failed_lemmas": ["VoxelizeP6.axis_origin_exact"], "theorems_failed": ["C84_voxel_matrix_of_triangles"], "statement_broken": [], "secs": 19, "id": "vo2"}
{"failed_lemmas": [], "statement_broken": [], "timeout": ["theories/Proofs/VoxelizeP6"], "tail": "COQDEP VFILES\nCOQC theories/Model/Voxelize.v\nCOQC theories/Proofs/VoxelizeP2.v\nCOQC theories/Proofs/VoxelizeP3.v\nCOQC theories/Proofs/VoxelizeP4.v\nCOQC theories/Proofs/VoxelizeP5.v\nCOQC theories/Proofs/VoxelizeP6.v\nmake: *** [Makefile:793: theories/Proofs/VoxelizeP6.vo] Error 124\nmake: Target 'theories/Props/P_Sat.vo' not remade because of errors.\n", "id": "vo3"}
{"failed_lemmas": ["VoxelizeP5.interface_sets"], "theorems_failed": ["C84_voxel_matrix_of_triangles"], "statement_broken": [], "secs": 16, "id": "vo4"}
{"failed_lemmas": ["VoxelizeP5.interface_sets"], "theorems_failed": ["C84_voxel_matrix_of_triangles"], "statement_broken": [], "secs": 18, "id": "vo5"}
{"failed_lemmas": ["VoxelizeP5.sat_sets"], "theorems_failed": ["C84_voxel_matrix_of_triangles"], "statement_broken": [], "secs": 22, "id": "vo6"}
{"failed_lemmas": ["VoxelizeP2.filled_ok"], "theorems_failed": ["C84_voxel_matrix_of_triangles"], "statement_broken": [], "secs": 15, "id": "vo7"}
{"failed_lemmas": ["SatExP.has_equal_spec"], "theorems_failed": ["C84_triangles_with_two_equal_vertices_mark_nothing", "C84_voxel_matrix_of_triangles"], "statement_broken": [], "secs": 18, "id": "vo8"}
{"failed_lemmas": ["VoxelizeP6.voxelize_ok", "SatExP.degenerate_skipped"], "theorems_failed": ["C84_triangles_with_two_equal_vertices_mark_nothing", "C84_voxel_matrix_of_triangles"], "statement_broken": [], "secs": 22, "id": "vo9"}
{"failed_lemmas": ["VoxelizeP5.plane_index", "VoxelizeP6.axis_sets"], "theorems_failed": ["C84_voxel_matrix_of_triangles"], "statement_broken": [], "secs": 18, "id": "vo10"}
