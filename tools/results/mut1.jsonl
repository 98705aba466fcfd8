{"failed_lemmas": ["FloodFillP.nbrs2_adj"], "theorems_failed": ["C01_flood_fill_2d", "C02_fill_outer_pixels", "C03_fill_enclosed_pixels", "C04_is_hollow_pixels_actual_partial"], "statement_broken": [], "secs": 91, "id": "ff1"}
{"failed_lemmas": ["FloodFillP.nbrs3_adj"], "theorems_failed": ["C01_flood_fill_3d", "C02_fill_outer_voxels", "C03_fill_enclosed_idempotent", "C03_fill_enclosed_voxels", "C03_nonvacuous", "C04_is_hollow_refuted", "C04_is_hollow_voxels_actual_partial"], "statement_broken": [], "secs": 84, "id": "ff2"}
{"failed_lemmas": ["FloodFillP.push_eq", "VoxelRefP.shell27_hollow", "VoxelRefP.is_hollow_ref1", "VoxelRefP.flood_points_ref2"], "theorems_failed": ["C01_flood_fill_2d", "C01_flood_fill_3d", "C02_fill_outer_pixels", "C02_fill_outer_voxels", "C03_fill_enclosed_idempotent", "C03_fill_enclosed_pixels", "C03_fill_enclosed_voxels", "C03_nonvacuous", "C04_is_hollow_pixels_actual_partial", "C04_is_hollow_refuted", "C04_is_hollow_voxels_actual_partial", "C08_flood_fill_points_refuted"], "statement_broken": [], "secs": 90, "id": "ff3"}
{"failed_lemmas": ["FloodFillP.flood2_correct", "FloodFillP.flood2_out"], "theorems_failed": ["C01_flood_fill_2d", "C01_flood_fill_out_of_range_2d", "C02_fill_outer_pixels", "C03_fill_enclosed_pixels", "C04_is_hollow_pixels_actual_partial"], "statement_broken": [], "secs": 107, "id": "ff4"}
{"failed_lemmas": ["FloodFillP.inb2_spec"], "theorems_failed": ["C01_flood_fill_2d", "C01_flood_fill_out_of_range_2d", "C02_fill_outer_pixels", "C03_fill_enclosed_pixels", "C04_is_hollow_pixels_actual_partial", "C05_difference_pixels_partial", "C05_intersection_pixels_partial", "C05_symmetric_difference_pixels_partial", "C05_union_pixels_partial"], "statement_broken": [], "secs": 83, "id": "ff5"}
{"failed_lemmas": ["FloodFillP.flood3_correct", "VoxelRefP.flood_points_ref2"], "theorems_failed": ["C01_flood_fill_3d", "C02_fill_outer_voxels", "C03_fill_enclosed_idempotent", "C03_fill_enclosed_voxels", "C03_nonvacuous", "C04_is_hollow_refuted", "C04_is_hollow_voxels_actual_partial", "C08_flood_fill_points_refuted"], "statement_broken": [], "secs": 96, "id": "ff6"}
{"failed_lemmas": ["OuterP.fill_outer3_correct"], "theorems_failed": ["C02_fill_outer_voxels", "C03_fill_enclosed_idempotent", "C03_fill_enclosed_voxels", "C03_nonvacuous", "C04_is_hollow_refuted", "C04_is_hollow_voxels_actual_partial"], "statement_broken": [], "secs": 64, "id": "vm1"}
{"failed_lemmas": ["OuterP.fill_outer3_correct"], "theorems_failed": ["C02_fill_outer_voxels", "C03_fill_enclosed_idempotent", "C03_fill_enclosed_voxels", "C03_nonvacuous", "C04_is_hollow_refuted", "C04_is_hollow_voxels_actual_partial"], "statement_broken": [], "secs": 50, "id": "vm2"}
{"failed_lemmas": ["VoxelOpsP.fill_enclosed2_ok", "VoxelOpsP.inverse2_ok", "VoxelOpsP.inverse2_invol"], "theorems_failed": ["C03_fill_enclosed_pixels", "C04_is_hollow_pixels_actual_partial", "C09_inverse_involutive_pixels", "C09_inverse_pixels"], "statement_broken": [], "secs": 89, "id": "vm3"}
{"failed_lemmas": ["VoxelP.crop3_cases", "VoxelRefP.is_hollow_ref1"], "theorems_failed": ["C03_fill_enclosed_idempotent", "C03_fill_enclosed_voxels", "C04_is_hollow_refuted", "C04_is_hollow_voxels_actual_partial", "C05_difference_voxels_partial", "C05_intersection_voxels_partial", "C05_is_intersecting_voxels_partial", "C05_symmetric_difference_voxels_partial", "C05_union_voxels_partial", "C06_crop_canonical", "C06_crop_idempotent", "C06_crop_voxels", "C07_matrix_points_matrix"], "statement_broken": [], "secs": 76, "id": "vm4"}
{"failed_lemmas": ["VoxelP.crop3_cases"], "theorems_failed": ["C03_fill_enclosed_idempotent", "C03_fill_enclosed_voxels", "C04_is_hollow_refuted", "C04_is_hollow_voxels_actual_partial", "C05_difference_voxels_partial", "C05_intersection_voxels_partial", "C05_is_intersecting_voxels_partial", "C05_symmetric_difference_voxels_partial", "C05_union_voxels_partial", "C06_crop_canonical", "C06_crop_idempotent", "C06_crop_voxels", "C07_matrix_points_matrix"], "statement_broken": [], "secs": 66, "id": "vm5"}
{"failed_lemmas": ["VoxelOpsP.difference3_ok"], "theorems_failed": ["C05_difference_voxels_partial"], "statement_broken": [], "secs": 83, "id": "vm6"}
{"failed_lemmas": ["VoxelP.axis_start_ok"], "theorems_failed": ["C03_fill_enclosed_idempotent", "C03_fill_enclosed_pixels", "C03_fill_enclosed_voxels", "C04_is_hollow_pixels_actual_partial", "C04_is_hollow_refuted", "C04_is_hollow_voxels_actual_partial", "C05_difference_pixels_partial", "C05_difference_voxels_partial", "C05_intersection_pixels_partial", "C05_intersection_voxels_partial", "C05_is_intersecting_voxels_partial", "C05_symmetric_difference_pixels_partial", "C05_symmetric_difference_voxels_partial", "C05_union_pixels_partial", "C05_union_voxels_partial"], "statement_broken": [], "secs": 81, "id": "vm7"}
{"failed_lemmas": ["VoxelP.logical3_ok", "VoxelOpsP.logical3_size"], "theorems_failed": ["C03_fill_enclosed_idempotent", "C03_fill_enclosed_voxels", "C04_is_hollow_refuted", "C04_is_hollow_voxels_actual_partial", "C05_difference_voxels_partial", "C05_different_sizes", "C05_intersection_voxels_partial", "C05_is_intersecting_voxels_partial", "C05_symmetric_difference_voxels_partial", "C05_union_voxels_partial"], "statement_broken": [], "secs": 82, "id": "vm8"}
{"failed_lemmas": ["VoxelOpsP.fill_enclosed3_ok"], "theorems_failed": ["C03_fill_enclosed_idempotent", "C03_fill_enclosed_voxels", "C04_is_hollow_refuted", "C04_is_hollow_voxels_actual_partial"], "statement_broken": [], "secs": 90, "id": "vm9"}
{"failed_lemmas": ["VoxelOpsP.to_matrix_ok", "VoxelRefP.flood_points_ref2"], "theorems_failed": ["C07_matrix_points_matrix", "C07_points_matrix_points", "C08_flood_fill_points_refuted", "C08_start_index_actual_partial"], "statement_broken": [], "secs": 89, "id": "vm10"}
{"failed_lemmas": ["VoxelOpsP.to_matrix_ok"], "theorems_failed": ["C07_matrix_points_matrix", "C07_points_matrix_points", "C08_start_index_actual_partial"], "statement_broken": [], "secs": 74, "id": "vm11"}
{"failed_lemmas": ["VoxelOpsP.layers_loop_ok"], "theorems_failed": ["C16_layers"], "statement_broken": [], "secs": 83, "id": "vm12"}
{"failed_lemmas": ["VoxelOpsP.cube_full_spec"], "theorems_failed": ["C16_layers"], "statement_broken": [], "secs": 80, "id": "vm13"}
{"failed_lemmas": ["TranslationP.translation_In", "P_Voxel.C59_nonvacuous"], "theorems_failed": ["C59_nonvacuous", "C59_translation_any", "C59_translation_grid", "C59_translation_grid_count"], "statement_broken": [], "secs": 84, "id": "vm14"}
{"failed_lemmas": ["TranslationP.grid_center_even", "P_Voxel.C59_nonvacuous"], "theorems_failed": ["C59_nonvacuous", "C59_translation_any", "C59_translation_grid", "C59_translation_grid_count"], "statement_broken": [], "secs": 80, "id": "vm15"}
{"failed_lemmas": ["VoxelP.voxel_centers_spec", "VoxelP.crop3_centers", "VoxelP.crop3_lattice", "VoxelOpsP.voxel_centers_NoDup"], "theorems_failed": ["C03_fill_enclosed_idempotent", "C03_fill_enclosed_voxels", "C04_is_hollow_refuted", "C04_is_hollow_voxels_actual_partial", "C05_difference_voxels_partial", "C05_intersection_voxels_partial", "C05_is_intersecting_voxels_partial", "C05_large_voxels_refuted", "C05_symmetric_difference_voxels_partial", "C05_union_voxels_partial", "C06_crop_canonical", "C06_crop_idempotent", "C06_crop_voxels", "C06_nonvacuous", "C07_matrix_points_matrix", "C07_points_matrix_points", "C07_voxel_centers"], "statement_broken": [], "secs": 109, "id": "vm16"}
{"failed_lemmas": ["OuterP.fill_outer2_correct"], "theorems_failed": ["C02_fill_outer_pixels", "C03_fill_enclosed_pixels", "C04_is_hollow_pixels_actual_partial"], "statement_broken": [], "secs": 100, "id": "vm17"}
{"failed_lemmas": ["VoxelP.fits_small", "VoxelP.fits_micro", "VoxelRefP.is_hollow_ref1"], "theorems_failed": ["C03_fill_enclosed_idempotent", "C03_fill_enclosed_pixels", "C03_fill_enclosed_voxels", "C04_is_hollow_pixels_actual_partial", "C04_is_hollow_refuted", "C04_is_hollow_voxels_actual_partial", "C05_difference_pixels_partial", "C05_difference_voxels_partial", "C05_intersection_pixels_partial", "C05_intersection_voxels_partial", "C05_is_intersecting_voxels_partial", "C05_symmetric_difference_pixels_partial", "C05_symmetric_difference_voxels_partial", "C05_union_pixels_partial", "C05_union_voxels_partial"], "statement_broken": [], "secs": 96, "id": "vm18"}
{"failed_lemmas": ["VoxelDisplayP.memb_toggle", "VoxelDisplayP.toggle_NoDup", "VoxelDisplayP.epars_toggle", "P_Voxel.C15_nonvacuous"], "theorems_failed": ["C15_boundary_faces", "C15_no_repetition", "C15_nonvacuous", "C15_only_faces", "C60_watertight"], "statement_broken": [], "secs": 91, "id": "vd1"}
{"failed_lemmas": ["VoxelDisplayP.parity_face", "VoxelDisplayP.to_triangles_faces", "VoxelDisplayP.epars_voxel"], "theorems_failed": ["C15_boundary_faces", "C15_only_faces", "C60_watertight"], "statement_broken": [], "secs": 173, "id": "vd2"}
{"failed_lemmas": ["VoxelDisplayP.corner_even", "P_Voxel.C15_nonvacuous"], "theorems_failed": ["C15_boundary_faces", "C15_nonvacuous", "C15_only_faces"], "statement_broken": [], "secs": 98, "id": "vd3"}
{"failed_lemmas": ["MeshP.merge_plain", "MeshP.mesh_or_ok"], "theorems_failed": ["C21_add", "C21_from_meshes", "C61_or_partial"], "statement_broken": [], "secs": 41, "id": "me1"}
{"failed_lemmas": ["MeshP.merge_plain", "MeshP.mesh_or_ok"], "theorems_failed": ["C21_add", "C21_from_meshes", "C61_or_partial"], "statement_broken": [], "secs": 42, "id": "me2"}
{"failed_lemmas": ["MeshP.merge_vertices_ok", "P_Mesh.C22_nonvacuous"], "theorems_failed": ["C22_merge_vertices", "C22_nonvacuous", "C24_split_then_merge", "C61_or_partial"], "statement_broken": [], "secs": 23, "id": "me3"}
{"failed_lemmas": ["MeshP.sort3_perm", "P_Mesh.C23_nonvacuous"], "theorems_failed": ["C23_merge_triangles", "C23_nonvacuous", "C61_or_partial"], "statement_broken": [], "secs": 19, "id": "me4"}
{"failed_lemmas": ["MeshP.split_ok"], "theorems_failed": ["C24_split", "C24_split_count", "C24_split_then_merge"], "statement_broken": [], "secs": 35, "id": "me5"}
{"failed_lemmas": [], "theorems_failed": [], "statement_broken": [], "secs": 18, "id": "me6"}
{"failed_lemmas": ["MeshP.edges_sides_count", "P_Mesh.C26_nonvacuous"], "theorems_failed": ["C26_mesh_border", "C26_nonvacuous"], "statement_broken": [], "secs": 38, "id": "me7"}
{"failed_lemmas": ["MeshP.border_ok", "P_Mesh.C26_nonvacuous"], "theorems_failed": ["C26_mesh_border", "C26_nonvacuous"], "statement_broken": [], "secs": 39, "id": "me8"}
{"failed_lemmas": ["MeshP.dict_roundtrip", "MeshP.dict_2d_refuted"], "theorems_failed": ["C27_dict_roundtrip_2d_refuted", "C27_dict_roundtrip_3d_partial"], "statement_broken": [], "secs": 55, "id": "me9"}
{"failed_lemmas": ["MeshP.merge_triangles_ok", "P_Mesh.C23_nonvacuous"], "theorems_failed": ["C23_merge_triangles", "C23_merge_triangles_idempotent", "C23_nonvacuous", "C61_or_partial"], "statement_broken": [], "secs": 37, "id": "me10"}
{"failed_lemmas": ["MeshP.mesh_or_ok"], "theorems_failed": ["C61_or_partial"], "statement_broken": [], "secs": 38, "id": "me11"}
{"failed_lemmas": ["MeshP.from_meshes_plain"], "theorems_failed": ["C21_from_meshes"], "statement_broken": [], "secs": 23, "id": "me12"}
{"failed_lemmas": ["MeshP.cmp_row_eq", "P_Mesh.C22_nonvacuous", "P_Mesh.C23_nonvacuous", "P_Mesh.C26_nonvacuous"], "theorems_failed": ["C22_merge_vertices", "C22_nonvacuous", "C23_merge_triangles", "C23_merge_triangles_idempotent", "C23_nonvacuous", "C24_split_then_merge", "C26_mesh_border", "C26_nonvacuous", "C61_or_partial"], "statement_broken": [], "secs": 20, "id": "me13"}
{"failed_lemmas": ["MeshGeomP.remove_degenerate_spec"], "theorems_failed": ["C25_remove_degenerate", "C25_remove_degenerate_default", "C74_remove_degenerate_keeps_area", "C75_all_proper_triangles_refuted", "C75_exported_triangles_partial"], "statement_broken": [], "secs": 5, "id": "mg1"}
{"failed_lemmas": ["MeshGeomP.remove_large_spec"], "theorems_failed": ["C25_remove_large"], "statement_broken": [], "secs": 5, "id": "mg2"}
{"failed_lemmas": ["MeshGeomP.mesh_area_spec"], "theorems_failed": ["C74_area_is_sum_of_triangle_areas", "C74_concatenation_adds_areas", "C74_remove_degenerate_keeps_area", "C74_resize_area"], "statement_broken": [], "secs": 6, "id": "mg3"}
{"failed_lemmas": ["MeshGeomP.tri_cross_area"], "theorems_failed": ["C74_area_is_sum_of_triangle_areas", "C74_concatenation_adds_areas", "C74_remove_degenerate_keeps_area", "C74_resize_area"], "statement_broken": [], "secs": 6, "id": "mg4"}
{"failed_lemmas": ["MeshGeomP.minimum_distance_spec"], "theorems_failed": ["C76_minimum_distance_of_vertices"], "statement_broken": [], "secs": 8, "id": "mg5"}
{"failed_lemmas": ["MeshGeomP.resize_shape"], "theorems_failed": ["C74_resize_area", "C74_resize_scales_every_triangle"], "statement_broken": [], "secs": 7, "id": "mg6"}
{"failed_lemmas": ["MeshGeomP.to_triangles3d_spec"], "theorems_failed": ["C75_all_proper_triangles_refuted", "C75_exported_triangles_partial"], "statement_broken": [], "secs": 8, "id": "mg7"}
