{"failed_lemmas": ["FrameP2.frame3_mapping_roundtrip"], "theorems_failed": ["C56_frame3_mapping_roundtrip"], "statement_broken": [], "secs": 205, "id": "fr13"}
{"failed_lemmas": ["FrameP2.frame3_mapping_roundtrip", "FrameP2.frame3_mapping_old_points"], "theorems_failed": ["C56_frame3_mapping_points", "C56_frame3_mapping_roundtrip"], "statement_broken": [], "secs": 254, "id": "fr14"}
{"failed_lemmas": ["FrameP2.frame3_rotation_points", "FrameP2.frame3_rotation_close"], "theorems_failed": ["C56_frame3_rotation", "C56_frame3_rotation_about_origin"], "statement_broken": [], "secs": 56, "id": "fr15"}
{"failed_lemmas": ["FrameP2.frame2_rotation_keep"], "theorems_failed": ["C56_frame2_rotation_origin_only"], "statement_broken": [], "secs": 233, "id": "fr17"}
{"failed_lemmas": ["FrameP2.frame_from_step_ref"], "theorems_failed": ["C62_from_step_ref_only"], "statement_broken": [], "secs": 264, "id": "fr23"}
{"failed_lemmas": ["PolygonP2.com_small"], "theorems_failed": ["C69_center_of_mass_small"], "statement_broken": [], "secs": 28, "id": "po9"}
{"failed_lemmas": ["PolygonP2.barycenter_spec"], "theorems_failed": ["C69_barycenter_mean"], "statement_broken": [], "secs": 29, "id": "po14"}
{"failed_lemmas": ["PolygonP2.incircle_spec"], "theorems_failed": ["C90_incircle"], "statement_broken": [], "secs": 29, "id": "po18"}
{"failed_lemmas": ["PolygonP2.circumcircle_spec"], "theorems_failed": ["C90_circumcircle"], "statement_broken": [], "secs": 27, "id": "po19"}
{"failed_lemmas": ["BBox3P.rect_center_spec"], "theorems_failed": ["C73_rectangle_center"], "statement_broken": [], "secs": 17, "id": "bb2"}
{"failed_lemmas": ["BBox3P.rect_points_area", "BBox3P.rect_points_corners"], "theorems_failed": ["C73_rectangle_bounding_points", "C73_rectangle_bounding_points_area"], "statement_broken": [], "secs": 26, "id": "bb3"}
{"failed_lemmas": ["BBox3P.bbox_points_corners"], "theorems_failed": ["C73_box_corner_points"], "statement_broken": [], "secs": 16, "id": "bb31"}
{"failed_lemmas": [], "theorems_failed": [], "statement_broken": [], "secs": 9, "id": "ge15"}
{"failed_lemmas": ["StepLineP.context_units"], "theorems_failed": ["C53_the_context_assigns_the_three_units"], "statement_broken": [], "secs": 94, "id": "sw14"}
{"failed_lemmas": ["StepLineP.render_statement"], "theorems_failed": ["C80_the_file_has_one_statement_per_line"], "statement_broken": [], "secs": 93, "id": "sw29"}
{"failed_lemmas": ["OctreeP7.increment_err"], "theorems_failed": ["C10_a_shallower_tree_off_the_origin_is_rejected"], "statement_broken": [], "secs": 27, "id": "oc11"}
{"failed_lemmas": ["SatP6.sat_axes"], "theorems_failed": ["C18_the_separating_axis_test_needs_the_nine_edge_axes"], "statement_broken": [], "secs": 39, "id": "sa4"}
{"failed_lemmas": ["SatP5.point_in_triangle_iff"], "theorems_failed": ["C114_a_pixel_corner_inside_is_reported", "C114_a_pixel_corner_reported_inside_is_in_the_triangle", "C114_a_reported_triangle_meets_the_enlarged_pixel", "C114_a_triangle_meeting_the_pixel_is_reported", "C114_a_triangle_of_a_face_is_reported"], "statement_broken": [], "secs": 50, "id": "sa8"}
{"failed_lemmas": ["SatP5.point_in_pixel_iff"], "theorems_failed": ["C114_a_reported_triangle_meets_the_enlarged_pixel", "C114_a_triangle_meeting_the_pixel_is_reported", "C114_a_triangle_of_a_face_is_reported"], "statement_broken": [], "secs": 54, "id": "sa9"}
{"failed_lemmas": ["LineP.plane_projection3d_spec", "P_Vec.C72_nonvacuous"], "theorems_failed": ["C72_nonvacuous", "C72_plane_projection", "C72_plane_projection2d_partial", "C72_plane_projection_minimal"], "statement_broken": [], "secs": 42, "id": "ve39"}
{"failed_lemmas": ["LineP.to_2d_3d", "LineP.to_3d_2d", "LineP.plane_projection2d_to_2d"], "theorems_failed": ["C72_plane_projection2d_partial", "C72_to_2d_then_to_3d", "C72_to_3d_then_to_2d"], "statement_broken": [], "secs": 41, "id": "ve40"}
{"failed_lemmas": ["FrameP2.frame3_translation_points"], "theorems_failed": ["C56_frame3_translation"], "statement_broken": [], "secs": 148, "id": "fr16"}
{"failed_lemmas": ["PolyAreaP.area_rotation", "PolygonP2.polygon_rotation_points"], "theorems_failed": ["C58_area_rotation", "C58_rotation_points"], "statement_broken": [], "secs": 29, "id": "po17"}
{"failed_lemmas": [], "statement_broken": [], "timeout": ["theories/Proofs/VoxelizeP6"], "tail": "COQDEP VFILES\nCOQC theories/Model/Voxelize.v\nCOQC theories/Proofs/VoxelizeP2.v\nCOQC theories/Proofs/VoxelizeP3.v\nCOQC theories/Proofs/VoxelizeP4.v\nCOQC theories/Proofs/VoxelizeP5.v\nCOQC theories/Proofs/VoxelizeP6.v\nmake: *** [Makefile:793: theories/Proofs/VoxelizeP6.vo] Error 124\nmake: Target 'theories/Props/P_Sat.vo' not remade because of errors.\n", "id": "vo3"}
