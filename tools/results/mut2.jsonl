{"failed_lemmas": ["LineP.x_rotation_neg", "LineP.y_rotation_neg", "LineP.z_rotation_neg", "LineP.x_rotation_wrong", "LineP.rotation3_nonunit", "P_Vec.C55_nonvacuous", "P_Vec.C72_nonvacuous"], "theorems_failed": ["C55_nonvacuous", "C55_rotation3_nonunit_refuted", "C55_x_rotation_refuted", "C55_x_rotation_sense", "C55_y_rotation_sense", "C55_z_rotation_sense", "C72_nonvacuous"], "statement_broken": [], "secs": 40, "id": "ve1"}
{"failed_lemmas": ["LineP.normal2_perp", "LineP.line_intersection_some", "LineP.line_intersection_none", "LineP.line_intersection_unique", "P_Vec.C63_nonvacuous"], "theorems_failed": ["C54_normal_vector2", "C63_line_intersection_found", "C63_line_intersection_parallel", "C63_line_intersection_unique", "C63_nonvacuous", "C63_segment_intersection_complete", "C63_segment_intersection_partial"], "statement_broken": [], "secs": 43, "id": "ve2"}
{"failed_lemmas": ["VecP.lagrange2", "VecP.norm2_dot", "VecP.norm2_sq", "VecP.dot2_zero", "VecP.rotation2_dist", "LineP.normal2_perp", "LineP.dist2_le", "LineP.line_projection2_same", "LineP.symmetry2_invol", "LineP.symmetry2_dist"], "theorems_failed": ["C54_cauchy2", "C54_distance2_triangle", "C54_distance2_zero", "C54_middle_point2", "C54_norm2_homogeneous", "C54_norm2_triangle", "C54_norm2_zero", "C54_normal_vector2", "C54_unit_vector2", "C54_unit_vector2_null", "C55_rotation2_isometry", "C55_translation2_isometry", "C64_distance2_minimal", "C64_distance2_total", "C67_line_projection_agrees", "C67_nonvacuous", "C67_projection2", "C67_projection2_total", "C67_symmetry", "C67_symmetry_involutive", "C67_symmetry_isometry", "C68_in_list2"], "statement_broken": [], "secs": 60, "id": "ve3"}
{"failed_lemmas": ["VecP.unit3_ok"], "theorems_failed": ["C54_nonvacuous", "C54_unit_vector3", "C72_nonvacuous", "C72_plane_projection", "C72_plane_projection2d_partial", "C72_plane_projection_error", "C72_plane_projection_minimal"], "statement_broken": [], "secs": 30, "id": "ve4"}
{"failed_lemmas": ["VecP.dot2_add_l", "VecP.norm2_triangle", "VecP.dist2_triangle", "VecP.middle2", "LineP.plane_projection2d_to_2d", "LineP.line_intersection_some", "LineP.at_param_on", "LineP.segment_intersection_complete", "LineP.point_projection2_spec", "LineP.line_projection2_same", "LineP.symmetry2_spec", "LineP.symmetry2_invol", "LineP.symmetry2_dist", "LineP.segdist2_spec", "P_Vec.C63_nonvacuous"], "theorems_failed": ["C54_distance2_triangle", "C54_middle_point2", "C54_norm2_triangle", "C63_line_intersection_found", "C63_line_intersection_unique", "C63_nonvacuous", "C63_segment_intersection_complete", "C63_segment_intersection_partial", "C64_distance2_minimal", "C67_line_projection_agrees", "C67_projection2", "C67_symmetry", "C67_symmetry_involutive", "C67_symmetry_isometry", "C72_plane_projection2d_partial"], "statement_broken": [], "secs": 111, "id": "ve5"}
{"failed_lemmas": ["LineP.det_normal_perp", "LineP.det_normal_exists", "LineP.mean_point_spec"], "theorems_failed": ["C54_deterministic_normal", "C68_mean_point"], "statement_broken": [], "secs": 46, "id": "ve6"}
{"failed_lemmas": [], "theorems_failed": [], "statement_broken": [], "secs": 23, "id": "ve7"}
{"failed_lemmas": [], "theorems_failed": [], "statement_broken": [], "secs": 23, "id": "ve8"}
{"failed_lemmas": [], "theorems_failed": [], "statement_broken": [], "secs": 25, "id": "ve9"}
{"failed_lemmas": ["LineP.colinear_true", "LineP.colinear_sound"], "theorems_failed": ["C54_colinear_complete", "C54_colinear_sound"], "statement_broken": [], "secs": 40, "id": "ve10"}
{"failed_lemmas": ["VecP.rotation2_dist", "VecP.rotation2_compose", "VecP.rotation2_cross"], "theorems_failed": ["C55_rotation2_compose", "C55_rotation2_isometry", "C55_rotation2_orientation"], "statement_broken": [], "secs": 35, "id": "ve11"}
{"failed_lemmas": ["VecP.rotation2_center", "VecP.rotation2_compose", "VecP.rotation2_2pi", "VecP.rotation2_cross"], "theorems_failed": ["C55_rotation2_center", "C55_rotation2_compose", "C55_rotation2_full_turn", "C55_rotation2_orientation"], "statement_broken": [], "secs": 37, "id": "ve12"}
{"failed_lemmas": [], "theorems_failed": [], "statement_broken": [], "secs": 26, "id": "ve13"}
{"failed_lemmas": ["VecP.rotation3_rod", "LineP.rotation3_2pi", "LineP.rotation3_0", "LineP.rotation3_angle", "LineP.x_rotation_neg", "LineP.y_rotation_neg", "LineP.z_rotation_neg"], "theorems_failed": ["C55_nonvacuous", "C55_rotation3_angle", "C55_rotation3_axis", "C55_rotation3_compose", "C55_rotation3_full_turn", "C55_rotation3_isometry", "C55_rotation3_orientation", "C55_rotation3_zero", "C55_x_rotation_sense", "C55_y_rotation_sense", "C55_z_rotation_sense"], "statement_broken": [], "secs": 43, "id": "ve14"}
{"failed_lemmas": ["VecP.rotation3_rod", "LineP.rotation3_angle", "LineP.x_rotation_neg", "LineP.y_rotation_neg", "LineP.z_rotation_neg", "LineP.x_rotation_wrong", "LineP.rotation3_nonunit"], "theorems_failed": ["C55_nonvacuous", "C55_rotation3_angle", "C55_rotation3_axis", "C55_rotation3_compose", "C55_rotation3_isometry", "C55_rotation3_nonunit_refuted", "C55_rotation3_orientation", "C55_x_rotation_refuted", "C55_x_rotation_sense", "C55_y_rotation_sense", "C55_z_rotation_sense"], "statement_broken": [], "secs": 37, "id": "ve15"}
{"failed_lemmas": ["LineP.y_rotation_neg"], "theorems_failed": ["C55_y_rotation_sense"], "statement_broken": [], "secs": 29, "id": "ve16"}
{"failed_lemmas": [], "theorems_failed": [], "statement_broken": [], "secs": 29, "id": "ve17"}
{"failed_lemmas": [], "theorems_failed": [], "statement_broken": [], "secs": 22, "id": "ve18"}
{"failed_lemmas": ["VecP.middle3"], "theorems_failed": ["C54_middle_point3"], "statement_broken": [], "secs": 24, "id": "ve19"}
{"failed_lemmas": ["LineP.nearest3_none", "LineP.nearest3_spec"], "theorems_failed": ["C68_nearest_point3", "C68_nearest_point3_empty"], "statement_broken": [], "secs": 32, "id": "ve20"}
{"failed_lemmas": ["LineP.nearest2_spec"], "theorems_failed": ["C68_nearest_point2"], "statement_broken": [], "secs": 29, "id": "ve21"}
{"failed_lemmas": ["LineP.in_list3_spec"], "theorems_failed": ["C68_in_list3", "C68_nonvacuous"], "statement_broken": [], "secs": 30, "id": "ve22"}
{"failed_lemmas": ["LineP.in_list2_spec"], "theorems_failed": ["C68_in_list2"], "statement_broken": [], "secs": 30, "id": "ve23"}
{"failed_lemmas": ["LineP.mean_point_spec", "LineP.mean_point_total"], "theorems_failed": ["C68_mean_point", "C68_mean_point_total"], "statement_broken": [], "secs": 40, "id": "ve24"}
{"failed_lemmas": ["LineP.line_intersection_some", "LineP.segment_as_line"], "theorems_failed": ["C63_line_intersection_found", "C63_line_intersection_unique", "C63_nonvacuous", "C63_segment_intersection_complete", "C63_segment_intersection_partial"], "statement_broken": [], "secs": 46, "id": "ve25"}
{"failed_lemmas": ["LineP.segment_as_line", "LineP.segment_intersection_wrong"], "theorems_failed": ["C63_nonvacuous", "C63_segment_intersection_complete", "C63_segment_intersection_partial", "C63_segment_intersection_refuted"], "statement_broken": [], "secs": 45, "id": "ve26"}
{"failed_lemmas": ["LineP.point_projection3_spec"], "theorems_failed": ["C67_projection3"], "statement_broken": [], "secs": 38, "id": "ve27"}
{"failed_lemmas": ["LineP.line_projection2_same"], "theorems_failed": ["C67_line_projection_agrees"], "statement_broken": [], "secs": 32, "id": "ve28"}
{"failed_lemmas": ["LineP.symmetry2_spec"], "theorems_failed": ["C67_symmetry"], "statement_broken": [], "secs": 38, "id": "ve29"}
{"failed_lemmas": [], "theorems_failed": [], "statement_broken": [], "secs": 31, "id": "ve30"}
{"failed_lemmas": [], "theorems_failed": [], "statement_broken": [], "secs": 30, "id": "ve31"}
{"failed_lemmas": ["LineP.segdist3_spec"], "theorems_failed": ["C64_distance3_minimal"], "statement_broken": [], "secs": 43, "id": "ve32"}
{"failed_lemmas": ["LineP.segdist2_spec"], "theorems_failed": ["C64_distance2_minimal"], "statement_broken": [], "secs": 40, "id": "ve33"}
{"failed_lemmas": ["LineP.segseg_on", "LineP.segseg_wrong"], "theorems_failed": ["C65_minimal_distance_refuted", "C65_points_on_segments_partial"], "statement_broken": [], "secs": 56, "id": "ve34"}
{"failed_lemmas": ["LineP.cdist_range"], "theorems_failed": ["C65_points_on_segments_partial"], "statement_broken": [], "secs": 36, "id": "ve35"}
{"failed_lemmas": ["LineP.min_lines_cross"], "theorems_failed": ["C66_lines_minimal"], "statement_broken": [], "secs": 34, "id": "ve36"}
{"failed_lemmas": [], "theorems_failed": [], "statement_broken": [], "secs": 20, "id": "ve37"}
{"failed_lemmas": ["P_Vec.C66_nonvacuous"], "theorems_failed": ["C66_nonvacuous"], "statement_broken": [], "secs": 27, "id": "ve38"}
{"failed_lemmas": [], "statement_broken": ["theories/Model/Vec.v:74"], "timeout": [], "tail": "COQDEP VFILES\nCOQC theories/Model/Vec.v\nFile \"./theories/Model/Vec.v\", line 74, characters 0-121:\nError:\nThe following term contains unresolved implicit arguments:\n  (forall p : vec3, ?T -> vec3 -> vec3 -> res vec3)\nMore precisely: \n- ?T: Cannot infer the type of o in environment:\n  p : vec3\n\nmake: *** [Makefile:793: theories/Model/Vec.vo] Error 1\nmake: Target 'theories/Props/P_Vec.vo' not remade because of errors.\n", "id": "ve39"}
{"failed_lemmas": [], "statement_broken": ["theories/Model/Vec.v:78"], "timeout": [], "tail": "COQDEP VFILES\nCOQC theories/Model/Vec.v\nFile \"./theories/Model/Vec.v\", line 78, characters 0-53:\nError:\nThe following term contains unresolved implicit arguments:\n  (fun (p : vec3) (_ : ?T) (x y : vec3) =>\n   {| x2 := dot3 p x; y2 := dot3 p y |})\nMore precisely: \n- ?T: Cannot infer the type of o in environment:\n  p : vec3\n\nmake: *** [Makefile:793: theories/Model/Vec.vo] Error 1\nmake: Target 'theories/Props/P_Vec.vo' not remade because of errors.\n", "id": "ve40"}
{"failed_lemmas": ["LineP.to_2d_3d", "LineP.to_3d_2d"], "theorems_failed": ["C72_to_2d_then_to_3d", "C72_to_3d_then_to_2d"], "statement_broken": [], "secs": 32, "id": "ve41"}
{"failed_lemmas": ["LineP.det_normal_perp", "LineP.det_normal_exists", "LineP.det_normal_tiny"], "theorems_failed": ["C54_deterministic_normal", "C54_deterministic_normal_refuted"], "statement_broken": [], "secs": 40, "id": "ve42"}
{"failed_lemmas": ["LineP.vector_projection_spec"], "theorems_failed": ["C54_vector_projection"], "statement_broken": [], "secs": 33, "id": "ve43"}
{"failed_lemmas": ["VecP.dist2_zero", "VecP.dist2_triangle", "VecP.middle2", "VecP.rotation2_dist", "VecP.translation2_dist", "LineP.dist2_le", "LineP.point_projection2_spec", "LineP.proj_total2", "LineP.symmetry2_dist", "LineP.segdist2_spec", "LineP.segdist2_total"], "theorems_failed": ["C54_distance2_triangle", "C54_distance2_zero", "C54_middle_point2", "C55_rotation2_isometry", "C55_translation2_isometry", "C64_distance2_minimal", "C64_distance2_total", "C67_nonvacuous", "C67_projection2", "C67_projection2_total", "C67_symmetry", "C67_symmetry_isometry", "C68_in_list2"], "statement_broken": [], "secs": 101, "id": "ve44"}
{"failed_lemmas": ["VecP.is_close3_spec"], "theorems_failed": ["C54_is_close3"], "statement_broken": [], "secs": 28, "id": "ve45"}
{"failed_lemmas": ["LineP.plane_projection2d_to_2d"], "theorems_failed": ["C72_plane_projection2d_partial"], "statement_broken": [], "secs": 29, "id": "ve46"}
{"failed_lemmas": [], "theorems_failed": [], "statement_broken": [], "secs": 20, "id": "ve47"}
{"failed_lemmas": ["FrameP.mmul33_assoc", "FrameP.mmul33_id", "FrameP.det33_mul", "FrameP.inverse33_ok", "FrameP.mapply_mul", "FrameP.direct_inverse"], "theorems_failed": ["C56_basis3_global_local_global", "C56_basis3_local_global_local", "C56_basis3_neg", "C56_basis3_sub_add", "C56_direct_frame_roundtrip", "C56_direct_inverse_is_transpose", "C56_direct_local_coordinates", "C56_frame3_composition", "C56_frame3_global_local_global", "C56_frame3_local_global_local", "C56_frame3_neg_refuted", "C56_frame3_sub_add", "C57_determinant33_multiplicative", "C57_identity33", "C57_inverse33", "C57_product33_associative"], "statement_broken": [], "secs": 55, "id": "fr1"}
{"failed_lemmas": ["FrameP.inverse22_ok"], "theorems_failed": ["C56_basis2_global_local_global", "C56_basis2_local_global_local", "C56_frame2_global_local_global", "C56_frame2_local_global_local", "C56_frame2_mapping_roundtrip", "C57_inverse22"], "statement_broken": [], "secs": 43, "id": "fr2"}
{"failed_lemmas": ["FrameP.inverse33_ok"], "theorems_failed": ["C56_basis3_global_local_global", "C56_basis3_local_global_local", "C56_basis3_neg", "C56_basis3_sub_add", "C56_direct_frame_roundtrip", "C56_direct_inverse_is_transpose", "C56_direct_local_coordinates", "C56_frame3_global_local_global", "C56_frame3_local_global_local", "C56_frame3_neg_refuted", "C56_frame3_sub_add", "C57_inverse33"], "statement_broken": [], "secs": 38, "id": "fr3"}
{"failed_lemmas": ["FrameP.mvec33_snap"], "theorems_failed": ["C56_basis3_global_local_global", "C56_basis3_local_global_local", "C56_direct_frame_roundtrip", "C56_direct_local_coordinates", "C56_frame3_composition", "C56_frame3_global_local_global", "C56_frame3_local_global_local", "C56_frame3_sub_add", "C57_apply33"], "statement_broken": [], "secs": 44, "id": "fr4"}
{"failed_lemmas": ["FrameP.mmul33_scale", "FrameP.det33_scale"], "theorems_failed": [], "statement_broken": [], "secs": 44, "id": "fr5"}
{"failed_lemmas": [], "theorems_failed": [], "statement_broken": [], "secs": 34, "id": "fr6"}
{"failed_lemmas": ["FrameP.det33_mul", "FrameP.inverse33_ok", "FrameP.direct_det"], "theorems_failed": ["C56_basis3_global_local_global", "C56_basis3_local_global_local", "C56_basis3_neg", "C56_basis3_sub_add", "C56_direct_frame_roundtrip", "C56_direct_inverse_is_transpose", "C56_direct_local_coordinates", "C56_frame3_global_local_global", "C56_frame3_local_global_local", "C56_frame3_neg_refuted", "C56_frame3_sub_add", "C57_determinant33_multiplicative", "C57_inverse33"], "statement_broken": [], "secs": 41, "id": "fr7"}
{"failed_lemmas": ["FrameP.inverse33_ok", "FrameP.inverse33_err", "FrameP.inverse33_total"], "theorems_failed": ["C56_basis3_global_local_global", "C56_basis3_local_global_local", "C56_basis3_neg", "C56_basis3_sub_add", "C56_direct_frame_roundtrip", "C56_direct_inverse_is_transpose", "C56_direct_local_coordinates", "C56_frame3_global_local_global", "C56_frame3_local_global_local", "C56_frame3_neg_refuted", "C56_frame3_sub_add", "C57_inverse33", "C57_inverse33_error", "C57_inverse33_total", "C57_small_scale_refuted"], "statement_broken": [], "secs": 42, "id": "fr8"}
{"failed_lemmas": ["FrameP.frame2_g2l_l2g", "FrameP.frame2_l2g_g2l"], "theorems_failed": ["C56_frame2_global_local_global", "C56_frame2_local_global_local", "C56_frame2_mapping_roundtrip"], "statement_broken": [], "secs": 46, "id": "fr9"}
{"failed_lemmas": ["FrameP.frame3_roundtrip_gl", "FrameP.frame3_roundtrip_lg", "FrameP.direct_g2l"], "theorems_failed": ["C56_direct_frame_roundtrip", "C56_direct_local_coordinates", "C56_frame3_global_local_global", "C56_frame3_local_global_local"], "statement_broken": [], "secs": 50, "id": "fr10"}
{"failed_lemmas": ["FrameP.direct_inverse", "FrameP.direct_g2l", "FrameP.transfer_of_matrix", "FrameP.basis_of_transfer"], "theorems_failed": ["C56_basis3_neg", "C56_basis3_sub_add", "C56_direct_frame_roundtrip", "C56_direct_inverse_is_transpose", "C56_direct_local_coordinates", "C56_frame3_composition", "C56_frame3_neg_refuted", "C56_frame3_sub_add"], "statement_broken": [], "secs": 51, "id": "fr11"}
{"failed_lemmas": ["FrameP.transfer_of_mat2", "FrameP.frame2_mapping_old_points", "FrameP.frame2_rotation_points"], "theorems_failed": ["C56_frame2_composition", "C56_frame2_mapping_points", "C56_frame2_rotation"], "statement_broken": [], "secs": 40, "id": "fr12"}
{"failed_lemmas": [], "theorems_failed": [], "statement_broken": [], "secs": 27, "id": "fr13"}
{"failed_lemmas": [], "theorems_failed": [], "statement_broken": [], "secs": 33, "id": "fr14"}
{"failed_lemmas": [], "theorems_failed": [], "statement_broken": [], "secs": 28, "id": "fr15"}
{"failed_lemmas": [], "statement_broken": ["theories/Model/Frame.v:144"], "timeout": [], "tail": "COQDEP VFILES\nCOQC theories/Model/Frame.v\nFile \"./theories/Model/Frame.v\", line 144, characters 0-57:\nError:\nThe following term contains unresolved implicit arguments:\n  (fun (f : frame3) (_ : ?T) => {| org3 := org3 f; fb3 := fb3 f |})\nMore precisely: \n- ?T: Cannot infer the type of o in environment:\n  f : frame3\n\nmake: *** [Makefile:793: theories/Model/Frame.vo] Error 1\nmake: Target 'theories/Props/P_Frame.vo' not remade because of errors.\n", "id": "fr16"}
{"failed_lemmas": [], "theorems_failed": [], "statement_broken": [], "secs": 31, "id": "fr17"}
{"failed_lemmas": ["FrameP.frame3_sub_add"], "theorems_failed": ["C56_frame3_sub_add"], "statement_broken": [], "secs": 39, "id": "fr18"}
{"failed_lemmas": ["FrameP.frame3_add_l2g", "FrameP.frame3_sub_add", "FrameP.frame3_neg_wrong"], "theorems_failed": ["C56_frame3_composition", "C56_frame3_neg_refuted", "C56_frame3_sub_add"], "statement_broken": [], "secs": 48, "id": "fr19"}
{"failed_lemmas": ["FrameP.from_two_vectors_ok"], "theorems_failed": ["C62_from_two_vectors"], "statement_broken": [], "secs": 34, "id": "fr20"}
{"failed_lemmas": ["FrameP.from_3_points_ok"], "theorems_failed": ["C62_from_3_points"], "statement_broken": [], "secs": 36, "id": "fr21"}
{"failed_lemmas": ["FrameP.from_point_and_normal_ok"], "theorems_failed": ["C62_from_point_and_normal"], "statement_broken": [], "secs": 38, "id": "fr22"}
{"failed_lemmas": [], "theorems_failed": [], "statement_broken": [], "secs": 32, "id": "fr23"}
{"failed_lemmas": ["FrameP.frame_from_step_ok"], "theorems_failed": ["C62_from_step"], "statement_broken": [], "secs": 40, "id": "fr24"}
{"failed_lemmas": ["FrameP.from_point_and_vector_ok"], "theorems_failed": ["C62_from_point_and_vector"], "statement_broken": [], "secs": 52, "id": "fr25"}
{"failed_lemmas": ["FrameP.euler_direct"], "theorems_failed": ["C62_euler_direct"], "statement_broken": [], "secs": 53, "id": "fr26"}
{"failed_lemmas": ["FrameP.euler_direct"], "theorems_failed": ["C62_euler_direct"], "statement_broken": [], "secs": 50, "id": "fr27"}
{"failed_lemmas": ["FrameP.is_orthonormal_complete"], "theorems_failed": ["C62_is_orthonormal_complete"], "statement_broken": [], "secs": 59, "id": "fr28"}
{"failed_lemmas": ["FrameP.frame2_rotation_points"], "theorems_failed": ["C56_frame2_rotation"], "statement_broken": [], "secs": 38, "id": "fr29"}
{"failed_lemmas": ["FrameP.frame2_add_l2g"], "theorems_failed": ["C56_frame2_composition"], "statement_broken": [], "secs": 38, "id": "fr30"}
{"failed_lemmas": ["FrameP.basis3_add_sub"], "theorems_failed": ["C56_basis3_sub_add"], "statement_broken": [], "secs": 43, "id": "fr31"}
