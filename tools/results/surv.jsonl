{"failed_lemmas": ["MeshP2.check_consistency_spec"], "theorems_failed": ["C91_check_consistency", "C91_check_consistency_partial"], "statement_broken": [], "secs": 14, "id": "me6"}
{"failed_lemmas": ["LineP.x_rotation_neg", "LineP.y_rotation_neg", "LineP.z_rotation_neg", "LineP.x_rotation_wrong", "LineP.rotation3_nonunit", "VecP2.cross3_frame", "VecP2.cross3_triple", "VecP2.cross2_z", "P_Vec.C55_nonvacuous", "P_Vec.C72_nonvacuous"], "theorems_failed": ["C54_cross2", "C54_cross3_determinant", "C54_cross3_right_handed", "C55_nonvacuous", "C55_rotation3_nonunit_refuted", "C55_x_rotation_refuted", "C55_x_rotation_sense", "C55_y_rotation_sense", "C55_z_rotation_sense", "C72_nonvacuous"], "statement_broken": [], "secs": 35, "id": "ve1"}
{"failed_lemmas": ["LineP.normal2_perp", "LineP.line_intersection_some", "LineP.line_intersection_none", "LineP.line_intersection_unique", "VecP2.cross2_z", "VecP2.cross2_frame", "VecP2.rotation2_sense", "P_Vec.C63_nonvacuous"], "theorems_failed": ["C54_cross2", "C54_cross2_sign", "C54_normal_vector2", "C54_unit_normal_vector2", "C55_rotation2_angle", "C63_line_intersection_found", "C63_line_intersection_parallel", "C63_line_intersection_unique", "C63_nonvacuous", "C63_segment_intersection_complete", "C63_segment_intersection_partial"], "statement_broken": [], "secs": 45, "id": "ve2"}
{"failed_lemmas": ["VecP2.div2_spec"], "theorems_failed": ["C54_division2"], "statement_broken": [], "secs": 22, "id": "ve7"}
{"failed_lemmas": ["VecP2.group2"], "theorems_failed": ["C54_group_laws2"], "statement_broken": [], "secs": 24, "id": "ve8"}
{"failed_lemmas": ["VecP2.perpendicular_spec"], "theorems_failed": ["C54_perpendicular"], "statement_broken": [], "secs": 28, "id": "ve9"}
{"failed_lemmas": ["VecP2.rotation2_sense"], "theorems_failed": ["C55_rotation2_angle"], "statement_broken": [], "secs": 24, "id": "ve13"}
{"failed_lemmas": ["VecP2.translation2_exact"], "theorems_failed": ["C55_translation2_vector"], "statement_broken": [], "secs": 23, "id": "ve17"}
{"failed_lemmas": ["VecP2.translation3_exact"], "theorems_failed": ["C55_translation3_vector"], "statement_broken": [], "secs": 28, "id": "ve18"}
{"failed_lemmas": ["VecP2.line_abscissa_point", "VecP2.line_abscissa_projection"], "theorems_failed": ["C67_abscissa_of_projection", "C67_point_at_abscissa"], "statement_broken": [], "secs": 30, "id": "ve30"}
{"failed_lemmas": ["VecP2.line_abscissa_point", "VecP2.line_abscissa_projection"], "theorems_failed": ["C67_abscissa_of_projection", "C67_point_at_abscissa"], "statement_broken": [], "secs": 32, "id": "ve31"}
{"failed_lemmas": ["VecP2.min_lines_on", "VecP2.min_lines_parallel_wrong"], "theorems_failed": ["C66_parallel_lines_refuted", "C66_points_on_lines"], "statement_broken": [], "secs": 33, "id": "ve37"}
{"failed_lemmas": ["VecP2.unit_normal2_spec"], "theorems_failed": ["C54_unit_normal_vector2"], "statement_broken": [], "secs": 25, "id": "ve47"}
{"failed_lemmas": ["FrameP.mmul33_scale", "FrameP.det33_scale", "FrameP2.float_mul33_apply"], "theorems_failed": ["C57_scalar33", "C57_scalar33_determinant"], "statement_broken": [], "secs": 134, "id": "fr5"}
{"failed_lemmas": ["FrameP2.madd22_apply"], "theorems_failed": ["C57_sum22"], "statement_broken": [], "secs": 141, "id": "fr6"}
