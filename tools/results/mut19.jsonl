{"failed_lemmas": ["HypParaP3.hyp_eq_iff"], "theorems_failed": ["C304_equality_refuted", "C304_when_two_hyperbolas_are_equal"], "statement_broken": [], "secs": 17, "id": "hy1"}
{"failed_lemmas": ["HypParaP.hyp_x_sq", "HypParaP2.hyp_derivative"], "theorems_failed": ["C297_points_in_space", "C297_points_in_the_plane", "C297_points_without_bounds", "C302_in_space", "C302_in_the_standard_frame", "C302_the_derivative", "C303_in_other_frames_refuted"], "statement_broken": [], "secs": 15, "id": "hy2"}
{"failed_lemmas": ["HypParaP.hyp_x_sq", "HypParaP2.hyp_derivative"], "theorems_failed": ["C297_points_in_space", "C297_points_in_the_plane", "C297_points_without_bounds", "C302_in_space", "C302_in_the_standard_frame", "C302_the_derivative", "C303_in_other_frames_refuted"], "statement_broken": [], "secs": 13, "id": "hy3"}
{"failed_lemmas": ["HypParaP.points2_ok", "HypParaP.points2_one_bound", "HypParaP2.par_points_ok", "HypParaP3.points3_ok", "HypParaP3.par_points3_ok"], "theorems_failed": ["C297_only_one_bound", "C297_points_in_space", "C297_points_in_the_plane", "C305_points_in_space", "C305_points_in_the_plane"], "statement_broken": [], "secs": 19, "id": "hy4"}
{"failed_lemmas": ["HypParaP.points2_ok", "HypParaP2.par_points_ok", "HypParaP3.points3_ok", "HypParaP3.par_points3_ok"], "theorems_failed": ["C297_points_in_space", "C297_points_in_the_plane", "C305_points_in_space", "C305_points_in_the_plane"], "statement_broken": [], "secs": 20, "id": "hy5"}
{"failed_lemmas": ["HypParaP.points2_ok", "HypParaP.points2_default"], "theorems_failed": ["C297_points_in_the_plane", "C297_points_without_bounds"], "statement_broken": [], "secs": 17, "id": "hy6"}
{"failed_lemmas": ["HypParaP3.points3_ok"], "theorems_failed": ["C297_points_in_space"], "statement_broken": [], "secs": 13, "id": "hy7"}
{"failed_lemmas": ["HypParaP3.belongs2_value"], "theorems_failed": ["C298_minor_axis_one", "C298_points_of_the_plane_refuted"], "statement_broken": [], "secs": 15, "id": "hy8"}
{"failed_lemmas": ["HypParaP3.hyp3_accepts"], "theorems_failed": ["C299_points_of_a_hyperbola_in_space", "C299_points_over_the_plane_refuted"], "statement_broken": [], "secs": 13, "id": "hy9"}
{"failed_lemmas": ["HypParaP2.hyp_derivative"], "theorems_failed": ["C302_in_space", "C302_in_the_standard_frame", "C302_the_derivative", "C303_in_other_frames_refuted"], "statement_broken": [], "secs": 15, "id": "hy10"}
{"failed_lemmas": ["HypParaP2.hyp_derivative"], "theorems_failed": ["C302_in_space", "C302_in_the_standard_frame", "C302_the_derivative", "C303_in_other_frames_refuted"], "statement_broken": [], "secs": 15, "id": "hy11"}
{"failed_lemmas": ["HypParaP2.hyp_tangent_ok"], "theorems_failed": ["C302_in_space", "C302_in_the_standard_frame"], "statement_broken": [], "secs": 15, "id": "hy12"}
{"failed_lemmas": ["HypParaP2.hyp_tangent_ok", "HypParaP3.tangent2_refuted"], "theorems_failed": ["C302_in_space", "C302_in_the_standard_frame", "C303_in_other_frames_refuted"], "statement_broken": [], "secs": 21, "id": "hy13"}
{"failed_lemmas": ["HypParaP.hyp_line_ok"], "theorems_failed": ["C300_the_common_points"], "statement_broken": [], "secs": 14, "id": "hy14"}
{"failed_lemmas": ["HypParaP.hyp_line_ok"], "theorems_failed": ["C300_the_common_points"], "statement_broken": [], "secs": 16, "id": "hy15"}
{"failed_lemmas": ["HypParaP.hyp_line_ok"], "theorems_failed": ["C300_the_common_points"], "statement_broken": [], "secs": 16, "id": "hy16"}
{"failed_lemmas": ["HypParaP.hyp_line_ok"], "theorems_failed": ["C300_the_common_points"], "statement_broken": [], "secs": 15, "id": "hy17"}
{"failed_lemmas": ["HypParaP.hyp_line_ok"], "theorems_failed": ["C300_the_common_points"], "statement_broken": [], "secs": 15, "id": "hy18"}
{"failed_lemmas": ["HypParaP.hyp_line_ok"], "theorems_failed": ["C300_the_common_points"], "statement_broken": [], "secs": 16, "id": "hy19"}
{"failed_lemmas": ["HypParaP3.own_frame_std"], "theorems_failed": ["C302_in_space", "C308_in_space"], "statement_broken": [], "secs": 18, "id": "hy20"}
{"failed_lemmas": ["HypParaP3.planar_tangent_ok"], "theorems_failed": ["C302_in_space", "C308_in_space"], "statement_broken": [], "secs": 18, "id": "hy21"}
{"failed_lemmas": ["HypParaP2.par_derivative", "HypParaP2.par_points_ok", "HypParaP3.par_points3_ok"], "theorems_failed": ["C305_points_in_space", "C305_points_in_the_plane", "C308_in_space", "C308_in_the_plane", "C308_the_derivative"], "statement_broken": [], "secs": 23, "id": "hy22"}
{"failed_lemmas": ["HypParaP2.par_derivative", "HypParaP2.par_iff", "HypParaP2.par_points_ok", "HypParaP2.par_line_ok", "HypParaP2.trim_ok", "HypParaP3.par3_accepts", "HypParaP3.tangent_line_local", "HypParaP3.trim_example"], "theorems_failed": ["C297_nonvacuous", "C299_points_of_a_parabola_in_space", "C299_points_over_the_plane_refuted", "C301_common_points_lost_refuted", "C305_nonvacuous", "C305_points_in_the_plane", "C305_points_that_belong", "C306_the_common_points", "C307_tangent_lines", "C307_the_point_of_a_tangent_line_refuted", "C308_in_space", "C308_in_the_plane", "C308_the_derivative", "C309_nonvacuous", "C309_the_arc_is_a_bezier_curve"], "statement_broken": [], "secs": 38, "id": "hy23"}
{"failed_lemmas": ["HypParaP2.par_points_ok"], "theorems_failed": ["C305_points_in_the_plane"], "statement_broken": [], "secs": 14, "id": "hy24"}
{"failed_lemmas": ["HypParaP3.par_points3_ok"], "theorems_failed": ["C305_points_in_space"], "statement_broken": [], "secs": 16, "id": "hy25"}
{"failed_lemmas": ["HypParaP2.par_belongs"], "theorems_failed": ["C305_points_that_belong"], "statement_broken": [], "secs": 14, "id": "hy26"}
{"failed_lemmas": ["HypParaP3.par3_accepts", "HypParaP3.belongs3_ignores_height"], "theorems_failed": ["C299_points_of_a_parabola_in_space", "C299_points_over_the_plane_refuted", "C299_the_height_over_the_plane"], "statement_broken": [], "secs": 17, "id": "hy27"}
{"failed_lemmas": ["HypParaP2.par_line_ok", "HypParaP3.tangent_line_local"], "theorems_failed": ["C306_the_common_points", "C307_tangent_lines", "C307_the_point_of_a_tangent_line_refuted"], "statement_broken": [], "secs": 19, "id": "hy28"}
{"failed_lemmas": ["HypParaP2.par_line_ok"], "theorems_failed": ["C306_the_common_points"], "statement_broken": [], "secs": 15, "id": "hy29"}
{"failed_lemmas": ["HypParaP2.par_line_ok"], "theorems_failed": ["C306_the_common_points"], "statement_broken": [], "secs": 14, "id": "hy30"}
{"failed_lemmas": ["HypParaP3.tangent_line_local"], "theorems_failed": ["C307_tangent_lines", "C307_the_point_of_a_tangent_line_refuted"], "statement_broken": [], "secs": 16, "id": "hy31"}
{"failed_lemmas": ["HypParaP2.par_tangent"], "theorems_failed": ["C308_in_space", "C308_in_the_plane", "C309_the_arc_is_a_bezier_curve"], "statement_broken": [], "secs": 17, "id": "hy32"}
{"failed_lemmas": ["HypParaP2.par_tangent"], "theorems_failed": ["C308_in_space", "C308_in_the_plane", "C309_the_arc_is_a_bezier_curve"], "statement_broken": [], "secs": 19, "id": "hy33"}
{"failed_lemmas": ["HypParaP2.trim_ok"], "theorems_failed": ["C309_the_arc_is_a_bezier_curve"], "statement_broken": [], "secs": 18, "id": "hy34"}
{"failed_lemmas": ["HypParaP2.trim_ok"], "theorems_failed": ["C309_the_arc_is_a_bezier_curve"], "statement_broken": [], "secs": 20, "id": "hy35"}
{"failed_lemmas": ["ProfilesP.new_extruded_iff"], "theorems_failed": ["C310_nonvacuous", "C311_inner_contours_refuted", "C312_nonvacuous", "C312_when_it_is_accepted"], "statement_broken": [], "secs": 42, "id": "pf1"}
{"failed_lemmas": ["ProfilesP.new_extruded_iff", "ProfilesP.far_hole", "ProfilesP.negative_length"], "theorems_failed": ["C310_nonvacuous", "C311_inner_contours_refuted", "C311_negative_lengths_refuted", "C312_nonvacuous", "C312_when_it_is_accepted"], "statement_broken": [], "secs": 75, "id": "pf2"}
{"failed_lemmas": ["ProfilesP.extruded_volume_ok", "ProfilesP.far_hole"], "theorems_failed": ["C310_nonvacuous", "C310_the_volume", "C311_inner_contours_refuted", "C311_negative_lengths_refuted", "C312_nonvacuous"], "statement_broken": [], "secs": 57, "id": "pf3"}
{"failed_lemmas": ["ProfilesP.extruded_volume_ok", "ProfilesP.far_hole"], "theorems_failed": ["C310_nonvacuous", "C310_the_volume", "C311_inner_contours_refuted", "C311_negative_lengths_refuted", "C312_nonvacuous"], "statement_broken": [], "secs": 60, "id": "pf4"}
{"failed_lemmas": ["ProfilesP.extruded_volume_ok"], "theorems_failed": ["C310_the_volume", "C311_negative_lengths_refuted"], "statement_broken": [], "secs": 41, "id": "pf5"}
{"failed_lemmas": ["ProfilesP.extrusion_corners"], "theorems_failed": ["C312_the_faces_over_the_sides"], "statement_broken": [], "secs": 40, "id": "pf6"}
{"failed_lemmas": ["ProfilesP.extrusion_corners"], "theorems_failed": ["C312_the_faces_over_the_sides"], "statement_broken": [], "secs": 46, "id": "pf7"}
{"failed_lemmas": ["ProfilesP.extrusion_corners"], "theorems_failed": ["C312_the_faces_over_the_sides"], "statement_broken": [], "secs": 42, "id": "pf8"}
{"failed_lemmas": ["ProfilesP.revolved_raises", "ProfilesP.revolved_attribute"], "theorems_failed": ["C313_never_a_value_refuted", "C313_the_error"], "statement_broken": [], "secs": 63, "id": "pf9"}
{"failed_lemmas": ["Conic3P10.conic_above"], "theorems_failed": ["C280_line_above_a_horizontal_ellipse"], "statement_broken": [], "secs": 60, "id": "cn26"}
