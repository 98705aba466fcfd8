{"failed_lemmas": ["RoundedP4.get_points_corner", "RoundedP10.corner_vectors", "RoundedP13.wrap_ok"], "theorems_failed": ["C166_a_straight_corner_cannot_be_rounded", "C167_segments_lie_on_the_sides_and_arcs_are_tangent", "C168_accepted_consecutive_corners_do_not_overlap", "C168_overlapping_consecutive_corners_are_refused", "C169_adapted_radii_do_not_overlap", "C170_the_last_and_the_first_corner_are_checked_refuted", "C171_every_side_moves_by_the_offset", "C171_radii_of_the_offset"], "statement_broken": [], "secs": 39, "id": "ro1"}
{"failed_lemmas": ["RoundedP4.get_points_corner", "RoundedP13.wrap_ok"], "theorems_failed": ["C166_a_straight_corner_cannot_be_rounded", "C167_segments_lie_on_the_sides_and_arcs_are_tangent", "C168_accepted_consecutive_corners_do_not_overlap", "C168_overlapping_consecutive_corners_are_refused", "C169_adapted_radii_do_not_overlap", "C170_the_last_and_the_first_corner_are_checked_refuted"], "statement_broken": [], "secs": 39, "id": "ro2"}
{"failed_lemmas": ["RoundedP4.get_points_corner", "RoundedP13.lone_ok", "RoundedP13.wrap_ok", "RoundedP14.grp_ok", "RoundedP15.good_ok"], "theorems_failed": ["C166_a_straight_corner_cannot_be_rounded", "C167_nonvacuous", "C167_segments_lie_on_the_sides_and_arcs_are_tangent", "C168_accepted_consecutive_corners_do_not_overlap", "C168_nonvacuous", "C168_overlapping_consecutive_corners_are_refused", "C169_adapted_radii_do_not_overlap", "C169_nonvacuous", "C170_a_radius_too_large_for_its_sides_is_refused_refuted", "C170_adapted_radii_fit_their_sides_refuted", "C170_the_last_and_the_first_corner_are_checked_refuted"], "statement_broken": [], "secs": 45, "id": "ro3"}
{"failed_lemmas": ["RoundedP.arc_features_ok", "RoundedP14.straight_features"], "theorems_failed": ["C166_a_corner_is_rounded_by_the_tangent_arc", "C166_a_straight_corner_cannot_be_rounded", "C167_nonvacuous", "C167_segments_lie_on_the_sides_and_arcs_are_tangent", "C168_accepted_consecutive_corners_do_not_overlap", "C168_nonvacuous", "C168_overlapping_consecutive_corners_are_refused", "C169_adapted_radii_do_not_overlap", "C169_nonvacuous", "C170_a_radius_too_large_for_its_sides_is_refused_refuted", "C170_adapted_radii_fit_their_sides_refuted", "C170_the_last_and_the_first_corner_are_checked_refuted"], "statement_broken": [], "secs": 41, "id": "ro4"}
{"failed_lemmas": ["RoundedP.arc_features_ok", "RoundedP14.straight_features"], "theorems_failed": ["C166_a_corner_is_rounded_by_the_tangent_arc", "C166_a_straight_corner_cannot_be_rounded", "C167_nonvacuous", "C167_segments_lie_on_the_sides_and_arcs_are_tangent", "C168_accepted_consecutive_corners_do_not_overlap", "C168_nonvacuous", "C168_overlapping_consecutive_corners_are_refused", "C169_adapted_radii_do_not_overlap", "C169_nonvacuous", "C170_a_radius_too_large_for_its_sides_is_refused_refuted", "C170_adapted_radii_fit_their_sides_refuted", "C170_the_last_and_the_first_corner_are_checked_refuted"], "statement_broken": [], "secs": 39, "id": "ro5"}
{"failed_lemmas": ["RoundedP.arc_features_ok"], "theorems_failed": ["C166_a_corner_is_rounded_by_the_tangent_arc", "C167_nonvacuous", "C167_segments_lie_on_the_sides_and_arcs_are_tangent", "C168_accepted_consecutive_corners_do_not_overlap", "C168_nonvacuous", "C168_overlapping_consecutive_corners_are_refused", "C169_adapted_radii_do_not_overlap", "C169_nonvacuous", "C170_a_radius_too_large_for_its_sides_is_refused_refuted", "C170_adapted_radii_fit_their_sides_refuted", "C170_the_last_and_the_first_corner_are_checked_refuted"], "statement_broken": [], "secs": 35, "id": "ro6"}
{"failed_lemmas": ["RoundedP.arc_features_ok"], "theorems_failed": ["C166_a_corner_is_rounded_by_the_tangent_arc", "C167_nonvacuous", "C167_segments_lie_on_the_sides_and_arcs_are_tangent", "C168_accepted_consecutive_corners_do_not_overlap", "C168_nonvacuous", "C168_overlapping_consecutive_corners_are_refused", "C169_adapted_radii_do_not_overlap", "C169_nonvacuous", "C170_a_radius_too_large_for_its_sides_is_refused_refuted", "C170_adapted_radii_fit_their_sides_refuted", "C170_the_last_and_the_first_corner_are_checked_refuted"], "statement_broken": [], "secs": 37, "id": "ro7"}
{"failed_lemmas": ["RoundedP.arc_features_ok"], "theorems_failed": ["C166_a_corner_is_rounded_by_the_tangent_arc", "C167_nonvacuous", "C167_segments_lie_on_the_sides_and_arcs_are_tangent", "C168_accepted_consecutive_corners_do_not_overlap", "C168_nonvacuous", "C168_overlapping_consecutive_corners_are_refused", "C169_adapted_radii_do_not_overlap", "C169_nonvacuous", "C170_a_radius_too_large_for_its_sides_is_refused_refuted", "C170_adapted_radii_fit_their_sides_refuted", "C170_the_last_and_the_first_corner_are_checked_refuted"], "statement_broken": [], "secs": 40, "id": "ro8"}
{"failed_lemmas": ["RoundedP.arc_features_ok"], "theorems_failed": ["C166_a_corner_is_rounded_by_the_tangent_arc", "C167_nonvacuous", "C167_segments_lie_on_the_sides_and_arcs_are_tangent", "C168_accepted_consecutive_corners_do_not_overlap", "C168_nonvacuous", "C168_overlapping_consecutive_corners_are_refused", "C169_adapted_radii_do_not_overlap", "C169_nonvacuous", "C170_a_radius_too_large_for_its_sides_is_refused_refuted", "C170_adapted_radii_fit_their_sides_refuted", "C170_the_last_and_the_first_corner_are_checked_refuted"], "statement_broken": [], "secs": 39, "id": "ro9"}
{"failed_lemmas": ["RoundedP5.group_loop_spec", "RoundedP5.group_loop_err", "RoundedP14.grp_ok", "RoundedP15.good_ok"], "theorems_failed": ["C167_nonvacuous", "C168_accepted_consecutive_corners_do_not_overlap", "C168_nonvacuous", "C168_overlapping_consecutive_corners_are_refused", "C169_adapted_radii_do_not_overlap", "C169_nonvacuous", "C170_adapted_radii_fit_their_sides_refuted"], "statement_broken": [], "secs": 44, "id": "ro10"}
{"failed_lemmas": ["RoundedP5.group_loop_spec", "RoundedP5.group_loop_err", "RoundedP14.grp_ok", "RoundedP15.good_ok"], "theorems_failed": ["C167_nonvacuous", "C168_accepted_consecutive_corners_do_not_overlap", "C168_nonvacuous", "C168_overlapping_consecutive_corners_are_refused", "C169_adapted_radii_do_not_overlap", "C169_nonvacuous", "C170_adapted_radii_fit_their_sides_refuted"], "statement_broken": [], "secs": 42, "id": "ro11"}
{"failed_lemmas": ["RoundedP5.group_loop_spec", "RoundedP5.group_loop_err"], "theorems_failed": ["C168_accepted_consecutive_corners_do_not_overlap", "C168_overlapping_consecutive_corners_are_refused", "C169_adapted_radii_do_not_overlap"], "statement_broken": [], "secs": 35, "id": "ro12"}
{"failed_lemmas": ["RoundedP5.group_loop_spec", "RoundedP5.group_loop_err", "RoundedP14.grp_ok", "RoundedP15.good_ok"], "theorems_failed": ["C167_nonvacuous", "C168_accepted_consecutive_corners_do_not_overlap", "C168_nonvacuous", "C168_overlapping_consecutive_corners_are_refused", "C169_adapted_radii_do_not_overlap", "C169_nonvacuous", "C170_adapted_radii_fit_their_sides_refuted"], "statement_broken": [], "secs": 36, "id": "ro13"}
{"failed_lemmas": ["RoundedP6.one_step_spec"], "theorems_failed": ["C169_adapted_radii_do_not_overlap"], "statement_broken": [], "secs": 37, "id": "ro14"}
{"failed_lemmas": ["RoundedP6.lp_rows_spec", "RoundedP14.grp_ok"], "theorems_failed": ["C169_adapted_radii_do_not_overlap", "C169_nonvacuous", "C170_adapted_radii_fit_their_sides_refuted"], "statement_broken": [], "secs": 36, "id": "ro15"}
{"failed_lemmas": ["RoundedP6.lp_rows_spec"], "theorems_failed": ["C169_adapted_radii_do_not_overlap"], "statement_broken": [], "secs": 40, "id": "ro16"}
{"failed_lemmas": ["RoundedP6.lp_all_rows_spec"], "theorems_failed": ["C169_adapted_radii_do_not_overlap"], "statement_broken": [], "secs": 44, "id": "ro17"}
{"failed_lemmas": ["RoundedP6.solutions_spec", "RoundedP14.grp_ok"], "theorems_failed": ["C169_adapted_radii_do_not_overlap", "C169_nonvacuous", "C170_adapted_radii_fit_their_sides_refuted"], "statement_broken": [], "secs": 44, "id": "ro18"}
{"failed_lemmas": ["RoundedP6.nodup_solution", "RoundedP6.solutions_spec"], "theorems_failed": ["C169_adapted_radii_do_not_overlap"], "statement_broken": [], "secs": 42, "id": "ro19"}
{"failed_lemmas": ["RoundedP7.adapt_cases", "RoundedP8.adapted", "RoundedP14.grp_ok"], "theorems_failed": ["C169_adapted_radii_do_not_overlap", "C169_nonvacuous", "C170_adapted_radii_fit_their_sides_refuted"], "statement_broken": [], "secs": 49, "id": "ro20"}
{"failed_lemmas": ["RoundedP7.adapt_cases", "RoundedP8.adapted", "RoundedP14.grp_ok"], "theorems_failed": ["C169_adapted_radii_do_not_overlap", "C169_nonvacuous", "C170_adapted_radii_fit_their_sides_refuted"], "statement_broken": [], "secs": 50, "id": "ro21"}
{"failed_lemmas": ["RoundedP3.side_spec", "RoundedP3.segu_arcs", "RoundedP4.side_inside", "RoundedP14.near"], "theorems_failed": ["C167_segments_lie_on_the_sides_and_arcs_are_tangent", "C167_the_primitives_are_connected_in_order", "C169_nonvacuous", "C170_adapted_radii_fit_their_sides_refuted"], "statement_broken": [], "secs": 50, "id": "ro22"}
{"failed_lemmas": ["RoundedP3.side_spec", "RoundedP3.side_arcs", "RoundedP4.side_inside", "RoundedP13.lone_ok", "RoundedP13.wrap_ok", "RoundedP14.grp_ok", "RoundedP15.good_ok"], "theorems_failed": ["C167_nonvacuous", "C167_segments_lie_on_the_sides_and_arcs_are_tangent", "C167_the_primitives_are_connected_in_order", "C168_nonvacuous", "C169_nonvacuous", "C170_a_radius_too_large_for_its_sides_is_refused_refuted", "C170_adapted_radii_fit_their_sides_refuted", "C170_the_last_and_the_first_corner_are_checked_refuted"], "statement_broken": [], "secs": 55, "id": "ro23"}
{"failed_lemmas": ["RoundedP3.side_spec", "RoundedP4.side_inside", "RoundedP13.wrap_ok", "RoundedP14.grp_ok", "RoundedP15.good_ok"], "theorems_failed": ["C167_nonvacuous", "C167_segments_lie_on_the_sides_and_arcs_are_tangent", "C167_the_primitives_are_connected_in_order", "C168_nonvacuous", "C169_nonvacuous", "C170_adapted_radii_fit_their_sides_refuted", "C170_the_last_and_the_first_corner_are_checked_refuted"], "statement_broken": [], "secs": 54, "id": "ro24"}
{"failed_lemmas": ["RoundedP3.side_spec", "RoundedP3.side_arcs", "RoundedP4.side_inside", "RoundedP13.wrap_ok"], "theorems_failed": ["C167_segments_lie_on_the_sides_and_arcs_are_tangent", "C167_the_primitives_are_connected_in_order", "C170_the_last_and_the_first_corner_are_checked_refuted"], "statement_broken": [], "secs": 49, "id": "ro25"}
{"failed_lemmas": ["RoundedP3.side_spec", "RoundedP4.side_inside", "RoundedP13.lone_ok", "RoundedP13.wrap_ok", "RoundedP14.grp_ok", "RoundedP15.good_ok"], "theorems_failed": ["C167_nonvacuous", "C167_segments_lie_on_the_sides_and_arcs_are_tangent", "C167_the_primitives_are_connected_in_order", "C168_nonvacuous", "C169_nonvacuous", "C170_a_radius_too_large_for_its_sides_is_refused_refuted", "C170_adapted_radii_fit_their_sides_refuted", "C170_the_last_and_the_first_corner_are_checked_refuted"], "statement_broken": [], "secs": 51, "id": "ro26"}
{"failed_lemmas": ["RoundedP3.wire_connected", "RoundedP4.wire_geometry", "RoundedP13.wrap_ok"], "theorems_failed": ["C167_segments_lie_on_the_sides_and_arcs_are_tangent", "C167_the_primitives_are_connected_in_order", "C170_the_last_and_the_first_corner_are_checked_refuted"], "statement_broken": [], "secs": 43, "id": "ro27"}
{"failed_lemmas": ["RoundedP3.wire_connected", "RoundedP13.lone_ok", "RoundedP13.wrap_ok", "RoundedP14.grp_ok", "RoundedP15.good_ok"], "theorems_failed": ["C167_nonvacuous", "C167_the_primitives_are_connected_in_order", "C168_nonvacuous", "C169_nonvacuous", "C170_a_radius_too_large_for_its_sides_is_refused_refuted", "C170_adapted_radii_fit_their_sides_refuted", "C170_the_last_and_the_first_corner_are_checked_refuted"], "statement_broken": [], "secs": 41, "id": "ro28"}
{"failed_lemmas": ["RoundedP4.wire_geometry", "RoundedP13.lone_ok", "RoundedP13.wrap_ok", "RoundedP14.grp_ok", "RoundedP15.good_ok"], "theorems_failed": ["C167_nonvacuous", "C167_segments_lie_on_the_sides_and_arcs_are_tangent", "C168_nonvacuous", "C169_nonvacuous", "C170_a_radius_too_large_for_its_sides_is_refused_refuted", "C170_adapted_radii_fit_their_sides_refuted", "C170_the_last_and_the_first_corner_are_checked_refuted"], "statement_broken": [], "secs": 42, "id": "ro29"}
{"failed_lemmas": ["RoundedP4.wire_geometry", "RoundedP14.grp_ok", "RoundedP14.straight_corner_fails"], "theorems_failed": ["C166_a_straight_corner_cannot_be_rounded", "C167_segments_lie_on_the_sides_and_arcs_are_tangent", "C169_nonvacuous", "C170_adapted_radii_fit_their_sides_refuted"], "statement_broken": [], "secs": 43, "id": "ro30"}
{"failed_lemmas": ["RoundedP9.vectors_spec", "RoundedP15.ell_ok"], "theorems_failed": ["C171_every_side_moves_by_the_offset", "C171_nonvacuous", "C171_radii_of_the_offset"], "statement_broken": [], "secs": 39, "id": "ro31"}
{"failed_lemmas": ["RoundedP9.offset_corner_spec"], "theorems_failed": ["C171_every_side_moves_by_the_offset", "C171_radii_of_the_offset"], "statement_broken": [], "secs": 42, "id": "ro32"}
{"failed_lemmas": ["RoundedP9.offset_corner_spec"], "theorems_failed": ["C171_every_side_moves_by_the_offset", "C171_radii_of_the_offset"], "statement_broken": [], "secs": 57, "id": "ro33"}
{"failed_lemmas": ["RoundedP9.offset_corner_spec"], "theorems_failed": ["C171_every_side_moves_by_the_offset", "C171_radii_of_the_offset"], "statement_broken": [], "secs": 65, "id": "ro34"}
{"failed_lemmas": ["RoundedP9.offset_corner_spec", "RoundedP15.ell_ok"], "theorems_failed": ["C171_every_side_moves_by_the_offset", "C171_nonvacuous", "C171_radii_of_the_offset"], "statement_broken": [], "secs": 46, "id": "ro35"}
{"failed_lemmas": ["RoundedP9.offset_corner_spec"], "theorems_failed": ["C171_every_side_moves_by_the_offset", "C171_radii_of_the_offset"], "statement_broken": [], "secs": 45, "id": "ro36"}
{"failed_lemmas": ["RoundedP10.offset_points", "RoundedP15.ell_ok"], "theorems_failed": ["C171_every_side_moves_by_the_offset", "C171_nonvacuous", "C171_radii_of_the_offset"], "statement_broken": [], "secs": 48, "id": "ro37"}
{"failed_lemmas": ["RoundedP10.offset_points"], "theorems_failed": ["C171_every_side_moves_by_the_offset", "C171_radii_of_the_offset"], "statement_broken": [], "secs": 46, "id": "ro38"}
{"failed_lemmas": ["RoundedP10.offset_points"], "theorems_failed": ["C171_every_side_moves_by_the_offset", "C171_radii_of_the_offset"], "statement_broken": [], "secs": 44, "id": "ro39"}
{"failed_lemmas": ["RoundedP9.offset_corner_spec"], "theorems_failed": ["C171_every_side_moves_by_the_offset", "C171_radii_of_the_offset"], "statement_broken": [], "secs": 45, "id": "ro40"}
