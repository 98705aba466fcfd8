{"failed_lemmas": ["WiresP3.segments2_ok", "P_Wires.C194_nonvacuous"], "theorems_failed": ["C185_nonvacuous", "C185_segments_of_the_plane_are_edges", "C186_nonvacuous_result", "C187_every_closed_contour_can_be_ordered_refuted", "C187_ordering_gives_ordered_contours_refuted", "C188_nonvacuous", "C191_nonvacuous", "C192_abscissas_before_the_start_are_refused_refuted", "C193_the_abscissa_leads_back_to_the_point", "C193_the_abscissa_of_the_point_at_an_abscissa", "C194_nonvacuous", "C197_the_contour_starts_at_any_of_its_points_refuted", "C198_a_contour_through_points", "C199_a_contour_through_distinct_points_is_ordered_refuted"], "statement_broken": [], "secs": 29, "id": "wi1"}
{"failed_lemmas": ["WiresP3.segments2_same"], "theorems_failed": ["C185_the_same_segment_of_the_plane"], "statement_broken": [], "secs": 32, "id": "wi2"}
{"failed_lemmas": ["WiresP3.segments3_same"], "theorems_failed": ["C185_the_same_segment_of_space"], "statement_broken": [], "secs": 31, "id": "wi3"}
{"failed_lemmas": ["WiresP2.length_total", "WiresP4.wire2_abscissa_on", "WiresP4.wire2_round_trip", "WiresP4.wire2_abscissa_of_at", "WiresP6.discretization_ok", "WiresP8.w_length"], "theorems_failed": ["C190_inverting_a_wire", "C191_discretization", "C191_the_length_is_the_sum_of_the_lengths", "C193_the_abscissa_leads_back_to_the_point", "C193_the_abscissa_of_the_point_at_an_abscissa", "C193_the_first_edge_with_the_point_gives_the_abscissa"], "statement_broken": [], "secs": 50, "id": "wi4"}
{"failed_lemmas": ["WiresP3.wire_at_from_spec", "WiresP3.wire_at_from_past", "WiresP3.wire_at_negative", "WiresP3.wire_at_tail", "WiresP3.wire_at_from_start", "WiresP3.wire_unit_speed", "WiresP4.wire_at_in"], "theorems_failed": ["C191_abscissas_beyond_the_end_are_refused", "C191_discretization", "C191_the_abscissa_of_the_end", "C191_the_point_is_on_the_edge_of_the_abscissa", "C191_the_wire_is_traversed_at_unit_speed_at_most", "C192_abscissas_before_the_start_are_refused_refuted", "C192_abscissas_before_the_start_extend_the_first_edge", "C193_the_abscissa_leads_back_to_the_point", "C193_the_abscissa_of_the_point_at_an_abscissa"], "statement_broken": [], "secs": 50, "id": "wi5"}
{"failed_lemmas": ["WiresP3.wire_at_from_spec", "WiresP3.wire_at_negative", "WiresP3.wire_at_tail", "WiresP3.wire_at_from_start", "WiresP3.wire_unit_speed", "WiresP4.wire_at_in"], "theorems_failed": ["C191_discretization", "C191_the_point_is_on_the_edge_of_the_abscissa", "C191_the_wire_is_traversed_at_unit_speed_at_most", "C192_abscissas_before_the_start_are_refused_refuted", "C192_abscissas_before_the_start_extend_the_first_edge", "C193_the_abscissa_leads_back_to_the_point", "C193_the_abscissa_of_the_point_at_an_abscissa"], "statement_broken": [], "secs": 44, "id": "wi6"}
{"failed_lemmas": ["WiresP3.wire_at_from_spec", "WiresP3.wire_at_from_past", "WiresP3.wire_at_tail", "WiresP4.wire_at_in"], "theorems_failed": ["C191_abscissas_beyond_the_end_are_refused", "C191_discretization", "C191_the_abscissa_of_the_end", "C191_the_point_is_on_the_edge_of_the_abscissa", "C191_the_wire_is_traversed_at_unit_speed_at_most", "C193_the_abscissa_leads_back_to_the_point", "C193_the_abscissa_of_the_point_at_an_abscissa"], "statement_broken": [], "secs": 40, "id": "wi7"}
{"failed_lemmas": ["WiresP3.wire_at_from_past"], "theorems_failed": ["C191_abscissas_beyond_the_end_are_refused", "C191_discretization", "C191_the_abscissa_of_the_end", "C191_the_wire_is_traversed_at_unit_speed_at_most", "C193_the_abscissa_leads_back_to_the_point"], "statement_broken": [], "secs": 33, "id": "wi8"}
{"failed_lemmas": ["WiresP3.wire_at_from_past"], "theorems_failed": ["C191_abscissas_beyond_the_end_are_refused", "C191_discretization", "C191_the_abscissa_of_the_end", "C191_the_wire_is_traversed_at_unit_speed_at_most", "C193_the_abscissa_leads_back_to_the_point"], "statement_broken": [], "secs": 34, "id": "wi9"}
{"failed_lemmas": ["WiresP6.discretization_ok"], "theorems_failed": ["C191_discretization"], "statement_broken": [], "secs": 34, "id": "wi10"}
{"failed_lemmas": ["WiresP6.discretization_ok"], "theorems_failed": ["C191_discretization"], "statement_broken": [], "secs": 31, "id": "wi11"}
{"failed_lemmas": ["WiresP4.wire_over_yes", "WiresP4.wire_over_no"], "theorems_failed": ["C193_a_point_off_the_wire_has_no_abscissa", "C193_points_of_a_wire", "C193_the_abscissa_leads_back_to_the_point", "C193_the_abscissa_of_the_point_at_an_abscissa", "C193_the_first_edge_with_the_point_gives_the_abscissa"], "statement_broken": [], "secs": 33, "id": "wi12"}
{"failed_lemmas": ["WiresP4.wire_abscissa_from_spec"], "theorems_failed": ["C193_the_abscissa_leads_back_to_the_point", "C193_the_abscissa_of_the_point_at_an_abscissa", "C193_the_first_edge_with_the_point_gives_the_abscissa"], "statement_broken": [], "secs": 32, "id": "wi13"}
{"failed_lemmas": ["WiresP4.wire_abscissa_from_spec"], "theorems_failed": ["C193_the_abscissa_leads_back_to_the_point", "C193_the_abscissa_of_the_point_at_an_abscissa", "C193_the_first_edge_with_the_point_gives_the_abscissa"], "statement_broken": [], "secs": 33, "id": "wi14"}
{"failed_lemmas": ["WiresP4.wire2_abscissa_off"], "theorems_failed": ["C193_a_point_off_the_wire_has_no_abscissa"], "statement_broken": [], "secs": 32, "id": "wi15"}
{"failed_lemmas": ["WiresP.wire_ordered_iff", "WiresP2.order_wire_id", "WiresP7.ordering_fails", "WiresP8.w_wire_is_ordered", "WiresP8.w_order_wire"], "theorems_failed": ["C185_a_wire_is_ordered_when_its_edges_follow", "C186_order_wire_orders_unordered_wires", "C186_wires_put_together_are_ordered", "C187_every_closed_contour_can_be_ordered_refuted"], "statement_broken": [], "secs": 40, "id": "wi16"}
{"failed_lemmas": ["WiresP.wire_ordered_iff", "WiresP2.order_wire_id", "WiresP7.ordering_fails", "WiresP8.w_wire_is_ordered", "WiresP8.w_order_wire"], "theorems_failed": ["C185_a_wire_is_ordered_when_its_edges_follow", "C186_order_wire_orders_unordered_wires", "C186_wires_put_together_are_ordered", "C187_every_closed_contour_can_be_ordered_refuted"], "statement_broken": [], "secs": 41, "id": "wi17"}
{"failed_lemmas": ["WiresP.contour_ordered_spec"], "theorems_failed": ["C185_a_contour_is_ordered_when_it_closes_too", "C185_nonvacuous", "C186_a_connected_contour_without_crossings_is_closed", "C186_nonvacuous_result", "C187_every_closed_contour_can_be_ordered_refuted", "C187_ordering_gives_ordered_contours_refuted", "C197_the_contour_starts_at_any_of_its_points_refuted", "C198_a_contour_through_points", "C199_a_contour_through_distinct_points_is_ordered_refuted"], "statement_broken": [], "secs": 25, "id": "wi18"}
{"failed_lemmas": ["WiresP.contour_ordered_spec"], "theorems_failed": ["C185_a_contour_is_ordered_when_it_closes_too", "C185_nonvacuous", "C186_a_connected_contour_without_crossings_is_closed", "C186_nonvacuous_result", "C187_every_closed_contour_can_be_ordered_refuted", "C187_ordering_gives_ordered_contours_refuted", "C197_the_contour_starts_at_any_of_its_points_refuted", "C198_a_contour_through_points", "C199_a_contour_through_distinct_points_is_ordered_refuted"], "statement_broken": [], "secs": 28, "id": "wi19"}
{"failed_lemmas": ["WiresP.contour_ordered_spec"], "theorems_failed": ["C185_a_contour_is_ordered_when_it_closes_too", "C185_nonvacuous", "C186_a_connected_contour_without_crossings_is_closed", "C186_nonvacuous_result", "C187_every_closed_contour_can_be_ordered_refuted", "C187_ordering_gives_ordered_contours_refuted", "C197_the_contour_starts_at_any_of_its_points_refuted", "C198_a_contour_through_points", "C199_a_contour_through_distinct_points_is_ordered_refuted"], "statement_broken": [], "secs": 25, "id": "wi20"}
{"failed_lemmas": ["WiresP.attach_spec", "WiresP.attach_none"], "theorems_failed": ["C186_a_connected_contour_without_crossings_is_closed", "C186_a_connected_wire_without_crossings_is_ordered", "C186_nonvacuous_result", "C186_order_wire_orders_unordered_wires", "C186_ordering_keeps_the_edges_and_joins_them", "C186_wires_put_together_are_ordered", "C188_edges_of_one_wire_give_one_wire", "C188_nonvacuous", "C188_the_edges_are_split_in_maximal_wires"], "statement_broken": [], "secs": 28, "id": "wi21"}
{"failed_lemmas": ["WiresP.attach_spec"], "theorems_failed": ["C186_a_connected_contour_without_crossings_is_closed", "C186_a_connected_wire_without_crossings_is_ordered", "C186_nonvacuous_result", "C186_order_wire_orders_unordered_wires", "C186_ordering_keeps_the_edges_and_joins_them", "C186_wires_put_together_are_ordered", "C188_edges_of_one_wire_give_one_wire", "C188_nonvacuous", "C188_the_edges_are_split_in_maximal_wires"], "statement_broken": [], "secs": 28, "id": "wi22"}
{"failed_lemmas": ["WiresP.attach_spec"], "theorems_failed": ["C186_a_connected_contour_without_crossings_is_closed", "C186_a_connected_wire_without_crossings_is_ordered", "C186_nonvacuous_result", "C186_order_wire_orders_unordered_wires", "C186_ordering_keeps_the_edges_and_joins_them", "C186_wires_put_together_are_ordered", "C188_edges_of_one_wire_give_one_wire", "C188_nonvacuous", "C188_the_edges_are_split_in_maximal_wires"], "statement_broken": [], "secs": 34, "id": "wi23"}
{"failed_lemmas": ["WiresP.attach_spec"], "theorems_failed": ["C186_a_connected_contour_without_crossings_is_closed", "C186_a_connected_wire_without_crossings_is_ordered", "C186_nonvacuous_result", "C186_order_wire_orders_unordered_wires", "C186_ordering_keeps_the_edges_and_joins_them", "C186_wires_put_together_are_ordered", "C188_edges_of_one_wire_give_one_wire", "C188_nonvacuous", "C188_the_edges_are_split_in_maximal_wires"], "statement_broken": [], "secs": 34, "id": "wi24"}
{"failed_lemmas": ["WiresP.attach_first_spec", "WiresP2.grow_spec"], "theorems_failed": ["C186_a_connected_contour_without_crossings_is_closed", "C186_a_connected_wire_without_crossings_is_ordered", "C186_nonvacuous_result", "C186_order_wire_orders_unordered_wires", "C186_ordering_fails_with_two_errors_only", "C186_ordering_keeps_the_edges_and_joins_them", "C186_wires_put_together_are_ordered", "C188_edges_of_one_wire_give_one_wire", "C188_nonvacuous", "C188_the_edges_are_split_in_maximal_wires"], "statement_broken": [], "secs": 40, "id": "wi25"}
{"failed_lemmas": ["WiresP.attach_first_spec", "WiresP2.grow_spec", "WiresP7.ordering_fails", "WiresP7.order_contour_open"], "theorems_failed": ["C186_a_connected_contour_without_crossings_is_closed", "C186_a_connected_wire_without_crossings_is_ordered", "C186_nonvacuous_result", "C186_order_wire_orders_unordered_wires", "C186_ordering_fails_with_two_errors_only", "C186_ordering_keeps_the_edges_and_joins_them", "C186_wires_put_together_are_ordered", "C187_every_closed_contour_can_be_ordered_refuted", "C187_ordering_gives_ordered_contours_refuted", "C188_edges_of_one_wire_give_one_wire", "C188_nonvacuous", "C188_the_edges_are_split_in_maximal_wires"], "statement_broken": [], "secs": 44, "id": "wi26"}
{"failed_lemmas": ["WiresP.ordering_loop_sound", "WiresP.ordering_errors", "WiresP7.ordering_fails", "WiresP8.w_wires_from_edges_one"], "theorems_failed": ["C186_a_connected_contour_without_crossings_is_closed", "C186_a_connected_wire_without_crossings_is_ordered", "C186_nonvacuous_result", "C186_order_wire_orders_unordered_wires", "C186_ordering_fails_with_two_errors_only", "C186_ordering_keeps_the_edges_and_joins_them", "C186_wires_put_together_are_ordered", "C187_every_closed_contour_can_be_ordered_refuted", "C188_edges_of_one_wire_give_one_wire", "C188_nonvacuous"], "statement_broken": [], "secs": 41, "id": "wi27"}
{"failed_lemmas": ["WiresP.ordering_sound", "WiresP.ordering_errors", "WiresP2.ordering_complete", "WiresP2.ordering_same", "WiresP7.ordering_fails", "WiresP7.order_contour_open", "WiresP8.w_wires_from_edges_one"], "theorems_failed": ["C186_a_connected_contour_without_crossings_is_closed", "C186_a_connected_wire_without_crossings_is_ordered", "C186_nonvacuous_result", "C186_order_wire_orders_unordered_wires", "C186_ordering_fails_with_two_errors_only", "C186_ordering_keeps_the_edges_and_joins_them", "C186_wires_put_together_are_ordered", "C187_every_closed_contour_can_be_ordered_refuted", "C187_ordering_gives_ordered_contours_refuted", "C188_edges_of_one_wire_give_one_wire", "C188_nonvacuous"], "statement_broken": [], "secs": 52, "id": "wi28"}
{"failed_lemmas": ["WiresP.ordering_sound", "WiresP.ordering_errors", "WiresP2.ordering_complete", "WiresP2.ordering_same", "WiresP7.ordering_fails", "WiresP7.order_contour_open", "WiresP8.w_wires_from_edges_one"], "theorems_failed": ["C186_a_connected_contour_without_crossings_is_closed", "C186_a_connected_wire_without_crossings_is_ordered", "C186_nonvacuous_result", "C186_order_wire_orders_unordered_wires", "C186_ordering_fails_with_two_errors_only", "C186_ordering_keeps_the_edges_and_joins_them", "C186_wires_put_together_are_ordered", "C187_every_closed_contour_can_be_ordered_refuted", "C187_ordering_gives_ordered_contours_refuted", "C188_edges_of_one_wire_give_one_wire", "C188_nonvacuous"], "statement_broken": [], "secs": 49, "id": "wi29"}
{"failed_lemmas": ["WiresP2.order_wire_joined", "WiresP2.order_wire_id", "WiresP7.ordering_fails", "WiresP8.w_order_wire"], "theorems_failed": ["C186_order_wire_orders_unordered_wires", "C186_wires_put_together_are_ordered", "C187_every_closed_contour_can_be_ordered_refuted"], "statement_broken": [], "secs": 43, "id": "wi30"}
{"failed_lemmas": ["WiresP2.order_contour_ok"], "theorems_failed": ["C186_a_connected_contour_without_crossings_is_closed", "C186_nonvacuous_result"], "statement_broken": [], "secs": 32, "id": "wi31"}
{"failed_lemmas": ["WiresP8.w_from_wires"], "theorems_failed": ["C186_wires_put_together_are_ordered"], "statement_broken": [], "secs": 27, "id": "wi32"}
{"failed_lemmas": ["WiresP2.invert_invert", "WiresP2.invert_joined", "WiresP2.invert_length", "WiresP2.invert_ends", "WiresP8.w_invert"], "theorems_failed": ["C190_inverting_a_wire", "C190_inverting_exchanges_the_ends"], "statement_broken": [], "secs": 54, "id": "wi33"}
{"failed_lemmas": ["WiresP2.invert_invert", "WiresP2.invert_joined", "WiresP2.invert_length", "WiresP2.invert_ends"], "theorems_failed": ["C190_inverting_a_wire", "C190_inverting_exchanges_the_ends"], "statement_broken": [], "secs": 53, "id": "wi34"}
{"failed_lemmas": ["WiresP8.w_is_followed_by"], "theorems_failed": ["C185_followed_by"], "statement_broken": [], "secs": 31, "id": "wi35"}
{"failed_lemmas": ["WiresP2.grow_spec"], "theorems_failed": ["C188_the_edges_are_split_in_maximal_wires"], "statement_broken": [], "secs": 37, "id": "wi36"}
{"failed_lemmas": ["WiresP2.all_wires_spec", "WiresP8.w_wires_from_edges_one"], "theorems_failed": ["C188_edges_of_one_wire_give_one_wire", "C188_nonvacuous", "C188_the_edges_are_split_in_maximal_wires"], "statement_broken": [], "secs": 47, "id": "wi37"}
{"failed_lemmas": ["WiresP2.wires_from_edges_spec"], "theorems_failed": ["C188_the_edges_are_split_in_maximal_wires"], "statement_broken": [], "secs": 38, "id": "wi38"}
{"failed_lemmas": ["WiresP2.wires_from_edges_empties", "WiresP8.w_wires_from_edges_empties"], "theorems_failed": ["C189_the_list_of_the_caller_is_emptied", "C189_the_list_of_the_caller_is_kept_refuted"], "statement_broken": [], "secs": 36, "id": "wi39"}
{"failed_lemmas": ["WiresP2.rotate_spec"], "theorems_failed": ["C196_the_contour_is_rotated", "C196_the_rotated_contour_is_ordered", "C197_the_contour_is_lost_at_other_points", "C197_the_contour_starts_at_any_of_its_points_refuted"], "statement_broken": [], "secs": 36, "id": "wi40"}
{"failed_lemmas": ["WiresP2.rotate_spec"], "theorems_failed": ["C196_the_contour_is_rotated", "C196_the_rotated_contour_is_ordered", "C197_the_contour_is_lost_at_other_points", "C197_the_contour_starts_at_any_of_its_points_refuted"], "statement_broken": [], "secs": 33, "id": "wi41"}
{"failed_lemmas": ["WiresP2.rotate_spec"], "theorems_failed": ["C196_the_contour_is_rotated", "C196_the_rotated_contour_is_ordered", "C197_the_contour_is_lost_at_other_points", "C197_the_contour_starts_at_any_of_its_points_refuted"], "statement_broken": [], "secs": 35, "id": "wi42"}
{"failed_lemmas": ["WiresP8.w_closed"], "theorems_failed": ["C185_closed_contours"], "statement_broken": [], "secs": 31, "id": "wi43"}
{"failed_lemmas": ["WiresP5.argmin_spec"], "theorems_failed": ["C194_a_chain_with_reversed_edges_is_restored", "C194_edges_that_are_far_apart_are_refused", "C194_the_edges_of_a_step_contour_follow_each_other"], "statement_broken": [], "secs": 30, "id": "wi44"}
{"failed_lemmas": ["WiresP5.follow_sound", "WiresP5.follow_complete"], "theorems_failed": ["C194_a_chain_with_reversed_edges_is_restored", "C194_the_edges_of_a_step_contour_follow_each_other"], "statement_broken": [], "secs": 30, "id": "wi45"}
{"failed_lemmas": ["WiresP5.follow_sound", "WiresP5.follow_complete"], "theorems_failed": ["C194_a_chain_with_reversed_edges_is_restored", "C194_the_edges_of_a_step_contour_follow_each_other"], "statement_broken": [], "secs": 30, "id": "wi46"}
{"failed_lemmas": ["WiresP5.follow_sound", "WiresP5.follow_complete"], "theorems_failed": ["C194_a_chain_with_reversed_edges_is_restored", "C194_the_edges_of_a_step_contour_follow_each_other"], "statement_broken": [], "secs": 28, "id": "wi47"}
{"failed_lemmas": ["WiresP5.follow_sound", "WiresP5.follow_complete"], "theorems_failed": ["C194_a_chain_with_reversed_edges_is_restored", "C194_the_edges_of_a_step_contour_follow_each_other"], "statement_broken": [], "secs": 28, "id": "wi48"}
{"failed_lemmas": ["WiresP5.reversed_joined", "WiresP7.reorder_open"], "theorems_failed": ["C194_a_chain_with_reversed_edges_is_restored", "C194_edges_that_are_far_apart_are_refused", "C194_the_edges_of_a_step_contour_follow_each_other", "C195_an_open_step_contour_is_refused_refuted"], "statement_broken": [], "secs": 24, "id": "wi49"}
{"failed_lemmas": ["WiresP5.reorder_sound", "WiresP5.reorder_complete", "WiresP7.reorder_open"], "theorems_failed": ["C194_a_chain_with_reversed_edges_is_restored", "C194_the_edges_of_a_step_contour_follow_each_other", "C195_an_open_step_contour_is_refused_refuted"], "statement_broken": [], "secs": 26, "id": "wi50"}
{"failed_lemmas": ["WiresP5.reorder_sound", "WiresP5.reorder_complete"], "theorems_failed": ["C194_a_chain_with_reversed_edges_is_restored", "C194_the_edges_of_a_step_contour_follow_each_other"], "statement_broken": [], "secs": 23, "id": "wi51"}
{"failed_lemmas": ["WiresP5.reorder_sound", "WiresP5.reorder_complete", "WiresP8.w_reorder_far"], "theorems_failed": ["C194_a_chain_with_reversed_edges_is_restored", "C194_edges_that_are_far_apart_are_refused", "C194_the_edges_of_a_step_contour_follow_each_other"], "statement_broken": [], "secs": 26, "id": "wi52"}
{"failed_lemmas": ["WiresP6.polyline_ok", "WiresP6.wire_from_points_err", "WiresP6.open_sides_polyline"], "theorems_failed": ["C198_a_contour_through_closed_points", "C198_a_contour_through_points", "C198_a_wire_through_points", "C198_repeated_points_are_refused"], "statement_broken": [], "secs": 27, "id": "wi53"}
{"failed_lemmas": ["WiresP6.open_sides_polyline", "WiresP7.from_points_gap"], "theorems_failed": ["C198_a_contour_through_closed_points", "C198_a_contour_through_points", "C199_a_contour_through_distinct_points_is_ordered_refuted"], "statement_broken": [], "secs": 27, "id": "wi54"}
{"failed_lemmas": ["WiresP6.contour_from_points_ok", "WiresP6.contour_from_closed_points_ok"], "theorems_failed": ["C198_a_contour_through_closed_points", "C198_a_contour_through_points"], "statement_broken": [], "secs": 25, "id": "wi55"}
{"failed_lemmas": ["WiresP6.contour_from_closed_points_ok"], "theorems_failed": ["C198_a_contour_through_closed_points"], "statement_broken": [], "secs": 27, "id": "wi56"}
{"failed_lemmas": ["WiresP6.contour_from_points_ok"], "theorems_failed": ["C198_a_contour_through_points"], "statement_broken": [], "secs": 28, "id": "wi57"}
