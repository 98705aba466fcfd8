{"failed_lemmas": ["StepReadP.loop_inv"], "theorems_failed": ["C229_a_reference_to_no_entity_is_a_KeyError", "C229_every_known_entity_that_is_met_is_listed_once_those_without_references_first"], "statement_broken": [], "secs": 7, "id": "sr1"}
{"failed_lemmas": ["StepReadP.loop_inv", "P_StepRead.C229_nonvacuous"], "theorems_failed": ["C229_a_reference_to_no_entity_is_a_KeyError", "C229_every_known_entity_that_is_met_is_listed_once_those_without_references_first", "C229_nonvacuous"], "statement_broken": [], "secs": 7, "id": "sr2"}
{"failed_lemmas": ["StepReadP.loop_inv"], "theorems_failed": ["C229_a_reference_to_no_entity_is_a_KeyError", "C229_every_known_entity_that_is_met_is_listed_once_those_without_references_first"], "statement_broken": [], "secs": 5, "id": "sr3"}
{"failed_lemmas": ["StepReadP.loop_inv", "StepReadP.node_list_order_refuted", "P_StepRead.C229_nonvacuous"], "theorems_failed": ["C229_a_reference_to_no_entity_is_a_KeyError", "C229_every_known_entity_that_is_met_is_listed_once_those_without_references_first", "C229_nonvacuous", "C230_an_entity_before_one_it_refers_to_refuted"], "statement_broken": [], "secs": 8, "id": "sr4"}
{"failed_lemmas": ["StepReadP.loop_inv"], "theorems_failed": ["C229_a_reference_to_no_entity_is_a_KeyError", "C229_every_known_entity_that_is_met_is_listed_once_those_without_references_first"], "statement_broken": [], "secs": 5, "id": "sr5"}
{"failed_lemmas": ["StepReadP.loop_inv", "StepReadP.node_list_order_refuted", "P_StepRead.C229_nonvacuous"], "theorems_failed": ["C229_a_reference_to_no_entity_is_a_KeyError", "C229_every_known_entity_that_is_met_is_listed_once_those_without_references_first", "C229_nonvacuous", "C230_an_entity_before_one_it_refers_to_refuted"], "statement_broken": [], "secs": 9, "id": "sr6"}
{"failed_lemmas": ["StepReadP.loop_inv", "StepReadP.node_list_order_refuted", "P_StepRead.C229_nonvacuous"], "theorems_failed": ["C229_a_reference_to_no_entity_is_a_KeyError", "C229_every_known_entity_that_is_met_is_listed_once_those_without_references_first", "C229_nonvacuous", "C230_an_entity_before_one_it_refers_to_refuted"], "statement_broken": [], "secs": 8, "id": "sr7"}
{"failed_lemmas": ["StepReadP.loop_inv", "StepReadP.node_list_order_refuted", "P_StepRead.C229_nonvacuous"], "theorems_failed": ["C229_a_reference_to_no_entity_is_a_KeyError", "C229_every_known_entity_that_is_met_is_listed_once_those_without_references_first", "C229_nonvacuous", "C230_an_entity_before_one_it_refers_to_refuted"], "statement_broken": [], "secs": 10, "id": "sr8"}
{"failed_lemmas": ["StepReadP.node_list_res", "StepReadP.node_list_order_refuted", "P_StepRead.C229_nonvacuous"], "theorems_failed": ["C229_a_reference_to_no_entity_is_a_KeyError", "C229_every_known_entity_that_is_met_is_listed_once_those_without_references_first", "C229_nonvacuous", "C230_an_entity_before_one_it_refers_to_refuted"], "statement_broken": [], "secs": 10, "id": "sr9"}
{"failed_lemmas": ["StepReadP.look_up_ok", "P_StepRead.C231_nonvacuous"], "theorems_failed": ["C231_an_entity_is_made_with_all_that_it_refers_to", "C231_every_entity_of_the_list_is_made_in_whatever_order", "C231_nonvacuous"], "statement_broken": [], "secs": 8, "id": "sr10"}
{"failed_lemmas": ["StepReadP.set_sound", "P_StepRead.C231_nonvacuous"], "theorems_failed": ["C231_an_entity_is_made_with_all_that_it_refers_to", "C231_every_entity_of_the_list_is_made_in_whatever_order", "C231_nonvacuous"], "statement_broken": [], "secs": 10, "id": "sr11"}
{"failed_lemmas": ["StepReadP.set_sound", "P_StepRead.C231_nonvacuous"], "theorems_failed": ["C231_an_entity_is_made_with_all_that_it_refers_to", "C231_every_entity_of_the_list_is_made_in_whatever_order", "C231_nonvacuous"], "statement_broken": [], "secs": 10, "id": "sr12"}
{"failed_lemmas": ["StepReadP.pass_ok", "P_StepRead.C231_nonvacuous"], "theorems_failed": ["C231_an_entity_is_made_with_all_that_it_refers_to", "C231_every_entity_of_the_list_is_made_in_whatever_order", "C231_nonvacuous"], "statement_broken": [], "secs": 8, "id": "sr13"}
{"failed_lemmas": ["StepReadP.failing"], "theorems_failed": ["C231_an_entity_that_fails_stops_the_reading"], "statement_broken": [], "secs": 8, "id": "sr14"}
{"failed_lemmas": ["StepReadP.pass_ok", "StepReadP.dangling_refuted", "P_StepRead.C231_nonvacuous"], "theorems_failed": ["C231_an_entity_is_made_with_all_that_it_refers_to", "C231_every_entity_of_the_list_is_made_in_whatever_order", "C231_nonvacuous", "C232_a_reference_to_no_entity_loops_for_ever_refuted", "C232_every_reference_to_no_entity_loops_for_ever"], "statement_broken": [], "secs": 12, "id": "sr15"}
{"failed_lemmas": ["StepReadP.loop_ok", "StepReadP.helper_ok", "P_StepRead.C231_nonvacuous"], "theorems_failed": ["C231_an_entity_is_made_with_all_that_it_refers_to", "C231_every_entity_of_the_list_is_made_in_whatever_order", "C231_nonvacuous"], "statement_broken": [], "secs": 13, "id": "sr16"}
{"failed_lemmas": ["StepReadP.loop_ok", "StepReadP.helper_ok", "StepReadP.dangling_refuted", "P_StepRead.C231_nonvacuous"], "theorems_failed": ["C231_an_entity_is_made_with_all_that_it_refers_to", "C231_every_entity_of_the_list_is_made_in_whatever_order", "C231_nonvacuous", "C232_a_reference_to_no_entity_loops_for_ever_refuted", "C232_every_reference_to_no_entity_loops_for_ever"], "statement_broken": [], "secs": 16, "id": "sr17"}
{"failed_lemmas": ["StepReadP.dangling_forever"], "theorems_failed": ["C232_a_reference_to_no_entity_loops_for_ever_refuted", "C232_every_reference_to_no_entity_loops_for_ever"], "statement_broken": [], "secs": 9, "id": "sr18"}
{"failed_lemmas": ["StepReadP.all_ok"], "theorems_failed": ["C231_every_entity_of_the_list_is_made_in_whatever_order"], "statement_broken": [], "secs": 8, "id": "sr19"}
{"failed_lemmas": ["StepLexP4.statements_before"], "theorems_failed": ["C236_the_entities_of_a_file", "C236_the_first_statement_that_fails", "C236_the_statements_do_not_depend_on_the_line_breaks"], "statement_broken": [], "secs": 14, "id": "sx2"}
{"failed_lemmas": ["StepLexP4.statements_groups", "StepLexP4.indented_refuted"], "theorems_failed": ["C236_the_entities_of_a_file", "C236_the_first_statement_that_fails", "C236_the_statements_do_not_depend_on_the_line_breaks", "C239_an_indented_statement_is_lost_refuted"], "statement_broken": [], "secs": 16, "id": "sx3"}
{"failed_lemmas": ["StepLexP4.statements_groups", "StepLexP4.indented_refuted", "P_StepLex.C236_nonvacuous"], "theorems_failed": ["C236_nonvacuous", "C236_the_entities_of_a_file", "C236_the_first_statement_that_fails", "C236_the_statements_do_not_depend_on_the_line_breaks", "C239_an_indented_statement_is_lost_refuted"], "statement_broken": [], "secs": 18, "id": "sx4"}
{"failed_lemmas": ["StepLexP4.statements_before", "P_StepLex.C236_nonvacuous"], "theorems_failed": ["C236_nonvacuous", "C236_the_entities_of_a_file", "C236_the_first_statement_that_fails", "C236_the_statements_do_not_depend_on_the_line_breaks"], "statement_broken": [], "secs": 15, "id": "sx5"}
{"failed_lemmas": ["StepLexP3.cut_at_app", "StepLexP4.quoted_spaces_refuted", "StepLexP4.quoted_comma_refuted", "StepLexP4.complex_table_refuted", "P_StepLex.C234_nonvacuous", "P_StepLex.C236_nonvacuous"], "theorems_failed": ["C233_a_statement_with_a_label_is_read_as_written", "C233_a_statement_without_label_is_read_as_written", "C234_nonvacuous", "C234_the_parts_of_a_complex_entity_are_read_as_written", "C235_the_references_in_a_list_of_lists_are_lost_refuted", "C236_nonvacuous", "C237_a_comma_in_the_last_string_cuts_it_refuted", "C237_the_blanks_of_a_single_string_are_lost_refuted"], "statement_broken": [], "secs": 25, "id": "sx6"}
{"failed_lemmas": ["StepLexP3.to_int_dec", "StepLexP3.to_int_blanks"], "theorems_failed": ["C233_a_statement_with_a_label_is_read_as_written", "C233_a_statement_without_label_is_read_as_written", "C234_the_parts_of_a_complex_entity_are_read_as_written"], "statement_broken": [], "secs": 16, "id": "sx7"}
{"failed_lemmas": ["StepLexP3.quote_comma_none", "StepLexP4.quoted_spaces_refuted"], "theorems_failed": ["C233_a_statement_without_label_is_read_as_written", "C237_the_blanks_of_a_single_string_are_lost_refuted"], "statement_broken": [], "secs": 16, "id": "sx8"}
{"failed_lemmas": ["StepLexP3.labelled", "StepLexP4.quoted_comma_refuted", "P_StepLex.C236_nonvacuous"], "theorems_failed": ["C233_a_statement_with_a_label_is_read_as_written", "C236_nonvacuous", "C237_a_comma_in_the_last_string_cuts_it_refuted"], "statement_broken": [], "secs": 18, "id": "sx9"}
{"failed_lemmas": ["StepLexP3.labelled"], "theorems_failed": ["C233_a_statement_with_a_label_is_read_as_written"], "statement_broken": [], "secs": 15, "id": "sx10"}
{"failed_lemmas": ["StepLexP.quoted_ok", "StepLexP2.quoted_split", "StepLexP4.quoted_table_refuted"], "theorems_failed": ["C233_a_statement_with_a_label_is_read_as_written", "C233_a_statement_without_label_is_read_as_written", "C234_the_parts_of_a_complex_entity_are_read_as_written", "C237_a_string_before_a_list_of_lists_keeps_its_comma_refuted"], "statement_broken": [], "secs": 17, "id": "sx11"}
{"failed_lemmas": ["StepLexP.find_paren"], "theorems_failed": ["C233_a_statement_with_a_label_is_read_as_written", "C233_a_statement_without_label_is_read_as_written", "C234_the_parts_of_a_complex_entity_are_read_as_written"], "statement_broken": [], "secs": 14, "id": "sx12"}
{"failed_lemmas": ["StepLexP.find_tok", "StepLexP4.quoted_comma_refuted", "StepLexP4.quoted_table_refuted", "P_StepLex.C234_nonvacuous"], "theorems_failed": ["C233_a_statement_with_a_label_is_read_as_written", "C233_a_statement_without_label_is_read_as_written", "C234_nonvacuous", "C234_the_parts_of_a_complex_entity_are_read_as_written", "C237_a_comma_in_the_last_string_cuts_it_refuted", "C237_a_string_before_a_list_of_lists_keeps_its_comma_refuted"], "statement_broken": [], "secs": 19, "id": "sx13"}
{"failed_lemmas": ["StepLexP.doubles_cons2", "StepLexP.doubles_two", "StepLexP4.quoted_table_refuted", "StepLexP4.complex_table_refuted"], "theorems_failed": ["C233_a_statement_with_a_label_is_read_as_written", "C233_a_statement_without_label_is_read_as_written", "C234_the_parts_of_a_complex_entity_are_read_as_written", "C235_the_references_in_a_list_of_lists_are_lost_refuted", "C237_a_string_before_a_list_of_lists_keeps_its_comma_refuted"], "statement_broken": [], "secs": 20, "id": "sx14"}
{"failed_lemmas": ["StepLexP2.split_table"], "theorems_failed": ["C233_a_statement_with_a_label_is_read_as_written", "C233_a_statement_without_label_is_read_as_written", "C234_the_parts_of_a_complex_entity_are_read_as_written"], "statement_broken": [], "secs": 12, "id": "sx15"}
{"failed_lemmas": ["StepLexP2.split_table", "StepLexP4.quoted_table_refuted"], "theorems_failed": ["C233_a_statement_with_a_label_is_read_as_written", "C233_a_statement_without_label_is_read_as_written", "C234_the_parts_of_a_complex_entity_are_read_as_written", "C237_a_string_before_a_list_of_lists_keeps_its_comma_refuted"], "statement_broken": [], "secs": 16, "id": "sx16"}
{"failed_lemmas": ["StepLexP2.split_table"], "theorems_failed": ["C233_a_statement_with_a_label_is_read_as_written", "C233_a_statement_without_label_is_read_as_written", "C234_the_parts_of_a_complex_entity_are_read_as_written"], "statement_broken": [], "secs": 15, "id": "sx17"}
{"failed_lemmas": ["StepLexP2.split_table"], "theorems_failed": ["C233_a_statement_with_a_label_is_read_as_written", "C233_a_statement_without_label_is_read_as_written", "C234_the_parts_of_a_complex_entity_are_read_as_written"], "statement_broken": [], "secs": 13, "id": "sx18"}
{"failed_lemmas": ["StepLexP2.split_flat", "StepLexP2.split_table", "StepLexP4.quoted_spaces_refuted", "StepLexP4.quoted_comma_refuted", "P_StepLex.C236_nonvacuous"], "theorems_failed": ["C233_a_statement_with_a_label_is_read_as_written", "C233_a_statement_without_label_is_read_as_written", "C234_the_parts_of_a_complex_entity_are_read_as_written", "C236_nonvacuous", "C237_a_comma_in_the_last_string_cuts_it_refuted", "C237_the_blanks_of_a_single_string_are_lost_refuted"], "statement_broken": [], "secs": 21, "id": "sx19"}
{"failed_lemmas": ["StepLexP2.split_flat", "StepLexP2.split_table", "StepLexP4.quoted_comma_refuted", "P_StepLex.C236_nonvacuous"], "theorems_failed": ["C233_a_statement_with_a_label_is_read_as_written", "C233_a_statement_without_label_is_read_as_written", "C234_the_parts_of_a_complex_entity_are_read_as_written", "C236_nonvacuous", "C237_a_comma_in_the_last_string_cuts_it_refuted"], "statement_broken": [], "secs": 20, "id": "sx20"}
{"failed_lemmas": ["StepLexP2.split_flat"], "theorems_failed": ["C233_a_statement_with_a_label_is_read_as_written", "C233_a_statement_without_label_is_read_as_written", "C234_the_parts_of_a_complex_entity_are_read_as_written"], "statement_broken": [], "secs": 15, "id": "sx21"}
{"failed_lemmas": ["StepLexP4.part_scan", "P_StepLex.C234_nonvacuous"], "theorems_failed": ["C234_nonvacuous", "C234_the_parts_of_a_complex_entity_are_read_as_written"], "statement_broken": [], "secs": 18, "id": "sx22"}
{"failed_lemmas": ["StepLexP4.part_scan", "P_StepLex.C234_nonvacuous"], "theorems_failed": ["C234_nonvacuous", "C234_the_parts_of_a_complex_entity_are_read_as_written"], "statement_broken": [], "secs": 18, "id": "sx23"}
{"failed_lemmas": ["StepLexP4.part_scan", "P_StepLex.C234_nonvacuous"], "theorems_failed": ["C234_nonvacuous", "C234_the_parts_of_a_complex_entity_are_read_as_written"], "statement_broken": [], "secs": 19, "id": "sx24"}
{"failed_lemmas": ["StepLexP4.pair_parts", "P_StepLex.C234_nonvacuous"], "theorems_failed": ["C234_nonvacuous", "C234_the_parts_of_a_complex_entity_are_read_as_written"], "statement_broken": [], "secs": 19, "id": "sx25"}
{"failed_lemmas": ["StepLexP3.conn_dec", "StepLexP4.quoted_hash_refuted", "StepLexP4.quoted_hash_error_refuted", "StepLexP4.two_on_a_line_refuted"], "theorems_failed": ["C233_a_statement_with_a_label_is_read_as_written", "C233_a_statement_without_label_is_read_as_written", "C238_a_hash_in_a_string_is_a_connection_refuted", "C238_a_hash_in_a_string_makes_the_reading_fail_refuted", "C239_the_second_statement_of_a_line_is_lost_refuted"], "statement_broken": [], "secs": 27, "id": "sx26"}
{"failed_lemmas": ["StepLexP3.conn_dec", "StepLexP4.quoted_hash_refuted", "StepLexP4.quoted_table_refuted", "StepLexP4.two_on_a_line_refuted"], "theorems_failed": ["C233_a_statement_with_a_label_is_read_as_written", "C233_a_statement_without_label_is_read_as_written", "C237_a_string_before_a_list_of_lists_keeps_its_comma_refuted", "C238_a_hash_in_a_string_is_a_connection_refuted", "C239_the_second_statement_of_a_line_is_lost_refuted"], "statement_broken": [], "secs": 26, "id": "sx27"}
{"failed_lemmas": ["StepLexP3.cot_skip", "StepLexP3.cot_ref", "StepLexP3.conn_args", "StepLexP4.quoted_comma_refuted", "StepLexP4.quoted_hash_refuted", "StepLexP4.quoted_hash_error_refuted", "StepLexP4.two_on_a_line_refuted", "StepLexP4.indented_refuted", "P_StepLex.C236_nonvacuous"], "theorems_failed": ["C233_a_statement_with_a_label_is_read_as_written", "C233_a_statement_without_label_is_read_as_written", "C236_nonvacuous", "C237_a_comma_in_the_last_string_cuts_it_refuted", "C238_a_hash_in_a_string_is_a_connection_refuted", "C238_a_hash_in_a_string_makes_the_reading_fail_refuted", "C239_an_indented_statement_is_lost_refuted", "C239_the_second_statement_of_a_line_is_lost_refuted"], "statement_broken": [], "secs": 38, "id": "sx28"}
{"failed_lemmas": ["StepLexP3.read_arg", "StepLexP4.quoted_table_refuted", "StepLexP4.complex_table_refuted"], "theorems_failed": ["C233_a_statement_with_a_label_is_read_as_written", "C233_a_statement_without_label_is_read_as_written", "C234_the_parts_of_a_complex_entity_are_read_as_written", "C235_the_references_in_a_list_of_lists_are_lost_refuted", "C237_a_string_before_a_list_of_lists_keeps_its_comma_refuted"], "statement_broken": [], "secs": 33, "id": "sx29"}
{"failed_lemmas": ["StepLexP3.read_arg", "StepLexP3.labelled"], "theorems_failed": ["C233_a_statement_with_a_label_is_read_as_written", "C233_a_statement_without_label_is_read_as_written", "C234_the_parts_of_a_complex_entity_are_read_as_written"], "statement_broken": [], "secs": 28, "id": "sx30"}
{"failed_lemmas": ["StepLexP3.read_arg"], "theorems_failed": ["C233_a_statement_with_a_label_is_read_as_written", "C233_a_statement_without_label_is_read_as_written", "C234_the_parts_of_a_complex_entity_are_read_as_written"], "statement_broken": [], "secs": 20, "id": "sx31"}
{"failed_lemmas": ["StepLexP4.direct", "StepLexP4.complex_table_refuted", "P_StepLex.C234_nonvacuous"], "theorems_failed": ["C234_nonvacuous", "C234_the_parts_of_a_complex_entity_are_read_as_written", "C235_the_references_in_a_list_of_lists_are_lost_refuted"], "statement_broken": [], "secs": 22, "id": "sx32"}
{"failed_lemmas": ["StepLexP3.labelled", "StepLexP3.unlabelled", "StepLexP4.complex", "StepLexP4.quoted_spaces_refuted", "StepLexP4.quoted_comma_refuted", "StepLexP4.quoted_hash_refuted", "StepLexP4.quoted_table_refuted", "StepLexP4.two_on_a_line_refuted", "StepLexP4.indented_refuted", "StepLexP4.complex_table_refuted", "P_StepLex.C234_nonvacuous", "P_StepLex.C236_nonvacuous"], "theorems_failed": ["C233_a_statement_with_a_label_is_read_as_written", "C233_a_statement_without_label_is_read_as_written", "C234_nonvacuous", "C234_the_parts_of_a_complex_entity_are_read_as_written", "C235_the_references_in_a_list_of_lists_are_lost_refuted", "C236_nonvacuous", "C237_a_comma_in_the_last_string_cuts_it_refuted", "C237_a_string_before_a_list_of_lists_keeps_its_comma_refuted", "C237_the_blanks_of_a_single_string_are_lost_refuted", "C238_a_hash_in_a_string_is_a_connection_refuted", "C239_an_indented_statement_is_lost_refuted", "C239_the_second_statement_of_a_line_is_lost_refuted"], "statement_broken": [], "secs": 38, "id": "sx33"}
{"failed_lemmas": ["StepLexP3.labelled", "StepLexP3.unlabelled", "StepLexP4.complex"], "theorems_failed": ["C233_a_statement_with_a_label_is_read_as_written", "C233_a_statement_without_label_is_read_as_written", "C234_the_parts_of_a_complex_entity_are_read_as_written"], "statement_broken": [], "secs": 19, "id": "sx34"}
{"failed_lemmas": ["StepLexP3.labelled", "StepLexP3.unlabelled"], "theorems_failed": ["C233_a_statement_with_a_label_is_read_as_written", "C233_a_statement_without_label_is_read_as_written"], "statement_broken": [], "secs": 17, "id": "sx35"}
{"failed_lemmas": ["StepLexP4.complex", "P_StepLex.C234_nonvacuous"], "theorems_failed": ["C234_nonvacuous", "C234_the_parts_of_a_complex_entity_are_read_as_written"], "statement_broken": [], "secs": 19, "id": "sx36"}
{"failed_lemmas": ["StepLexP2.no_spaces", "StepLexP4.quoted_table_refuted"], "theorems_failed": ["C233_a_statement_with_a_label_is_read_as_written", "C233_a_statement_without_label_is_read_as_written", "C234_the_parts_of_a_complex_entity_are_read_as_written", "C237_a_string_before_a_list_of_lists_keeps_its_comma_refuted"], "statement_broken": [], "secs": 19, "id": "sx37"}
{"failed_lemmas": ["StepLexP3.labelled", "StepLexP3.unlabelled"], "theorems_failed": ["C233_a_statement_with_a_label_is_read_as_written", "C233_a_statement_without_label_is_read_as_written"], "statement_broken": [], "secs": 20, "id": "sx38"}
{"failed_lemmas": ["SolidP.triangle_points_corners"], "theorems_failed": ["C226_the_box_is_that_of_the_corners"], "statement_broken": [], "secs": 45, "id": "so7b"}
{"failed_lemmas": ["ShellsP4.to_merge", "P_Shells.C224_nonvacuous"], "theorems_failed": ["C224_coincident_faces_are_merged_by_classes", "C224_nonvacuous"], "statement_broken": [], "secs": 18, "id": "sh38b"}
