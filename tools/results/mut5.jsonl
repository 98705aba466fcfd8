{"failed_lemmas": ["GeometryP.euler_rotation", "GeometryP.euler_round_trip"], "theorems_failed": ["C47_euler_angles_give_a_rotation", "C47_rotation_rebuilt_from_its_euler_angles"], "statement_broken": [], "secs": 12, "id": "ge1"}
{"failed_lemmas": ["GeometryP.euler_round_trip"], "theorems_failed": ["C47_rotation_rebuilt_from_its_euler_angles"], "statement_broken": [], "secs": 11, "id": "ge2"}
{"failed_lemmas": ["GeometryP.euler_round_trip"], "theorems_failed": ["C47_rotation_rebuilt_from_its_euler_angles"], "statement_broken": [], "secs": 11, "id": "ge3"}
{"failed_lemmas": ["GeometryP.atan2_spec"], "theorems_failed": ["C47_rotation_rebuilt_from_its_euler_angles"], "statement_broken": [], "secs": 10, "id": "ge4"}
{"failed_lemmas": ["GeometryP.cos_image_spec"], "theorems_failed": ["C45_cos_image_is_the_exact_image", "C45_sin_image_is_the_exact_image"], "statement_broken": [], "secs": 8, "id": "ge5"}
{"failed_lemmas": ["GeometryP.cos_image_spec"], "theorems_failed": ["C45_cos_image_is_the_exact_image", "C45_sin_image_is_the_exact_image"], "statement_broken": [], "secs": 8, "id": "ge6"}
{"failed_lemmas": ["GeometryP.sin_image_spec"], "theorems_failed": ["C45_sin_image_is_the_exact_image"], "statement_broken": [], "secs": 8, "id": "ge7"}
{"failed_lemmas": ["GeometryP.vectors3d_angle_spec"], "theorems_failed": ["C78_angle_of_two_vectors"], "statement_broken": [], "secs": 15, "id": "ge8"}
{"failed_lemmas": ["GeometryP.sin_cos_angle_spec"], "theorems_failed": ["C46_angle_with_given_cosine_and_sine", "C46_inverts_cos_and_sin", "C46_range", "C79_interior_point_is_half_way_clockwise_partial"], "statement_broken": [], "secs": 11, "id": "ge9"}
{"failed_lemmas": ["GeometryP.sin_cos_angle_spec"], "theorems_failed": ["C46_angle_with_given_cosine_and_sine", "C46_inverts_cos_and_sin", "C46_range", "C79_interior_point_is_half_way_clockwise_partial"], "statement_broken": [], "secs": 11, "id": "ge10"}
{"failed_lemmas": ["GeometryP.clockwise_interior_spec"], "theorems_failed": ["C79_interior_point_is_half_way_clockwise_partial"], "statement_broken": [], "secs": 16, "id": "ge11"}
{"failed_lemmas": ["GeometryP.principal_measure_spec", "GeometryP.principal_measure_default_wrong"], "theorems_failed": ["C49_congruent_up_to_snapping_partial", "C49_default_range_refuted", "C49_range_when_min_angle_is_zero", "C49_three_quarter_turn"], "statement_broken": [], "secs": 18, "id": "ge12"}
{"failed_lemmas": ["GeometryP.clockwise_angle_spec"], "theorems_failed": ["C48_clockwise_angle_rotates_onto_the_second_partial"], "statement_broken": [], "secs": 16, "id": "ge13"}
{"failed_lemmas": ["GeometryP.clockwise_angle_spec", "GeometryP.clockwise_angle_zero", "GeometryP.clockwise_angle_aligned"], "theorems_failed": ["C48_aligned_vectors_are_a_full_turn_apart", "C48_clockwise_angle_rotates_onto_the_second_partial", "C48_null_vector", "C48_range_refuted"], "statement_broken": [], "secs": 25, "id": "ge14"}
{"failed_lemmas": [], "theorems_failed": [], "statement_broken": [], "secs": 8, "id": "ge15"}
{"failed_lemmas": ["GeometryP.sin_cos_angle_spec"], "theorems_failed": ["C46_angle_with_given_cosine_and_sine", "C46_inverts_cos_and_sin", "C46_range", "C79_interior_point_is_half_way_clockwise_partial"], "statement_broken": [], "secs": 12, "id": "ge16"}
{"failed_lemmas": ["GeometryP.floordiv_spec"], "theorems_failed": ["C45_cos_image_is_the_exact_image", "C45_sin_image_is_the_exact_image", "C46_inverts_cos_and_sin", "C49_congruent_up_to_snapping_partial", "C49_default_range_refuted", "C49_range_when_min_angle_is_zero", "C49_three_quarter_turn", "C79_interior_point_is_half_way_clockwise_partial"], "statement_broken": [], "secs": 10, "id": "ge17"}
{"failed_lemmas": ["StepTextP.scan_quoted", "StepTextP.scan_open", "StepTextP.split_special_no_final"], "theorems_failed": ["C51_arguments_split_at_top_level_commas_partial", "C51_last_parenthesised_argument_lost_without_final_parenthesis"], "statement_broken": [], "secs": 101, "id": "st1"}
{"failed_lemmas": ["StepTextP.scan_quoted"], "theorems_failed": ["C51_arguments_split_at_top_level_commas_partial"], "statement_broken": [], "secs": 90, "id": "st2"}
{"failed_lemmas": ["StepTextP.scan_quoted", "StepTextP.scan_quote_in", "StepTextP.scan_quote_out", "StepTextP.scan_arg", "StepTextP.scan_args"], "theorems_failed": ["C51_arguments_split_at_top_level_commas_partial"], "statement_broken": [], "secs": 107, "id": "st3"}
{"failed_lemmas": ["StepTextP.scan_args"], "theorems_failed": ["C51_arguments_split_at_top_level_commas_partial"], "statement_broken": [], "secs": 89, "id": "st4"}
{"failed_lemmas": ["StepTextP.ids_round_trip", "StepExP.written_text"], "theorems_failed": ["C52_identifier_lists_round_trip", "C52_written_lists_are_step_ids_to_str"], "statement_broken": [], "secs": 90, "id": "st5"}
{"failed_lemmas": ["StepTextP.cut_last_app", "StepTextP.set_to_list_spec", "StepTextP.ids_empty", "P_Step.C52_nonvacuous"], "theorems_failed": ["C52_empty_list_gives_an_empty_text", "C52_identifier_lists_round_trip", "C52_nonvacuous", "C52_set_to_list_splits_at_commas"], "statement_broken": [], "secs": 105, "id": "st6"}
{"failed_lemmas": ["StepTextP.set_to_list_spec", "StepTextP.ids_empty", "P_Step.C52_nonvacuous"], "theorems_failed": ["C52_empty_list_gives_an_empty_text", "C52_identifier_lists_round_trip", "C52_nonvacuous", "C52_set_to_list_splits_at_commas"], "statement_broken": [], "secs": 98, "id": "st7"}
{"failed_lemmas": ["StepTextP.split_on_app", "P_Step.C52_nonvacuous"], "theorems_failed": ["C52_identifier_lists_round_trip", "C52_nonvacuous", "C52_set_to_list_splits_at_commas"], "statement_broken": [], "secs": 71, "id": "st8"}
{"failed_lemmas": ["StepWriteP.vertex_step_spec"], "theorems_failed": ["C80_export_is_closed_consistent_and_denotes_the_model", "C80_unique_ids_without_nested_assemblies_partial"], "statement_broken": [], "secs": 77, "id": "sw1"}
{"failed_lemmas": ["StepWriteP.frame_step_spec"], "theorems_failed": ["C80_export_is_closed_consistent_and_denotes_the_model", "C80_export_succeeds_exactly_on_exportable_models", "C80_unique_ids_without_nested_assemblies_partial"], "statement_broken": [], "secs": 68, "id": "sw2"}
{"failed_lemmas": ["StepWriteP.frame_step_spec"], "theorems_failed": ["C80_export_is_closed_consistent_and_denotes_the_model", "C80_export_succeeds_exactly_on_exportable_models", "C80_unique_ids_without_nested_assemblies_partial"], "statement_broken": [], "secs": 66, "id": "sw3"}
{"failed_lemmas": ["StepWriteP.line_step_spec"], "theorems_failed": ["C80_export_is_closed_consistent_and_denotes_the_model", "C80_unique_ids_without_nested_assemblies_partial"], "statement_broken": [], "secs": 80, "id": "sw4"}
{"failed_lemmas": ["StepWriteP.points_step_spec", "StepWriteP.row_points"], "theorems_failed": ["C80_export_is_closed_consistent_and_denotes_the_model", "C80_unique_ids_without_nested_assemblies_partial"], "statement_broken": [], "secs": 85, "id": "sw5"}
{"failed_lemmas": ["StepWriteP.edge_step_spec"], "theorems_failed": ["C80_export_is_closed_consistent_and_denotes_the_model", "C80_unique_ids_without_nested_assemblies_partial"], "statement_broken": [], "secs": 77, "id": "sw6"}
{"failed_lemmas": ["StepWriteP.edges_step_spec"], "theorems_failed": ["C80_export_is_closed_consistent_and_denotes_the_model", "C80_unique_ids_without_nested_assemblies_partial"], "statement_broken": [], "secs": 87, "id": "sw7"}
{"failed_lemmas": ["StepWriteP.inner_step_spec"], "theorems_failed": ["C80_export_is_closed_consistent_and_denotes_the_model", "C80_unique_ids_without_nested_assemblies_partial"], "statement_broken": [], "secs": 83, "id": "sw8"}
{"failed_lemmas": ["StepWriteP.face_step_spec"], "theorems_failed": ["C80_export_is_closed_consistent_and_denotes_the_model", "C80_unique_ids_without_nested_assemblies_partial"], "statement_broken": [], "secs": 96, "id": "sw9"}
{"failed_lemmas": ["StepWriteP.face_step_spec"], "theorems_failed": ["C80_export_is_closed_consistent_and_denotes_the_model", "C80_unique_ids_without_nested_assemblies_partial"], "statement_broken": [], "secs": 95, "id": "sw10"}
{"failed_lemmas": ["StepWriteP.shell_entity_refs", "StepWriteP.manifold_spec"], "theorems_failed": ["C80_export_is_closed_consistent_and_denotes_the_model", "C80_unique_ids_without_nested_assemblies_partial"], "statement_broken": [], "secs": 120, "id": "sw11"}
{"failed_lemmas": ["StepModelP.product_writer_spec"], "theorems_failed": ["C80_export_is_closed_consistent_and_denotes_the_model", "C80_unique_ids_without_nested_assemblies_partial"], "statement_broken": [], "secs": 104, "id": "sw12"}
{"failed_lemmas": ["StepModelP.product_writer_spec", "StepExP.product_writer_ids"], "theorems_failed": ["C53_product_writer_fresh_ids", "C80_export_is_closed_consistent_and_denotes_the_model", "C80_unique_ids_without_nested_assemblies_partial"], "statement_broken": [], "secs": 97, "id": "sw13"}
{"failed_lemmas": [], "theorems_failed": [], "statement_broken": [], "secs": 98, "id": "sw14"}
{"failed_lemmas": ["StepModelP.assembly_definition_spec"], "theorems_failed": ["C80_export_is_closed_consistent_and_denotes_the_model", "C80_unique_ids_without_nested_assemblies_partial"], "statement_broken": [], "secs": 98, "id": "sw15"}
{"failed_lemmas": ["StepModelP.assembly_definition_spec"], "theorems_failed": ["C80_export_is_closed_consistent_and_denotes_the_model", "C80_unique_ids_without_nested_assemblies_partial"], "statement_broken": [], "secs": 103, "id": "sw16"}
{"failed_lemmas": ["StepModelP.styled_spec"], "theorems_failed": ["C80_export_is_closed_consistent_and_denotes_the_model", "C80_unique_ids_without_nested_assemblies_partial"], "statement_broken": [], "secs": 109, "id": "sw17"}
{"failed_lemmas": ["StepModelP.shell_product_spec"], "theorems_failed": ["C80_export_is_closed_consistent_and_denotes_the_model", "C80_unique_ids_without_nested_assemblies_partial"], "statement_broken": [], "secs": 54, "id": "sw18"}
{"failed_lemmas": ["StepModelP.shell_product_spec"], "theorems_failed": ["C80_export_is_closed_consistent_and_denotes_the_model", "C80_unique_ids_without_nested_assemblies_partial"], "statement_broken": [], "secs": 80, "id": "sw19"}
{"failed_lemmas": ["StepModelP.shell_product_spec"], "theorems_failed": ["C80_export_is_closed_consistent_and_denotes_the_model", "C80_unique_ids_without_nested_assemblies_partial"], "statement_broken": [], "secs": 92, "id": "sw20"}
{"failed_lemmas": ["StepModelP2.members_step_spec"], "theorems_failed": ["C80_export_is_closed_consistent_and_denotes_the_model", "C80_unique_ids_without_nested_assemblies_partial"], "statement_broken": [], "secs": 99, "id": "sw21"}
{"failed_lemmas": ["StepModelP2.compound_spec"], "theorems_failed": ["C80_export_is_closed_consistent_and_denotes_the_model", "C80_unique_ids_without_nested_assemblies_partial"], "statement_broken": [], "secs": 89, "id": "sw22"}
{"failed_lemmas": ["StepModelP2.frames_step_spec"], "theorems_failed": ["C80_export_is_closed_consistent_and_denotes_the_model", "C80_export_succeeds_exactly_on_exportable_models", "C80_unique_ids_without_nested_assemblies_partial"], "statement_broken": [], "secs": 80, "id": "sw23"}
{"failed_lemmas": ["StepModelP2.assembly_eq"], "theorems_failed": ["C80_export_is_closed_consistent_and_denotes_the_model", "C80_export_succeeds_exactly_on_exportable_models", "C80_unique_ids_without_nested_assemblies_partial"], "statement_broken": [], "secs": 78, "id": "sw24"}
{"failed_lemmas": ["StepModelP2.primitives_spec", "StepModelP2.model_unique", "StepModelP2.model_ok"], "theorems_failed": ["C80_export_is_closed_consistent_and_denotes_the_model", "C80_export_succeeds_exactly_on_exportable_models", "C80_unique_ids_without_nested_assemblies_partial"], "statement_broken": [], "secs": 84, "id": "sw25"}
{"failed_lemmas": ["StepModelP2.model_export", "StepModelP2.model_unique", "StepModelP2.model_ok"], "theorems_failed": ["C80_export_is_closed_consistent_and_denotes_the_model", "C80_export_succeeds_exactly_on_exportable_models", "C80_unique_ids_without_nested_assemblies_partial"], "statement_broken": [], "secs": 91, "id": "sw26"}
{"failed_lemmas": ["StepWriteP.vector_step_spec"], "theorems_failed": ["C80_export_is_closed_consistent_and_denotes_the_model", "C80_unique_ids_without_nested_assemblies_partial"], "statement_broken": [], "secs": 83, "id": "sw27"}
{"failed_lemmas": ["StepWriteP.manifold_spec"], "theorems_failed": ["C80_export_is_closed_consistent_and_denotes_the_model", "C80_unique_ids_without_nested_assemblies_partial"], "statement_broken": [], "secs": 107, "id": "sw28"}
{"failed_lemmas": [], "theorems_failed": [], "statement_broken": [], "secs": 81, "id": "sw29"}
{"failed_lemmas": ["StepModelP.shell_product_spec"], "theorems_failed": ["C80_export_is_closed_consistent_and_denotes_the_model", "C80_unique_ids_without_nested_assemblies_partial"], "statement_broken": [], "secs": 72, "id": "sw30"}
{"failed_lemmas": ["StepWriteP.surface_step_spec"], "theorems_failed": ["C80_export_is_closed_consistent_and_denotes_the_model", "C80_unique_ids_without_nested_assemblies_partial"], "statement_broken": [], "secs": 104, "id": "sw31"}
{"failed_lemmas": ["StepWriteP.table_step_spec"], "theorems_failed": ["C80_export_is_closed_consistent_and_denotes_the_model", "C80_unique_ids_without_nested_assemblies_partial"], "statement_broken": [], "secs": 113, "id": "sw32"}
