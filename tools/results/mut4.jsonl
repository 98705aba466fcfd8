{"failed_lemmas": ["NurbsP.span_loop_spec"], "theorems_failed": ["C28_binary_search_terminates_and_agrees", "C28_linear_search_at_and_beyond_the_end", "C28_linear_search_before_the_domain", "C28_linear_search_on_the_domain", "C29_basis_functions_are_cox_de_boor", "C29_basis_functions_of_all_degrees", "C29_basis_nonnegative_partition_of_unity", "C29_coefficient_matrix_rows", "C29_other_functions_vanish", "C29_single_basis_function", "C30_clamped_ends", "C30_evaluation_is_the_textbook_curve", "C30_point_in_hull_of_active_control_points", "C30_sampled_evaluation", "C31_bezier_insertion_refuted", "C31_full_insertion_keeps_the_curve_partial", "C31_partial_insertion_refuted", "C32_split_gives_the_two_parts", "C34_constructor_normalises_the_parameter", "C77_reverse_partial", "C77_reverse_rational_refuted"], "statement_broken": [], "secs": 55, "id": "nu1"}
{"failed_lemmas": ["NurbsP.span_linear_spec"], "theorems_failed": ["C28_binary_search_terminates_and_agrees", "C28_linear_search_at_and_beyond_the_end", "C28_linear_search_before_the_domain", "C28_linear_search_on_the_domain", "C29_basis_functions_are_cox_de_boor", "C29_basis_functions_of_all_degrees", "C29_basis_nonnegative_partition_of_unity", "C29_coefficient_matrix_rows", "C29_other_functions_vanish", "C29_single_basis_function", "C30_clamped_ends", "C30_evaluation_is_the_textbook_curve", "C30_point_in_hull_of_active_control_points", "C30_sampled_evaluation", "C31_bezier_insertion_refuted", "C31_full_insertion_keeps_the_curve_partial", "C31_partial_insertion_refuted", "C32_split_gives_the_two_parts", "C34_constructor_normalises_the_parameter", "C77_reverse_partial", "C77_reverse_rational_refuted"], "statement_broken": [], "secs": 48, "id": "nu2"}
{"failed_lemmas": ["NurbsP2.bin_loop_ok", "NurbsP2.bin_loop_above"], "theorems_failed": ["C28_binary_search_outside_the_domain_never_terminates", "C28_binary_search_terminates_and_agrees"], "statement_broken": [], "secs": 54, "id": "nu3"}
{"failed_lemmas": ["NurbsP2.binsearch_band"], "theorems_failed": ["C28_binary_search_in_the_band"], "statement_broken": [], "secs": 51, "id": "nu4"}
{"failed_lemmas": ["NurbsP.basis_inner_spec"], "theorems_failed": ["C29_basis_functions_are_cox_de_boor", "C29_basis_functions_of_all_degrees", "C29_basis_nonnegative_partition_of_unity", "C29_coefficient_matrix_rows", "C30_clamped_ends", "C30_evaluation_is_the_textbook_curve", "C30_point_in_hull_of_active_control_points", "C30_sampled_evaluation"], "statement_broken": [], "secs": 53, "id": "nu5"}
{"failed_lemmas": ["NurbsP.basis_inner_spec"], "theorems_failed": ["C29_basis_functions_are_cox_de_boor", "C29_basis_functions_of_all_degrees", "C29_basis_nonnegative_partition_of_unity", "C29_coefficient_matrix_rows", "C30_clamped_ends", "C30_evaluation_is_the_textbook_curve", "C30_point_in_hull_of_active_control_points", "C30_sampled_evaluation"], "statement_broken": [], "secs": 47, "id": "nu6"}
{"failed_lemmas": ["NurbsP3.basis_all_spec"], "theorems_failed": ["C29_basis_functions_of_all_degrees"], "statement_broken": [], "secs": 44, "id": "nu7"}
{"failed_lemmas": ["NurbsP3.basis_one_spec"], "theorems_failed": ["C29_single_basis_function"], "statement_broken": [], "secs": 57, "id": "nu8"}
{"failed_lemmas": ["NurbsP3.one_inner_spec"], "theorems_failed": ["C29_single_basis_function"], "statement_broken": [], "secs": 54, "id": "nu9"}
{"failed_lemmas": ["NurbsP.eval_point_spec"], "theorems_failed": ["C30_clamped_ends", "C30_evaluation_is_the_textbook_curve", "C30_point_in_hull_of_active_control_points", "C30_sampled_evaluation"], "statement_broken": [], "secs": 56, "id": "nu10"}
{"failed_lemmas": ["NurbsP3.evaluate_spec", "KnotGenP.linspace01"], "theorems_failed": ["C30_sampled_evaluation", "C31_bezier_insertion_refuted", "C34_generated_clamped_knot_vector", "C34_generated_unclamped_knot_vector"], "statement_broken": [], "secs": 59, "id": "nu11"}
{"failed_lemmas": ["NurbsP3.eval_curve_point"], "theorems_failed": ["C30_clamped_ends", "C30_evaluation_is_the_textbook_curve", "C30_point_in_hull_of_active_control_points", "C30_sampled_evaluation"], "statement_broken": [], "secs": 60, "id": "nu12"}
{"failed_lemmas": ["NurbsP3.coeff_row_spec"], "theorems_failed": ["C29_coefficient_matrix_rows"], "statement_broken": [], "secs": 55, "id": "nu13"}
{"failed_lemmas": ["InsertP.row_step", "CurveExP.bezier_insert_breaks"], "theorems_failed": ["C31_bezier_insertion_refuted", "C31_full_insertion_keeps_the_curve_partial", "C31_partial_insertion_refuted", "C32_split_gives_the_two_parts"], "statement_broken": [], "secs": 49, "id": "nu14"}
{"failed_lemmas": ["InsertP.row_spec", "CurveExP.bezier_insert_breaks"], "theorems_failed": ["C31_bezier_insertion_refuted", "C31_full_insertion_keeps_the_curve_partial", "C31_partial_insertion_refuted", "C32_split_gives_the_two_parts"], "statement_broken": [], "secs": 41, "id": "nu15"}
{"failed_lemmas": ["InsertP.knot_insertion_spec", "CurveExP.bezier_insert_breaks"], "theorems_failed": ["C31_bezier_insertion_refuted", "C31_full_insertion_keeps_the_curve_partial", "C31_partial_insertion_refuted", "C32_split_gives_the_two_parts"], "statement_broken": [], "secs": 44, "id": "nu16"}
{"failed_lemmas": ["InsertP.kv_insertion_length", "InsertP.kv_insertion_nth"], "theorems_failed": ["C31_full_insertion_keeps_the_curve_partial", "C31_knot_vector_of_the_result", "C31_partial_insertion_refuted", "C32_split_gives_the_two_parts"], "statement_broken": [], "secs": 45, "id": "nu17"}
{"failed_lemmas": ["InsertCurveP.insert_full", "SplitP.insert_too_many", "SplitP.insert_partial_breaks"], "theorems_failed": ["C31_full_insertion_keeps_the_curve_partial", "C31_partial_insertion_refuted", "C31_too_many_insertions_rejected", "C32_split_gives_the_two_parts"], "statement_broken": [], "secs": 46, "id": "nu18"}
{"failed_lemmas": ["InsertCurveP.sep_ctrlptsw", "InsertCurveP.sep_dims"], "theorems_failed": ["C31_full_insertion_keeps_the_curve_partial", "C32_split_gives_the_two_parts"], "statement_broken": [], "secs": 43, "id": "nu19"}
{"failed_lemmas": ["SplitP2.split_spec"], "theorems_failed": ["C32_split_gives_the_two_parts"], "statement_broken": [], "secs": 43, "id": "nu20"}
{"failed_lemmas": ["SplitP2.cut_curve"], "theorems_failed": ["C32_split_gives_the_two_parts"], "statement_broken": [], "secs": 40, "id": "nu21"}
{"failed_lemmas": ["SplitP2.cut_curve"], "theorems_failed": ["C32_split_gives_the_two_parts"], "statement_broken": [], "secs": 44, "id": "nu22"}
{"failed_lemmas": ["SplitP2.split_spec"], "theorems_failed": ["C32_split_gives_the_two_parts"], "statement_broken": [], "secs": 49, "id": "nu23"}
{"failed_lemmas": ["KnotsP.isu_incr"], "theorems_failed": ["C31_full_insertion_keeps_the_curve_partial", "C31_partial_insertion_refuted", "C32_split_gives_the_two_parts", "C33_distinct_knots_with_their_multiplicities", "C33_expansion_gives_the_knot_vector_back_partial"], "statement_broken": [], "secs": 46, "id": "nu24"}
{"failed_lemmas": ["KnotsP.find_multiplicity_occ", "KnotsP.knots_mults_overcount", "CurveExP.bezier_insert_breaks"], "theorems_failed": ["C31_bezier_insertion_refuted", "C31_full_insertion_keeps_the_curve_partial", "C31_partial_insertion_refuted", "C31_too_many_insertions_rejected", "C32_split_gives_the_two_parts", "C33_close_knots_refuted", "C33_distinct_knots_with_their_multiplicities", "C33_expansion_gives_the_knot_vector_back_partial", "C33_multiplicity_counts_occurrences"], "statement_broken": [], "secs": 60, "id": "nu25"}
{"failed_lemmas": ["InsertCurveP.rebuild", "KnotGenP.standardize_spec", "ReverseP.reverse_spec", "CurveExP.bezier_insert_breaks"], "theorems_failed": ["C31_bezier_insertion_refuted", "C31_full_insertion_keeps_the_curve_partial", "C31_partial_insertion_refuted", "C32_split_gives_the_two_parts", "C34_constructor_normalises_the_parameter", "C34_standardized_knot_vector", "C77_reverse_partial", "C77_reverse_rational_refuted"], "statement_broken": [], "secs": 64, "id": "nu26"}
{"failed_lemmas": ["KnotGenP.generate_clamped", "CurveExP.bezier_insert_breaks"], "theorems_failed": ["C31_bezier_insertion_refuted", "C34_generated_clamped_knot_vector"], "statement_broken": [], "secs": 53, "id": "nu27"}
{"failed_lemmas": ["KnotGenP.generate_unclamped"], "theorems_failed": ["C34_generated_unclamped_knot_vector"], "statement_broken": [], "secs": 49, "id": "nu28"}
{"failed_lemmas": ["KnotGenP.insert_km_loop_spec"], "theorems_failed": ["C35_existing_knot_refuted", "C35_knot_past_the_end_refuted", "C35_new_knot_inserted_partial"], "statement_broken": [], "secs": 56, "id": "nu29"}
{"failed_lemmas": ["KnotGenP.binomial_spec"], "theorems_failed": ["C37_binomial_coefficient"], "statement_broken": [], "secs": 51, "id": "nu30"}
{"failed_lemmas": ["KnotGenP.binomial_spec"], "theorems_failed": ["C37_binomial_coefficient"], "statement_broken": [], "secs": 50, "id": "nu31"}
{"failed_lemmas": ["NurbsP3.ctrlptsw_nth", "InsertCurveP.sep_ctrlptsw", "InsertCurveP.ctrlptsw_dims"], "theorems_failed": ["C30_clamped_ends", "C30_evaluation_is_the_textbook_curve", "C30_point_in_hull_of_active_control_points", "C30_sampled_evaluation", "C31_full_insertion_keeps_the_curve_partial", "C31_partial_insertion_refuted", "C32_split_gives_the_two_parts", "C34_constructor_normalises_the_parameter", "C77_reverse_partial", "C77_reverse_rational_refuted"], "statement_broken": [], "secs": 47, "id": "nu32"}
{"failed_lemmas": ["NurbsP3.evaluate_spec", "NurbsP3.curve_clamped", "SplitP2.split_spec"], "theorems_failed": ["C30_clamped_ends", "C30_sampled_evaluation", "C32_split_gives_the_two_parts"], "statement_broken": [], "secs": 41, "id": "nu33"}
{"failed_lemmas": ["ReverseP.reverse_spec"], "theorems_failed": ["C77_reverse_partial", "C77_reverse_rational_refuted"], "statement_broken": [], "secs": 36, "id": "nu34"}
{"failed_lemmas": ["ReverseP.reverse_spec"], "theorems_failed": ["C77_reverse_partial", "C77_reverse_rational_refuted"], "statement_broken": [], "secs": 40, "id": "nu35"}
{"failed_lemmas": ["KnotsP.expand_cons", "KnotsP.expand_in", "KnotsP.expand_nondec", "KnotsP.knots_mults_overcount", "CurveExP.seg_kv", "CurveExP.seg12_valid", "CurveExP.reverse_rational_breaks", "CurveExP.quad_kv", "CurveExP.quad_valid", "P_Nurbs.C28_nonvacuous", "P_Nurbs.C30_nonvacuous"], "theorems_failed": ["C28_nonvacuous", "C29_nonvacuous", "C30_nonvacuous", "C31_full_insertion_keeps_the_curve_partial", "C31_nonvacuous", "C31_partial_insertion_refuted", "C32_nonvacuous", "C32_split_gives_the_two_parts", "C33_close_knots_refuted", "C33_distinct_knots_with_their_multiplicities", "C33_expansion_gives_the_knot_vector_back_partial", "C34_constructor_normalises_the_parameter", "C35_new_knot_inserted_partial", "C77_nonvacuous", "C77_reverse_partial", "C77_reverse_rational_refuted"], "statement_broken": [], "secs": 53, "id": "nu36"}
{"failed_lemmas": ["NurbsP3.evaluate_spec"], "theorems_failed": ["C30_sampled_evaluation"], "statement_broken": [], "secs": 40, "id": "nu37"}
{"failed_lemmas": ["InsertCurveP.rebuild", "KnotGenP.bcurve_new_spec", "ReverseP.reverse_spec"], "theorems_failed": ["C31_full_insertion_keeps_the_curve_partial", "C31_partial_insertion_refuted", "C32_split_gives_the_two_parts", "C34_constructor_normalises_the_parameter", "C77_reverse_partial", "C77_reverse_rational_refuted"], "statement_broken": [], "secs": 44, "id": "nu38"}
{"failed_lemmas": ["InsertCurveP.insert_full", "SplitP.insert_partial_breaks"], "theorems_failed": ["C31_full_insertion_keeps_the_curve_partial", "C31_partial_insertion_refuted", "C32_split_gives_the_two_parts"], "statement_broken": [], "secs": 35, "id": "nu39"}
{"failed_lemmas": ["LinSolveP.step_inv"], "theorems_failed": ["C36_lu_decomposition", "C36_nonvacuous", "C36_solution", "C36_zero_pivot_gives_wrong_factors"], "statement_broken": [], "secs": 4, "id": "ls1"}
{"failed_lemmas": ["LinSolveP.step_inv"], "theorems_failed": ["C36_lu_decomposition", "C36_nonvacuous", "C36_solution", "C36_zero_pivot_gives_wrong_factors"], "statement_broken": [], "secs": 4, "id": "ls2"}
{"failed_lemmas": ["LinSolveP.doolittle_inv"], "theorems_failed": ["C36_lu_decomposition", "C36_nonvacuous", "C36_solution", "C36_zero_pivot_gives_wrong_factors"], "statement_broken": [], "secs": 5, "id": "ls3"}
{"failed_lemmas": ["LinSolveP.forward_loop_spec"], "theorems_failed": ["C36_forward_substitution", "C36_solution"], "statement_broken": [], "secs": 5, "id": "ls4"}
{"failed_lemmas": ["LinSolveP.backward_loop_spec"], "theorems_failed": ["C36_backward_substitution", "C36_solution"], "statement_broken": [], "secs": 5, "id": "ls5"}
{"failed_lemmas": ["LinSolveP.lu_not_square"], "theorems_failed": ["C36_not_square_rejected"], "statement_broken": [], "secs": 5, "id": "ls6"}
{"failed_lemmas": ["LinSolveP.step_inv"], "theorems_failed": ["C36_lu_decomposition", "C36_nonvacuous", "C36_solution", "C36_zero_pivot_gives_wrong_factors"], "statement_broken": [], "secs": 4, "id": "ls7"}
