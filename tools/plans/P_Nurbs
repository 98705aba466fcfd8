(** C28-C37, C77: B-spline curves (statements only). *)
From Coq Require Import Reals List Permutation Lra Lia.
From Verif.Model Require Import RBase Nurbs LinSolve.
From Verif.Spec Require Import NurbsSpec CurveSpec LinSpec.
From Verif.Proofs Require Import VecP NurbsP NurbsP2 NurbsP3 InsertP KnotsP InsertCurveP SplitP SplitP2 KnotGenP ReverseP CurveExP LinSolveP.
Import ListNotations.
Open Scope R_scope.

(** ** C28 knot spans *)
@find_span_linear_domain C28_linear_search_on_the_domain
@find_span_linear_end C28_linear_search_at_and_beyond_the_end
@find_span_linear_before C28_linear_search_before_the_domain
@binsearch_domain C28_binary_search_terminates_and_agrees Terminates within n - p steps and agrees with the linear search, outside the tolerance band at the end.
@binsearch_band C28_binary_search_in_the_band
@binsearch_diverges C28_binary_search_outside_the_domain_never_terminates Finding: whatever the number of iterations allowed, the loop does not stop.
Example C28_nonvacuous : valid_kv 2 4 (knotvector quad) /\ nth 2 (knotvector quad) 0 <= 1/4 < nth 4 (knotvector quad) 0.
Proof. split; [exact (proj1 quad_valid)|cbn; lra]. Qed.

(** ** C29 basis functions *)
@basis_coxdeboor C29_basis_functions_are_cox_de_boor
@basis_nonneg_sum C29_basis_nonnegative_partition_of_unity
@coxdeboor_outside C29_other_functions_vanish
@basis_one_spec C29_single_basis_function
@basis_all_spec C29_basis_functions_of_all_degrees
@coeff_row_spec C29_coefficient_matrix_rows
Example C29_nonvacuous : valid_kv 2 4 (knotvector quad) /\ clamped_kv 2 4 (knotvector quad).
Proof. exact (conj (proj1 quad_valid) quad_clamped). Qed.

(** ** C30 evaluation *)
@evaluate_single_spec C30_evaluation_is_the_textbook_curve
@evaluate_spec C30_sampled_evaluation
@curve_hull C30_point_in_hull_of_active_control_points
@curve_clamped C30_clamped_ends
Example C30_nonvacuous : valid_curve quad /\ in_domain quad (1/4).
Proof. split; [exact quad_valid|unfold in_domain; cbn; lra]. Qed.

(** ** C31 knot insertion *)
@insert_full C31_full_insertion_keeps_the_curve Inserting the knot until its multiplicity is the degree (what split_curve does).
@kv_insertion_explicit C31_knot_vector_of_the_result
@insert_zero C31_no_insertion
@insert_too_many C31_too_many_insertions_rejected
@insert_partial_breaks C149_partial_insertion_refuted Fewer insertions than degree - multiplicity duplicate a control point: the result is not a curve.
@bezier_insert_breaks C149_bezier_insertion_refuted On a BezierCurve the knot is dropped and the curve changes.
Example C31_nonvacuous : valid_curve quad /\ normalized quad /\ distinguishable quad (1/4) /\ (occurrences (1/4) (knotvector quad) + 2 = bc_degree quad)%nat
  /\ distinguishable quad (1/2) /\ (occurrences (1/2) (knotvector quad) + 1 = bc_degree quad)%nat.
Proof.
  pose proof quad_mult as [A B]. rewrite A, B.
  exact (conj quad_valid (conj quad_normalized (conj (quad_distinguishable _ (or_introl eq_refl)) (conj eq_refl (conj (quad_distinguishable _ (or_intror eq_refl)) eq_refl))))).
Qed.

(** ** C32 splitting *)
@split_spec C32_split_gives_the_two_parts
@split_ends C32_split_at_the_ends_rejected
Example C32_nonvacuous : valid_curve quad /\ normalized quad /\ distinguishable quad (1/2) /\ (occurrences (1/2) (knotvector quad) <= bc_degree quad)%nat.
Proof. pose proof quad_mult as [A B]. rewrite B. split; [exact quad_valid|split; [exact quad_normalized|split; [exact (quad_distinguishable _ (or_intror eq_refl))|cbn; lia]]]. Qed.

(** ** C33 knots and multiplicities *)
@knots_mults_spec C33_distinct_knots_with_their_multiplicities
@knots_mults_sorted C33_expansion_gives_the_knot_vector_back For knots told apart by the tolerance 1e-15.
@find_multiplicity_occ C33_multiplicity_counts_occurrences
@knots_mults_overcount C150_close_knots_refuted

(** ** C34 knot vectors *)
@generate_clamped C34_generated_clamped_knot_vector
@generate_unclamped C34_generated_unclamped_knot_vector
@generate_zero C34_zero_degree_or_points_rejected
@standardize_spec C34_standardized_knot_vector
@standardize_errors C34_standardize_errors
@bcurve_new_spec C34_constructor_normalises_the_parameter The curve object denotes the curve of the given data, reparametrised affinely to [0, 1].

(** ** C35 insert_knots_and_mutiplicity *)
@insert_km_new C35_new_knot_inserted
@insert_km_existing C151_existing_knot_refuted
@insert_km_past_end C151_knot_past_the_end_refuted
Example C35_nonvacuous : increasing [0; 1] /\ ~ In (1/2) [0; 1] /\ exists k, In k [0; 1] /\ 1/2 < k.
Proof.
  split; [intros [|[|i]] [|[|j]] H1 H2; cbn in *; lra || lia|]. split; [intros [H|[H|[]]]; lra|]. exists 1. split; [right; left; reflexivity|lra].
Qed.

(** ** C36 linear solver *)
Theorem C36_lu_decomposition A n : square n A -> exists L U, lu_decomposition A = Ok (L, U) /\ square n L /\ square n U /\
  lower_triangular n L /\ upper_triangular n U /\ (forall i, (i < n)%nat -> entry L i i = 1) /\
  ((forall i, (i + 1 < n)%nat -> entry U i i <> 0) -> product_is n L U A).
Proof. exact (lu_spec A n). Qed.
Print Assumptions C36_lu_decomposition.
@lu_not_square C36_not_square_rejected
@forward_spec C36_forward_substitution
@backward_spec C36_backward_substitution
@lu_solve C36_solution Provided no pivot vanishes.
@lu_zero_pivot C36_zero_pivot_gives_wrong_factors Finding: an invertible matrix is factorised wrongly, without an error.
Example C36_nonvacuous : square 2 [[2; 1]; [1; 1]] /\ forall L U, lu_decomposition [[2; 1]; [1; 1]] = Ok (L, U) -> forall i, (i < 2)%nat -> entry U i i <> 0.
Proof. split; [split; [reflexivity|intros r [<-|[<-|[]]]; reflexivity]|exact lu_example]. Qed.

(** ** C37 binomial coefficients *)
@binomial_spec C37_binomial_coefficient

(** ** C77 reversal *)
@reverse_spec C77_reverse The reversed object denotes the reverse of the curve taken with its weights reversed: the reverse curve itself when there are no weights (or a palindromic list).
@reverse_rational_breaks C148_reverse_rational_refuted
Example C77_nonvacuous : valid_curve quad /\ forall x, nth 2 (knotvector quad) 0 < x < nth 4 (knotvector quad) 0 -> (occurrences x (knotvector quad) <= 2)%nat.
Proof. exact (conj quad_valid quad_inner). Qed.
