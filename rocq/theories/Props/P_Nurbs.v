(** C28-C37, C77: B-spline curves (statements only). *)
From Coq Require Import Reals List Permutation Lra Lia.
From Verif.Model Require Import RBase Nurbs LinSolve.
From Verif.Spec Require Import NurbsSpec CurveSpec LinSpec.
From Verif.Proofs Require Import VecP NurbsP NurbsP2 NurbsP3 InsertP KnotsP InsertCurveP SplitP SplitP2 KnotGenP ReverseP CurveExP LinSolveP.
Import ListNotations.
Open Scope R_scope.

(** ** C28 knot spans *)
Theorem C28_linear_search_on_the_domain p n U u : valid_kv p n U -> nth p U 0 <= u < nth n U 0 ->
  (p <= find_span_linear p U n u < n)%nat /\ nth (find_span_linear p U n u) U 0 <= u < nth (find_span_linear p U n u + 1) U 0.
Proof. exact (find_span_linear_domain p n U u). Qed.
Print Assumptions C28_linear_search_on_the_domain.
Theorem C28_linear_search_at_and_beyond_the_end p n U u : valid_kv p n U -> nth n U 0 <= u -> find_span_linear p U n u = (n - 1)%nat.
Proof. exact (find_span_linear_end p n U u). Qed.
Print Assumptions C28_linear_search_at_and_beyond_the_end.
Theorem C28_linear_search_before_the_domain p n U u : valid_kv p n U -> u < nth p U 0 -> find_span_linear p U n u = p.
Proof. exact (find_span_linear_before p n U u). Qed.
Print Assumptions C28_linear_search_before_the_domain.
(** Terminates within n - p steps and agrees with the linear search, outside the tolerance band at the end. *)
Theorem C28_binary_search_terminates_and_agrees p n U u tol fuel : valid_kv p n U -> (n - p <= fuel)%nat -> nth p U 0 <= u < nth n U 0 ->
  tol < Rabs (nth n U 0 - u) ->
  find_span_binsearch fuel p U n u tol = Ok (find_span_linear p U n u).
Proof. exact (binsearch_domain p n U u tol fuel). Qed.
Print Assumptions C28_binary_search_terminates_and_agrees.
Theorem C28_binary_search_in_the_band p n U u tol fuel : (0 < n)%nat -> Rabs (nth n U 0 - u) <= tol ->
  find_span_binsearch fuel p U n u tol = Ok (n - 1)%nat.
Proof. exact (binsearch_band p n U u tol fuel). Qed.
Print Assumptions C28_binary_search_in_the_band.
(** Finding: whatever the number of iterations allowed, the loop does not stop. *)
Theorem C28_binary_search_outside_the_domain_never_terminates p n U u tol : valid_kv p n U -> u < nth p U 0 \/ nth n U 0 <= u ->
  tol < Rabs (nth n U 0 - u) -> forall fuel, find_span_binsearch fuel p U n u tol = Err OutOfFuel.
Proof. exact (binsearch_diverges p n U u tol). Qed.
Print Assumptions C28_binary_search_outside_the_domain_never_terminates.
Example C28_nonvacuous : valid_kv 2 4 (knotvector quad) /\ nth 2 (knotvector quad) 0 <= 1/4 < nth 4 (knotvector quad) 0.
Proof. split; [exact (proj1 quad_valid)|cbn; lra]. Qed.

(** ** C29 basis functions *)
Theorem C29_basis_functions_are_cox_de_boor p n U u : valid_kv p n U -> nth p U 0 <= u <= nth n U 0 ->
  let s := find_span_linear p U n u in
  basis_function p U s u = map (fun i => coxdeboor (knots_of U) (n - 1) p i u) (seq (s - p) (p + 1)).
Proof. exact (basis_coxdeboor p n U u). Qed.
Print Assumptions C29_basis_functions_are_cox_de_boor.
Theorem C29_basis_nonnegative_partition_of_unity p n U u : valid_kv p n U -> nth p U 0 <= u <= nth n U 0 ->
  let N := basis_function p U (find_span_linear p U n u) u in
  length N = (p + 1)%nat /\ (forall x, In x N -> 0 <= x) /\ fold_right Rplus 0 N = 1.
Proof. exact (basis_nonneg_sum p n U u). Qed.
Print Assumptions C29_basis_nonnegative_partition_of_unity.
Theorem C29_other_functions_vanish p n U u i : valid_kv p n U -> nth p U 0 <= u <= nth n U 0 ->
  let s := find_span_linear p U n u in ~ (s - p <= i <= s)%nat -> coxdeboor (knots_of U) (n - 1) p i u = 0.
Proof. exact (coxdeboor_outside p n U u i). Qed.
Print Assumptions C29_other_functions_vanish.
Theorem C29_single_basis_function p n U u i : valid_kv p n U -> clamped_kv p n U -> nth p U 0 <= u <= nth n U 0 -> (i < n)%nat ->
  basis_function_one p U i u = coxdeboor (knots_of U) (n - 1) p i u.
Proof. exact (basis_one_spec p n U u i). Qed.
Print Assumptions C29_single_basis_function.
Theorem C29_basis_functions_of_all_degrees p n U u i j : valid_kv p n U -> nth p U 0 <= u <= nth n U 0 -> (i <= p)%nat -> (j <= p)%nat ->
  let s := find_span_linear p U n u in
  exists row, nth_error (basis_function_all p U s u) j = Some row /\
  nth_error row i = Some (if (j <=? i)%nat then Some (coxdeboor (knots_of U) (n - 1) i (s - i + j) u) else None).
Proof. exact (basis_all_spec p n U u i j). Qed.
Print Assumptions C29_basis_functions_of_all_degrees.
Theorem C29_coefficient_matrix_rows p n U u : valid_kv p n U -> nth p U 0 <= u <= nth n U 0 ->
  coeff_row p U n u = map (fun j => coxdeboor (knots_of U) (n - 1) p j u) (seq 0 n).
Proof. exact (coeff_row_spec p n U u). Qed.
Print Assumptions C29_coefficient_matrix_rows.
Example C29_nonvacuous : valid_kv 2 4 (knotvector quad) /\ clamped_kv 2 4 (knotvector quad).
Proof. exact (conj (proj1 quad_valid) quad_clamped). Qed.

(** ** C30 evaluation *)
Theorem C30_evaluation_is_the_textbook_curve c u : valid_curve c -> in_domain c u -> evaluate_single c u = curve_point c u.
Proof. exact (evaluate_single_spec c u). Qed.
Print Assumptions C30_evaluation_is_the_textbook_curve.
Theorem C30_sampled_evaluation c k : valid_curve c -> (2 <= k)%nat -> eps_lin < snd (domain c) - fst (domain c) ->
  evaluate c k = map (fun x => curve_point c (fst (domain c) + INR x * (snd (domain c) - fst (domain c)) / INR (k - 1))) (seq 0 k).
Proof. exact (evaluate_spec c k). Qed.
Print Assumptions C30_sampled_evaluation.
Theorem C30_point_in_hull_of_active_control_points c u : valid_curve c -> in_domain c u ->
  let s := find_span_linear (bc_degree c) (knotvector c) (length (bc_ctrlpts c)) u in
  exists lam : nat -> R,
    (forall i, 0 <= lam i) /\ (forall i, lam i <> 0 -> (s - bc_degree c <= i <= s)%nat) /\
    Rsum lam (length (bc_ctrlpts c)) = 1 /\
    forall j, (j < cdim c)%nat ->
      nth j (evaluate_single c u) 0 = Rsum (fun i => lam i * nth j (nth i (bc_ctrlpts c) []) 0) (length (bc_ctrlpts c)).
Proof. exact (curve_hull c u). Qed.
Print Assumptions C30_point_in_hull_of_active_control_points.
Theorem C30_clamped_ends c : valid_curve c -> clamped_kv (bc_degree c) (length (bc_ctrlpts c)) (knotvector c) ->
  evaluate_single c (fst (domain c)) = nth 0 (bc_ctrlpts c) [] /\
  evaluate_single c (snd (domain c)) = nth (length (bc_ctrlpts c) - 1) (bc_ctrlpts c) [].
Proof. exact (curve_clamped c). Qed.
Print Assumptions C30_clamped_ends.
Example C30_nonvacuous : valid_curve quad /\ in_domain quad (1/4).
Proof. split; [exact quad_valid|unfold in_domain; cbn; lra]. Qed.

(** ** C31 knot insertion *)
(** Inserting the knot until its multiplicity is the degree (what split_curve does). *)
Theorem C31_full_insertion_keeps_the_curve c u num b : valid_curve c -> normalized c -> distinguishable c u ->
  nth (bc_degree c) (knotvector c) 0 <= u < nth (length (bc_ctrlpts c)) (knotvector c) 0 ->
  (1 <= num)%nat -> (occurrences u (knotvector c) + num = bc_degree c)%nat ->
  let k := find_span_linear (bc_degree c) (knotvector c) (length (bc_ctrlpts c)) u in
  exists c', insert_knot_curve c u num b = Ok c' /\ valid_curve c' /\ normalized c' /\
    bc_degree c' = bc_degree c /\ cdim c' = cdim c /\ length (bc_ctrlpts c') = (length (bc_ctrlpts c) + num)%nat /\
    knotvector c' = knot_insertion_kv (knotvector c) u k num /\
    (forall x, in_domain c x -> in_domain c' x /\ curve_point c' x = curve_point c x).
Proof. exact (insert_full c u num b). Qed.
Print Assumptions C31_full_insertion_keeps_the_curve.
Theorem C31_knot_vector_of_the_result U u k r : (k < length U)%nat ->
  knot_insertion_kv U u k r = firstn (k + 1) U ++ repeat u r ++ skipn (k + 1) U.
Proof. exact (kv_insertion_explicit U u k r). Qed.
Print Assumptions C31_knot_vector_of_the_result.
Theorem C31_no_insertion c u b : insert_knot_curve c u 0 b = Ok c.
Proof. exact (insert_zero c u b). Qed.
Print Assumptions C31_no_insertion.
Theorem C31_too_many_insertions_rejected c u num : separated_from eps15 u (knotvector c) ->
  (bc_degree c < occurrences u (knotvector c) + num)%nat -> (1 <= num)%nat -> insert_knot_curve c u num true = Err ValueError.
Proof. exact (insert_too_many c u num). Qed.
Print Assumptions C31_too_many_insertions_rejected.
(** Fewer insertions than degree - multiplicity duplicate a control point: the result is not a curve. *)
Theorem C149_partial_insertion_refuted c u num b : valid_curve c -> normalized c -> distinguishable c u ->
  nth (bc_degree c) (knotvector c) 0 <= u < nth (length (bc_ctrlpts c)) (knotvector c) 0 ->
  (1 <= num)%nat -> (occurrences u (knotvector c) + num < bc_degree c)%nat ->
  exists c', insert_knot_curve c u num b = Ok c' /\ bc_degree c' = bc_degree c /\
    length (knotvector c') = (length (knotvector c) + num)%nat /\
    length (bc_ctrlpts c') = (length (bc_ctrlpts c) + num + 1)%nat /\ ~ valid_curve c'.
Proof. exact (insert_partial_breaks c u num b). Qed.
Print Assumptions C149_partial_insertion_refuted.
(** On a BezierCurve the knot is dropped and the curve changes. *)
Theorem C149_bezier_insertion_refuted : exists c c' u, bezier_new 1 [[0]; [1]] = Ok c /\ valid_curve c /\ normalized c /\
   0 < u < 1 /\ insert_knot_bezier c u 1 = Ok c' /\ exists x, in_domain c x /\ in_domain c' x /\ curve_point c' x <> curve_point c x.
Proof. exact bezier_insert_breaks. Qed.
Print Assumptions C149_bezier_insertion_refuted.
Example C31_nonvacuous : valid_curve quad /\ normalized quad /\ distinguishable quad (1/4) /\ (occurrences (1/4) (knotvector quad) + 2 = bc_degree quad)%nat
  /\ distinguishable quad (1/2) /\ (occurrences (1/2) (knotvector quad) + 1 = bc_degree quad)%nat.
Proof.
  pose proof quad_mult as [A B]. rewrite A, B.
  exact (conj quad_valid (conj quad_normalized (conj (quad_distinguishable _ (or_introl eq_refl)) (conj eq_refl (conj (quad_distinguishable _ (or_intror eq_refl)) eq_refl))))).
Qed.

(** ** C32 splitting *)
Theorem C32_split_gives_the_two_parts c u : valid_curve c -> normalized c -> distinguishable c u -> (1 <= bc_degree c)%nat ->
  nth (bc_degree c) (knotvector c) 0 < u < nth (length (bc_ctrlpts c)) (knotvector c) 0 ->
  (occurrences u (knotvector c) <= bc_degree c)%nat ->
  exists c1 c2, split_curve c u = Ok (c1, c2) /\ split_ok c c1 c2 u.
Proof. exact (split_spec c u). Qed.
Print Assumptions C32_split_gives_the_two_parts.
Theorem C32_split_at_the_ends_rejected c u : u = fst (domain c) \/ u = snd (domain c) -> split_curve c u = Err ValueError.
Proof. exact (split_ends c u). Qed.
Print Assumptions C32_split_at_the_ends_rejected.
Example C32_nonvacuous : valid_curve quad /\ normalized quad /\ distinguishable quad (1/2) /\ (occurrences (1/2) (knotvector quad) <= bc_degree quad)%nat.
Proof. pose proof quad_mult as [A B]. rewrite B. split; [exact quad_valid|split; [exact quad_normalized|split; [exact (quad_distinguishable _ (or_intror eq_refl))|cbn; lia]]]. Qed.

(** ** C33 knots and multiplicities *)
Theorem C33_distinct_knots_with_their_multiplicities U : separated eps15 U ->
  let '(knots, mults) := get_knots_and_multiplicities U in
  increasing knots /\ (forall x, In x knots <-> In x U) /\ length mults = length knots /\
  (forall i, (i < length knots)%nat -> nth i mults 0%nat = occurrences (nth i knots 0) U /\ (0 < nth i mults 0)%nat) /\
  Permutation (expand_knots knots mults) U /\ sorted_knots (expand_knots knots mults).
Proof. exact (knots_mults_spec U). Qed.
Print Assumptions C33_distinct_knots_with_their_multiplicities.
(** For knots told apart by the tolerance 1e-15. *)
Theorem C33_expansion_gives_the_knot_vector_back U : separated eps15 U -> sorted_knots U ->
  expand_knots (fst (get_knots_and_multiplicities U)) (snd (get_knots_and_multiplicities U)) = U.
Proof. exact (knots_mults_sorted U). Qed.
Print Assumptions C33_expansion_gives_the_knot_vector_back.
Theorem C33_multiplicity_counts_occurrences u U : separated_from eps15 u U -> find_multiplicity u U = occurrences u U.
Proof. exact (find_multiplicity_occ u U). Qed.
Print Assumptions C33_multiplicity_counts_occurrences.
Theorem C150_close_knots_refuted : exists U, sorted_knots U /\
  length (expand_knots (fst (get_knots_and_multiplicities U)) (snd (get_knots_and_multiplicities U))) <> length U.
Proof. exact knots_mults_overcount. Qed.
Print Assumptions C150_close_knots_refuted.

(** ** C34 knot vectors *)
Theorem C34_generated_clamped_knot_vector p n : (1 <= p)%nat -> (p + 1 <= n)%nat ->
  exists U, generate_knot_vector p n true = Ok U /\ length U = (n + p + 1)%nat /\
    (forall i, (i <= p)%nat -> nth i U 0 = 0) /\ (forall k, (k <= n - p)%nat -> nth (p + k) U 0 = INR k / INR (n - p)) /\
    (forall i, (n <= i <= n + p)%nat -> nth i U 0 = 1) /\ valid_kv p n U /\ clamped_kv p n U.
Proof. exact (generate_clamped p n). Qed.
Print Assumptions C34_generated_clamped_knot_vector.
Theorem C34_generated_unclamped_knot_vector p n : (1 <= p)%nat -> (1 <= n)%nat ->
  exists U, generate_knot_vector p n false = Ok U /\ length U = (n + p + 1)%nat /\
    (forall i, (i <= n + p)%nat -> nth i U 0 = INR i / INR (n + p)) /\ increasing U /\ nth 0 U 0 = 0 /\ last U 0 = 1.
Proof. exact (generate_unclamped p n). Qed.
Print Assumptions C34_generated_unclamped_knot_vector.
Theorem C34_zero_degree_or_points_rejected p n b : p = 0%nat \/ n = 0%nat -> generate_knot_vector p n b = Err ValueError.
Proof. exact (generate_zero p n b). Qed.
Print Assumptions C34_zero_degree_or_points_rejected.
Theorem C34_standardized_knot_vector U : U <> [] -> last U 0 <> hd 0 U ->
  exists V, standardize_knot_vector U = Ok V /\ length V = length U /\
    (forall i, (i < length U)%nat -> nth i V 0 = (nth i U 0 - hd 0 U) / (last U 0 - hd 0 U)) /\ hd 0 V = 0 /\ last V 0 = 1 /\
    (hd 0 U < last U 0 -> forall i j, (i < length U)%nat -> (j < length U)%nat -> (nth i V 0 <= nth j V 0 <-> nth i U 0 <= nth j U 0)).
Proof. exact (standardize_spec U). Qed.
Print Assumptions C34_standardized_knot_vector.
Theorem C34_standardize_errors U : (U = [] -> standardize_knot_vector U = Err IndexError) /\
  (U <> [] -> last U 0 = hd 0 U -> standardize_knot_vector U = Err ZeroDivisionError).
Proof. exact (standardize_errors U). Qed.
Print Assumptions C34_standardize_errors.
(** The curve object denotes the curve of the given data, reparametrised affinely to [0, 1]. *)
Theorem C34_constructor_normalises_the_parameter p P ms ks w : increasing ks -> (2 <= length ks)%nat ->
  (match w with Some l => any_nonzero l = true | None => True end) ->
  valid_curve (mkbcurve p P ms ks w) ->
  exists c, bcurve_new p P ms ks w = Ok c /\ bc_degree c = p /\ bc_ctrlpts c = P /\ bc_mults c = ms /\ bc_weights c = w /\
    hd 0 (bc_knots c) = 0 /\ last (bc_knots c) 0 = 1 /\ valid_curve c /\
    forall x, in_domain (mkbcurve p P ms ks w) x ->
      in_domain c ((x - hd 0 ks) / (last ks 0 - hd 0 ks)) /\
      curve_point c ((x - hd 0 ks) / (last ks 0 - hd 0 ks)) = curve_point (mkbcurve p P ms ks w) x.
Proof. exact (bcurve_new_spec p P ms ks w). Qed.
Print Assumptions C34_constructor_normalises_the_parameter.

(** ** C35 insert_knots_and_mutiplicity *)
Theorem C35_new_knot_inserted ks ms u num : increasing ks -> length ms = length ks -> ~ In u ks -> (exists k, In k ks /\ u < k) ->
  exists ks' ms' i, insert_knots_and_mutiplicity ks ms u num = (ks', ms', i) /\
    length ks' = S (length ks) /\ length ms' = length ks' /\ increasing ks' /\ (i < length ks')%nat /\ nth i ks' 0 = u /\ nth i ms' 0%nat = num /\
    forall x, occurrences x (expand_knots ks' ms') = (occurrences x (expand_knots ks ms) + if Req_EM_T x u then num else 0)%nat.
Proof. exact (insert_km_new ks ms u num). Qed.
Print Assumptions C35_new_knot_inserted.
Theorem C151_existing_knot_refuted ks ms u num : increasing ks -> length ms = length ks -> In u ks -> (exists k, In k ks /\ u < k) ->
  exists ks' ms' i, insert_knots_and_mutiplicity ks ms u num = (ks', ms', i) /\ ~ increasing ks' /\ occurrences u ks' = 2%nat.
Proof. exact (insert_km_existing ks ms u num). Qed.
Print Assumptions C151_existing_knot_refuted.
Theorem C151_knot_past_the_end_refuted ks ms u num : length ms = length ks -> (forall k, In k ks -> k <= u) ->
  insert_knots_and_mutiplicity ks ms u num = (ks, ms, (length ks - 1)%nat).
Proof. exact (insert_km_past_end ks ms u num). Qed.
Print Assumptions C151_knot_past_the_end_refuted.
Example C35_nonvacuous : increasing [0; 1] /\ ~ In (1/2) [0; 1] /\ exists k, In k [0; 1] /\ 1/2 < k.
Proof.
  split; [intros [|[|i]] [|[|j]] H1 H2; cbn in *; lra || lia|]. split; [intros [H|[H|[]]]; lra|]. exists 1. split; [right; left; reflexivity|lra].
Qed.

(** ** C36 linear solver *)
Theorem C36_lu_decomposition A n : square n A -> exists L U, lu_decomposition A = Ok (L, U) /\ square n L /\ square n U /\
  lower_triangular n L /\ upper_triangular n U /\ (forall i, (i < n)%nat -> entry L i i = 1) /\
  ((forall i, (i + 1 < n)%nat -> entry U i i <> 0) -> product_is n L U A).
Proof. exact (lu_spec A n). Qed.
Print Assumptions C36_lu_decomposition.
Theorem C36_not_square_rejected A : (exists row, In row A /\ length row <> length A) -> lu_decomposition A = Err ValueError.
Proof. exact (lu_not_square A). Qed.
Print Assumptions C36_not_square_rejected.
Theorem C36_forward_substitution n L b : (0 < n)%nat -> square n L -> lower_triangular n L -> (forall i, (i < n)%nat -> entry L i i <> 0) -> length b = n ->
  exists y, forward_substitution L b = Ok y /\ solves n L y b.
Proof. exact (forward_spec n L b). Qed.
Print Assumptions C36_forward_substitution.
Theorem C36_backward_substitution n U y : (0 < n)%nat -> square n U -> upper_triangular n U -> (forall i, (i < n)%nat -> entry U i i <> 0) -> length y = n ->
  exists x, backward_substitution U y = Ok x /\ solves n U x y.
Proof. exact (backward_spec n U y). Qed.
Print Assumptions C36_backward_substitution.
(** Provided no pivot vanishes. *)
Theorem C36_solution n A b : (0 < n)%nat -> square n A -> length b = n ->
  (forall L U, lu_decomposition A = Ok (L, U) -> forall i, (i < n)%nat -> entry U i i <> 0) ->
  exists L U y x, lu_decomposition A = Ok (L, U) /\ forward_substitution L b = Ok y /\ backward_substitution U y = Ok x /\ solves n A x b.
Proof. exact (lu_solve n A b). Qed.
Print Assumptions C36_solution.
(** Finding: an invertible matrix is factorised wrongly, without an error. *)
Theorem C36_zero_pivot_gives_wrong_factors : exists A L U, square 2 A /\ entry A 0 0 * entry A 1 1 - entry A 0 1 * entry A 1 0 <> 0 /\
  lu_decomposition A = Ok (L, U) /\ ~ product_is 2 L U A.
Proof. exact lu_zero_pivot. Qed.
Print Assumptions C36_zero_pivot_gives_wrong_factors.
Example C36_nonvacuous : square 2 [[2; 1]; [1; 1]] /\ forall L U, lu_decomposition [[2; 1]; [1; 1]] = Ok (L, U) -> forall i, (i < 2)%nat -> entry U i i <> 0.
Proof. split; [split; [reflexivity|intros r [<-|[<-|[]]]; reflexivity]|exact lu_example]. Qed.

(** ** C37 binomial coefficients *)
Theorem C37_binomial_coefficient k i : binomial_coefficient k i = if (k <? i)%nat then 0 else INR (fact k) / (INR (fact i) * INR (fact (k - i))).
Proof. exact (binomial_spec k i). Qed.
Print Assumptions C37_binomial_coefficient.

(** ** C77 reversal *)
(** The reversed object denotes the reverse of the curve taken with its weights reversed: the reverse curve itself when there are no weights (or a palindromic list). *)
Theorem C77_reverse c : valid_curve c -> length (bc_knots c) = length (bc_mults c) -> hd 0 (bc_knots c) = 0 -> last (bc_knots c) 0 = 1 ->
  nth (bc_degree c) (knotvector c) 0 < nth (bc_degree c + 1) (knotvector c) 0 ->
  (forall x, nth (bc_degree c) (knotvector c) 0 < x < nth (length (bc_ctrlpts c)) (knotvector c) 0 -> (occurrences x (knotvector c) <= bc_degree c)%nat) ->
  exists c', get_reverse c = Ok c' /\ valid_curve c' /\ bc_degree c' = bc_degree c /\
    bc_ctrlpts c' = rev (bc_ctrlpts c) /\ bc_weights c' = bc_weights c /\
    forall x, in_domain c x -> in_domain c' (1 - x) /\
      curve_point c' (1 - x) = curve_point (mkbcurve (bc_degree c) (bc_ctrlpts c) (bc_mults c) (bc_knots c) (option_map (@rev R) (bc_weights c))) x.
Proof. exact (reverse_spec c). Qed.
Print Assumptions C77_reverse.
Theorem C148_reverse_rational_refuted : exists c c' x, valid_curve c /\ normalized c /\ get_reverse c = Ok c' /\ in_domain c x /\ in_domain c' (1 - x) /\
  curve_point c' (1 - x) <> curve_point c x.
Proof. exact reverse_rational_breaks. Qed.
Print Assumptions C148_reverse_rational_refuted.
Example C77_nonvacuous : valid_curve quad /\ forall x, nth 2 (knotvector quad) 0 < x < nth 4 (knotvector quad) 0 -> (occurrences x (knotvector quad) <= 2)%nat.
Proof. exact (conj quad_valid quad_inner). Qed.

