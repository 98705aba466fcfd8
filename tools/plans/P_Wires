(** C185-C199: wires and contours of wires.py (statements only). *)
From Coq Require Import Reals List Permutation Lra Lia.
From Verif.Model Require Import Base RBase Vec Frame Geometry Curves Edges Wires.
From Verif.Spec Require Import VecSpec EdgesSpec WiresSpec.
From Verif.Proofs Require Import VecP WiresP WiresP2 WiresP3 WiresP4 WiresP5 WiresP6 WiresP7 WiresP8 WiresP9.
Import ListNotations.
Open Scope R_scope.

(** ** C185: is_ordered; what is asked of the edges holds for segments *)
@w_wire_is_ordered C185_a_wire_is_ordered_when_its_edges_follow
@w_contour_is_ordered C185_a_contour_is_ordered_when_it_closes_too
@w_closed C185_closed_contours
@w_is_followed_by C185_followed_by
@segments2_ok C185_segments_of_the_plane_are_edges
@segments3_ok C185_segments_of_space_are_edges
@segments2_measure C185_segments_of_the_plane_are_measured
@segments3_measure C185_segments_of_space_are_measured
@segments2_same C185_the_same_segment_of_the_plane
@segments3_same C185_the_same_segment_of_space
Example C185_nonvacuous : contour_is_ordered segments2 triangle (/ 10 ^ 6) = Ok false.
Proof. exact tri_not_ordered. Qed.

(** ** C186: ordering *)
@w_ordering_sound C186_ordering_keeps_the_edges_and_joins_them
@w_ordering_errors C186_ordering_fails_with_two_errors_only
@w_order_wire C186_order_wire_orders_unordered_wires
@w_order_contour_kept C186_an_ordered_contour_is_left_alone
@w_from_wires C186_wires_put_together_are_ordered
@w_ordering_complete C186_a_connected_wire_without_crossings_is_ordered
@w_order_contour C186_a_connected_contour_without_crossings_is_closed
Example C186_nonvacuous : (3 <= length triangle)%nat /\ (forall e, In e triangle -> / 10 ^ 6 < sg2_length e) /\ connected segments2 (/ 10 ^ 6) triangle /\ clustered segments2 (/ 10 ^ 6) (ends segments2 triangle) /\
  (forall p, In p (ends segments2 triangle) -> has_degree segments2 (/ 10 ^ 6) triangle p 2).
Proof. exact tri_ok. Qed.
Example C186_nonvacuous_result : exists r, order_contour segments2 triangle (/ 10 ^ 6) = Ok r /\ same_edges segments2 triangle r /\ contour_is_ordered segments2 r (/ 10 ^ 6) = Ok true.
Proof. exact tri_ordered. Qed.

(** ** C187: what ordering does not do *)
@ordering_fails C187_every_closed_contour_can_be_ordered_refuted
@order_contour_open C187_ordering_gives_ordered_contours_refuted

(** ** C188: wires from edges *)
@w_wires_from_edges C188_the_edges_are_split_in_maximal_wires
@w_wires_from_edges_one C188_edges_of_one_wire_give_one_wire
Example C188_nonvacuous : exists w, fst (wires_from_edges segments2 triangle (/ 10 ^ 6)) = [w].
Proof.
  destruct tri_ok as (L & G & C & _ & D). apply w_wires_from_edges_one; auto using segments2_ok, tol6. cbn; lia.
Qed.

(** ** C189: the list of the caller *)
@w_wires_from_edges_empties C189_the_list_of_the_caller_is_emptied
@w_wires_empties_witness C189_the_list_of_the_caller_is_kept_refuted

(** ** C190: inversion *)
@w_invert C190_inverting_a_wire
@w_invert_ends C190_inverting_exchanges_the_ends

(** ** C191: abscissas along a wire *)
@w_length C191_the_length_is_the_sum_of_the_lengths
@wire_at_inside C191_the_point_is_on_the_edge_of_the_abscissa
@wire_at_end C191_the_abscissa_of_the_end
@wire_at_beyond C191_abscissas_beyond_the_end_are_refused
@w_unit_speed C191_the_wire_is_traversed_at_unit_speed_at_most
@discretization_ok C191_discretization
@segments2_short C191_segments_of_the_plane_are_as_long_as_the_distance_of_their_ends
@segments3_short C191_segments_of_space_are_as_long_as_the_distance_of_their_ends
Example C191_nonvacuous : api_ok segments2 /\ api_measures segments2 /\ joined segments2 0 open_chain.
Proof. split; [exact segments2_ok|]. split; [exact segments2_measure|]. unfold open_chain. repeat (apply joined_cons; split; [cbn; rewrite dist_self2; lra|]). apply joined_one. Qed.

(** ** C192: abscissas before the start *)
@wire_at_negative C192_abscissas_before_the_start_extend_the_first_edge
@wire_at_before C192_abscissas_before_the_start_are_refused_refuted

(** ** C193: the abscissa of a point *)
@wire2_over C193_points_of_a_wire
@wire2_abscissa_off C193_a_point_off_the_wire_has_no_abscissa
@wire2_abscissa_on C193_the_first_edge_with_the_point_gives_the_abscissa
@wire2_round_trip C193_the_abscissa_leads_back_to_the_point
@wire2_abscissa_of_at C193_the_abscissa_of_the_point_at_an_abscissa

(** ** C194: edges of a STEP contour *)
@w_reorder_sound C194_the_edges_of_a_step_contour_follow_each_other
@w_reorder_complete C194_a_chain_with_reversed_edges_is_restored
@w_reorder_far C194_edges_that_are_far_apart_are_refused
Example C194_nonvacuous : Forall2 (fun a b => b = a \/ b = e_rev segments2 a) open_chain [(V2 1 0, V2 0 0); (V2 1 0, V2 1 1); (V2 0 3, V2 1 1)].
Proof. unfold open_chain. constructor; [right; reflexivity|]. constructor; [left; reflexivity|]. constructor; [right; reflexivity|]. constructor. Qed.

(** ** C195: open STEP contours *)
@reorder_open C195_an_open_step_contour_is_refused_refuted

(** ** C196: starting a contour at a point *)
@w_reorder_at_point C196_the_contour_is_rotated
@w_reorder_at_point_ordered C196_the_rotated_contour_is_ordered

(** ** C197: at a point that is no corner *)
@w_reorder_at_point_none C197_the_contour_is_lost_at_other_points
@reorder_at_lost C197_the_contour_starts_at_any_of_its_points_refuted

(** ** C198: wires and contours through points *)
@wire_from_points_ok C198_a_wire_through_points
@wire_from_points_err C198_repeated_points_are_refused
@contour_from_points_ok C198_a_contour_through_points
@contour_from_closed_points_ok C198_a_contour_through_closed_points

(** ** C199: points that are close to each other *)
@from_points_gap C199_a_contour_through_distinct_points_is_ordered_refuted
