(** C185-C199: wires and contours of wires.py (statements only). *)
From Coq Require Import Reals List Permutation Lra Lia.
From Verif.Model Require Import Base RBase Vec Frame Geometry Curves Edges Wires.
From Verif.Spec Require Import VecSpec EdgesSpec WiresSpec.
From Verif.Proofs Require Import VecP WiresP WiresP2 WiresP3 WiresP4 WiresP5 WiresP6 WiresP7 WiresP8 WiresP9.
Import ListNotations.
Open Scope R_scope.

(** ** C185: is_ordered; what is asked of the edges holds for segments *)
Theorem C185_a_wire_is_ordered_when_its_edges_follow K w tol : wire_is_ordered K w tol = true <-> joined K tol w.
Proof. exact (w_wire_is_ordered K w tol). Qed.
Print Assumptions C185_a_wire_is_ordered_when_its_edges_follow.
Theorem C185_a_contour_is_ordered_when_it_closes_too K w tol : api_ok K -> 0 <= tol -> w <> [] -> exists b, contour_is_ordered K w tol = Ok b /\
  (b = true <-> joined K tol w /\ closes K tol w /\ (forall e, w = [e] -> tol < e_length K e) /\ (forall e f, w = [e; f] -> e_same K e f = false)).
Proof. exact (w_contour_is_ordered K w tol). Qed.
Print Assumptions C185_a_contour_is_ordered_when_it_closes_too.
Theorem C185_closed_contours K e w : api_ok K -> exists b, is_contour_closed K (e :: w) = Ok b /\ (b = true <-> closes K (/ 10 ^ 6) (e :: w)).
Proof. exact (w_closed K e w). Qed.
Print Assumptions C185_closed_contours.
Theorem C185_followed_by K e w f w' tol : is_followed_by K (e :: w) (f :: w') tol = Ok (Rltb (p_dist K (e_end K (last w e)) (e_start K f)) tol).
Proof. exact (w_is_followed_by K e w f w' tol). Qed.
Print Assumptions C185_followed_by.
Theorem C185_segments_of_the_plane_are_edges : api_ok segments2.
Proof. exact segments2_ok. Qed.
Print Assumptions C185_segments_of_the_plane_are_edges.
Theorem C185_segments_of_space_are_edges : api_ok segments3.
Proof. exact segments3_ok. Qed.
Print Assumptions C185_segments_of_space_are_edges.
Theorem C185_segments_of_the_plane_are_measured : api_measures segments2.
Proof. exact segments2_measure. Qed.
Print Assumptions C185_segments_of_the_plane_are_measured.
Theorem C185_segments_of_space_are_measured : api_measures segments3.
Proof. exact segments3_measure. Qed.
Print Assumptions C185_segments_of_space_are_measured.
Theorem C185_the_same_segment_of_the_plane : api_same segments2.
Proof. exact segments2_same. Qed.
Print Assumptions C185_the_same_segment_of_the_plane.
Theorem C185_the_same_segment_of_space : api_same segments3.
Proof. exact segments3_same. Qed.
Print Assumptions C185_the_same_segment_of_space.
Example C185_nonvacuous : contour_is_ordered segments2 triangle (/ 10 ^ 6) = Ok false.
Proof. exact tri_not_ordered. Qed.

(** ** C186: ordering *)
Theorem C186_ordering_keeps_the_edges_and_joins_them K w tol r : api_ok K -> 0 <= tol -> ordering_primitives K w tol = Ok r ->
  exists kept dropped, Permutation w (kept ++ dropped) /\ (forall e, In e kept -> tol < e_length K e) /\ (forall e, In e dropped -> e_length K e <= tol) /\
    joined K tol r /\ same_edges K kept r.
Proof. exact (w_ordering_sound K w tol r). Qed.
Print Assumptions C186_ordering_keeps_the_edges_and_joins_them.
Theorem C186_ordering_fails_with_two_errors_only K w tol x : api_ok K -> 0 <= tol -> ordering_primitives K w tol = Err x -> x = NotImplementedError \/ (x = IndexError /\ forall e, In e w -> e_length K e <= tol).
Proof. exact (w_ordering_errors K w tol x). Qed.
Print Assumptions C186_ordering_fails_with_two_errors_only.
Theorem C186_order_wire_orders_unordered_wires K w tol : api_ok K -> 0 <= tol ->
  (joined K tol w -> order_wire K w tol = Ok w) /\ (~ joined K tol w -> order_wire K w tol = ordering_primitives K w tol) /\ (forall r, order_wire K w tol = Ok r -> joined K tol r).
Proof. exact (w_order_wire K w tol). Qed.
Print Assumptions C186_order_wire_orders_unordered_wires.
Theorem C186_an_ordered_contour_is_left_alone K w tol : api_ok K -> contour_is_ordered K w tol = Ok true -> order_contour K w tol = Ok w.
Proof. exact (w_order_contour_kept K w tol). Qed.
Print Assumptions C186_an_ordered_contour_is_left_alone.
Theorem C186_wires_put_together_are_ordered K ws r : api_ok K -> from_wires K ws = Ok r -> joined K (/ 10 ^ 6) r.
Proof. exact (w_from_wires K ws r). Qed.
Print Assumptions C186_wires_put_together_are_ordered.
Theorem C186_a_connected_wire_without_crossings_is_ordered K w tol : api_ok K -> 0 <= tol -> w <> [] -> (forall e, In e w -> tol < e_length K e) -> connected K tol w ->
  (forall p, In p (ends K w) -> has_degree K tol w p 1 \/ has_degree K tol w p 2) -> exists r, ordering_primitives K w tol = Ok r /\ joined K tol r /\ same_edges K w r.
Proof. exact (w_ordering_complete K w tol). Qed.
Print Assumptions C186_a_connected_wire_without_crossings_is_ordered.
Theorem C186_a_connected_contour_without_crossings_is_closed K w tol : api_ok K -> 0 <= tol -> (3 <= length w)%nat -> (forall e, In e w -> tol < e_length K e) -> connected K tol w -> clustered K tol (ends K w) ->
  (forall p, In p (ends K w) -> has_degree K tol w p 2) ->
  exists r, order_contour K w tol = Ok r /\ same_edges K w r /\ contour_is_ordered K r tol = Ok true.
Proof. exact (w_order_contour K w tol). Qed.
Print Assumptions C186_a_connected_contour_without_crossings_is_closed.
Example C186_nonvacuous : (3 <= length triangle)%nat /\ (forall e, In e triangle -> / 10 ^ 6 < sg2_length e) /\ connected segments2 (/ 10 ^ 6) triangle /\ clustered segments2 (/ 10 ^ 6) (ends segments2 triangle) /\
  (forall p, In p (ends segments2 triangle) -> has_degree segments2 (/ 10 ^ 6) triangle p 2).
Proof. exact tri_ok. Qed.
Example C186_nonvacuous_result : exists r, order_contour segments2 triangle (/ 10 ^ 6) = Ok r /\ same_edges segments2 triangle r /\ contour_is_ordered segments2 r (/ 10 ^ 6) = Ok true.
Proof. exact tri_ordered. Qed.

(** ** C187: what ordering does not do *)
Theorem C187_every_closed_contour_can_be_ordered_refuted : exists w r, (forall tol, 0 <= tol -> contour_is_ordered segments2 r tol = Ok true) /\ Permutation w r /\
  order_wire segments2 w (/ 10 ^ 6) = Err NotImplementedError /\ order_contour segments2 w (/ 10 ^ 6) = Err NotImplementedError.
Proof. exact ordering_fails. Qed.
Print Assumptions C187_every_closed_contour_can_be_ordered_refuted.
Theorem C187_ordering_gives_ordered_contours_refuted : exists w r, order_contour segments2 w (/ 10 ^ 6) = Ok r /\ contour_is_ordered segments2 r (/ 10 ^ 6) = Ok false.
Proof. exact order_contour_open. Qed.
Print Assumptions C187_ordering_gives_ordered_contours_refuted.

(** ** C188: wires from edges *)
Theorem C188_the_edges_are_split_in_maximal_wires K l tol ws rest : api_ok K -> 0 <= tol -> wires_from_edges K l tol = (ws, rest) ->
  same_edges K l (concat ws) /\ (forall w, In w ws -> w <> [] /\ joined K tol w) /\
  ForallOrdPairs (fun w w' => forall a c e, w = a :: c -> In e w' -> ~ touches K tol e (e_start K a) /\ ~ touches K tol e (e_end K (last w a))) ws.
Proof. exact (w_wires_from_edges K l tol ws rest). Qed.
Print Assumptions C188_the_edges_are_split_in_maximal_wires.
Theorem C188_edges_of_one_wire_give_one_wire K l tol : api_ok K -> 0 <= tol -> (2 <= length l)%nat -> (forall e, In e l -> tol < e_length K e) -> connected K tol l ->
  (forall p, In p (ends K l) -> has_degree K tol l p 1 \/ has_degree K tol l p 2) -> exists w, fst (wires_from_edges K l tol) = [w].
Proof. exact (w_wires_from_edges_one K l tol). Qed.
Print Assumptions C188_edges_of_one_wire_give_one_wire.
Example C188_nonvacuous : exists w, fst (wires_from_edges segments2 triangle (/ 10 ^ 6)) = [w].
Proof.
  destruct tri_ok as (L & G & C & _ & D). apply w_wires_from_edges_one; auto using segments2_ok, tol6. cbn; lia.
Qed.

(** ** C189: the list of the caller *)
Theorem C189_the_list_of_the_caller_is_emptied K l tol : (2 <= length l)%nat -> snd (wires_from_edges K l tol) = [].
Proof. exact (w_wires_from_edges_empties K l tol). Qed.
Print Assumptions C189_the_list_of_the_caller_is_emptied.
Theorem C189_the_list_of_the_caller_is_kept_refuted : exists l tol, l <> [] /\ snd (wires_from_edges segments2 l tol) <> l.
Proof. exact w_wires_empties_witness. Qed.
Print Assumptions C189_the_list_of_the_caller_is_kept_refuted.

(** ** C190: inversion *)
Theorem C190_inverting_a_wire K w : api_ok K -> invert K (invert K w) = w /\ (forall tol, joined K tol w <-> joined K tol (invert K w)) /\ wire_length K (invert K w) = wire_length K w /\ same_edges K w (invert K w).
Proof. exact (w_invert K w). Qed.
Print Assumptions C190_inverting_a_wire.
Theorem C190_inverting_exchanges_the_ends K w a b : api_ok K -> w <> [] -> e_start K (hd a (invert K w)) = e_end K (last w b) /\ e_end K (last (invert K w) b) = e_start K (hd a w).
Proof. exact (w_invert_ends K w a b). Qed.
Print Assumptions C190_inverting_exchanges_the_ends.

(** ** C191: abscissas along a wire *)
Theorem C191_the_length_is_the_sum_of_the_lengths K w : wire_length K w = total K w.
Proof. exact (w_length K w). Qed.
Print Assumptions C191_the_length_is_the_sum_of_the_lengths.
Theorem C191_the_point_is_on_the_edge_of_the_abscissa K w s : api_ok K -> 0 <= s < total K w ->
  exists w1 e w2, w = w1 ++ e :: w2 /\ total K w1 <= s < total K w1 + e_length K e /\ wire_at K w s = e_at K e (s - total K w1).
Proof. exact (wire_at_inside K w s). Qed.
Print Assumptions C191_the_point_is_on_the_edge_of_the_abscissa.
Theorem C191_the_abscissa_of_the_end K w s : api_ok K -> w <> [] -> total K w <= s <= total K w + / 10 ^ 6 -> forall a, wire_at K w s = Ok (e_end K (last w a)).
Proof. exact (wire_at_end K w s). Qed.
Print Assumptions C191_the_abscissa_of_the_end.
Theorem C191_abscissas_beyond_the_end_are_refused K w s : api_ok K -> total K w + / 10 ^ 6 < s -> total K w + s / 10 ^ 9 < s -> wire_at K w s = Err ValueError.
Proof. exact (wire_at_beyond K w s). Qed.
Print Assumptions C191_abscissas_beyond_the_end_are_refused.
Theorem C191_the_wire_is_traversed_at_unit_speed_at_most K w s t : api_ok K -> api_measures K -> (forall e, p_dist K (e_start K e) (e_end K e) <= e_length K e) ->
  w <> [] -> joined K 0 w -> 0 <= s <= t -> t <= total K w -> exists p q, wire_at K w s = Ok p /\ wire_at K w t = Ok q /\ p_dist K p q <= t - s.
Proof. exact (w_unit_speed K w s t). Qed.
Print Assumptions C191_the_wire_is_traversed_at_unit_speed_at_most.
Theorem C191_discretization K w n : api_ok K -> api_measures K -> (forall e, p_dist K (e_start K e) (e_end K e) <= e_length K e) -> w <> [] -> joined K 0 w -> (2 <= n)%nat ->
  exists pts, wire_discretization K w n = Ok pts /\ length pts = n /\
    (forall i d, (i < n)%nat -> wire_at K w (INR i * (total K w / INR (n - 1))) = Ok (nth i pts d)) /\
    (forall i d, (S i < n)%nat -> p_dist K (nth i pts d) (nth (S i) pts d) <= total K w / INR (n - 1)).
Proof. exact (discretization_ok K w n). Qed.
Print Assumptions C191_discretization.
Theorem C191_segments_of_the_plane_are_as_long_as_the_distance_of_their_ends e : p_dist segments2 (e_start segments2 e) (e_end segments2 e) <= e_length segments2 e.
Proof. exact (segments2_short e). Qed.
Print Assumptions C191_segments_of_the_plane_are_as_long_as_the_distance_of_their_ends.
Theorem C191_segments_of_space_are_as_long_as_the_distance_of_their_ends e : p_dist segments3 (e_start segments3 e) (e_end segments3 e) <= e_length segments3 e.
Proof. exact (segments3_short e). Qed.
Print Assumptions C191_segments_of_space_are_as_long_as_the_distance_of_their_ends.
Example C191_nonvacuous : api_ok segments2 /\ api_measures segments2 /\ joined segments2 0 open_chain.
Proof. split; [exact segments2_ok|]. split; [exact segments2_measure|]. unfold open_chain. repeat (apply joined_cons; split; [cbn; rewrite dist_self2; lra|]). apply joined_one. Qed.

(** ** C192: abscissas before the start *)
Theorem C192_abscissas_before_the_start_extend_the_first_edge K e w s : api_ok K -> s < 0 -> wire_at K (e :: w) s = e_at K e s.
Proof. exact (wire_at_negative K e w s). Qed.
Print Assumptions C192_abscissas_before_the_start_extend_the_first_edge.
Theorem C192_abscissas_before_the_start_are_refused_refuted : exists w s p, s < 0 /\ wire_at segments2 w s = Ok p /\ forall e, In e w -> ~ near_segment2 e p 1.
Proof. exact wire_at_before. Qed.
Print Assumptions C192_abscissas_before_the_start_are_refused_refuted.

(** ** C193: the abscissa of a point *)
Theorem C193_points_of_a_wire w p tol : (forall s, In s w -> proper2 s) -> 0 <= tol ->
  exists b, wire_over segments2 w p tol = Ok b /\ (b = true <-> exists s, In s w /\ near_segment2 s p tol).
Proof. exact (wire2_over w p tol). Qed.
Print Assumptions C193_points_of_a_wire.
Theorem C193_a_point_off_the_wire_has_no_abscissa w p tol : (forall s, In s w -> proper2 s) -> 0 <= tol -> (forall s, In s w -> ~ near_segment2 s p tol) -> wire_abscissa segments2 w p tol = Err ValueError.
Proof. exact (wire2_abscissa_off w p tol). Qed.
Print Assumptions C193_a_point_off_the_wire_has_no_abscissa.
Theorem C193_the_first_edge_with_the_point_gives_the_abscissa w1 e w2 p tol : (forall s, In s (w1 ++ e :: w2) -> proper2 s) -> 0 <= tol -> (forall s, In s w1 -> ~ near_segment2 s p tol) -> near_segment2 e p tol ->
  wire_abscissa segments2 (w1 ++ e :: w2) p tol = do a <- sg2_abscissa e p (/ 10 ^ 6); Ok (wire_length segments2 w1 + a).
Proof. exact (wire2_abscissa_on w1 e w2 p tol). Qed.
Print Assumptions C193_the_first_edge_with_the_point_gives_the_abscissa.
Theorem C193_the_abscissa_leads_back_to_the_point w1 e w2 p tol : (forall s, In s (w1 ++ e :: w2) -> proper2 s) -> 0 <= tol -> joined segments2 0 (w1 ++ e :: w2) ->
  (forall s, In s w1 -> ~ near_segment2 s p tol) -> on_segment2 e p ->
  exists a q, wire_abscissa segments2 (w1 ++ e :: w2) p tol = Ok a /\ wire_length segments2 w1 <= a <= wire_length segments2 w1 + sg2_length e /\
    wire_at segments2 (w1 ++ e :: w2) a = Ok q /\ point_distance2 p q < / 10 ^ 6.
Proof. exact (wire2_round_trip w1 e w2 p tol). Qed.
Print Assumptions C193_the_abscissa_leads_back_to_the_point.
Theorem C193_the_abscissa_of_the_point_at_an_abscissa w1 e w2 a tol : (forall s, In s (w1 ++ e :: w2) -> proper2 s) -> 0 <= tol -> 0 <= a < sg2_length e ->
  exists p, wire_at segments2 (w1 ++ e :: w2) (wire_length segments2 w1 + a) = Ok p /\ on_segment2 e p /\
    ((forall s, In s w1 -> ~ near_segment2 s p tol) -> exists b, wire_abscissa segments2 (w1 ++ e :: w2) p tol = Ok b /\ Rabs (b - (wire_length segments2 w1 + a)) < / 10 ^ 6).
Proof. exact (wire2_abscissa_of_at w1 e w2 a tol). Qed.
Print Assumptions C193_the_abscissa_of_the_point_at_an_abscissa.

(** ** C194: edges of a STEP contour *)
Theorem C194_the_edges_of_a_step_contour_follow_each_other K raw l : api_ok K -> reorder_step K raw = Ok (Some l) -> joined K (/ 10 ^ 3) l /\
  exists kept dropped, Permutation raw (kept ++ dropped) /\ same_edges K kept l /\ (forall d, In d dropped -> exists f, In f l /\ e_same K d f = true).
Proof. exact (w_reorder_sound K raw l). Qed.
Print Assumptions C194_the_edges_of_a_step_contour_follow_each_other.
Theorem C194_a_chain_with_reversed_edges_is_restored K w raw : api_ok K -> api_same K -> (2 <= length w)%nat -> joined K 0 w ->
  (forall e, In e w -> / 10 ^ 6 < p_dist K (e_start K e) (e_end K e)) -> (forall w1 e f w2, w = w1 ++ e :: f :: w2 -> / 10 ^ 6 < p_dist K (e_start K e) (e_end K f)) ->
  Forall2 (fun a b => b = a \/ b = e_rev K a) w raw ->
  reorder_step K raw = Ok (Some w) \/ (reorder_step K raw = Ok (Some (rev raw)) /\ joined K (/ 10 ^ 6) (rev raw)).
Proof. exact (w_reorder_complete K w raw). Qed.
Print Assumptions C194_a_chain_with_reversed_edges_is_restored.
Theorem C194_edges_that_are_far_apart_are_refused K e0 e1 r : api_ok K -> (forall p q, In p [e_start K e0; e_end K e0] -> In q [e_start K e1; e_end K e1] -> / 10 ^ 3 < p_dist K p q) -> reorder_step K (e0 :: e1 :: r) = Ok None.
Proof. exact (w_reorder_far K e0 e1 r). Qed.
Print Assumptions C194_edges_that_are_far_apart_are_refused.
Example C194_nonvacuous : Forall2 (fun a b => b = a \/ b = e_rev segments2 a) open_chain [(V2 1 0, V2 0 0); (V2 1 0, V2 1 1); (V2 0 3, V2 1 1)].
Proof. unfold open_chain. constructor; [right; reflexivity|]. constructor; [left; reflexivity|]. constructor; [right; reflexivity|]. constructor. Qed.

(** ** C195: open STEP contours *)
Theorem C195_an_open_step_contour_is_refused_refuted : exists raw l, reorder_step segments2 raw = Ok (Some l) /\ ~ closes segments2 (/ 10 ^ 6) l.
Proof. exact reorder_open. Qed.
Print Assumptions C195_an_open_step_contour_is_refused_refuted.

(** ** C196: starting a contour at a point *)
Theorem C196_the_contour_is_rotated K w p : api_ok K -> (exists e, In e w /\ p_dist K (e_start K e) p <= / 10 ^ 6) ->
  exists w1 e w2, w = w1 ++ e :: w2 /\ reorder_contour_at_point K w p = e :: w2 ++ w1 /\ p_dist K (e_start K e) p <= / 10 ^ 6 /\
    (forall f, In f w1 -> / 10 ^ 6 < p_dist K (e_start K f) p).
Proof. exact (w_reorder_at_point K w p). Qed.
Print Assumptions C196_the_contour_is_rotated.
Theorem C196_the_rotated_contour_is_ordered K w p tol : api_ok K -> 0 <= tol -> joined K tol w -> closes K tol w -> (exists e, In e w /\ p_dist K (e_start K e) p <= / 10 ^ 6) ->
  joined K tol (reorder_contour_at_point K w p) /\ closes K tol (reorder_contour_at_point K w p) /\ Permutation w (reorder_contour_at_point K w p).
Proof. exact (w_reorder_at_point_ordered K w p tol). Qed.
Print Assumptions C196_the_rotated_contour_is_ordered.

(** ** C197: at a point that is no corner *)
Theorem C197_the_contour_is_lost_at_other_points K w p : api_ok K -> (forall e, In e w -> / 10 ^ 6 < p_dist K (e_start K e) p) -> reorder_contour_at_point K w p = [].
Proof. exact (w_reorder_at_point_none K w p). Qed.
Print Assumptions C197_the_contour_is_lost_at_other_points.
Theorem C197_the_contour_starts_at_any_of_its_points_refuted : exists w p, contour_is_ordered segments2 w (/ 10 ^ 6) = Ok true /\ (exists e, In e w /\ on_segment2 e p) /\ reorder_contour_at_point segments2 w p = [].
Proof. exact reorder_at_lost. Qed.
Print Assumptions C197_the_contour_starts_at_any_of_its_points_refuted.

(** ** C198: wires and contours through points *)
Theorem C198_a_wire_through_points pts : pts <> [] -> (forall l1 p q l2, pts = l1 ++ p :: q :: l2 -> p <> q) ->
  exists w, wire_from_points pts = Ok w /\ map fst w = removelast pts /\ map snd w = tl pts /\ joined segments2 0 w.
Proof. exact (wire_from_points_ok pts). Qed.
Print Assumptions C198_a_wire_through_points.
Theorem C198_repeated_points_are_refused l1 p l2 : wire_from_points (l1 ++ p :: p :: l2) = Err ValueError.
Proof. exact (wire_from_points_err l1 p l2). Qed.
Print Assumptions C198_repeated_points_are_refused.
Theorem C198_a_contour_through_points p pts : (2 <= length pts)%nat -> (forall l1 a b l2, p :: pts = l1 ++ a :: b :: l2 -> / 10 ^ 6 < point_distance2 a b) -> / 10 ^ 6 < point_distance2 (last pts p) p ->
  exists c, contour_from_points (p :: pts) = Ok c /\ map fst c = p :: pts /\ map snd c = pts ++ [p] /\ (forall tol, 0 <= tol -> contour_is_ordered segments2 c tol = Ok true).
Proof. exact (contour_from_points_ok p pts). Qed.
Print Assumptions C198_a_contour_through_points.
Theorem C198_a_contour_through_closed_points p pts : (2 <= length pts)%nat -> (forall l1 a b l2, p :: pts = l1 ++ a :: b :: l2 -> / 10 ^ 6 < point_distance2 a b) -> point_distance2 (last pts p) p <= / 10 ^ 6 ->
  exists c, contour_from_points (p :: pts) = Ok c /\ map fst c = removelast (p :: pts) /\ map snd c = pts /\ joined segments2 0 c /\ closes segments2 (/ 10 ^ 6) c.
Proof. exact (contour_from_closed_points_ok p pts). Qed.
Print Assumptions C198_a_contour_through_closed_points.

(** ** C199: points that are close to each other *)
Theorem C199_a_contour_through_distinct_points_is_ordered_refuted : exists pts c, NoDup pts /\ contour_from_points pts = Ok c /\ contour_is_ordered segments2 c (/ 10 ^ 6) = Ok false.
Proof. exact from_points_gap. Qed.
Print Assumptions C199_a_contour_through_distinct_points_is_ordered_refuted.

