(** C255-C261: convex hulls, orders of nearest neighbours, groups, centres, grid axes (statements only). *)
From Coq Require Import List Bool Arith ZArith Reals Lra Lia Permutation.
From Verif.Model Require Import Base RBase Vec Geometry Curves Edges Hull.
From Verif.Spec Require Import HullSpec PolyTurnSpec.
From Verif.Proofs Require Import HullP HullP2 HullP3.
Import ListNotations.
Open Scope R_scope.

(** ** C255: convex_hull_points *)
@hull_ring_ok C255_the_hull_is_the_ring_of_the_simplices
@hull_direction C255_the_direction_when_the_leftmost_point_has_a_neighbour_on_each_side
Example C255_nonvacuous : far_apart tol6 (map (fun i => nth i [V2 0 0; V2 1 1; V2 (1 / 2) 2] O2D) [0; 1; 2]%nat) /\ edges_of_ring [0; 1; 2]%nat [(0, 1); (1, 2); (2, 0)]%nat.
Proof. exact (conj hull_triangle_far hull_triangle_edges). Qed.

(** ** C256: the direction *)
@hull_direction_refuted C256_the_direction_and_the_first_point_refuted

(** ** C257, C258: order_points_list_for_nearest_neighbor *)
@order_perm C257_all_the_points_when_the_origin_does_not_come_after_the_first
@order_ok C257_only_copies_of_the_origin_are_lost
@order_refuted C258_the_origin_is_lost_refuted
Example C257_nonvacuous : [V3 1 0 0; V3 3 0 0; V3 2 0 0] <> [] /\ ~ In O3D (tl [V3 1 0 0; V3 3 0 0; V3 2 0 0]).
Proof. split; [discriminate|]. cbn. intros [H|[H|[]]]; apply (f_equal x3) in H; cbn in H; lra. Qed.

(** ** C259: separate_points_by_closeness *)
@separate_ok C259_one_closed_ring_for_each_label
Example C259_nonvacuous : groups_of [(1, 5%Z); (2, 6%Z); (3, 5%Z)]%nat = [(5%Z, [1; 3]); (6%Z, [2])]%nat.
Proof. reflexivity. Qed.

(** ** C260: get_center_of_mass *)
@center_ok C260_the_mean_of_the_coordinates
@center_perm C260_the_order_does_not_matter
@center_box C260_in_every_box_around_the_points
@center_empty C260_no_point
Example C260_nonvacuous : get_center_of_mass [V3 1 0 0; V3 3 0 4] = Ok (V3 2 0 2).
Proof. rewrite center_ok by discriminate. cbn. do 2 f_equal; lra. Qed.

(** ** C261: the axes of the grid of a face *)
@axis_ok C261_the_axis_goes_from_one_bound_to_the_other_by_equal_steps
Example C261_nonvacuous : grid_axis 1 3 3 = [1; 2; 3].
Proof. unfold grid_axis, grid_step. cbn. repeat f_equal; lra. Qed.
