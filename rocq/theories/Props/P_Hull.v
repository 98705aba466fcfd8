(** C255-C261: convex hulls, orders of nearest neighbours, groups, centres, grid axes (statements only). *)
From Coq Require Import List Bool Arith ZArith Reals Lra Lia Permutation.
From Verif.Model Require Import Base RBase Vec Geometry Curves Edges Hull.
From Verif.Spec Require Import HullSpec PolyTurnSpec.
From Verif.Proofs Require Import HullP HullP2 HullP3.
Import ListNotations.
Open Scope R_scope.

(** ** C255: convex_hull_points *)
Theorem C255_the_hull_is_the_ring_of_the_simplices : forall points simplices ring, (2 <= length ring)%nat -> (forall i, In i ring -> (i < length points)%nat) ->
  far_apart tol6 (map (fun i => nth i points O2D) ring) -> edges_of_ring ring simplices ->
  exists q, convex_hull_points points simplices = Ok q /\ same_ring (map (fun i => nth i points O2D) ring) q.
Proof. exact hull_ring_ok. Qed.
Print Assumptions C255_the_hull_is_the_ring_of_the_simplices.
Theorem C255_the_direction_when_the_leftmost_point_has_a_neighbour_on_each_side : forall points simplices ring, (2 <= length ring)%nat -> (forall i, In i ring -> (i < length points)%nat) ->
  far_apart tol6 (map (fun i => nth i points O2D) ring) -> edges_of_ring ring simplices ->
  exists q i, convex_hull_points points simplices = Ok q /\ leftmost (corner q i) q /\
    let a := corner q i in let after := corner q (S i) in let before := corner q (i + (length q - 1)) in
    ((y2 after - y2 a) * (y2 before - y2 a) < 0 -> x2 a < x2 after \/ x2 a < x2 before ->
     0 < turn q (i + (length q - 1)) /\ ~ convex_clockwise q).
Proof. exact hull_direction. Qed.
Print Assumptions C255_the_direction_when_the_leftmost_point_has_a_neighbour_on_each_side.
Example C255_nonvacuous : far_apart tol6 (map (fun i => nth i [V2 0 0; V2 1 1; V2 (1 / 2) 2] O2D) [0; 1; 2]%nat) /\ edges_of_ring [0; 1; 2]%nat [(0, 1); (1, 2); (2, 0)]%nat.
Proof. exact (conj hull_triangle_far hull_triangle_edges). Qed.

(** ** C256: the direction *)
Theorem C256_the_direction_and_the_first_point_refuted : exists points simplices ring q, length ring = 3%nat /\ (forall i, In i ring -> (i < length points)%nat) /\
  far_apart tol6 (map (fun i => nth i points O2D) ring) /\ edges_of_ring ring simplices /\
  convex_hull_points points simplices = Ok q /\ twice_area q < 0 /\ ~ leftmost (hd O2D q) q.
Proof. exact hull_direction_refuted. Qed.
Print Assumptions C256_the_direction_and_the_first_point_refuted.

(** ** C257, C258: order_points_list_for_nearest_neighbor *)
Theorem C257_all_the_points_when_the_origin_does_not_come_after_the_first : forall points, points <> [] -> ~ In O3D (tl points) -> exists l, order_points_list_for_nearest_neighbor points = Ok l /\ Permutation points l.
Proof. exact order_perm. Qed.
Print Assumptions C257_all_the_points_when_the_origin_does_not_come_after_the_first.
Theorem C257_only_copies_of_the_origin_are_lost : forall points, points <> [] -> exists l k, order_points_list_for_nearest_neighbor points = Ok l /\
  hd O3D l = hd O3D points /\ Permutation points (l ++ repeat O3D k) /\ nearest_order l.
Proof. exact order_ok. Qed.
Print Assumptions C257_only_copies_of_the_origin_are_lost.
Theorem C258_the_origin_is_lost_refuted : exists points, (2 <= length points)%nat /\ NoDup points /\ order_points_list_for_nearest_neighbor points = Ok [hd O3D points].
Proof. exact order_refuted. Qed.
Print Assumptions C258_the_origin_is_lost_refuted.
Example C257_nonvacuous : [V3 1 0 0; V3 3 0 0; V3 2 0 0] <> [] /\ ~ In O3D (tl [V3 1 0 0; V3 3 0 0; V3 2 0 0]).
Proof. split; [discriminate|]. cbn. intros [H|[H|[]]]; apply (f_equal x3) in H; cbn in H; lra. Qed.

(** ** C259: separate_points_by_closeness *)
Theorem C259_one_closed_ring_for_each_label : forall points labels, length labels = length points -> exists keys rings, separate_points_by_closeness points labels = Ok rings /\
  NoDup keys /\ (forall k, In k keys <-> In k labels) /\
  Forall2 (fun k ring => exists p l m, ring = p :: l ++ [p] /\ p = hd O3D (labelled k (combine points labels)) /\
    Permutation (labelled k (combine points labels)) (p :: l ++ repeat O3D m) /\ nearest_order (p :: l)) keys rings.
Proof. exact separate_ok. Qed.
Print Assumptions C259_one_closed_ring_for_each_label.
Example C259_nonvacuous : groups_of [(1, 5%Z); (2, 6%Z); (3, 5%Z)]%nat = [(5%Z, [1; 3]); (6%Z, [2])]%nat.
Proof. reflexivity. Qed.

(** ** C260: get_center_of_mass *)
Theorem C260_the_mean_of_the_coordinates : forall l, l <> [] -> get_center_of_mass l = Ok (V3 (fold_right Rplus 0 (map x3 l) / INR (length l)) (fold_right Rplus 0 (map y3 l) / INR (length l)) (fold_right Rplus 0 (map z3 l) / INR (length l))).
Proof. exact center_ok. Qed.
Print Assumptions C260_the_mean_of_the_coordinates.
Theorem C260_the_order_does_not_matter : forall l m, Permutation l m -> get_center_of_mass l = get_center_of_mass m.
Proof. exact center_perm. Qed.
Print Assumptions C260_the_order_does_not_matter.
Theorem C260_in_every_box_around_the_points : forall l lo hi, l <> [] -> (forall p, In p l -> x3 lo <= x3 p <= x3 hi /\ y3 lo <= y3 p <= y3 hi /\ z3 lo <= z3 p <= z3 hi) ->
  exists c, get_center_of_mass l = Ok c /\ x3 lo <= x3 c <= x3 hi /\ y3 lo <= y3 c <= y3 hi /\ z3 lo <= z3 c <= z3 hi.
Proof. exact center_box. Qed.
Print Assumptions C260_in_every_box_around_the_points.
Theorem C260_no_point : get_center_of_mass [] = Err ZeroDivisionError.
Proof. exact center_empty. Qed.
Print Assumptions C260_no_point.
Example C260_nonvacuous : get_center_of_mass [V3 1 0 0; V3 3 0 4] = Ok (V3 2 0 2).
Proof. rewrite center_ok by discriminate. cbn. do 2 f_equal; lra. Qed.

(** ** C261: the axes of the grid of a face *)
Theorem C261_the_axis_goes_from_one_bound_to_the_other_by_equal_steps : forall lo hi n, lo <= hi -> length (grid_axis lo hi n) = n /\
  (forall a, In a (grid_axis lo hi n) -> lo <= a <= hi) /\
  ((0 < n)%nat -> hd 0 (grid_axis lo hi n) = lo) /\ ((1 < n)%nat -> last (grid_axis lo hi n) 0 = hi) /\
  (forall i, (S i < n)%nat -> nth (S i) (grid_axis lo hi n) 0 - nth i (grid_axis lo hi n) 0 = (hi - lo) / (INR n - 1)).
Proof. exact axis_ok. Qed.
Print Assumptions C261_the_axis_goes_from_one_bound_to_the_other_by_equal_steps.
Example C261_nonvacuous : grid_axis 1 3 3 = [1; 2; 3].
Proof. unfold grid_axis, grid_step. cbn. repeat f_equal; lra. Qed.

