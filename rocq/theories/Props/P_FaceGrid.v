(** C240-C244: the grids of points put in faces before they are triangulated (statements only). *)
From Coq Require Import List Bool Arith ZArith Lia.
From Verif.Model Require Import Base FaceGrid.
From Verif.Spec Require Import FaceGridSpec FaceGridSpec2.
From Verif.Proofs Require Import FaceGridP FaceGridP2.
Import ListNotations.
Open Scope nat_scope.

(** the integers are an instance of the order all theorems below ask for *)
Theorem C240_integers_are_ordered : number_order Z.ltb.
Proof. exact number_order_Z. Qed.
Print Assumptions C240_integers_are_ordered.
Theorem C240_an_ascending_list : ascending Z.ltb [0; 2; 4; 6]%Z.
Proof. exact ascending_even. Qed.
Print Assumptions C240_an_ascending_list.
(** ** C240: array_range_search *)
Theorem C240_the_indexes_of_the_values_of_the_interval {T} (lt : T -> T -> bool) x xmin xmax : number_order lt -> ascending lt x ->
  (exists left right, array_range_search lt x xmin xmax = seq left (right - left)) /\
  forall i, In i (array_range_search lt x xmin xmax) <-> exists a, nth_error x i = Some a /\ between lt xmin xmax a.
Proof. exact (range_search_ok lt x xmin xmax). Qed.
Print Assumptions C240_the_indexes_of_the_values_of_the_interval.
Example C240_nonvacuous : array_range_search Z.ltb [0; 2; 4; 6]%Z 2%Z 5%Z = [1; 2] /\ array_range_search Z.ltb [0; 2; 2; 6]%Z 2%Z 2%Z = [1; 2]
  /\ array_range_search Z.ltb [0; 2; 4; 6]%Z 7%Z 9%Z = [] /\ array_range_search Z.ltb [0; 2; 4; 6]%Z 5%Z 1%Z = [].
Proof. repeat split. Qed.

(** ** C241: the grid of a face *)
Theorem C241_the_points_in_holes_are_removed_after_the_first {T} (lt : T -> T -> bool) holes points u v index : number_order lt -> ascending lt u -> ascending lt v -> Forall (in_bounds lt) holes -> faithful_index points u v index ->
  update_face_grid_points_with_inner_polygons lt holes points u v index
  = match points with [] => [] | p :: rest => p :: filter (outside holes) rest end.
Proof. exact (update_ok lt holes points u v index). Qed.
Print Assumptions C241_the_points_in_holes_are_removed_after_the_first.
Theorem C241_the_nodes_inside_that_are_not_vertices_and_outside_the_holes {T} (lt : T -> T -> bool) d keep u v holes inside vertex : number_order lt -> ascending lt u -> ascending lt v -> Forall (in_bounds lt) holes ->
  (forall a b, nth_error u 0 = Some a -> nth_error v 0 = Some b -> inside (a, b) = false) -> keep 0 0 = true ->
  face_grid_points lt d keep u v holes inside vertex
  = filter (fun p => inside p && negb (vertex p) && outside holes p) (map (fun ij => (nth (fst ij) u d, nth (snd ij) v d)) (grid_nodes keep (length u) (length v))).
Proof. exact (face_grid_ok lt d keep u v holes inside vertex). Qed.
Print Assumptions C241_the_nodes_inside_that_are_not_vertices_and_outside_the_holes.
Example C241_nonvacuous :
  let box := fun a b c d (p : Z * Z) => ((a <=? fst p) && (fst p <=? b) && (c <=? snd p) && (snd p <=? d))%Z in
  let triangle := fun p : Z * Z => ((1 <=? fst p + snd p))%Z in
  triangle (0, 0)%Z = false /\
  face_grid_points Z.ltb 0%Z (fun _ _ => true) [0; 2; 4; 6]%Z [0; 2; 4]%Z [Region 1 4 1 3 (box 1 4 1 3)]%Z triangle (fun p => (fst p =? 6)%Z)
  = [(2, 0); (4, 0); (0, 2); (0, 4); (2, 4); (4, 4)]%Z.
Proof. split; reflexivity. Qed.

(** ** C242: the first point *)
Theorem C242_first_point_refuted : exists (holes : list (@region Z)) points u v index, Forall (in_bounds Z.ltb) holes /\ ascending Z.ltb u /\ ascending Z.ltb v /\ faithful_index points u v index /\
  exists p, In p (update_face_grid_points_with_inner_polygons Z.ltb holes points u v index) /\ outside holes p = false.
Proof. exact first_point_refuted. Qed.
Print Assumptions C242_first_point_refuted.

(** ** C243: the grid of a plane surface *)
Theorem C243_the_grid_of_a_polygon_is_made_of_the_nodes_inside_that_are_not_vertices {T} (x y : list T) ny inside vertex p : In p (map snd (grid_triangulation_points x y ny inside vertex)) <-> In (fst p) x /\ In (snd p) y /\ inside p = true /\ vertex p = false.
Proof. exact (grid_points_in x y ny inside vertex p). Qed.
Print Assumptions C243_the_grid_of_a_polygon_is_made_of_the_nodes_inside_that_are_not_vertices.
Theorem C243_the_points_kept_are_nodes_inside_that_are_not_vertices {T} (lt : T -> T -> bool) x y ny inside vertex holes p : In p (surface_grid_points lt x y ny inside vertex holes) ->
  In (fst p) x /\ In (snd p) y /\ inside p = true /\ vertex p = false.
Proof. exact (surface_grid_sound lt x y ny inside vertex holes p). Qed.
Print Assumptions C243_the_points_kept_are_nodes_inside_that_are_not_vertices.
Theorem C243_the_nodes_outside_the_holes_are_kept {T} (lt : T -> T -> bool) x y ny inside vertex holes p : In (fst p) x -> In (snd p) y -> inside p = true -> vertex p = false -> outside holes p = true ->
  In p (surface_grid_points lt x y ny inside vertex holes).
Proof. exact (surface_grid_keeps lt x y ny inside vertex holes p). Qed.
Print Assumptions C243_the_nodes_outside_the_holes_are_kept.
Theorem C243_exactly_the_points_kept {T} (lt : T -> T -> bool) x y ny inside vertex holes p : number_order lt -> ascending lt x -> ascending lt y ->
  (In p (surface_grid_points lt x y ny inside vertex holes) <->
   exists k, number_of_node x y k p /\ inside p = true /\ vertex p = false /\ forall r, In r holes -> ~ (belongs r p = true /\ looked_up lt x y ny k r)).
Proof. exact (surface_grid_exact lt x y ny inside vertex holes p). Qed.
Print Assumptions C243_exactly_the_points_kept.
Example C243_nonvacuous : map snd (grid_triangulation_points [0; 1; 2; 3]%Z [0; 1; 2; 3]%Z 2 (fun p => (fst p <=? snd p)%Z) (fun p => (fst p =? 0)%Z))
  = [(1, 1); (1, 2); (2, 2); (3, 3); (2, 3); (1, 3)]%Z.
Proof. reflexivity. Qed.

(** ** C244: the holes of a plane surface *)
Theorem C244_holes_removed_refuted : exists (x y : list Z) inside vertex (hole : @region Z) p, ascending Z.ltb x /\ ascending Z.ltb y /\ length x = 2 + 2 /\ length y = 2 + 2 /\ in_bounds Z.ltb hole /\
  In p (surface_grid_points Z.ltb x y 2 inside vertex [hole]) /\ belongs hole p = true.
Proof. exact surface_grid_refuted. Qed.
Print Assumptions C244_holes_removed_refuted.

