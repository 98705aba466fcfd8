(** C240-C244: the grids of points put in faces before they are triangulated (statements only). *)
From Coq Require Import List Bool Arith ZArith Lia.
From Verif.Model Require Import Base FaceGrid.
From Verif.Spec Require Import FaceGridSpec FaceGridSpec2.
From Verif.Proofs Require Import FaceGridP FaceGridP2.
Import ListNotations.
Open Scope nat_scope.

(** the integers are an instance of the order all theorems below ask for *)
@number_order_Z C240_integers_are_ordered
@ascending_even C240_an_ascending_list
(** ** C240: array_range_search *)
@range_search_ok C240_the_indexes_of_the_values_of_the_interval
Example C240_nonvacuous : array_range_search Z.ltb [0; 2; 4; 6]%Z 2%Z 5%Z = [1; 2] /\ array_range_search Z.ltb [0; 2; 2; 6]%Z 2%Z 2%Z = [1; 2]
  /\ array_range_search Z.ltb [0; 2; 4; 6]%Z 7%Z 9%Z = [] /\ array_range_search Z.ltb [0; 2; 4; 6]%Z 5%Z 1%Z = [].
Proof. repeat split. Qed.

(** ** C241: the grid of a face *)
@update_ok C241_the_points_in_holes_are_removed_after_the_first
@face_grid_ok C241_the_nodes_inside_that_are_not_vertices_and_outside_the_holes
Example C241_nonvacuous :
  let box := fun a b c d (p : Z * Z) => ((a <=? fst p) && (fst p <=? b) && (c <=? snd p) && (snd p <=? d))%Z in
  let triangle := fun p : Z * Z => ((1 <=? fst p + snd p))%Z in
  triangle (0, 0)%Z = false /\
  face_grid_points Z.ltb 0%Z (fun _ _ => true) [0; 2; 4; 6]%Z [0; 2; 4]%Z [Region 1 4 1 3 (box 1 4 1 3)]%Z triangle (fun p => (fst p =? 6)%Z)
  = [(2, 0); (4, 0); (0, 2); (0, 4); (2, 4); (4, 4)]%Z.
Proof. split; reflexivity. Qed.

(** ** C242: the first point *)
@first_point_refuted C242_first_point_refuted

(** ** C243: the grid of a plane surface *)
@grid_points_in C243_the_grid_of_a_polygon_is_made_of_the_nodes_inside_that_are_not_vertices
@surface_grid_sound C243_the_points_kept_are_nodes_inside_that_are_not_vertices
@surface_grid_keeps C243_the_nodes_outside_the_holes_are_kept
@surface_grid_exact C243_exactly_the_points_kept
Example C243_nonvacuous : map snd (grid_triangulation_points [0; 1; 2; 3]%Z [0; 1; 2; 3]%Z 2 (fun p => (fst p <=? snd p)%Z) (fun p => (fst p =? 0)%Z))
  = [(1, 1); (1, 2); (2, 2); (3, 3); (2, 3); (1, 3)]%Z.
Proof. reflexivity. Qed.

(** ** C244: the holes of a plane surface *)
@surface_grid_refuted C244_holes_removed_refuted
