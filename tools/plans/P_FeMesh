(** C200-C210: finite element meshes and triangles (statements only). *)
From Coq Require Import Reals List ZArith Lra Lia.
From Verif.Model Require Import Base RBase Vec Frame BBox FeMesh.
From Verif.Spec Require Import VecSpec FeMeshSpec.
From Verif.Proofs Require Import VecP FeMeshP FeMeshP2 FeMeshP3 FeMeshP4.
Import ListNotations.
Open Scope R_scope.

(** ** C200: triangular elements *)
@form_functions_ok C200_form_functions_are_the_weights_of_the_points
@form_functions_flat C200_flat_elements_are_refused
@triangle_area_is C200_the_area
@linear_elements_ok C200_the_sides_and_their_inward_normals
@triangular_element_ok C200_an_element_is_made
Example C200_nonvacuous : / 10 ^ 12 < Rabs (area2 (V2 0 0) (V2 1 0) (V2 0 1)).
Proof. unfold area2. cbn [x2 y2]. replace (_ - _) with 1 by ring. rewrite Rabs_R1. lra. Qed.

(** ** C201: small elements *)
@small_triangle_flat C201_every_triangle_that_is_not_flat_is_an_element_refuted

(** ** C202: tetrahedral elements *)
@tetra_volume_is C202_the_volume
@tetra_forms_are C202_form_functions_are_the_weights_times_six_volumes

(** ** C203: their normalization *)
@tetra_not_normalized C203_form_functions_are_one_at_their_node_refuted

(** ** C204: the circles of a triangle *)
@incircle_ok C204_the_inscribed_circle_touches_the_sides
@incircle_point C204_a_point_has_no_inscribed_circle
@circum_ok C204_the_circumscribed_circle_goes_through_the_vertices
@circum_flat C204_flat_triangles_have_no_circumscribed_circle
Example C204_nonvacuous : area2 (V2 0 0) (V2 3 0) (V2 0 4) <> 0.
Proof. unfold area2. cbn [x2 y2]. lra. Qed.

(** ** C205: the aspect ratio *)
@aspect_ok C205_the_aspect_ratio_compares_the_circles
@aspect_flat C205_flat_triangles
@aspect_ge_1 C205_the_aspect_ratio_is_at_least_one
@aspect_1 C205_and_one_for_equilateral_triangles_only

(** ** C206: nodes *)
@mesh_nodes_ok C206_the_nodes_are_the_points_of_the_elements_once_each
@mesh_nodes_points C206_nodes_are_distinct_points_of_elements
@node_to_index_ok C206_the_number_of_a_node
@elements_per_node_ok C206_the_elements_of_a_node
@point_to_element_some C206_the_first_element_that_has_the_point
@point_to_element_none C206_no_element_has_the_point
@mesh_rectangle_ok C206_the_bounding_rectangle
@mesh_rectangle_empty C206_the_empty_mesh_has_no_rectangle
Example C206_nonvacuous : separated (concat (concat [[[V2 0 0; V2 1 0]]; [[V2 (/ 20000) 0; V2 0 1]]])).
Proof. exact (wm_sep true). Qed.

(** ** C207: equal nodes *)
@equal_nodes_two_hashes C207_the_nodes_of_a_mesh_are_pairwise_different_refuted

(** ** C208: merging the nodes of two groups *)
@nodes_correction_ok C208_the_corrections
@nodes_correction_index C208_the_reference_must_be_a_group
@delete_ok C208_the_nodes_are_merged
@delete_keeps_correction C208_the_new_mesh_keeps_the_corrections

(** ** C209: a second reference *)
@nodes_correction_cached C209_the_first_corrections_stay
@cached_refuted C209_the_corrections_follow_the_reference_refuted

(** ** C210: meshes without gmsh, nodes that are almost the same *)
@delete_no_gmsh_value C210_a_mesh_without_gmsh_cannot_be_merged
@close_nodes_stay C210_close_nodes_are_merged_refuted
