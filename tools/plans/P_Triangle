(** C211-C216: triangles of space (statements only). *)
From Coq Require Import Reals List ZArith Lra Lia.
From Verif.Model Require Import Base RBase Vec Frame BBox Mesh Edges Plane Triangle3.
From Verif.Spec Require Import VecSpec TriangleSpec.
From Verif.Proofs Require Import VecP TriangleP TriangleP2 TriangleP3 TriangleP4 TriangleP5.
Import ListNotations.
Open Scope R_scope.

(** ** C211: the measures of a triangle *)
@tri_area C211_the_area_is_half_the_area_vector
@height_ok C211_the_height_is_the_distance_to_the_base_line
@height_err C211_no_base_no_height
@middle_ok C211_the_middle_is_the_mean_of_the_vertices

(** ** C212: normals and displacements *)
@normal_ok C212_the_normal_is_along_the_area_vector
@tri_new_ok C212_every_triangle_that_is_not_flat_is_made
@flat_no_triangle C212_flat_triangles_are_refused
@translated C212_translations_keep_the_area_vector
@rotated_ok C212_rotations_keep_the_area_and_turn_the_area_vector
Example C212_nonvacuous : ~ flat3 (V3 0 0 0, V3 1 0 0, V3 0 1 0) /\ dot3 (V3 0 0 1) (V3 0 0 1) = 1.
Proof.
  split; [|unfold dot3; cbn [x3 y3 z3]; ring].
  unfold flat3, area_vector, cross3, sub3. cbn [x3 y3 z3]. intros E. assert (Z : (1 - 0) * (1 - 0) - (0 - 0) * (0 - 0) = 0) by congruence. lra.
Qed.

(** ** C213: division into small triangles *)
@bisect_main C213_the_division_ends_with_small_triangles_that_cover_the_triangle
@bisect_small C213_small_triangles_are_not_divided
@bisect_forever C213_it_never_ends_without_a_positive_resolution

(** ** C214: the orientation of the pieces *)
@turned C214_a_divided_triangle_has_a_piece_turned_over
@turned_refuted C214_the_pieces_keep_the_orientation_refuted

(** ** C215: sampling *)
@subdescription_ok C215_the_samples_are_in_the_triangle_and_nowhere_farther_than_the_resolution

(** ** C216: attributes *)
@attrs_lost C216_the_constructor_forgets_its_attributes
@attrs_refuted C216_a_triangle_has_the_attributes_it_was_made_with_refuted
@attrs_moved_refuted C216_moved_and_copied_triangles_keep_their_attributes_refuted
