(** C17-C20, C44, C84: triangle / voxel tests and voxelization of triangles (statements only). *)
From Verif.Model Require Import RBase Vec BBox Geometry FloodFill Sat Voxelize.
From Verif.Spec Require Import GridSpec SatSpec SatSpec2.
From Verif.Proofs Require Import SatP SatP2 SatP3 SatP4 SatP5 SatP6 VoxelizeP6 SatExP.
From Coq Require Import Lra Lia.
Open Scope R_scope.

(** ** C17: true for cubes (all voxels made by the library), false for the other boxes. *)
@intersects_cubic C17_a_cubic_voxel_that_meets_the_triangle_is_reported
@missed_inside C17_every_non_cubic_box_misses_a_triangle_inside_it
@missed_example C155_no_false_negative_refuted
Example C17_nonvacuous : in_triangle3 (V3 0 0 0) (V3 (-3) 0 0) (V3 3 0 0) (V3 0 5 1) /\ in_box3 (V3 0 0 0) (V3 (1 / 2) 0 0) (V3 1 1 1).
Proof. split; [exists (1 / 2), (1 / 2), 0; cbn; lra|]. unfold in_box3; cbn. repeat split; apply Rabs_le; lra. Qed.

(** ** C18: refuted; what a positive answer does imply. *)
@false_positive C18_no_false_positive_refuted
@reported_near C184_a_reported_box_is_near_the_bounds_of_the_triangle
@sat_near C184_the_separating_axis_test_needs_the_bounds_and_the_plane
@sat_axes C184_the_separating_axis_test_needs_the_nine_edge_axes the radius of the projected box is the one the code computes, see C18_no_false_positive_refuted

(** ** C19 *)
@aabb_complete C19_every_voxel_that_meets_the_box_is_a_candidate
@aabb_sound C19_candidates_are_voxels_near_the_box
@aabb_nodup C19_candidates_are_different
Example C19_nonvacuous : let mn := V3 (-1) 0 0 in let mx := V3 1 1 1 in let q := V3 (-1 / 2) (1 / 2) (1 / 2) in
  (x3 mn <= x3 q <= x3 mx /\ y3 mn <= y3 q <= y3 mx /\ z3 mn <= z3 q <= z3 mx)
  /\ (IZR (-3) * (1 / 5) <= x3 q <= (IZR (-3) + 1) * (1 / 5) /\ IZR 2 * (1 / 5) <= y3 q <= (IZR 2 + 1) * (1 / 5) /\ IZR 2 * (1 / 5) <= z3 q <= (IZR 2 + 1) * (1 / 5)).
Proof. cbn. lra. Qed.

(** ** C20 *)
@pixels_complete C20_every_pixel_met_by_a_segment_is_returned
@pixels_sound C20_every_returned_pixel_is_met_up_to_rounding
@pixels_nodup C20_pixels_are_different
Example C20_nonvacuous : / 10 ^ 9 <= 1 / 10 /\ / 10 ^ 9 <= (Rabs (1 - 0) + Rabs (1 - 0)) * (1 / 10) /\ in_segment2 (V2 (1 / 2) (1 / 2)) (V2 0 0) (V2 1 1).
Proof.
  assert (E : 10 ^ 9 = IZR 1000000000) by (rewrite (pow_IZR 10 9); reflexivity). rewrite E, !Rabs_right by lra.
  split; [lra|]. split; [lra|]. exists (1 / 2). cbn. lra.
Qed.
@short_refuted C157_short_segments_are_missed_refuted

(** ** C44 *)
@bbox_cubic C44_cubic_box_reports_every_triangle_it_meets
@bbox_missed C156_no_false_negative_refuted

(** ** C84 *)
@voxelize_spec C84_voxel_matrix_of_triangles
@degenerate_skipped C84_triangles_with_two_equal_vertices_mark_nothing
Example C84_nonvacuous : nano_even tenth /\ plate <> [] /\ forall a b c, In (a, b, c) plate -> distinct3 a b c /\ edge_ok tenth a b /\ edge_ok tenth b c /\ edge_ok tenth c a.
Proof. split; [exact tenth_ok|]. split; [discriminate|exact plate_ok]. Qed.

(** ** C114: triangles lying in a face of a voxel. *)
@point_in_triangle_sound C114_a_pixel_corner_reported_inside_is_in_the_triangle
@point_in_triangle_inside C114_a_pixel_corner_inside_is_reported
@hits_complete C114_a_triangle_meeting_the_pixel_is_reported
@hits_sound C114_a_reported_triangle_meets_the_enlarged_pixel
@face_reported C114_a_triangle_of_a_face_is_reported
Example C114_nonvacuous :
  let a := V2 0 0 in let b := V2 1 0 in let c := V2 0 1 in
  not_flat a b c /\ side_ok 2 2 a b /\ side_ok 2 2 a c /\ side_ok 2 2 b c /\ nano_pixel (V2 1 1) (V2 1 1) /\ in_triangle2 (V2 (1/4) (1/4)) a b c
  /\ side_margin 1 a b /\ side_margin 1 a c /\ side_margin 1 b c.
Proof. exact ex_face. Qed.
