(** C282-C296: blocks, cylinders, hollow cylinders, cones and spheres (statements only). *)
From Coq Require Import List Bool Arith ZArith Reals Lra Lia.
From Verif.Model Require Import Base Mesh RBase Vec Frame BBox Geometry Prims.
From Verif.Spec Require Import VecSpec FrameSpec BBoxSpec PrimsSpec.
From Verif.Proofs Require Import PrimsP PrimsP2 PrimsP3 PrimsP4 PrimsP5 PrimsP6 PrimsP7 PrimsP8 PrimsP9.
Import ListNotations.
Open Scope R_scope.

(** ** C282: the corners, edges and faces of a block *)
@vertices_ok C282_the_eight_corners
@vertices_distinct C282_the_corners_differ
@edges_ok C282_the_twelve_edges
@block_faces_ok C282_the_six_faces
@sides_ok C282_the_sides_of_the_specification
Example C282_nonvacuous : exists b, proper (bframe b) /\ parallelepiped (bframe b) = 6 /\ slantless (bframe b) /\ axis_parallel (bframe b) /\ upright_block b.
Proof. exact blocks_example. Qed.

(** ** C283, C284: volume, boxes turned into blocks *)
@volume_ok C283_the_volume
@from_bbox_ok C283_the_block_of_a_box
@from_flat_bbox C283_the_error_of_a_flat_box
@new_block_ok C283_a_block_of_non_zero_edges
@new_block_inv C283_every_block_has_non_zero_edges
Example C283_nonvacuous : exists b bb, slantless (bframe b) /\ proper (bframe b) /\ xmin bb < xmax bb /\ ymin bb < ymax bb /\ zmin bb < zmax bb.
Proof. destruct blocks_example as (b & P & _ & Q & _). exists b, (BBox 0 1 0 2 0 3). split; [exact Q|]. split; [exact P|]. cbn [xmin xmax ymin ymax zmin zmax]. repeat split; lra. Qed.
@slanted_witness C284_the_volume_of_a_slanted_block_refuted

(** ** C285, C286: the bounding box of a block *)
@block_bbox_ok C285_the_box_of_an_axis_parallel_block
Example C285_nonvacuous : exists b, axis_parallel (bframe b).
Proof. destruct blocks_example as (b & _ & _ & _ & Q & _). exists b. exact Q. Qed.
@turned_witness C286_the_box_of_a_turned_block_refuted

(** ** C287: the contours of the faces *)
@face_contours_fail C287_no_contour_of_any_block_refuted

(** ** C288, C289: subdivision *)
@subdivide_ok C288_the_parts_fill_the_block
@subdivide_zero C288_no_part_at_all
Example C288_nonvacuous : exists b, upright_block b.
Proof. destruct blocks_example as (b & _ & _ & _ & _ & Q). exists b. exact Q. Qed.
@subdivide_turned C289_the_parts_of_a_turned_block_refuted

(** ** C290: moves *)
@translation_block C290_translation
@rotation_block C290_rotation
@mapping_block C290_change_of_frame
Example C290_nonvacuous : exists b ax c, proper (bframe b) /\ dot3 ax ax = 1 /\ c = org3 (bframe b).
Proof. destruct blocks_example as (b & Q & _). exists b, Z3D, (org3 (bframe b)). split; [exact Q|]. split; [unfold Z3D, dot3; cbn [x3 y3 z3]; ring|reflexivity]. Qed.

(** ** C291: the boxes of cylinders, hollow cylinders and cones *)
@cylinder_box_ok C291_the_box_of_a_cylinder
@hollow_box_ok C291_the_box_of_a_hollow_cylinder
@cone_box_ok C291_the_box_of_a_cone
@null_cylinder_box C291_the_error_of_a_null_cylinder
Example C291_nonvacuous : exists c, orthonormal (fb3 (cyf c)) /\ 0 <= cyr c /\ 0 < cyl c.
Proof. destruct cylinders_example as (c & f & l & d & A & B & C & _). exists c. rewrite B, C. split; [exact A|lra]. Qed.

(** ** C292: points of a cylinder, common volume *)
@cylinder_belongs_ok C292_point_belongs
@sampled_ok C292_random_points
@interference_ok C292_the_common_volume
@interference_no_draw C292_the_error_without_draws
Example C292_nonvacuous : exists s far large draws, orthonormal (fb3 (cyf s)) /\ cyr s = 1 /\ cyl s = 2 /\ orthonormal (fb3 (cyf far)) /\ cyr far = 2 /\ cyl far = 2 /\
  orthonormal (fb3 (cyf large)) /\ cyr large = 10 /\ cyl large = 20 /\ smaller s far = s /\ larger s far = far /\ smaller s large = s /\ larger s large = large /\
  draws <> [] /\ (forall x, In x draws -> fair_draw s x) /\
  (forall p, in_cylinder (grown s (2 * eps)) p -> ~ in_cylinder (grown far (2 * eps)) p) /\
  (forall p, in_cylinder (grown s (2 * eps)) p -> in_cylinder large p).
Proof. exact cylinders_example. Qed.

(** ** C293, C294: cylinders from their ends, from their center and axis *)
@end_points_ok C293_from_end_points
@end_points_err C293_the_error_of_equal_end_points
@center_axis_unit C293_from_a_center_and_a_unit_axis
Example C293_nonvacuous : O3D <> V3 1 2 3 /\ dot3 Z3D Z3D = 1.
Proof. split; [unfold O3D; intros H; injection H; lra|unfold Z3D, dot3; cbn [x3 y3 z3]; ring]. Qed.
@long_axis C294_an_axis_that_is_not_a_unit_vector_refuted

(** ** C295: points of the skin of a sphere *)
@skin_ok C295_points_of_the_skin
@skin_coarse C295_no_point_at_a_coarse_resolution
Example C295_nonvacuous : 0 < 1 /\ 0 < 1 / 10 <= 2 * 1 /\ on_sphere_at O3D 1 X3D.
Proof. split; [lra|]. split; [lra|]. unfold on_sphere_at. apply dist_sq_eq; [lra|]. unfold O3D, X3D. cbn [x3 y3 z3]. ring. Qed.

(** ** C296: points of a ball *)
@inner_ok C296_points_of_the_ball
@belongs_sphere C296_point_belongs
Example C296_nonvacuous : in_ball O3D 1 X3D /\ in_ball O3D 1 O3D.
Proof. unfold in_ball. split; [rewrite (dist_sq_eq O3D X3D 1); [lra|lra|unfold O3D, X3D; cbn [x3 y3 z3]; ring]|rewrite (dist_sq_eq O3D O3D 0); [lra|lra|unfold O3D; cbn [x3 y3 z3]; ring]]. Qed.
