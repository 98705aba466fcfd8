(** C282-C296: blocks, cylinders, hollow cylinders, cones and spheres (statements only). *)
From Coq Require Import List Bool Arith ZArith Reals Lra Lia.
From Verif.Model Require Import Base Mesh RBase Vec Frame BBox Geometry Prims.
From Verif.Spec Require Import VecSpec FrameSpec BBoxSpec PrimsSpec.
From Verif.Proofs Require Import PrimsP PrimsP2 PrimsP3 PrimsP4 PrimsP5 PrimsP6 PrimsP7 PrimsP8 PrimsP9.
Import ListNotations.
Open Scope R_scope.

(** ** C282: the corners, edges and faces of a block *)
Theorem C282_the_eight_corners b : length (block_vertices b) = 8%nat /\ (forall p, In p (block_vertices b) <-> exists s, p = corner_at b s).
Proof. exact (vertices_ok b). Qed.
Print Assumptions C282_the_eight_corners.
Theorem C282_the_corners_differ b : parallelepiped (bframe b) <> 0 -> NoDup (block_vertices b).
Proof. exact (vertices_distinct b). Qed.
Print Assumptions C282_the_corners_differ.
Theorem C282_the_twelve_edges b : length (block_edges b) = 12%nat /\
  (forall p q, In (p, q) (block_edges b) \/ In (q, p) (block_edges b) <-> exists s t, adjacent s t = true /\ p = corner_at b s /\ q = corner_at b t).
Proof. exact (edges_ok b). Qed.
Print Assumptions C282_the_twelve_edges.
Theorem C282_the_six_faces b : proper (bframe b) -> exists fs, shell_faces b = Ok fs /\ fs = map (map (corner_at b)) sides /\ faces_center b = map mean4 fs.
Proof. exact (block_faces_ok b). Qed.
Print Assumptions C282_the_six_faces.
Theorem C282_the_sides_of_the_specification : length sides = 6%nat /\ (forall side, In side sides -> length side = 4%nat /\ NoDup side) /\
  (forall s t, adjacent s t = true -> length (filter (bounds_side s t) sides) = 2%nat) /\
  (forall s t side, In side sides -> bounds_side s t side = true -> adjacent s t = true).
Proof. exact sides_ok. Qed.
Print Assumptions C282_the_sides_of_the_specification.
Example C282_nonvacuous : exists b, proper (bframe b) /\ parallelepiped (bframe b) = 6 /\ slantless (bframe b) /\ axis_parallel (bframe b) /\ upright_block b.
Proof. exact blocks_example. Qed.

(** ** C283, C284: volume, boxes turned into blocks *)
Theorem C283_the_volume b : slantless (bframe b) -> block_volume b = parallelepiped (bframe b).
Proof. exact (volume_ok b). Qed.
Print Assumptions C283_the_volume.
Theorem C283_the_block_of_a_box bb : xmin bb < xmax bb -> ymin bb < ymax bb -> zmin bb < zmax bb ->
  exists b, block_from_bbox bb = Ok b /\ (forall p, in_block b p <-> in_box bb p) /\ block_bbox b = Ok bb /\ block_volume b = bbox_volume bb.
Proof. exact (from_bbox_ok bb). Qed.
Print Assumptions C283_the_block_of_a_box.
Theorem C283_the_error_of_a_flat_box bb : valid_box bb -> xmin bb = xmax bb \/ ymin bb = ymax bb \/ zmin bb = zmax bb -> block_from_bbox bb = Err ZeroDivisionError.
Proof. exact (from_flat_bbox bb). Qed.
Print Assumptions C283_the_error_of_a_flat_box.
Theorem C283_a_block_of_non_zero_edges f : proper f -> new_block f = Ok (Block f).
Proof. exact (new_block_ok f). Qed.
Print Assumptions C283_a_block_of_non_zero_edges.
Theorem C283_every_block_has_non_zero_edges f b : new_block f = Ok b -> b = Block f /\ proper f.
Proof. exact (new_block_inv f b). Qed.
Print Assumptions C283_every_block_has_non_zero_edges.
Example C283_nonvacuous : exists b bb, slantless (bframe b) /\ proper (bframe b) /\ xmin bb < xmax bb /\ ymin bb < ymax bb /\ zmin bb < zmax bb.
Proof. destruct blocks_example as (b & P & _ & Q & _). exists b, (BBox 0 1 0 2 0 3). split; [exact Q|]. split; [exact P|]. cbn [xmin xmax ymin ymax zmin zmax]. repeat split; lra. Qed.
Theorem C284_the_volume_of_a_slanted_block_refuted : exists b, new_block (bframe b) = Ok b /\ parallelepiped (bframe b) = 3 /\ block_volume b = 5.
Proof. exact slanted_witness. Qed.
Print Assumptions C284_the_volume_of_a_slanted_block_refuted.

(** ** C285, C286: the bounding box of a block *)
Theorem C285_the_box_of_an_axis_parallel_block b : axis_parallel (bframe b) -> exists bb, block_bbox b = Ok bb /\ least_box (in_block b) bb.
Proof. exact (block_bbox_ok b). Qed.
Print Assumptions C285_the_box_of_an_axis_parallel_block.
Example C285_nonvacuous : exists b, axis_parallel (bframe b).
Proof. destruct blocks_example as (b & _ & _ & _ & Q & _). exists b. exact Q. Qed.
Theorem C286_the_box_of_a_turned_block_refuted : exists b bb p, new_block (bframe b) = Ok b /\ orthonormal (fb3 (bframe b)) /\ block_bbox b = Ok bb /\ In p (block_vertices b) /\ ~ in_box bb p.
Proof. exact turned_witness. Qed.
Print Assumptions C286_the_box_of_a_turned_block_refuted.

(** ** C287: the contours of the faces *)
Theorem C287_no_contour_of_any_block_refuted b : face_contours3d b = Err IndexError.
Proof. exact (face_contours_fail b). Qed.
Print Assumptions C287_no_contour_of_any_block_refuted.

(** ** C288, C289: subdivision *)
Theorem C288_the_parts_fill_the_block b nx ny nz : upright_block b -> (0 < nx)%nat -> (0 < ny)%nat -> (0 < nz)%nat ->
  exists l, subdivide_block b nx ny nz = Ok l /\ length l = (nx * ny * nz)%nat /\
    (forall p, in_block b p <-> exists s, In s l /\ in_block s p) /\
    (forall s t p, In s l -> In t l -> strictly_in_block s p -> strictly_in_block t p -> s = t) /\
    (forall s, In s l -> block_volume s = block_volume b / INR (nx * ny * nz)) /\ total_volume l = block_volume b.
Proof. exact (subdivide_ok b nx ny nz). Qed.
Print Assumptions C288_the_parts_fill_the_block.
Theorem C288_no_part_at_all b nx ny nz : (nx = 0 \/ ny = 0 \/ nz = 0)%nat -> subdivide_block b nx ny nz = Err ZeroDivisionError.
Proof. exact (subdivide_zero b nx ny nz). Qed.
Print Assumptions C288_no_part_at_all.
Example C288_nonvacuous : exists b, upright_block b.
Proof. destruct blocks_example as (b & _ & _ & _ & _ & Q). exists b. exact Q. Qed.
Theorem C289_the_parts_of_a_turned_block_refuted : exists b l p, new_block (bframe b) = Ok b /\ orthonormal (fb3 (bframe b)) /\ subdivide_block b 2 2 2 = Ok l /\
  in_block b p /\ (forall s, In s l -> ~ in_block s p).
Proof. exact subdivide_turned. Qed.
Print Assumptions C289_the_parts_of_a_turned_block_refuted.

(** ** C290: moves *)
Theorem C290_translation b o : proper (bframe b) -> exists b', block_translation b o = Ok b' /\
  (forall v, frame_point (bframe b') v = translation3 (frame_point (bframe b) v) o) /\ block_volume b' = block_volume b.
Proof. exact (translation_block b o). Qed.
Print Assumptions C290_translation.
Theorem C290_rotation b c ax a : proper (bframe b) -> dot3 ax ax = 1 -> c = org3 (bframe b) \/ / 10 ^ 6 < point_distance3 c (org3 (bframe b)) -> exists b', block_rotation b c ax a = Ok b' /\
  (forall v, frame_point (bframe b') v = rotation3 (frame_point (bframe b) v) c ax a) /\ block_volume b' = block_volume b.
Proof. exact (rotation_block b c ax a). Qed.
Print Assumptions C290_rotation.
Theorem C290_change_of_frame b f b' : block_mapping_old b f = Ok b' -> forall v, Rabs (x3 v) <= 1 -> Rabs (y3 v) <= 1 -> Rabs (z3 v) <= 1 ->
  near (4 * eps) (frame_point (bframe b') v) (frame_point f (frame_point (bframe b) v)).
Proof. exact (mapping_block b f b'). Qed.
Print Assumptions C290_change_of_frame.
Example C290_nonvacuous : exists b ax c, proper (bframe b) /\ dot3 ax ax = 1 /\ c = org3 (bframe b).
Proof. destruct blocks_example as (b & Q & _). exists b, Z3D, (org3 (bframe b)). split; [exact Q|]. split; [unfold Z3D, dot3; cbn [x3 y3 z3]; ring|reflexivity]. Qed.

(** ** C291: the boxes of cylinders, hollow cylinders and cones *)
Theorem C291_the_box_of_a_cylinder c : orthonormal (fb3 (cyf c)) -> 0 <= cyr c -> 0 < cyl c -> exists bb, cylinder_bbox c = Ok bb /\ least_box (in_cylinder c) bb.
Proof. exact (cylinder_box_ok c). Qed.
Print Assumptions C291_the_box_of_a_cylinder.
Theorem C291_the_box_of_a_hollow_cylinder h : orthonormal (fb3 (hof h)) -> 0 <= inner h <= outer h -> 0 < hol h -> exists bb, hollow_bbox h = Ok bb /\ least_box (in_hollow h) bb.
Proof. exact (hollow_box_ok h). Qed.
Print Assumptions C291_the_box_of_a_hollow_cylinder.
Theorem C291_the_box_of_a_cone c : orthonormal (fb3 (cyf c)) -> 0 <= cyr c -> 0 < cyl c -> exists bb, cone_bbox c = Ok bb /\ least_box (in_cone c) bb.
Proof. exact (cone_box_ok c). Qed.
Print Assumptions C291_the_box_of_a_cone.
Theorem C291_the_error_of_a_null_cylinder c : cyl c = 0 -> cylinder_bbox c = Err ZeroDivisionError.
Proof. exact (null_cylinder_box c). Qed.
Print Assumptions C291_the_error_of_a_null_cylinder.
Example C291_nonvacuous : exists c, orthonormal (fb3 (cyf c)) /\ 0 <= cyr c /\ 0 < cyl c.
Proof. destruct cylinders_example as (c & f & l & d & A & B & C & _). exists c. rewrite B, C. split; [exact A|lra]. Qed.

(** ** C292: points of a cylinder, common volume *)
Theorem C292_point_belongs c p : orthonormal (fb3 (cyf c)) -> 0 <= cyr c -> 0 <= cyl c ->
  exists a, cylinder_point_belongs c p = Ok a /\ (in_cylinder c p -> a = true) /\ (a = true -> in_cylinder (grown c (2 * eps)) p).
Proof. exact (cylinder_belongs_ok c p). Qed.
Print Assumptions C292_point_belongs.
Theorem C292_random_points c d : orthonormal (fb3 (cyf c)) -> 0 <= cyr c -> 0 <= cyl c -> fair_draw c d -> exists p, sampled_point c d = Ok p /\ in_cylinder (grown c (2 * eps)) p.
Proof. exact (sampled_ok c d). Qed.
Print Assumptions C292_random_points.
Theorem C292_the_common_volume c d draws : orthonormal (fb3 (cyf c)) -> orthonormal (fb3 (cyf d)) -> 0 <= cyr c -> 0 <= cyr d -> 0 <= cyl c -> 0 <= cyl d ->
  draws <> [] -> (forall x, In x draws -> fair_draw (smaller c d) x) ->
  exists v, interference_volume c d draws = Ok v /\ 0 <= v <= Rmin (cylinder_volume c) (cylinder_volume d) /\
    ((forall p, in_cylinder (grown (smaller c d) (2 * eps)) p -> ~ in_cylinder (grown (larger c d) (2 * eps)) p) -> v = 0) /\
    ((forall p, in_cylinder (grown (smaller c d) (2 * eps)) p -> in_cylinder (larger c d) p) -> v = Rmin (cylinder_volume c) (cylinder_volume d)).
Proof. exact (interference_ok c d draws). Qed.
Print Assumptions C292_the_common_volume.
Theorem C292_the_error_without_draws c d : interference_volume c d [] = Err ZeroDivisionError.
Proof. exact (interference_no_draw c d). Qed.
Print Assumptions C292_the_error_without_draws.
Example C292_nonvacuous : exists s far large draws, orthonormal (fb3 (cyf s)) /\ cyr s = 1 /\ cyl s = 2 /\ orthonormal (fb3 (cyf far)) /\ cyr far = 2 /\ cyl far = 2 /\
  orthonormal (fb3 (cyf large)) /\ cyr large = 10 /\ cyl large = 20 /\ smaller s far = s /\ larger s far = far /\ smaller s large = s /\ larger s large = large /\
  draws <> [] /\ (forall x, In x draws -> fair_draw s x) /\
  (forall p, in_cylinder (grown s (2 * eps)) p -> ~ in_cylinder (grown far (2 * eps)) p) /\
  (forall p, in_cylinder (grown s (2 * eps)) p -> in_cylinder large p).
Proof. exact cylinders_example. Qed.

(** ** C293, C294: cylinders from their ends, from their center and axis *)
Theorem C293_from_end_points p q r : p <> q -> exists c, from_end_points p q r = Ok c /\ direct (fb3 (cyf c)) /\ cyr c = r /\ cyl c = point_distance3 p q /\ 0 < cyl c /\
  frame_point (cyf c) (V3 0 0 (- (cyl c / 2))) = p /\ frame_point (cyf c) (V3 0 0 (cyl c / 2)) = q.
Proof. exact (end_points_ok p q r). Qed.
Print Assumptions C293_from_end_points.
Theorem C293_the_error_of_equal_end_points p r : from_end_points p p r = Err ZeroDivisionError.
Proof. exact (end_points_err p r). Qed.
Print Assumptions C293_the_error_of_equal_end_points.
Theorem C293_from_a_center_and_a_unit_axis o a r l : dot3 a a = 1 -> exists c, from_center_and_axis o a r l = Ok c /\ direct (fb3 (cyf c)) /\ org3 (cyf c) = o /\ axis c = a /\ cyr c = r /\ cyl c = l.
Proof. exact (center_axis_unit o a r l). Qed.
Print Assumptions C293_from_a_center_and_a_unit_axis.
Example C293_nonvacuous : O3D <> V3 1 2 3 /\ dot3 Z3D Z3D = 1.
Proof. split; [unfold O3D; intros H; injection H; lra|unfold Z3D, dot3; cbn [x3 y3 z3]; ring]. Qed.
Theorem C294_an_axis_that_is_not_a_unit_vector_refuted : exists c bb, from_center_and_axis O3D (V3 0 0 2) 1 1 = Ok c /\ cyl c = 1 /\ cylinder_volume c = PI /\ cylinder_bbox c = Ok bb /\ zmax bb - zmin bb = 2 /\
  in_box bb (V3 0 0 1) /\ cylinder_point_belongs c (V3 0 0 1) = Ok false.
Proof. exact long_axis. Qed.
Print Assumptions C294_an_axis_that_is_not_a_unit_vector_refuted.

(** ** C295: points of the skin of a sphere *)
Theorem C295_points_of_the_skin c r res : 0 < r -> 0 < res <= 2 * r -> exists l, skin_points c r res = Ok l /\ (forall p, In p l -> on_sphere_at c r p) /\ covers l (on_sphere_at c r) (3 * res + 2 * r / 10 ^ 6).
Proof. exact (skin_ok c r res). Qed.
Print Assumptions C295_points_of_the_skin.
Theorem C295_no_point_at_a_coarse_resolution c r res : 2 * r < res -> skin_points c r res = Ok [].
Proof. exact (skin_coarse c r res). Qed.
Print Assumptions C295_no_point_at_a_coarse_resolution.
Example C295_nonvacuous : 0 < 1 /\ 0 < 1 / 10 <= 2 * 1 /\ on_sphere_at O3D 1 X3D.
Proof. split; [lra|]. split; [lra|]. unfold on_sphere_at. apply dist_sq_eq; [lra|]. unfold O3D, X3D. cbn [x3 y3 z3]. ring. Qed.

(** ** C296: points of a ball *)
Theorem C296_points_of_the_ball c r res : 0 < r -> 0 < res -> exists l, inner_points c r res = Ok l /\ (forall p, In p l -> in_ball c r p) /\ covers l (in_ball c r) (41 / 10 * res + 2 * r / 10 ^ 6).
Proof. exact (inner_ok c r res). Qed.
Print Assumptions C296_points_of_the_ball.
Theorem C296_point_belongs c r p : sphere_point_belongs c r p = true <-> in_ball c r p.
Proof. exact (belongs_sphere c r p). Qed.
Print Assumptions C296_point_belongs.
Example C296_nonvacuous : in_ball O3D 1 X3D /\ in_ball O3D 1 O3D.
Proof. unfold in_ball. split; [rewrite (dist_sq_eq O3D X3D 1); [lra|lra|unfold O3D, X3D; cbn [x3 y3 z3]; ring]|rewrite (dist_sq_eq O3D O3D 0); [lra|lra|unfold O3D; cbn [x3 y3 z3]; ring]]. Qed.

