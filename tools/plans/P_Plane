(** C97-C101: planes (statements only). *)
From Verif.Model Require Import Base RBase Vec Frame Geometry Plane.
From Verif.Spec Require Import VecSpec FrameSpec PlaneSpec.
From Verif.Proofs Require Import VecP FrameP PlaneP PlaneP2 PlaneP3 PlaneP4.
From Coq Require Import Reals Lra Lia List.
Open Scope R_scope.

(** the coordinate planes, used in the non-vacuity examples *)
Definition Pxy : frame3 := F3 O3D (B3 X3D Y3D Z3D).
Definition Pyz : frame3 := F3 O3D (B3 Y3D Z3D X3D).

(** ** C97: distance to a plane and membership *)
@plane_belongs_spec C97_point_belongs_is_height_within_tolerance
@height_minimal C97_no_point_of_the_plane_is_closer_than_the_height
@height_attained C97_the_height_is_attained
@plane_distance_spec C97_point_distance_is_the_height_up_to_the_rounding
Example C97_nonvacuous : dot3 (bw (fb3 Pxy)) (bw (fb3 Pxy)) = 1 /\ plane_height Pxy (V3 1 2 3) = 3 /\ on_plane Pxy (V3 1 2 0).
Proof. unfold plane_height, on_plane, Pxy, dot3, sub3, Z3D, O3D. cbn [x3 y3 z3 bw fb3 org3]. repeat split; ring. Qed.

(** ** C98: constructors *)
@plane_3_points_ok C98_from_3_points_contains_the_points_and_is_direct
@plane_3_points_err C98_from_3_points_fails_exactly_on_collinear_points
@plane_normal_ok C98_from_normal_is_the_plane_normal_to_the_vector
@plane_normal_total C98_from_normal_always_succeeds_on_unit_vectors
@plane_normal_left C132_from_normal_is_direct_refuted the frame is left-handed
@plane_vectors_ok C98_from_plane_vectors
@plane_points_short C98_from_points_needs_three_points
@plane_points_ok C98_from_points_contains_the_first_point_and_two_others
@plane_points_err C98_from_points_fails_exactly_on_aligned_points
@plane_points_not_first_three C132_from_points_contains_the_first_three_points_refuted
Example C98_nonvacuous : ~ collinear3 O3D X3D Y3D /\ dot3 Z3D Z3D = 1 /\ exists p0 p1 p2 p3 f, plane_from_points [p0; p1; p2; p3] = Ok f.
Proof.
  split; [|split].
  - unfold collinear3, cross3, sub3, O3D, X3D, Y3D. cbn [x3 y3 z3]. intros H. pose proof (f_equal z3 H) as Z. cbn [z3] in Z. lra.
  - unfold dot3, Z3D. cbn [x3 y3 z3]. ring.
  - destruct plane_points_not_first_three as (p0 & p1 & p2 & p3 & f & H & _). eauto 6.
Qed.

(** ** C99: intersection of a plane with a line or a segment *)
@plane_line_sound C99_line_intersection_is_on_both
@plane_line_complete C99_line_intersection_is_unique
@plane_line_none C99_line_intersection_is_empty_exactly_for_small_dot_products
@plane_line_scale C133_line_intersection_depends_only_on_the_line_refuted
@plane_seg_sound C99_segment_intersection_is_on_both
@plane_seg_complete C99_segment_intersection_is_found
@plane_seg_total C99_segment_intersection_never_fails
Example C99_nonvacuous : / 10 ^ 6 < Rabs (dot3 (bw (fb3 Pxy)) (sub3 (V3 1 1 1) (V3 0 0 (-1)))) /\ dot3 (bw (fb3 Pxy)) (bw (fb3 Pxy)) = 1 /\
  on_segment3 (V3 0 0 (-1), V3 1 1 1) (V3 (1 / 2) (1 / 2) 0) /\ on_plane Pxy (V3 (1 / 2) (1 / 2) 0).
Proof.
  unfold on_plane, on_segment3, Pxy, dot3, sub3, add3, mul3, Z3D, O3D. cbn [x3 y3 z3 bw fb3 org3 fst snd]. split; [|split; [ring|split; [|ring]]].
  - rewrite Rabs_pos_eq; lra.
  - exists (1 / 2). split; [lra|]. f_equal; field.
Qed.

(** ** C100: intersection of two planes *)
@two_planes_ok C100_two_planes_intersection_is_a_common_line_or_empty
@two_planes_complete C100_every_common_point_is_near_the_line
Example C100_nonvacuous : dot3 (bw (fb3 Pxy)) (bw (fb3 Pxy)) = 1 /\ dot3 (bw (fb3 Pyz)) (bw (fb3 Pyz)) = 1 /\ Rabs (dot3 (bw (fb3 Pxy)) (bw (fb3 Pyz))) < 1 - / 10 ^ 8 /\
  on_plane Pxy (V3 0 5 0) /\ on_plane Pyz (V3 0 5 0).
Proof.
  unfold on_plane, Pxy, Pyz, dot3, sub3, X3D, Y3D, Z3D, O3D. cbn [x3 y3 z3 bw fb3 org3]. split; [ring|]. split; [ring|]. split; [|split; ring].
  replace (0 * 1 + 0 * 0 + 1 * 0) with 0 by ring. rewrite Rabs_R0. lra.
Qed.

(** ** C101: parallel and coincident planes, angles, the middle plane, the plane parametrisation *)
@angle_planes_ok C101_angle_between_planes
@is_parallel_iff C101_is_parallel_iff_normals_are_parallel
@is_coincident_iff C101_is_coincident_iff
@is_coincident_complete C101_planes_with_the_same_points_are_coincident
@plane_between_ok C101_plane_between_two_planes_bisects
@plane_between_parallel C101_plane_between_parallel_planes_fails
@plane_2d_to_3d_err C101_point2d_to_3d_rounds_to_12_digits
@plane_array_on C101_parametric_points_are_on_the_plane
@plane_param_inverse C101_parameters_are_recovered
@plane_param_cover C101_every_point_of_the_plane_has_parameters
Example C101_nonvacuous : orthonormal (fb3 Pxy) /\ direct (fb3 Pxy) /\ dot3 (bw (fb3 Pyz)) (bw (fb3 Pyz)) = 1 /\
  Rabs (dot3 (bw (fb3 Pxy)) (bw (fb3 Pyz))) < 1 - / 10 ^ 8.
Proof. split; [apply std_direct|]. split; [exact std_direct|]. split; apply C100_nonvacuous. Qed.
