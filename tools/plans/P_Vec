(** Property theorems: vectors, points, lines (C54, C55, C63-C68, C72). *)
From Coq Require Import Reals Lra Lia List Bool Permutation.
From Verif.Model Require Import RBase Vec.
From Verif.Spec Require Import VecSpec.
From Verif.Proofs Require Import VecP LineP VecP2 VecP3.
Import ListNotations.
Open Scope R_scope.

(** ** C54 vector algebra *)
@dot3_sym C54_dot3_sym
@dot3_add_l C54_dot3_add
@dot3_mul_l C54_dot3_scale
@cross3_anti C54_cross3_antisymmetric
@cross3_add_l C54_cross3_add
@cross3_mul_l C54_cross3_scale
@cross3_perp_l C54_cross3_orthogonal_left
@cross3_perp_r C54_cross3_orthogonal_right
@lagrange3 C54_cross3_norm
@norm3_zero C54_norm3_zero
@norm2_zero C54_norm2_zero
@norm3_scale C54_norm3_homogeneous
@norm2_scale C54_norm2_homogeneous
@cauchy3 C54_cauchy3
@cauchy2 C54_cauchy2
@norm3_triangle C54_norm3_triangle
@norm2_triangle C54_norm2_triangle
@unit3_spec C54_unit_vector3
@unit2_spec C54_unit_vector2
@unit3_err C54_unit_vector3_null
@unit2_err C54_unit_vector2_null
@dist3_zero C54_distance3_zero
@dist3_triangle C54_distance3_triangle
@dist2_zero C54_distance2_zero
@dist2_triangle C54_distance2_triangle
@is_close3_spec C54_is_close3
@is_close2_spec C54_is_close2
@middle3 C54_middle_point3
@middle2 C54_middle_point2
@normal2_perp C54_normal_vector2
@colinear_true C54_colinear_complete
@colinear_sound C54_colinear_sound
@colinear_null C54_colinear_null
@vector_projection_spec C54_vector_projection
@det_normal_exists C54_deterministic_normal
@det_normal_tiny C126_deterministic_normal_refuted A non-null vector for which deterministic_unit_normal_vector raises.
@cross3_frame C54_cross3_right_handed
@cross3_triple C54_cross3_determinant
@cross2_z C54_cross2
@cross2_frame C54_cross2_sign
@lagrange2 C54_cross2_norm
@dot2_coords C54_dot2_coordinates
@norm2_dot2 C54_norm2_dot
@norm3_dot3 C54_norm3_dot
@div3_spec C54_division3
@div2_spec C54_division2
@div3_err C54_division3_by_zero
@div2_err C54_division2_by_zero
@group3 C54_group_laws3
@group2 C54_group_laws2
@scale3 C54_scalar_laws3
@scale2 C54_scalar_laws2
@perpendicular_spec C54_perpendicular
@unit_normal2_spec C54_unit_normal_vector2
@unit_normal2_total C54_unit_normal_vector2_total
Example C54_nonvacuous : unit_vector3 (V3 0 3 0) = Ok (V3 0 1 0).
Proof.
  assert (N : norm3 (V3 0 3 0) = 3). { unfold norm3. cbn. replace (0 * 0 + 3 * 3 + 0 * 0) with (3 * 3) by ring. apply sqrt_square; lra. }
  apply unit3_ok. split; [intros C; injection C; lra|]. rewrite N. vec. v_eq; field.
Qed.

(** ** C55 rotations, translations *)
@rotation2_dist C55_rotation2_isometry
@rotation2_center C55_rotation2_center
@rotation2_compose C55_rotation2_compose
@rotation2_2pi C55_rotation2_full_turn
@rotation2_cross C55_rotation2_orientation
@rotation3_dist C55_rotation3_isometry
@rotation3_compose C55_rotation3_compose
@rotation3_2pi C55_rotation3_full_turn
@rotation3_0 C55_rotation3_zero
@rotation3_axis C55_rotation3_axis
@rotation3_cross C55_rotation3_orientation
@rotation3_angle C55_rotation3_angle The angle turned is the angle given, counter-clockwise seen from the axis.
@rotation2_sense C55_rotation2_angle The angle turned is the angle given, counter-clockwise.
@translation3_exact C55_translation3_vector
@translation2_exact C55_translation2_vector
@translation2_dist C55_translation2_isometry
@translation3_dist C55_translation3_isometry
@x_rotation_neg C55_x_rotation_sense
@y_rotation_neg C55_y_rotation_sense
@z_rotation_neg C55_z_rotation_sense
@x_rotation_wrong C127_x_rotation_refuted x_rotation does not turn as rotation around the x axis does.
@rotation3_nonunit C127_rotation3_nonunit_refuted With a non-unit axis distances are not preserved.
Example C55_nonvacuous : dot3 Z3D Z3D = 1 /\ rotation3 X3D O3D Z3D (PI / 2) = Y3D.
Proof.
  split; [unfold Z3D; vec; ring|]. rewrite rotation3_rod. unfold rod, X3D, Y3D, Z3D, O3D. rewrite cos_PI2, sin_PI2. vec. v_eq; ring.
Qed.

(** ** C63 intersections of lines and segments *)
@line_intersection_some C63_line_intersection_found
@line_intersection_unique C63_line_intersection_unique
@line_intersection_none C63_line_intersection_parallel
@segment_intersection_complete C63_segment_intersection_complete
@segment_intersection_sound C63_segment_intersection The point returned is on both lines and on at least one of the two segments.
@segment_intersection_wrong C147_segment_intersection_refuted A point returned that is not on the second segment.
Example C63_nonvacuous : exists t u, segment_intersection (V2 0 0, V2 2 2) (V2 0 2, V2 2 0) = Some (V2 1 1, t, u).
Proof.
  apply segment_intersection_complete.
  - unfold den2. vec. rewrite Rabs_left; lra.
  - exists (/ 2). split; [lra|]. unfold at_param2. vec. v_eq; field.
  - exists (/ 2). split; [lra|]. unfold at_param2. vec. v_eq; field.
Qed.

(** ** C64 point-segment distance *)
@segdist3_spec C64_distance3_minimal
@segdist2_spec C64_distance2_minimal
@segdist3_total C64_distance3_total
@segdist2_total C64_distance2_total
Example C64_nonvacuous : V3 0 0 0 <> V3 1 0 0.
Proof. intros C; injection C; lra. Qed.

(** ** C65 segment-segment distance *)
@segseg_on C183_points_on_segments
@segseg_wrong C65_minimal_distance_refuted Two segments that cross at the origin, for which distinct points are returned.

(** ** C66 closest points of two lines *)
@min_lines_cross C66_lines_minimal
@min_lines_touch C66_lines_touch
@min_lines_on C66_points_on_lines
@min_lines_parallel_wrong C131_parallel_lines_refuted For parallel lines the two points returned are not the closest ones.
Example C66_nonvacuous : line_point_belongs_with_points (V3 0 0 0) (V3 1 0 0) (V3 0 0 1) = false /\
  line_point_belongs_with_points (V3 0 0 0) (V3 1 0 0) (V3 0 1 1) = false /\ cross3 (sub3 (V3 1 0 0) (V3 0 0 0)) (sub3 (V3 0 1 1) (V3 0 0 1)) <> V3 0 0 0.
Proof.
  assert (N : forall v, dot3 v v = 1 -> norm3 v = 1) by (intros; apply dot3_1; auto).
  assert (Q : / 10 ^ 6 < 1). { apply Rmult_lt_reg_l with (10 ^ 6); [lra|]. rewrite Rinv_r; lra. }
  repeat split.
  - unfold line_point_belongs_with_points. rewrite !N by (vec; ring). apply Rltb_false. lra.
  - unfold line_point_belongs_with_points. rewrite (N (sub3 (V3 1 0 0) (V3 0 0 0))) by (vec; ring). apply Rltb_false.
    apply Rle_trans with 1; [lra|]. apply Rmult_le_reg_r with 1; [lra|]. unfold Rdiv. rewrite Rinv_1, !Rmult_1_r.
    apply sq_le; [apply norm3_pos|]. rewrite norm3_sq. vec. lra.
  - intros C. vec. injection C. lra.
Qed.

(** ** C67 projections on lines, axial symmetry *)
@point_projection2_spec C67_projection2
@point_projection3_spec C67_projection3
@proj_total2 C67_projection2_total
@line_projection2_same C67_line_projection_agrees
@symmetry2_spec C67_symmetry
@symmetry2_invol C67_symmetry_involutive
@symmetry2_dist C67_symmetry_isometry
@line_abscissa_point C67_point_at_abscissa
@line_abscissa_projection C67_abscissa_of_projection
Example C67_nonvacuous : exists q a, point_projection2 (V2 0 0, V2 4 3) (V2 1 1) = Ok (q, a).
Proof. apply proj_total2. cbn. intros C; injection C; lra. Qed.

(** ** C68 point lists *)
@nearest3_spec C68_nearest_point3
@nearest3_none C68_nearest_point3_empty
@nearest2_spec C68_nearest_point2
@in_list3_spec C68_in_list3
@in_list2_spec C68_in_list2
@mean_point_spec C68_mean_point
@mean_point_total C68_mean_point_total
@sum3_perm C68_mean_point_order
Example C68_nonvacuous : in_list3 (V3 1 2 3) [V3 0 0 0; V3 1 2 3] 0 = true.
Proof. apply in_list3_spec; [lra|]. exists (V3 1 2 3). split; [cbn; auto|]. right. apply dist3_zero. auto. Qed.

(** ** C72 plane projections, 2D/3D conversions *)
@plane_projection3d_spec C72_plane_projection
@plane_projection3d_min C72_plane_projection_minimal
@plane_projection3d_err C72_plane_projection_error
@to_2d_3d C72_to_3d_then_to_2d
@to_3d_2d C72_to_2d_then_to_3d
@plane_projection2d_to_2d C174_plane_projection2d_actual plane_projection2d gives the in-plane coordinates shifted by those of the origin: equal to to_2d only when the origin is orthogonal to both axes.
@projection2d_origin_wrong C174_plane_projection2d_gives_the_coordinates_in_the_plane_refuted
Example C72_nonvacuous : plane_projection3d (V3 1 2 3) (V3 0 0 1) X3D Y3D = Ok (V3 1 2 1).
Proof.
  unfold plane_projection3d, bind. assert (C : cross3 X3D Y3D = V3 0 0 1) by (unfold X3D, Y3D; vec; v_eq; ring). rewrite C.
  assert (N : norm3 (V3 0 0 1) = 1) by (apply dot3_1; vec; ring).
  destruct (unit_vector3 (V3 0 0 1)) as [z|] eqn:E; [|apply unit3_err in E as [E _]; injection E; lra].
  apply unit3_ok in E as [_ ->]. rewrite N. apply f_equal. vec. v_eq; field.
Qed.
