(** Property theorems: vectors, points, lines (C54, C55, C63-C68, C72). *)
From Coq Require Import Reals Lra Lia List Bool Permutation.
From Verif.Model Require Import RBase Vec.
From Verif.Spec Require Import VecSpec.
From Verif.Proofs Require Import VecP LineP VecP2 VecP3.
Import ListNotations.
Open Scope R_scope.

(** ** C54 vector algebra *)
Theorem C54_dot3_sym u v : dot3 u v = dot3 v u.
Proof. exact (dot3_sym u v). Qed.
Print Assumptions C54_dot3_sym.
Theorem C54_dot3_add u v w : dot3 (add3 u v) w = dot3 u w + dot3 v w.
Proof. exact (dot3_add_l u v w). Qed.
Print Assumptions C54_dot3_add.
Theorem C54_dot3_scale u a w : dot3 (mul3 u a) w = a * dot3 u w.
Proof. exact (dot3_mul_l u a w). Qed.
Print Assumptions C54_dot3_scale.
Theorem C54_cross3_antisymmetric u v : cross3 u v = neg3 (cross3 v u).
Proof. exact (cross3_anti u v). Qed.
Print Assumptions C54_cross3_antisymmetric.
Theorem C54_cross3_add u v w : cross3 (add3 u v) w = add3 (cross3 u w) (cross3 v w).
Proof. exact (cross3_add_l u v w). Qed.
Print Assumptions C54_cross3_add.
Theorem C54_cross3_scale u a w : cross3 (mul3 u a) w = mul3 (cross3 u w) a.
Proof. exact (cross3_mul_l u a w). Qed.
Print Assumptions C54_cross3_scale.
Theorem C54_cross3_orthogonal_left u v : dot3 (cross3 u v) u = 0.
Proof. exact (cross3_perp_l u v). Qed.
Print Assumptions C54_cross3_orthogonal_left.
Theorem C54_cross3_orthogonal_right u v : dot3 (cross3 u v) v = 0.
Proof. exact (cross3_perp_r u v). Qed.
Print Assumptions C54_cross3_orthogonal_right.
Theorem C54_cross3_norm u v : dot3 (cross3 u v) (cross3 u v) = dot3 u u * dot3 v v - dot3 u v * dot3 u v.
Proof. exact (lagrange3 u v). Qed.
Print Assumptions C54_cross3_norm.
Theorem C54_norm3_zero u : norm3 u = 0 <-> u = V3 0 0 0.
Proof. exact (norm3_zero u). Qed.
Print Assumptions C54_norm3_zero.
Theorem C54_norm2_zero u : norm2 u = 0 <-> u = V2 0 0.
Proof. exact (norm2_zero u). Qed.
Print Assumptions C54_norm2_zero.
Theorem C54_norm3_homogeneous u a : norm3 (mul3 u a) = Rabs a * norm3 u.
Proof. exact (norm3_scale u a). Qed.
Print Assumptions C54_norm3_homogeneous.
Theorem C54_norm2_homogeneous u a : norm2 (mul2 u a) = Rabs a * norm2 u.
Proof. exact (norm2_scale u a). Qed.
Print Assumptions C54_norm2_homogeneous.
Theorem C54_cauchy3 u v : Rabs (dot3 u v) <= norm3 u * norm3 v.
Proof. exact (cauchy3 u v). Qed.
Print Assumptions C54_cauchy3.
Theorem C54_cauchy2 u v : Rabs (dot2 u v) <= norm2 u * norm2 v.
Proof. exact (cauchy2 u v). Qed.
Print Assumptions C54_cauchy2.
Theorem C54_norm3_triangle u v : norm3 (add3 u v) <= norm3 u + norm3 v.
Proof. exact (norm3_triangle u v). Qed.
Print Assumptions C54_norm3_triangle.
Theorem C54_norm2_triangle u v : norm2 (add2 u v) <= norm2 u + norm2 v.
Proof. exact (norm2_triangle u v). Qed.
Print Assumptions C54_norm2_triangle.
Theorem C54_unit_vector3 u n : unit_vector3 u = Ok n -> norm3 n = 1 /\ mul3 n (norm3 u) = u /\ 0 < norm3 u.
Proof. exact (unit3_spec u n). Qed.
Print Assumptions C54_unit_vector3.
Theorem C54_unit_vector2 u n : unit_vector2 u = Ok n -> norm2 n = 1 /\ mul2 n (norm2 u) = u /\ 0 < norm2 u.
Proof. exact (unit2_spec u n). Qed.
Print Assumptions C54_unit_vector2.
Theorem C54_unit_vector3_null u e : unit_vector3 u = Err e <-> u = V3 0 0 0 /\ e = ZeroDivisionError.
Proof. exact (unit3_err u e). Qed.
Print Assumptions C54_unit_vector3_null.
Theorem C54_unit_vector2_null u e : unit_vector2 u = Err e <-> u = V2 0 0 /\ e = ZeroDivisionError.
Proof. exact (unit2_err u e). Qed.
Print Assumptions C54_unit_vector2_null.
Theorem C54_distance3_zero p q : point_distance3 p q = 0 <-> p = q.
Proof. exact (dist3_zero p q). Qed.
Print Assumptions C54_distance3_zero.
Theorem C54_distance3_triangle p q r : point_distance3 p r <= point_distance3 p q + point_distance3 q r.
Proof. exact (dist3_triangle p q r). Qed.
Print Assumptions C54_distance3_triangle.
Theorem C54_distance2_zero p q : point_distance2 p q = 0 <-> p = q.
Proof. exact (dist2_zero p q). Qed.
Print Assumptions C54_distance2_zero.
Theorem C54_distance2_triangle p q r : point_distance2 p r <= point_distance2 p q + point_distance2 q r.
Proof. exact (dist2_triangle p q r). Qed.
Print Assumptions C54_distance2_triangle.
Theorem C54_is_close3 p q t : 0 <= t -> (is_close3 p q t = true <-> point_distance3 p q <= t).
Proof. exact (is_close3_spec p q t). Qed.
Print Assumptions C54_is_close3.
Theorem C54_is_close2 p q t : 0 <= t -> (is_close2 p q t = true <-> point_distance2 p q <= t).
Proof. exact (is_close2_spec p q t). Qed.
Print Assumptions C54_is_close2.
Theorem C54_middle_point3 p q : point_distance3 p (middle_point3 p q) = point_distance3 p q / 2 /\ point_distance3 q (middle_point3 p q) = point_distance3 p q / 2.
Proof. exact (middle3 p q). Qed.
Print Assumptions C54_middle_point3.
Theorem C54_middle_point2 p q : point_distance2 p (middle_point2 p q) = point_distance2 p q / 2 /\ point_distance2 q (middle_point2 p q) = point_distance2 p q / 2.
Proof. exact (middle2 p q). Qed.
Print Assumptions C54_middle_point2.
Theorem C54_normal_vector2 u : dot2 u (normal_vector2 u) = 0 /\ cross2 u (normal_vector2 u) = dot2 u u /\ norm2 (normal_vector2 u) = norm2 u.
Proof. exact (normal2_perp u). Qed.
Print Assumptions C54_normal_vector2.
Theorem C54_colinear_complete u v k t : 0 <= t -> u <> V3 0 0 0 -> k <> 0 -> v = mul3 u k -> is_colinear_to3 u v t = true /\ is_colinear_to3 v u t = true.
Proof. exact (colinear_true u v k t). Qed.
Print Assumptions C54_colinear_complete.
Theorem C54_colinear_sound u v t : / 10 ^ 9 <= t -> is_colinear_to3 u v t = true ->
  0 < norm3 u /\ 0 < norm3 v /\
  dot3 (cross3 u v) (cross3 u v) <= 2 * t * (dot3 u u * dot3 v v).
Proof. exact (colinear_sound u v t). Qed.
Print Assumptions C54_colinear_sound.
Theorem C54_colinear_null u v t : u = V3 0 0 0 \/ v = V3 0 0 0 -> is_colinear_to3 u v t = false.
Proof. exact (colinear_null u v t). Qed.
Print Assumptions C54_colinear_null.
Theorem C54_vector_projection u v w : vector_projection3 u v = Ok w ->
  (exists k, w = mul3 v k) /\ dot3 (sub3 u w) v = 0.
Proof. exact (vector_projection_spec u v w). Qed.
Print Assumptions C54_vector_projection.
Theorem C54_deterministic_normal u : / 10 ^ 7 < norm3 u -> exists v, deterministic_normal_vector u = Ok v /\ dot3 v u = 0 /\ v <> V3 0 0 0.
Proof. exact (det_normal_exists u). Qed.
Print Assumptions C54_deterministic_normal.
(** A non-null vector for which deterministic_unit_normal_vector raises. *)
Theorem C126_deterministic_normal_refuted : deterministic_unit_normal_vector (V3 0 (/ 10 ^ 8) 0) = Err ZeroDivisionError.
Proof. exact det_normal_tiny. Qed.
Print Assumptions C126_deterministic_normal_refuted.
Theorem C54_cross3_right_handed : cross3 X3D Y3D = Z3D /\ cross3 Y3D Z3D = X3D /\ cross3 Z3D X3D = Y3D.
Proof. exact cross3_frame. Qed.
Print Assumptions C54_cross3_right_handed.
Theorem C54_cross3_determinant u1 u2 u3 v1 v2 v3 w1 w2 w3 : dot3 (cross3 (V3 u1 u2 u3) (V3 v1 v2 v3)) (V3 w1 w2 w3) =
  u1 * v2 * w3 + u2 * v3 * w1 + u3 * v1 * w2 - u3 * v2 * w1 - u1 * v3 * w2 - u2 * v1 * w3.
Proof. exact (cross3_triple u1 u2 u3 v1 v2 v3 w1 w2 w3). Qed.
Print Assumptions C54_cross3_determinant.
Theorem C54_cross2 u v : cross2 u v = z3 (cross3 (V3 (x2 u) (y2 u) 0) (V3 (x2 v) (y2 v) 0)).
Proof. exact (cross2_z u v). Qed.
Print Assumptions C54_cross2.
Theorem C54_cross2_sign : cross2 (V2 1 0) (V2 0 1) = 1.
Proof. exact cross2_frame. Qed.
Print Assumptions C54_cross2_sign.
Theorem C54_cross2_norm u v : cross2 u v * cross2 u v = dot2 u u * dot2 v v - dot2 u v * dot2 u v.
Proof. exact (lagrange2 u v). Qed.
Print Assumptions C54_cross2_norm.
Theorem C54_dot2_coordinates a b c d : dot2 (V2 a b) (V2 c d) = a * c + b * d.
Proof. exact (dot2_coords a b c d). Qed.
Print Assumptions C54_dot2_coordinates.
Theorem C54_norm2_dot u : norm2 u * norm2 u = dot2 u u.
Proof. exact (norm2_dot2 u). Qed.
Print Assumptions C54_norm2_dot.
Theorem C54_norm3_dot u : norm3 u * norm3 u = dot3 u u.
Proof. exact (norm3_dot3 u). Qed.
Print Assumptions C54_norm3_dot.
Theorem C54_division3 u a w : div3 u a = Ok w <-> a <> 0 /\ mul3 w a = u.
Proof. exact (div3_spec u a w). Qed.
Print Assumptions C54_division3.
Theorem C54_division2 u a w : div2 u a = Ok w <-> a <> 0 /\ mul2 w a = u.
Proof. exact (div2_spec u a w). Qed.
Print Assumptions C54_division2.
Theorem C54_division3_by_zero u a e : div3 u a = Err e <-> a = 0 /\ e = ZeroDivisionError.
Proof. exact (div3_err u a e). Qed.
Print Assumptions C54_division3_by_zero.
Theorem C54_division2_by_zero u a e : div2 u a = Err e <-> a = 0 /\ e = ZeroDivisionError.
Proof. exact (div2_err u a e). Qed.
Print Assumptions C54_division2_by_zero.
Theorem C54_group_laws3 u v w : add3 u v = add3 v u /\ add3 (add3 u v) w = add3 u (add3 v w) /\ add3 u (V3 0 0 0) = u /\
  add3 u (neg3 u) = V3 0 0 0 /\ add3 (sub3 u v) v = u.
Proof. exact (group3 u v w). Qed.
Print Assumptions C54_group_laws3.
Theorem C54_group_laws2 u v w : add2 u v = add2 v u /\ add2 (add2 u v) w = add2 u (add2 v w) /\ add2 u (V2 0 0) = u /\
  add2 u (neg2 u) = V2 0 0 /\ add2 (sub2 u v) v = u.
Proof. exact (group2 u v w). Qed.
Print Assumptions C54_group_laws2.
Theorem C54_scalar_laws3 u v a b : mul3 (add3 u v) a = add3 (mul3 u a) (mul3 v a) /\ mul3 u (a + b) = add3 (mul3 u a) (mul3 u b) /\
  mul3 (mul3 u a) b = mul3 u (a * b) /\ mul3 u 1 = u.
Proof. exact (scale3 u v a b). Qed.
Print Assumptions C54_scalar_laws3.
Theorem C54_scalar_laws2 u v a b : mul2 (add2 u v) a = add2 (mul2 u a) (mul2 v a) /\ mul2 u (a + b) = add2 (mul2 u a) (mul2 u b) /\
  mul2 (mul2 u a) b = mul2 u (a * b) /\ mul2 u 1 = u.
Proof. exact (scale2 u v a b). Qed.
Print Assumptions C54_scalar_laws2.
Theorem C54_perpendicular u v t : 0 <= t -> (is_perpendicular_to3 u v t = true <-> Rabs (dot3 u v) <= t).
Proof. exact (perpendicular_spec u v t). Qed.
Print Assumptions C54_perpendicular.
Theorem C54_unit_normal_vector2 u n : unit_normal_vector2 u = Ok n -> norm2 n = 1 /\ dot2 u n = 0 /\ cross2 u n = norm2 u.
Proof. exact (unit_normal2_spec u n). Qed.
Print Assumptions C54_unit_normal_vector2.
Theorem C54_unit_normal_vector2_total u : u <> V2 0 0 -> exists n, unit_normal_vector2 u = Ok n.
Proof. exact (unit_normal2_total u). Qed.
Print Assumptions C54_unit_normal_vector2_total.
Example C54_nonvacuous : unit_vector3 (V3 0 3 0) = Ok (V3 0 1 0).
Proof.
  assert (N : norm3 (V3 0 3 0) = 3). { unfold norm3. cbn. replace (0 * 0 + 3 * 3 + 0 * 0) with (3 * 3) by ring. apply sqrt_square; lra. }
  apply unit3_ok. split; [intros C; injection C; lra|]. rewrite N. vec. v_eq; field.
Qed.

(** ** C55 rotations, translations *)
Theorem C55_rotation2_isometry p q c a : point_distance2 (rotation2 p c a) (rotation2 q c a) = point_distance2 p q.
Proof. exact (rotation2_dist p q c a). Qed.
Print Assumptions C55_rotation2_isometry.
Theorem C55_rotation2_center c a : rotation2 c c a = c.
Proof. exact (rotation2_center c a). Qed.
Print Assumptions C55_rotation2_center.
Theorem C55_rotation2_compose p c a b : rotation2 (rotation2 p c a) c b = rotation2 p c (a + b).
Proof. exact (rotation2_compose p c a b). Qed.
Print Assumptions C55_rotation2_compose.
Theorem C55_rotation2_full_turn p c : rotation2 p c (2 * PI) = p.
Proof. exact (rotation2_2pi p c). Qed.
Print Assumptions C55_rotation2_full_turn.
Theorem C55_rotation2_orientation p q c a : cross2 (sub2 (rotation2 p c a) c) (sub2 (rotation2 q c a) c) = cross2 (sub2 p c) (sub2 q c).
Proof. exact (rotation2_cross p q c a). Qed.
Print Assumptions C55_rotation2_orientation.
Theorem C55_rotation3_isometry p q c ax a : dot3 ax ax = 1 -> point_distance3 (rotation3 p c ax a) (rotation3 q c ax a) = point_distance3 p q.
Proof. exact (rotation3_dist p q c ax a). Qed.
Print Assumptions C55_rotation3_isometry.
Theorem C55_rotation3_compose p c ax a b : dot3 ax ax = 1 -> rotation3 (rotation3 p c ax a) c ax b = rotation3 p c ax (a + b).
Proof. exact (rotation3_compose p c ax a b). Qed.
Print Assumptions C55_rotation3_compose.
Theorem C55_rotation3_full_turn p c ax : rotation3 p c ax (2 * PI) = p.
Proof. exact (rotation3_2pi p c ax). Qed.
Print Assumptions C55_rotation3_full_turn.
Theorem C55_rotation3_zero p c ax : rotation3 p c ax 0 = p.
Proof. exact (rotation3_0 p c ax). Qed.
Print Assumptions C55_rotation3_zero.
Theorem C55_rotation3_axis c ax a k : dot3 ax ax = 1 -> rotation3 (add3 c (mul3 ax k)) c ax a = add3 c (mul3 ax k).
Proof. exact (rotation3_axis c ax a k). Qed.
Print Assumptions C55_rotation3_axis.
Theorem C55_rotation3_orientation p q ax a : dot3 ax ax = 1 -> cross3 (rotation3 p O3D ax a) (rotation3 q O3D ax a) = rotation3 (cross3 p q) O3D ax a.
Proof. exact (rotation3_cross p q ax a). Qed.
Print Assumptions C55_rotation3_orientation.
(** The angle turned is the angle given, counter-clockwise seen from the axis. *)
Theorem C55_rotation3_angle u ax a : dot3 ax ax = 1 -> dot3 u ax = 0 ->
  dot3 u (rotation3 u O3D ax a) = cos a * dot3 u u /\ cross3 u (rotation3 u O3D ax a) = mul3 ax (sin a * dot3 u u).
Proof. exact (rotation3_angle u ax a). Qed.
Print Assumptions C55_rotation3_angle.
(** The angle turned is the angle given, counter-clockwise. *)
Theorem C55_rotation2_angle u c a : cross2 (sub2 u c) (sub2 (rotation2 u c a) c) = sin a * dot2 (sub2 u c) (sub2 u c) /\
  dot2 (sub2 u c) (sub2 (rotation2 u c a) c) = cos a * dot2 (sub2 u c) (sub2 u c).
Proof. exact (rotation2_sense u c a). Qed.
Print Assumptions C55_rotation2_angle.
Theorem C55_translation3_vector p o : sub3 (translation3 p o) p = o.
Proof. exact (translation3_exact p o). Qed.
Print Assumptions C55_translation3_vector.
Theorem C55_translation2_vector p o : sub2 (translation2 p o) p = o.
Proof. exact (translation2_exact p o). Qed.
Print Assumptions C55_translation2_vector.
Theorem C55_translation2_isometry p q o : point_distance2 (translation2 p o) (translation2 q o) = point_distance2 p q.
Proof. exact (translation2_dist p q o). Qed.
Print Assumptions C55_translation2_isometry.
Theorem C55_translation3_isometry p q o : point_distance3 (translation3 p o) (translation3 q o) = point_distance3 p q.
Proof. exact (translation3_dist p q o). Qed.
Print Assumptions C55_translation3_isometry.
Theorem C55_x_rotation_sense v a : x_rotation v a = rotation3 v O3D X3D (- a).
Proof. exact (x_rotation_neg v a). Qed.
Print Assumptions C55_x_rotation_sense.
Theorem C55_y_rotation_sense v a : y_rotation v a = rotation3 v O3D Y3D (- a).
Proof. exact (y_rotation_neg v a). Qed.
Print Assumptions C55_y_rotation_sense.
Theorem C55_z_rotation_sense v a : z_rotation v a = rotation3 v O3D Z3D (- a).
Proof. exact (z_rotation_neg v a). Qed.
Print Assumptions C55_z_rotation_sense.
(** x_rotation does not turn as rotation around the x axis does. *)
Theorem C127_x_rotation_refuted : x_rotation Y3D (PI / 2) = neg3 Z3D /\ rotation3 Y3D O3D X3D (PI / 2) = Z3D.
Proof. exact x_rotation_wrong. Qed.
Print Assumptions C127_x_rotation_refuted.
(** With a non-unit axis distances are not preserved. *)
Theorem C127_rotation3_nonunit_refuted : exists p q c ax a, point_distance3 (rotation3 p c ax a) (rotation3 q c ax a) <> point_distance3 p q.
Proof. exact rotation3_nonunit. Qed.
Print Assumptions C127_rotation3_nonunit_refuted.
Example C55_nonvacuous : dot3 Z3D Z3D = 1 /\ rotation3 X3D O3D Z3D (PI / 2) = Y3D.
Proof.
  split; [unfold Z3D; vec; ring|]. rewrite rotation3_rod. unfold rod, X3D, Y3D, Z3D, O3D. rewrite cos_PI2, sin_PI2. vec. v_eq; ring.
Qed.

(** ** C63 intersections of lines and segments *)
Theorem C63_line_intersection_found l1 l2 p t u : line_intersection l1 l2 = Some (p, t, u) ->
  / 10 ^ 15 < Rabs (den2 l1 l2) /\ p = at_param2 l1 t /\ p = at_param2 l2 u.
Proof. exact (line_intersection_some l1 l2 p t u). Qed.
Print Assumptions C63_line_intersection_found.
Theorem C63_line_intersection_unique l1 l2 p t u q : line_intersection l1 l2 = Some (p, t, u) ->
  on_line2 l1 q -> on_line2 l2 q -> q = p.
Proof. exact (line_intersection_unique l1 l2 p t u q). Qed.
Print Assumptions C63_line_intersection_unique.
Theorem C63_line_intersection_parallel l1 l2 : line_intersection l1 l2 = None <-> Rabs (den2 l1 l2) <= / 10 ^ 15.
Proof. exact (line_intersection_none l1 l2). Qed.
Print Assumptions C63_line_intersection_parallel.
Theorem C63_segment_intersection_complete l1 l2 p : / 10 ^ 15 < Rabs (den2 l1 l2) -> on_segment2 l1 p -> on_segment2 l2 p ->
  exists t u, segment_intersection l1 l2 = Some (p, t, u).
Proof. exact (segment_intersection_complete l1 l2 p). Qed.
Print Assumptions C63_segment_intersection_complete.
(** The point returned is on both lines and on at least one of the two segments. *)
Theorem C63_segment_intersection l1 l2 p t u : segment_intersection l1 l2 = Some (p, t, u) ->
  on_line2 l1 p /\ on_line2 l2 p /\ (on_segment2 l1 p \/ on_segment2 l2 p).
Proof. exact (segment_intersection_sound l1 l2 p t u). Qed.
Print Assumptions C63_segment_intersection.
(** A point returned that is not on the second segment. *)
Theorem C147_segment_intersection_refuted : exists l1 l2 p t u, segment_intersection l1 l2 = Some (p, t, u) /\ ~ on_segment2 l2 p.
Proof. exact segment_intersection_wrong. Qed.
Print Assumptions C147_segment_intersection_refuted.
Example C63_nonvacuous : exists t u, segment_intersection (V2 0 0, V2 2 2) (V2 0 2, V2 2 0) = Some (V2 1 1, t, u).
Proof.
  apply segment_intersection_complete.
  - unfold den2. vec. rewrite Rabs_left; lra.
  - exists (/ 2). split; [lra|]. unfold at_param2. vec. v_eq; field.
  - exists (/ 2). split; [lra|]. unfold at_param2. vec. v_eq; field.
Qed.

(** ** C64 point-segment distance *)
Theorem C64_distance3_minimal p1 p2 p d q : linesegment3d_point_distance p1 p2 p = Ok (d, q) ->
  d = point_distance3 p q /\ (exists t, 0 <= t <= 1 /\ q = seg3 p1 p2 t) /\
  (forall t, 0 <= t <= 1 -> d <= point_distance3 p (seg3 p1 p2 t)).
Proof. exact (segdist3_spec p1 p2 p d q). Qed.
Print Assumptions C64_distance3_minimal.
Theorem C64_distance2_minimal p1 p2 p d q : linesegment2d_point_distance p1 p2 p = Ok (d, q) ->
  d = point_distance2 p q /\ (exists t, 0 <= t <= 1 /\ q = seg2 p1 p2 t) /\
  (forall t, 0 <= t <= 1 -> d <= point_distance2 p (seg2 p1 p2 t)).
Proof. exact (segdist2_spec p1 p2 p d q). Qed.
Print Assumptions C64_distance2_minimal.
Theorem C64_distance3_total p1 p2 p : p1 <> p2 -> exists d q, linesegment3d_point_distance p1 p2 p = Ok (d, q).
Proof. exact (segdist3_total p1 p2 p). Qed.
Print Assumptions C64_distance3_total.
Theorem C64_distance2_total p1 p2 p : p1 <> p2 -> exists d q, linesegment2d_point_distance p1 p2 p = Ok (d, q).
Proof. exact (segdist2_total p1 p2 p). Qed.
Print Assumptions C64_distance2_total.
Example C64_nonvacuous : V3 0 0 0 <> V3 1 0 0.
Proof. intros C; injection C; lra. Qed.

(** ** C65 segment-segment distance *)
Theorem C183_points_on_segments s1 s2 p q : LineSegment3DDistance s1 s2 = (p, q) ->
  (exists s, 0 <= s <= 1 /\ p = seg3 (fst s1) (snd s1) s) /\ (exists t, 0 <= t <= 1 /\ q = seg3 (fst s2) (snd s2) t).
Proof. exact (segseg_on s1 s2 p q). Qed.
Print Assumptions C183_points_on_segments.
(** Two segments that cross at the origin, for which distinct points are returned. *)
Theorem C65_minimal_distance_refuted :
  let s1 := (V3 (- (1/4)) 0 0, V3 (3/4) 0 0) in
  let s2 := (V3 0 (- (1/2)) 0, V3 0 (1/2) 0) in
  LineSegment3DDistance s1 s2 = (V3 0 0 0, V3 0 (1/4) 0) /\
  seg3 (fst s1) (snd s1) (1/4) = V3 0 0 0 /\ seg3 (fst s2) (snd s2) (1/2) = V3 0 0 0.
Proof. exact segseg_wrong. Qed.
Print Assumptions C65_minimal_distance_refuted.

(** ** C66 closest points of two lines *)
Theorem C66_lines_minimal a1 b1 a2 b2 p q : get_minimum_distance_points_lines a1 b1 a2 b2 = (p, q) ->
  line_point_belongs_with_points a1 b1 a2 = false -> line_point_belongs_with_points a1 b1 b2 = false ->
  cross3 (sub3 b1 a1) (sub3 b2 a2) <> V3 0 0 0 ->
  (exists s t, p = seg3 a1 b1 s /\ q = seg3 a2 b2 t) /\
  dot3 (sub3 p q) (sub3 b1 a1) = 0 /\ dot3 (sub3 p q) (sub3 b2 a2) = 0 /\
  (forall s t, point_distance3 p q <= point_distance3 (seg3 a1 b1 s) (seg3 a2 b2 t)).
Proof. exact (min_lines_cross a1 b1 a2 b2 p q). Qed.
Print Assumptions C66_lines_minimal.
Theorem C66_lines_touch a1 b1 a2 b2 : line_point_belongs_with_points a1 b1 a2 = true -> get_minimum_distance_points_lines a1 b1 a2 b2 = (a2, a2).
Proof. exact (min_lines_touch a1 b1 a2 b2). Qed.
Print Assumptions C66_lines_touch.
Theorem C66_points_on_lines a1 b1 a2 b2 p q : a1 <> b1 -> get_minimum_distance_points_lines a1 b1 a2 b2 = (p, q) ->
  (exists t, q = seg3 a2 b2 t) /\ exists s, point_distance3 p (seg3 a1 b1 s) < / 10 ^ 6.
Proof. exact (min_lines_on a1 b1 a2 b2 p q). Qed.
Print Assumptions C66_points_on_lines.
(** For parallel lines the two points returned are not the closest ones. *)
Theorem C131_parallel_lines_refuted : exists a1 b1 a2 b2 p q r s, a1 <> b1 /\ a2 <> b2 /\
  get_minimum_distance_points_lines a1 b1 a2 b2 = (p, q) /\
  point_distance3 (seg3 a1 b1 r) (seg3 a2 b2 s) < point_distance3 p q.
Proof. exact min_lines_parallel_wrong. Qed.
Print Assumptions C131_parallel_lines_refuted.
Example C66_nonvacuous : line_point_belongs_with_points (V3 0 0 0) (V3 1 0 0) (V3 0 0 1) = false /\
  line_point_belongs_with_points (V3 0 0 0) (V3 1 0 0) (V3 0 1 1) = false /\ cross3 (sub3 (V3 1 0 0) (V3 0 0 0)) (sub3 (V3 0 1 1) (V3 0 0 1)) <> V3 0 0 0.
Proof.
  assert (N : forall v, dot3 v v = 1 -> norm3 v = 1) by (intros; apply dot3_1; auto).
  assert (Q : / 10 ^ 6 < 1). { apply Rmult_lt_reg_l with (10 ^ 6); [lra|]. rewrite Rinv_r; lra. }
  repeat split.
  - unfold line_point_belongs_with_points. rewrite !N by (vec; ring). apply Rltb_false. lra.
  - unfold line_point_belongs_with_points. rewrite (N (sub3 (V3 1 0 0) (V3 0 0 0))) by (vec; ring). apply Rltb_false.
    apply Rle_trans with 1; [lra|]. apply Rmult_le_reg_r with 1; [lra|]. unfold Rdiv. rewrite Rinv_1, !Rmult_1_r.
    apply sq_le; [apply norm3_pos|]. rewrite norm3_sq. vec. lra.
  - intros C. vec. injection C. lra.
Qed.

(** ** C67 projections on lines, axial symmetry *)
Theorem C67_projection2 l p q a : point_projection2 l p = Ok (q, a) ->
  on_line2 l q /\ dot2 (sub2 p q) (sub2 (snd l) (fst l)) = 0 /\ Rabs a = point_distance2 (fst l) q.
Proof. exact (point_projection2_spec l p q a). Qed.
Print Assumptions C67_projection2.
Theorem C67_projection3 l p q a : point_projection3 l p = Ok (q, a) ->
  cross3 (sub3 (snd l) (fst l)) (sub3 q (fst l)) = V3 0 0 0 /\ dot3 (sub3 p q) (sub3 (snd l) (fst l)) = 0 /\ Rabs a = point_distance3 (fst l) q.
Proof. exact (point_projection3_spec l p q a). Qed.
Print Assumptions C67_projection3.
Theorem C67_projection2_total l p : fst l <> snd l -> exists q a, point_projection2 l p = Ok (q, a).
Proof. exact (proj_total2 l p). Qed.
Print Assumptions C67_projection2_total.
Theorem C67_line_projection_agrees l p q : line_projection2 p l = Ok q -> exists a, point_projection2 l p = Ok (q, a).
Proof. exact (line_projection2_same l p q). Qed.
Print Assumptions C67_line_projection_agrees.
Theorem C67_symmetry l p q : axial_symmetry2 p l = Ok q ->
  on_line2 l (middle_point2 p q) /\ dot2 (sub2 q p) (sub2 (snd l) (fst l)) = 0.
Proof. exact (symmetry2_spec l p q). Qed.
Print Assumptions C67_symmetry.
Theorem C67_symmetry_involutive l p q : axial_symmetry2 p l = Ok q -> axial_symmetry2 q l = Ok p.
Proof. exact (symmetry2_invol l p q). Qed.
Print Assumptions C67_symmetry_involutive.
Theorem C67_symmetry_isometry l p q p' q' : axial_symmetry2 p l = Ok p' -> axial_symmetry2 q l = Ok q' -> point_distance2 p' q' = point_distance2 p q.
Proof. exact (symmetry2_dist l p q p' q'). Qed.
Print Assumptions C67_symmetry_isometry.
Theorem C67_point_at_abscissa l a p : line_point_at_abscissa3 l a = Ok p ->
  line_abscissa3 l p = Ok a /\ point_distance3 (fst l) p = Rabs a /\ exists k, p = seg3 (fst l) (snd l) k.
Proof. exact (line_abscissa_point l a p). Qed.
Print Assumptions C67_point_at_abscissa.
Theorem C67_abscissa_of_projection l p q a : point_projection3 l p = Ok (q, a) ->
  line_abscissa3 l p = Ok a /\ line_point_at_abscissa3 l a = Ok q.
Proof. exact (line_abscissa_projection l p q a). Qed.
Print Assumptions C67_abscissa_of_projection.
Example C67_nonvacuous : exists q a, point_projection2 (V2 0 0, V2 4 3) (V2 1 1) = Ok (q, a).
Proof. apply proj_total2. cbn. intros C; injection C; lra. Qed.

(** ** C68 point lists *)
Theorem C68_nearest_point3 p l q : nearest_point3 p l = Some q -> In q l /\ forall r, In r l -> point_distance3 p q <= point_distance3 p r.
Proof. exact (nearest3_spec p l q). Qed.
Print Assumptions C68_nearest_point3.
Theorem C68_nearest_point3_empty p l : nearest_point3 p l = None <-> l = [].
Proof. exact (nearest3_none p l). Qed.
Print Assumptions C68_nearest_point3_empty.
Theorem C68_nearest_point2 p l q : nearest_point2 p l = Ok q -> In q l /\ forall r, In r l -> point_distance2 p q <= point_distance2 p r.
Proof. exact (nearest2_spec p l q). Qed.
Print Assumptions C68_nearest_point2.
Theorem C68_in_list3 p l t : 0 <= t -> (in_list3 p l t = true <-> exists q, In q l /\ point_distance3 p q <= t).
Proof. exact (in_list3_spec p l t). Qed.
Print Assumptions C68_in_list3.
Theorem C68_in_list2 p l t : 0 <= t -> (in_list2 p l t = true <-> exists q, In q l /\ point_distance2 p q <= t).
Proof. exact (in_list2_spec p l t). Qed.
Print Assumptions C68_in_list2.
Theorem C68_mean_point l p : mean_point3 l = Ok p -> mul3 p (INR (length l)) = sum3 l.
Proof. exact (mean_point_spec l p). Qed.
Print Assumptions C68_mean_point.
Theorem C68_mean_point_total l : l <> [] -> exists p, mean_point3 l = Ok p.
Proof. exact (mean_point_total l). Qed.
Print Assumptions C68_mean_point_total.
Theorem C68_mean_point_order l l' : Permutation l l' -> sum3 l = sum3 l'.
Proof. exact (sum3_perm l l'). Qed.
Print Assumptions C68_mean_point_order.
Example C68_nonvacuous : in_list3 (V3 1 2 3) [V3 0 0 0; V3 1 2 3] 0 = true.
Proof. apply in_list3_spec; [lra|]. exists (V3 1 2 3). split; [cbn; auto|]. right. apply dist3_zero. auto. Qed.

(** ** C72 plane projections, 2D/3D conversions *)
Theorem C72_plane_projection p o x y q : plane_projection3d p o x y = Ok q ->
  dot3 (sub3 q o) (cross3 x y) = 0 /\ exists k, sub3 p q = mul3 (cross3 x y) k.
Proof. exact (plane_projection3d_spec p o x y q). Qed.
Print Assumptions C72_plane_projection.
Theorem C72_plane_projection_minimal p o x y q r : plane_projection3d p o x y = Ok q ->
  dot3 (sub3 r o) (cross3 x y) = 0 -> point_distance3 p q <= point_distance3 p r.
Proof. exact (plane_projection3d_min p o x y q r). Qed.
Print Assumptions C72_plane_projection_minimal.
Theorem C72_plane_projection_error p o x y e : plane_projection3d p o x y = Err e <-> cross3 x y = V3 0 0 0 /\ e = ZeroDivisionError.
Proof. exact (plane_projection3d_err p o x y e). Qed.
Print Assumptions C72_plane_projection_error.
Theorem C72_to_3d_then_to_2d q o x y : dot3 x x = 1 -> dot3 y y = 1 -> dot3 x y = 0 -> to_2d (to_3d q o x y) o x y = q.
Proof. exact (to_2d_3d q o x y). Qed.
Print Assumptions C72_to_3d_then_to_2d.
Theorem C72_to_2d_then_to_3d p o x y : dot3 x x = 1 -> dot3 y y = 1 -> dot3 x y = 0 -> dot3 (sub3 p o) (cross3 x y) = 0 ->
  to_3d (to_2d p o x y) o x y = p.
Proof. exact (to_3d_2d p o x y). Qed.
Print Assumptions C72_to_2d_then_to_3d.
(** plane_projection2d gives the in-plane coordinates shifted by those of the origin: equal to to_2d only when the origin is orthogonal to both axes. *)
Theorem C174_plane_projection2d_actual p o x y q : dot3 x x = 1 -> dot3 y y = 1 -> dot3 x y = 0 ->
  plane_projection2d p o x y = Ok q -> q = add2 (to_2d p o x y) (V2 (dot3 o x) (dot3 o y)).
Proof. exact (plane_projection2d_to_2d p o x y q). Qed.
Print Assumptions C174_plane_projection2d_actual.
Theorem C174_plane_projection2d_gives_the_coordinates_in_the_plane_refuted : exists p o x y q, dot3 x x = 1 /\ dot3 y y = 1 /\ dot3 x y = 0 /\ p = o /\ plane_projection2d p o x y = Ok q /\ to_2d p o x y = V2 0 0 /\ q = V2 1 0.
Proof. exact projection2d_origin_wrong. Qed.
Print Assumptions C174_plane_projection2d_gives_the_coordinates_in_the_plane_refuted.
Example C72_nonvacuous : plane_projection3d (V3 1 2 3) (V3 0 0 1) X3D Y3D = Ok (V3 1 2 1).
Proof.
  unfold plane_projection3d, bind. assert (C : cross3 X3D Y3D = V3 0 0 1) by (unfold X3D, Y3D; vec; v_eq; ring). rewrite C.
  assert (N : norm3 (V3 0 0 1) = 1) by (apply dot3_1; vec; ring).
  destruct (unit_vector3 (V3 0 0 1)) as [z|] eqn:E; [|apply unit3_err in E as [E _]; injection E; lra].
  apply unit3_ok in E as [_ ->]. rewrite N. apply f_equal. vec. v_eq; field.
Qed.

