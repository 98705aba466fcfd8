(** C97-C101: planes (statements only). *)
From Verif.Model Require Import Base RBase Vec Frame Geometry Plane.
From Verif.Spec Require Import VecSpec FrameSpec PlaneSpec.
From Verif.Proofs Require Import VecP FrameP PlaneP PlaneP2 PlaneP3 PlaneP4.
From Coq Require Import Reals Lra Lia List.
Open Scope R_scope.

(** the coordinate planes, used in the non-vacuity examples *)
Definition Pxy : frame3 := F3 O3D (B3 X3D Y3D Z3D).
Definition Pyz : frame3 := F3 O3D (B3 Y3D Z3D X3D).

(** ** C97: distance to a plane and membership *)
Theorem C97_point_belongs_is_height_within_tolerance f p tol : 0 <= tol -> (plane_point_belongs f p tol = true <-> Rabs (plane_height f p) <= tol).
Proof. exact (plane_belongs_spec f p tol). Qed.
Print Assumptions C97_point_belongs_is_height_within_tolerance.
Theorem C97_no_point_of_the_plane_is_closer_than_the_height f p q : dot3 (bw (fb3 f)) (bw (fb3 f)) = 1 -> on_plane f q -> Rabs (plane_height f p) <= point_distance3 p q.
Proof. exact (height_minimal f p q). Qed.
Print Assumptions C97_no_point_of_the_plane_is_closer_than_the_height.
Theorem C97_the_height_is_attained f p : dot3 (bw (fb3 f)) (bw (fb3 f)) = 1 -> exists q, on_plane f q /\ point_distance3 p q = Rabs (plane_height f p).
Proof. exact (height_attained f p). Qed.
Print Assumptions C97_the_height_is_attained.
Theorem C97_point_distance_is_the_height_up_to_the_rounding f p : dot3 (bw (fb3 f)) (bw (fb3 f)) = 1 -> exists d, plane_point_distance f p = Ok d /\ Rabs (d - Rabs (plane_height f p)) <= / 10 ^ 12 * (1 + 2 * Rabs (plane_height f p)).
Proof. exact (plane_distance_spec f p). Qed.
Print Assumptions C97_point_distance_is_the_height_up_to_the_rounding.
Example C97_nonvacuous : dot3 (bw (fb3 Pxy)) (bw (fb3 Pxy)) = 1 /\ plane_height Pxy (V3 1 2 3) = 3 /\ on_plane Pxy (V3 1 2 0).
Proof. unfold plane_height, on_plane, Pxy, dot3, sub3, Z3D, O3D. cbn [x3 y3 z3 bw fb3 org3]. repeat split; ring. Qed.

(** ** C98: constructors *)
Theorem C98_from_3_points_contains_the_points_and_is_direct p1 p2 p3 f : plane_from_3_points p1 p2 p3 = Ok f ->
  direct (fb3 f) /\ org3 f = p1 /\ on_plane f p1 /\ on_plane f p2 /\ on_plane f p3 /\
  (exists k, 0 < k /\ sub3 p2 p1 = mul3 (bu (fb3 f)) k) /\
  (exists k, 0 < k /\ cross3 (sub3 p2 p1) (sub3 p3 p1) = mul3 (bw (fb3 f)) k).
Proof. exact (plane_3_points_ok p1 p2 p3 f). Qed.
Print Assumptions C98_from_3_points_contains_the_points_and_is_direct.
Theorem C98_from_3_points_fails_exactly_on_collinear_points p1 p2 p3 e : plane_from_3_points p1 p2 p3 = Err e <-> collinear3 p1 p2 p3 /\ e = ZeroDivisionError.
Proof. exact (plane_3_points_err p1 p2 p3 e). Qed.
Print Assumptions C98_from_3_points_fails_exactly_on_collinear_points.
Theorem C98_from_normal_is_the_plane_normal_to_the_vector point normal f : plane_from_normal point normal = Ok f ->
  bw (fb3 f) = normal /\ org3 f = point /\ on_plane f point /\ (forall p, on_plane f p <-> dot3 (sub3 p point) normal = 0) /\
  (dot3 normal normal = 1 -> orthonormal (fb3 f) /\ cross3 (bu (fb3 f)) (bv (fb3 f)) = neg3 (bw (fb3 f))).
Proof. exact (plane_normal_ok point normal f). Qed.
Print Assumptions C98_from_normal_is_the_plane_normal_to_the_vector.
Theorem C98_from_normal_always_succeeds_on_unit_vectors point normal : dot3 normal normal = 1 -> exists f, plane_from_normal point normal = Ok f.
Proof. exact (plane_normal_total point normal). Qed.
Print Assumptions C98_from_normal_always_succeeds_on_unit_vectors.
(** the frame is left-handed *)
Theorem C132_from_normal_is_direct_refuted : exists point normal f, dot3 normal normal = 1 /\ plane_from_normal point normal = Ok f /\ ~ direct (fb3 f).
Proof. exact plane_normal_left. Qed.
Print Assumptions C132_from_normal_is_direct_refuted.
Theorem C98_from_plane_vectors o x y : dot3 x x = 1 -> dot3 y y = 1 -> dot3 x y = 0 ->
  direct (fb3 (plane_from_vectors o x y)) /\ on_plane (plane_from_vectors o x y) (add3 o x) /\ on_plane (plane_from_vectors o x y) (add3 o y).
Proof. exact (plane_vectors_ok o x y). Qed.
Print Assumptions C98_from_plane_vectors.
Theorem C98_from_points_needs_three_points l : (length l < 3)%nat -> plane_from_points l = Err ValueError.
Proof. exact (plane_points_short l). Qed.
Print Assumptions C98_from_points_needs_three_points.
Theorem C98_from_points_contains_the_first_point_and_two_others p0 l f : (3 <= length l)%nat -> plane_from_points (p0 :: l) = Ok f ->
  direct (fb3 f) /\ org3 f = p0 /\
  exists q r, In q l /\ In r l /\ on_plane f q /\ on_plane f r /\ ~ collinear3 p0 q r /\
  forall g, on_plane g p0 -> on_plane g q -> on_plane g r -> forall p, on_plane f p -> on_plane g p.
Proof. exact (plane_points_ok p0 l f). Qed.
Print Assumptions C98_from_points_contains_the_first_point_and_two_others.
Theorem C98_from_points_fails_exactly_on_aligned_points p0 l : (3 <= length l)%nat ->
  let far := filter (fun p => negb (is_close3 p p0 (/ 10 ^ 6))) l in
  (plane_from_points (p0 :: l) = Err IndexError <-> (length far < 2)%nat) /\
  (plane_from_points (p0 :: l) = Err ZeroDivisionError <-> (2 <= length far)%nat /\ forall p, In p far -> collinear3 p0 (hd O3D far) p).
Proof. exact (plane_points_err p0 l). Qed.
Print Assumptions C98_from_points_fails_exactly_on_aligned_points.
Theorem C132_from_points_contains_the_first_three_points_refuted : exists p0 p1 p2 p3 f, plane_from_points [p0; p1; p2; p3] = Ok f /\ ~ collinear3 p0 p1 p2 /\ 1 <= Rabs (plane_height f p2).
Proof. exact plane_points_not_first_three. Qed.
Print Assumptions C132_from_points_contains_the_first_three_points_refuted.
Example C98_nonvacuous : ~ collinear3 O3D X3D Y3D /\ dot3 Z3D Z3D = 1 /\ exists p0 p1 p2 p3 f, plane_from_points [p0; p1; p2; p3] = Ok f.
Proof.
  split; [|split].
  - unfold collinear3, cross3, sub3, O3D, X3D, Y3D. cbn [x3 y3 z3]. intros H. pose proof (f_equal z3 H) as Z. cbn [z3] in Z. lra.
  - unfold dot3, Z3D. cbn [x3 y3 z3]. ring.
  - destruct plane_points_not_first_three as (p0 & p1 & p2 & p3 & f & H & _). eauto 6.
Qed.

(** ** C99: intersection of a plane with a line or a segment *)
Theorem C99_line_intersection_is_on_both f l tol q : 0 <= tol -> In q (plane_line_intersections f l tol) -> on_line3 l q /\ on_plane f q.
Proof. exact (plane_line_sound f l tol q). Qed.
Print Assumptions C99_line_intersection_is_on_both.
Theorem C99_line_intersection_is_unique f l tol : 0 <= tol -> tol < Rabs (dot3 (bw (fb3 f)) (sub3 (snd l) (fst l))) ->
  exists q, plane_line_intersections f l tol = [q] /\ forall r, on_line3 l r -> on_plane f r -> r = q.
Proof. exact (plane_line_complete f l tol). Qed.
Print Assumptions C99_line_intersection_is_unique.
Theorem C99_line_intersection_is_empty_exactly_for_small_dot_products f l tol : 0 <= tol -> (plane_line_intersections f l tol = [] <-> Rabs (dot3 (bw (fb3 f)) (sub3 (snd l) (fst l))) <= tol).
Proof. exact (plane_line_none f l tol). Qed.
Print Assumptions C99_line_intersection_is_empty_exactly_for_small_dot_products.
Theorem C133_line_intersection_depends_only_on_the_line_refuted : exists f l l', direct (fb3 f) /\ (forall p, on_line3 l p <-> on_line3 l' p) /\
  plane_line_intersections f l (/ 10 ^ 6) = [O3D] /\ plane_line_intersections f l' (/ 10 ^ 6) = [].
Proof. exact plane_line_scale. Qed.
Print Assumptions C133_line_intersection_depends_only_on_the_line_refuted.
Theorem C99_segment_intersection_is_on_both f l tol L q : / 10 ^ 8 <= tol -> dot3 (bw (fb3 f)) (bw (fb3 f)) = 1 -> plane_linesegment_intersections f l tol = Ok L -> In q L ->
  L = [q] /\ on_segment3 l q /\ Rabs (plane_height f q) <= tol * norm3 (sub3 (snd l) (fst l)) /\ (on_plane f q \/ q = fst l \/ q = snd l).
Proof. exact (plane_seg_sound f l tol L q). Qed.
Print Assumptions C99_segment_intersection_is_on_both.
Theorem C99_segment_intersection_is_found f l tol q : 0 <= tol -> dot3 (bw (fb3 f)) (bw (fb3 f)) = 1 ->
  tol * norm3 (sub3 (snd l) (fst l)) < Rabs (dot3 (bw (fb3 f)) (sub3 (snd l) (fst l))) -> on_segment3 l q -> on_plane f q ->
  plane_linesegment_intersections f l tol = Ok [q].
Proof. exact (plane_seg_complete f l tol q). Qed.
Print Assumptions C99_segment_intersection_is_found.
Theorem C99_segment_intersection_never_fails f l tol : dot3 (bw (fb3 f)) (bw (fb3 f)) = 1 -> exists L, plane_linesegment_intersections f l tol = Ok L /\ (length L <= 1)%nat.
Proof. exact (plane_seg_total f l tol). Qed.
Print Assumptions C99_segment_intersection_never_fails.
Example C99_nonvacuous : / 10 ^ 6 < Rabs (dot3 (bw (fb3 Pxy)) (sub3 (V3 1 1 1) (V3 0 0 (-1)))) /\ dot3 (bw (fb3 Pxy)) (bw (fb3 Pxy)) = 1 /\
  on_segment3 (V3 0 0 (-1), V3 1 1 1) (V3 (1 / 2) (1 / 2) 0) /\ on_plane Pxy (V3 (1 / 2) (1 / 2) 0).
Proof.
  unfold on_plane, on_segment3, Pxy, dot3, sub3, add3, mul3, Z3D, O3D. cbn [x3 y3 z3 bw fb3 org3 fst snd]. split; [|split; [ring|split; [|ring]]].
  - rewrite Rabs_pos_eq; lra.
  - exists (1 / 2). split; [lra|]. f_equal; field.
Qed.

(** ** C100: intersection of two planes *)
Theorem C100_two_planes_intersection_is_a_common_line_or_empty f g : dot3 (bw (fb3 f)) (bw (fb3 f)) = 1 -> dot3 (bw (fb3 g)) (bw (fb3 g)) = 1 ->
  (exists p, two_planes_intersections f g (/ 10 ^ 8) = Ok (Some (p, add3 p (cross3 (bw (fb3 f)) (bw (fb3 g))))) /\ Rabs (dot3 (bw (fb3 f)) (bw (fb3 g))) < 1 - / 10 ^ 8 /\ Rabs (plane_height f p) <= err12 p /\ Rabs (plane_height g p) <= err12 p) \/
  (two_planes_intersections f g (/ 10 ^ 8) = Ok None /\ 1 - / 10 ^ 8 <= Rabs (dot3 (bw (fb3 f)) (bw (fb3 g)))).
Proof. exact (two_planes_ok f g). Qed.
Print Assumptions C100_two_planes_intersection_is_a_common_line_or_empty.
Theorem C100_every_common_point_is_near_the_line f g l r : dot3 (bw (fb3 f)) (bw (fb3 f)) = 1 -> dot3 (bw (fb3 g)) (bw (fb3 g)) = 1 -> two_planes_intersections f g (/ 10 ^ 8) = Ok (Some l) ->
  on_plane f r -> on_plane g r -> exists q, on_line3 l q /\ point_distance3 r q * (1 - dot3 (bw (fb3 f)) (bw (fb3 g)) ^ 2) <= 4 * err12 (fst l).
Proof. exact (two_planes_complete f g l r). Qed.
Print Assumptions C100_every_common_point_is_near_the_line.
Example C100_nonvacuous : dot3 (bw (fb3 Pxy)) (bw (fb3 Pxy)) = 1 /\ dot3 (bw (fb3 Pyz)) (bw (fb3 Pyz)) = 1 /\ Rabs (dot3 (bw (fb3 Pxy)) (bw (fb3 Pyz))) < 1 - / 10 ^ 8 /\
  on_plane Pxy (V3 0 5 0) /\ on_plane Pyz (V3 0 5 0).
Proof.
  unfold on_plane, Pxy, Pyz, dot3, sub3, X3D, Y3D, Z3D, O3D. cbn [x3 y3 z3 bw fb3 org3]. split; [ring|]. split; [ring|]. split; [|split; ring].
  replace (0 * 1 + 0 * 0 + 1 * 0) with 0 by ring. rewrite Rabs_R0. lra.
Qed.

(** ** C101: parallel and coincident planes, angles, the middle plane, the plane parametrisation *)
Theorem C101_angle_between_planes f g : dot3 (bw (fb3 f)) (bw (fb3 f)) = 1 -> dot3 (bw (fb3 g)) (bw (fb3 g)) = 1 -> exists t, angle_between_planes f g = Ok t /\ 0 <= t <= PI /\ cos t = dot3 (bw (fb3 f)) (bw (fb3 g)).
Proof. exact (angle_planes_ok f g). Qed.
Print Assumptions C101_angle_between_planes.
Theorem C101_is_parallel_iff_normals_are_parallel f g tol : / 10 ^ 9 <= tol -> dot3 (bw (fb3 f)) (bw (fb3 f)) = 1 -> dot3 (bw (fb3 g)) (bw (fb3 g)) = 1 ->
  (plane_is_parallel f g tol = true <-> 1 - tol <= Rabs (dot3 (bw (fb3 f)) (bw (fb3 g)))).
Proof. exact (is_parallel_iff f g tol). Qed.
Print Assumptions C101_is_parallel_iff_normals_are_parallel.
Theorem C101_is_coincident_iff f g tol : / 10 ^ 9 <= tol -> dot3 (bw (fb3 f)) (bw (fb3 f)) = 1 -> dot3 (bw (fb3 g)) (bw (fb3 g)) = 1 ->
  (plane_is_coincident f g tol = true <-> 1 - tol <= Rabs (dot3 (bw (fb3 f)) (bw (fb3 g))) /\ Rabs (plane_height g (org3 f)) <= tol).
Proof. exact (is_coincident_iff f g tol). Qed.
Print Assumptions C101_is_coincident_iff.
Theorem C101_planes_with_the_same_points_are_coincident f g tol : / 10 ^ 9 <= tol -> orthonormal (fb3 f) -> direct (fb3 f) -> dot3 (bw (fb3 g)) (bw (fb3 g)) = 1 ->
  (forall p, on_plane f p -> on_plane g p) -> plane_is_coincident f g tol = true.
Proof. exact (is_coincident_complete f g tol). Qed.
Print Assumptions C101_planes_with_the_same_points_are_coincident.
Theorem C101_plane_between_two_planes_bisects f g h : dot3 (bw (fb3 f)) (bw (fb3 f)) = 1 -> dot3 (bw (fb3 g)) (bw (fb3 g)) = 1 -> plane_between_two_planes f g = Ok h ->
  orthonormal (fb3 h) /\ org3 h = mul3 (add3 (org3 f) (org3 g)) (1 / 2) /\ (exists k, 0 < k /\ add3 (bw (fb3 f)) (bw (fb3 g)) = mul3 (bw (fb3 h)) k) /\
  dot3 (bw (fb3 h)) (bw (fb3 f)) = dot3 (bw (fb3 h)) (bw (fb3 g)) /\ (exists k, 0 < k /\ cross3 (bw (fb3 f)) (bw (fb3 g)) = mul3 (bu (fb3 h)) k) /\
  cross3 (bu (fb3 h)) (bv (fb3 h)) = neg3 (bw (fb3 h)).
Proof. exact (plane_between_ok f g h). Qed.
Print Assumptions C101_plane_between_two_planes_bisects.
Theorem C101_plane_between_parallel_planes_fails f g : dot3 (bw (fb3 f)) (bw (fb3 f)) = 1 -> dot3 (bw (fb3 g)) (bw (fb3 g)) = 1 ->
  (plane_between_two_planes f g = Err IndexError <-> 1 - / 10 ^ 8 <= Rabs (dot3 (bw (fb3 f)) (bw (fb3 g)))).
Proof. exact (plane_between_parallel f g). Qed.
Print Assumptions C101_plane_between_parallel_planes_fails.
Theorem C101_point2d_to_3d_rounds_to_12_digits f p : near (/ 10 ^ 12 / 2) (plane_2d_to_3d f p) (plane_array f p).
Proof. exact (plane_2d_to_3d_err f p). Qed.
Print Assumptions C101_point2d_to_3d_rounds_to_12_digits.
Theorem C101_parametric_points_are_on_the_plane f p : orthonormal (fb3 f) -> on_plane f (plane_array f p).
Proof. exact (plane_array_on f p). Qed.
Print Assumptions C101_parametric_points_are_on_the_plane.
Theorem C101_parameters_are_recovered f p : orthonormal (fb3 f) -> plane_3d_to_2d f (plane_array f p) = p.
Proof. exact (plane_param_inverse f p). Qed.
Print Assumptions C101_parameters_are_recovered.
Theorem C101_every_point_of_the_plane_has_parameters f p : direct (fb3 f) -> on_plane f p -> plane_array f (plane_3d_to_2d f p) = p.
Proof. exact (plane_param_cover f p). Qed.
Print Assumptions C101_every_point_of_the_plane_has_parameters.
Example C101_nonvacuous : orthonormal (fb3 Pxy) /\ direct (fb3 Pxy) /\ dot3 (bw (fb3 Pyz)) (bw (fb3 Pyz)) = 1 /\
  Rabs (dot3 (bw (fb3 Pxy)) (bw (fb3 Pyz))) < 1 - / 10 ^ 8.
Proof. split; [apply std_direct|]. split; [exact std_direct|]. split; apply C100_nonvacuous. Qed.

