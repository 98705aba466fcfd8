(** C102-C107: lines and circles of curves.py (statements only). *)
From Coq Require Import Reals Lra Lia List.
From Verif.Model Require Import Base RBase Vec Frame BBox Geometry ParamSurf Curves.
From Verif.Spec Require Import VecSpec FrameSpec BBoxSpec PlaneSpec ParamSurfSpec CurvesSpec.
From Verif.Proofs Require Import VecP LineP FrameP CurvesP CurvesP2 CurvesP3 CurvesP4 CurvesP5 CurvesP6 CurvesP7 CurvesP8 CurvesP9 CurvesP10.
Import ListNotations.
Open Scope R_scope.

(** the x axis and the line x = 1 of the plane; the x axis and the y axis of space; the unit circles *)
Definition Lx : vec2 * vec2 := (V2 0 0, V2 1 0).
Definition Lv : vec2 * vec2 := (V2 1 0, V2 1 1).
Definition Mx : vec3 * vec3 := (V3 0 0 0, V3 1 0 0).
Definition My : vec3 * vec3 := (V3 0 0 0, V3 0 1 0).
Definition K2 (x r : R) : circle2 := C2 (F2 (V2 x 0) (B2 (V2 1 0) (V2 0 1))) r.
Definition K3 : circle3 := C3 (F3 (V3 0 0 0) (B3 (V3 1 0 0) (V3 0 1 0) (V3 0 0 1))) 1.

(** ** C102: lines *)
Theorem C102_line2d_point_distance_is_the_distance l p : fst l <> snd l -> exists d, line2_point_distance l p = Ok d /\ dist_to_line2 l p d.
Proof. exact (line2_distance_ok l p). Qed.
Print Assumptions C102_line2d_point_distance_is_the_distance.
Theorem C102_line2d_point_distance_of_a_degenerate_line l p : fst l = snd l -> line2_point_distance l p = Err ZeroDivisionError.
Proof. exact (line2_distance_degenerate l p). Qed.
Print Assumptions C102_line2d_point_distance_of_a_degenerate_line.
Theorem C102_line2d_point_belongs_is_within_tolerance l p tol : 0 <= tol -> fst l <> snd l -> exists b, line2_point_belongs l p tol = Ok b /\ (b = true <-> exists t, point_distance2 p (at_param2 l t) <= tol).
Proof. exact (line2_belongs_ok l p tol). Qed.
Print Assumptions C102_line2d_point_belongs_is_within_tolerance.
Theorem C102_line2d_intersections_are_the_common_points l m : fst l <> snd l -> fst m <> snd m -> exists i, line2_line_intersections l m = Ok i /\
  (i = [] <-> Rabs (den2 l m) <= / 10 ^ 15) /\ forall p, In p i -> (exists s, p = at_param2 l s) /\ (exists t, p = at_param2 m t) /\ (forall q, on_line2 l q -> on_line2 m q -> q = p).
Proof. exact (line2_inters_ok l m). Qed.
Print Assumptions C102_line2d_intersections_are_the_common_points.
Theorem C102_line2d_distance_of_crossing_lines_is_zero l m : fst l <> snd l -> fst m <> snd m -> / 10 ^ 15 < Rabs (den2 l m) -> line2_line_distance l m = Ok (Num 0) /\ dist_lines2 l m 0.
Proof. exact (line2_line_distance_cross l m). Qed.
Print Assumptions C102_line2d_distance_of_crossing_lines_is_zero.
Theorem C102_line2d_distance_of_parallel_lines_is_a_point l m : fst l <> snd l -> fst m <> snd m -> Rabs (den2 l m) <= / 10 ^ 15 -> exists p, line2_line_distance l m = Ok (Pnt p).
Proof. exact (line2_line_distance_parallel l m). Qed.
Print Assumptions C102_line2d_distance_of_parallel_lines_is_a_point.
(** parallel lines: a point is returned *)
Theorem C134_line2d_distance_is_the_distance_refuted : exists l m, fst l <> snd l /\ fst m <> snd m /\ dist_lines2 l m 1 /\ line2_line_distance l m <> Ok (Num 1) /\ exists p, line2_line_distance l m = Ok (Pnt p).
Proof. exact line2_line_distance_wrong. Qed.
Print Assumptions C134_line2d_distance_is_the_distance_refuted.
Theorem C102_line3d_point_distance_is_the_distance l p : fst l <> snd l -> exists d, line3_point_distance l p = Ok d /\ dist_to_line3 l p d.
Proof. exact (line3_distance_ok l p). Qed.
Print Assumptions C102_line3d_point_distance_is_the_distance.
Theorem C102_line3d_point_distance_of_a_degenerate_line l p : fst l = snd l -> line3_point_distance l p = Err ZeroDivisionError.
Proof. exact (line3_distance_degenerate l p). Qed.
Print Assumptions C102_line3d_point_distance_of_a_degenerate_line.
Theorem C102_line3d_point_belongs_is_within_tolerance l p tol : fst l <> snd l -> exists b, line3_point_belongs l p tol = Ok b /\
  (b = true <-> point_distance3 p (fst l) <= / 10 ^ 6 \/ exists q, on_line3 l q /\ point_distance3 p q < tol).
Proof. exact (line3_belongs_ok l p tol). Qed.
Print Assumptions C102_line3d_point_belongs_is_within_tolerance.
Theorem C102_line3d_distance_of_non_parallel_lines l m : is_colinear_to3 (dir3 l) (dir3 m) (/ 10 ^ 6) = false -> cross3 (dir3 l) (dir3 m) <> V3 0 0 0 ->
  exists d, line3_line_distance l m = Ok d /\ dist_lines3 l m d.
Proof. exact (line3_line_distance_skew l m). Qed.
Print Assumptions C102_line3d_distance_of_non_parallel_lines.
Theorem C102_line3d_distance_of_parallel_lines l m : fst l <> snd l -> fst m <> snd m -> cross3 (dir3 l) (dir3 m) = V3 0 0 0 -> exists d, line3_line_distance l m = Ok d /\ dist_lines3 l m d.
Proof. exact (line3_line_distance_parallel l m). Qed.
Print Assumptions C102_line3d_distance_of_parallel_lines.
(** lines at a small angle are taken for parallel lines *)
Theorem C134_line3d_distance_is_the_distance_refuted : exists l m, fst l <> snd l /\ fst m <> snd m /\ dist_lines3 l m 0 /\ line3_line_distance l m = Ok 1 /\ line3_intersection l m (/ 10 ^ 6) = Ok None /\ line3_skew_to l m = Ok false.
Proof. exact line3_line_distance_wrong. Qed.
Print Assumptions C134_line3d_distance_is_the_distance_refuted.
Theorem C102_line3d_intersection_is_a_common_point_within_tolerance l m tol : 0 <= tol -> is_colinear_to3 (dir3 l) (dir3 m) (/ 10 ^ 6) = false -> cross3 (dir3 l) (dir3 m) <> V3 0 0 0 ->
  (dot3 (dir3 l) (dir3 m) = 0 \/ tol < Rabs (dot3 (dir3 l) (dir3 m))) ->
  (exists q r d, line3_intersection l m tol = Ok (Some q) /\ on_line3 l q /\ on_line3 m r /\ point_distance3 q r = d /\ d <= tol /\ dist_lines3 l m d) \/
  (exists d, line3_intersection l m tol = Ok None /\ dist_lines3 l m d /\ tol < d).
Proof. exact (line3_intersection_ok l m tol). Qed.
Print Assumptions C102_line3d_intersection_is_a_common_point_within_tolerance.
Theorem C102_line3d_intersection_finds_the_common_point l m tol r : 0 <= tol -> is_colinear_to3 (dir3 l) (dir3 m) (/ 10 ^ 6) = false -> cross3 (dir3 l) (dir3 m) <> V3 0 0 0 ->
  (dot3 (dir3 l) (dir3 m) = 0 \/ tol < Rabs (dot3 (dir3 l) (dir3 m))) -> on_line3 l r -> on_line3 m r -> line3_intersection l m tol = Ok (Some r).
Proof. exact (line3_intersection_complete l m tol r). Qed.
Print Assumptions C102_line3d_intersection_finds_the_common_point.
(** short directions are taken for perpendicular ones *)
Theorem C134_line3d_intersection_is_on_both_lines_refuted : exists l m q, line3_intersection l m (/ 10 ^ 6) = Ok (Some q) /\ on_line3 l O3D /\ on_line3 m O3D /\ point_distance3 q O3D = 1 /\ forall r, on_line3 m r -> / 2 <= point_distance3 q r.
Proof. exact line3_intersection_wrong. Qed.
Print Assumptions C134_line3d_intersection_is_on_both_lines_refuted.
Theorem C102_line3d_skew_to l m : fst l <> snd l -> fst m <> snd m -> is_colinear_to3 (dir3 l) (dir3 m) (/ 10 ^ 6) = false -> cross3 (dir3 l) (dir3 m) <> V3 0 0 0 ->
  exists b d, line3_skew_to l m = Ok b /\ dist_lines3 l m d /\ (b = true <-> / 10 ^ 6 < d).
Proof. exact (line3_skew_ok l m). Qed.
Print Assumptions C102_line3d_skew_to.
Theorem C102_line3d_line_intersections_of_disjoint_lines_is_a_list_with_none l m tol : line3_intersection l m tol = Ok None -> line3_line_intersections l m tol = Ok [None].
Proof. exact (line3_line_intersections_none l m tol). Qed.
Print Assumptions C102_line3d_line_intersections_of_disjoint_lines_is_a_list_with_none.
Example C102_nonvacuous : fst Lx <> snd Lx /\ fst Lv <> snd Lv /\ den2 Lx Lv <> 0 /\ fst Mx <> snd Mx /\ cross3 (dir3 Mx) (dir3 My) <> V3 0 0 0 /\ on_line3 Mx O3D /\ on_line3 My O3D.
Proof.
  assert (D2 : forall a b c d : R, V2 a b = V2 c d -> a = c /\ b = d) by (intros * E; split; [exact (f_equal x2 E)|exact (f_equal y2 E)]).
  split; [|split; [|split; [|split; [|split; [|split]]]]].
  - intros K. apply D2 in K. lra.
  - intros K. apply D2 in K. lra.
  - unfold den2, Lx, Lv, cross2, sub2. cbn [fst snd x2 y2]. lra.
  - intros K. pose proof (f_equal x3 K) as K2'. cbn in K2'. lra.
  - intros K. pose proof (f_equal z3 K) as K2'. unfold dir3, Mx, My, cross3, sub3 in K2'. cbn [fst snd x3 y3 z3] in K2'. lra.
  - exists 0. unfold Mx, O3D, seg3, add3, mul3, sub3. cbn [fst snd x3 y3 z3]. f_equal; ring.
  - exists 0. unfold My, O3D, seg3, add3, mul3, sub3. cbn [fst snd x3 y3 z3]. f_equal; ring.
Qed.

(** ** C103: circles of the plane *)
Theorem C103_from_3_points_passes_through_the_points p1 p2 p3 trigo : det3p p1 p2 p3 <> 0 -> exists c, circle2_from_3_points p1 p2 p3 trigo = Ok c /\ on_circle2 c p1 /\ on_circle2 c p2 /\ on_circle2 c p3 /\ orthonormal2 (fb2 (cf2 c)).
Proof. exact (circle_3_points_ok p1 p2 p3 trigo). Qed.
Print Assumptions C103_from_3_points_passes_through_the_points.
Theorem C103_from_3_points_fails_exactly_on_aligned_points p1 p2 p3 trigo : det3p p1 p2 p3 = 0 <-> circle2_from_3_points p1 p2 p3 trigo = Err ValueError.
Proof. exact (circle_3_points_err p1 p2 p3 trigo). Qed.
Print Assumptions C103_from_3_points_fails_exactly_on_aligned_points.
Theorem C103_the_circle_through_three_points_is_unique p1 p2 p3 c c' : det3p p1 p2 p3 <> 0 -> point_distance2 p2 c = point_distance2 p1 c -> point_distance2 p3 c = point_distance2 p1 c ->
  point_distance2 p2 c' = point_distance2 p1 c' -> point_distance2 p3 c' = point_distance2 p1 c' -> c = c'.
Proof. exact (circle_unique p1 p2 p3 c c'). Qed.
Print Assumptions C103_the_circle_through_three_points_is_unique.
Theorem C103_point_belongs_with_edge c p tol : circle2_point_belongs c p true tol = true <-> point_distance2 p (center2 c) <= cr2 c + tol.
Proof. exact (circle_belongs_edge c p tol). Qed.
Print Assumptions C103_point_belongs_with_edge.
Theorem C103_point_belongs_without_edge c p tol : circle2_point_belongs c p false tol = true <-> point_distance2 p (center2 c) < cr2 c.
Proof. exact (circle_belongs_open c p tol). Qed.
Print Assumptions C103_point_belongs_without_edge.
Theorem C103_point_distance_is_a_lower_bound c p q : on_circle2 c q -> circle2_point_distance c p <= point_distance2 p q.
Proof. exact (circle_distance_minimal c p q). Qed.
Print Assumptions C103_point_distance_is_a_lower_bound.
Theorem C103_point_distance_is_attained c p : 0 <= cr2 c -> exists q, on_circle2 c q /\ point_distance2 p q = circle2_point_distance c p.
Proof. exact (circle_distance_attained c p). Qed.
Print Assumptions C103_point_distance_is_attained.
Theorem C103_bounding_rectangle_contains_the_disc c p : point_distance2 p (center2 c) <= cr2 c -> in_rect (circle2_rectangle c) p.
Proof. exact (circle_rectangle_contains c p). Qed.
Print Assumptions C103_bounding_rectangle_contains_the_disc.
Theorem C103_bounding_rectangle_is_the_smallest c b : 0 <= cr2 c -> (forall p, on_circle2 c p -> in_rect b p) ->
  rxmin b <= rxmin (circle2_rectangle c) /\ rxmax (circle2_rectangle c) <= rxmax b /\ rymin b <= rymin (circle2_rectangle c) /\ rymax (circle2_rectangle c) <= rymax b.
Proof. exact (circle_rectangle_smallest c b). Qed.
Print Assumptions C103_bounding_rectangle_is_the_smallest.
Theorem C103_translation_moves_every_point c o p : on_circle2 (circle2_translation c o) (add2 p o) <-> on_circle2 c p.
Proof. exact (circle_translation_ok c o p). Qed.
Print Assumptions C103_translation_moves_every_point.
Theorem C103_axial_symmetry_moves_the_centre c l c' : circle2_axial_symmetry c l = Ok c' -> cr2 c' = cr2 c /\ axial_symmetry2 (center2 c) l = Ok (center2 c') /\
  forall p p', axial_symmetry2 p l = Ok p' -> (on_circle2 c p <-> on_circle2 c' p').
Proof. exact (circle_axial_ok c l c'). Qed.
Print Assumptions C103_axial_symmetry_moves_the_centre.
Theorem C103_point_symmetric_moves_the_centre_to_twice_the_point c p : center2 (circle2_point_symmetric c p) = mul2 p 2.
Proof. exact (circle_point_symmetric_center c p). Qed.
Print Assumptions C103_point_symmetric_moves_the_centre_to_twice_the_point.
Theorem C135_point_symmetric_is_the_symmetry_refuted : exists c p q, on_circle2 c q /\ ~ on_circle2 (circle2_point_symmetric c p) (sub2 (mul2 p 2) q).
Proof. exact circle_point_symmetric_wrong. Qed.
Print Assumptions C135_point_symmetric_is_the_symmetry_refuted.
Theorem C103_rotation_moves_every_point c o a p : point_distance2 o (center2 c) = 0 \/ / 10 ^ 6 < point_distance2 o (center2 c) -> on_circle2 (circle2_rotation c o a) (rotation2 p o a) <-> on_circle2 c p.
Proof. exact (circle_rotation_ok c o a p). Qed.
Print Assumptions C103_rotation_moves_every_point.
Theorem C103_reverse_keeps_the_points c p : on_circle2 (circle2_reverse c) p <-> on_circle2 c p.
Proof. exact (circle_reverse_ok c p). Qed.
Print Assumptions C103_reverse_keeps_the_points.
Theorem C103_reverse_goes_through_the_points_backwards c t : circle2_point (circle2_reverse c) t = circle2_point c (- t).
Proof. exact (reverse_points c t). Qed.
Print Assumptions C103_reverse_goes_through_the_points_backwards.
Theorem C103_sense_of_a_circle_of_given_center_and_radius c r : cross2 (u2 (fb2 (cf2 (circle2_of c r true)))) (v2 (fb2 (cf2 (circle2_of c r true)))) = 1 /\
  cross2 (u2 (fb2 (cf2 (circle2_of c r false)))) (v2 (fb2 (cf2 (circle2_of c r false)))) = -1.
Proof. exact (circle2_of_sense c r). Qed.
Print Assumptions C103_sense_of_a_circle_of_given_center_and_radius.
Theorem C103_sense_of_the_circle_through_three_points p1 p2 p3 t c : circle2_from_3_points p1 p2 p3 t = Ok c ->
  cross2 (u2 (fb2 (cf2 c))) (v2 (fb2 (cf2 c))) = if t then 1 else -1.
Proof. exact (from_3_points_sense p1 p2 p3 t c). Qed.
Print Assumptions C103_sense_of_the_circle_through_three_points.
Theorem C103_second_moment_follows_huygens c p : 0 <= cr2 c -> let '(ix, iy, ixy) := circle2_second_moment c p in
  ix = PI * cr2 c ^ 4 / 4 + PI * cr2 c ^ 2 * (y2 (center2 c) - y2 p) ^ 2 /\ iy = PI * cr2 c ^ 4 / 4 + PI * cr2 c ^ 2 * (x2 (center2 c) - x2 p) ^ 2 /\
  ixy = - (PI * cr2 c ^ 2) * (x2 (center2 c) - x2 p) * (y2 (center2 c) - y2 p).
Proof. exact (circle_moment_shift c p). Qed.
Print Assumptions C103_second_moment_follows_huygens.
Example C103_nonvacuous : det3p (V2 0 0) (V2 1 0) (V2 0 1) <> 0 /\ on_circle2 (K2 0 1) (V2 0 1) /\ orthonormal2 (fb2 (cf2 (K2 0 1))).
Proof.
  split; [unfold det3p, cross2, sub2; cbn [x2 y2]; lra|]. split; [unfold on_circle2, point_distance2; apply norm_r; unfold K2, center2, sub2; cbn [cf2 org2 x2 y2 cr2]; lra|].
  unfold orthonormal2, K2, dot2. cbn [cf2 fb2 u2 v2 x2 y2]. repeat split; lra.
Qed.

(** ** C104: line / circle intersections *)
Theorem C104_far_lines_give_nothing fuel c l tol d : fst l <> snd l -> dist_to_line2 l (center2 c) d -> cr2 c + tol < d -> circle2_line_intersections fuel c l tol = Ok [].
Proof. exact (circle_line_far fuel c l tol d). Qed.
Print Assumptions C104_far_lines_give_nothing.
Theorem C104_far_lines_have_no_common_point c l tol d : 0 <= tol -> dist_to_line2 l (center2 c) d -> cr2 c + tol < d -> forall p, line2_has l p -> ~ on_circle2 c p.
Proof. exact (circle_line_far_true c l tol d). Qed.
Print Assumptions C104_far_lines_have_no_common_point.
Theorem C104_secant_lines_give_exactly_the_common_points c l tol d : orthonormal2 (fb2 (cf2 c)) -> 0 <= cr2 c -> 0 <= tol -> fst l <> snd l ->
  center2 c = O2D \/ / 10 ^ 6 < point_distance2 (center2 c) O2D ->
  dist_to_line2 l (center2 c) d -> / 10 ^ 6 < d -> d * d + / 10 ^ 6 < cr2 c * cr2 c ->
  exists p q, circle2_line_intersections 1 c l tol = Ok [p; q] /\ p <> q /\ forall r, (r = p \/ r = q) <-> (line2_has l r /\ on_circle2 c r).
Proof. exact (circle_line_secant c l tol d). Qed.
Print Assumptions C104_secant_lines_give_exactly_the_common_points.
Theorem C104_lines_through_the_centre_give_the_ends_of_a_diameter fuel c l tol d : 0 <= cr2 c -> 0 <= tol -> / 10 ^ 6 <= cr2 c -> fst l <> snd l -> dist_to_line2 l (center2 c) d -> d <= / 10 ^ 6 ->
  exists p q, circle2_line_intersections fuel c l tol = Ok [p; q] /\ on_circle2 c p /\ on_circle2 c q /\ point_distance2 p q = 2 * cr2 c /\
  dist_to_line2 l p d /\ dist_to_line2 l q d /\
  forall r, line2_has l r -> on_circle2 c r -> point_distance2 r p <= 2 * d \/ point_distance2 r q <= 2 * d.
Proof. exact (circle_line_through fuel c l tol d). Qed.
Print Assumptions C104_lines_through_the_centre_give_the_ends_of_a_diameter.
Theorem C136_tangent_lines_give_a_common_point_refuted : exists c l p, cr2 c = 4 /\ dist_to_line2 l (center2 c) 4 /\ orthonormal2 (fb2 (cf2 c)) /\ circle2_line_intersections 1 c l (/ 10 ^ 9) = Ok [p] /\ ~ on_circle2 c p /\
  exists q, line2_has l q /\ on_circle2 c q.
Proof. exact circle_line_tangent_wrong. Qed.
Print Assumptions C136_tangent_lines_give_a_common_point_refuted.
Theorem C136_line_intersections_never_fails_refuted : exists c l, cr2 c = 1 /\ orthonormal2 (fb2 (cf2 c)) /\ fst l <> snd l /\ circle2_line_intersections 1 c l (/ 10 ^ 9) = Err ValueError.
Proof. exact circle_line_vertical_wrong. Qed.
Print Assumptions C136_line_intersections_never_fails_refuted.
Example C104_nonvacuous : exists c l d, orthonormal2 (fb2 (cf2 c)) /\ cr2 c = 5 /\ fst l <> snd l /\ / 10 ^ 6 < point_distance2 (center2 c) O2D /\ dist_to_line2 l (center2 c) d /\ / 10 ^ 6 < d /\ d * d + / 10 ^ 6 < cr2 c * cr2 c.
Proof.
  exists (K2 2 5), Lv, 1. split; [unfold orthonormal2, K2, dot2; cbn [cf2 fb2 u2 v2 x2 y2]; repeat split; lra|]. split; [reflexivity|]. split; [unfold Lv; cbn [fst snd]; intros K; pose proof (f_equal y2 K) as K'; cbn [y2] in K'; lra|].
  assert (D : point_distance2 (center2 (K2 2 5)) O2D = 2) by (unfold point_distance2; apply norm_r; unfold K2, center2, O2D, sub2; cbn [cf2 org2 x2 y2]; lra). rewrite D. split; [lra|]. split; [|cbn [cr2 K2]; split; lra].
  split.
  - exists 0. unfold point_distance2. apply norm_r; unfold K2, center2, Lv, at_param2, add2, mul2, sub2; cbn [cf2 org2 fst snd x2 y2]; lra.
  - intros t. apply sq_le; [apply norm2_pos|]. unfold point_distance2. rewrite norm2_sq. unfold K2, center2, Lv, at_param2, add2, mul2, sub2, dot2. cbn [cf2 org2 fst snd x2 y2]. pose proof (Rle_0_sqr t). unfold Rsqr in H. lra.
Qed.

(** ** C105: circle / circle intersections *)
Theorem C105_disjoint_circles_give_nothing c1 c2 : / 10 ^ 6 < point_distance2 (center2 c1) (center2 c2) ->
  cr2 c1 + cr2 c2 < point_distance2 (center2 c1) (center2 c2) \/ point_distance2 (center2 c1) (center2 c2) < Rabs (cr2 c1 - cr2 c2) ->
  circle2_circle_intersections c1 c2 = Ok [] /\ forall p, on_circle2 c1 p -> ~ on_circle2 c2 p.
Proof. exact (circles_disjoint c1 c2). Qed.
Print Assumptions C105_disjoint_circles_give_nothing.
Theorem C105_secant_circles_give_exactly_the_common_points c1 c2 : 0 <= cr2 c1 -> 0 <= cr2 c2 -> / 10 ^ 6 < point_distance2 (center2 c1) (center2 c2) ->
  Rabs (cr2 c1 - cr2 c2) <= point_distance2 (center2 c1) (center2 c2) <= cr2 c1 + cr2 c2 ->
  / 10 ^ 6 <= Rabs (cr2 c1 - (cr2 c1 * cr2 c1 - cr2 c2 * cr2 c2 + point_distance2 (center2 c1) (center2 c2) * point_distance2 (center2 c1) (center2 c2)) / (2 * point_distance2 (center2 c1) (center2 c2))) ->
  exists p q, get_circle_intersections c1 c2 = Ok [p; q] /\ forall r, (r = p \/ r = q) <-> (on_circle2 c1 r /\ on_circle2 c2 r).
Proof. exact (circles_secant c1 c2). Qed.
Print Assumptions C105_secant_circles_give_exactly_the_common_points.
Theorem C105_duplicates_are_removed c1 c2 p q : get_circle_intersections c1 c2 = Ok [p; q] ->
  circle2_circle_intersections c1 c2 = Ok (if Rleb (point_distance2 q p) (/ 10 ^ 6) then [p] else [p; q]).
Proof. exact (circle_inters_dedup c1 c2 p q). Qed.
Print Assumptions C105_duplicates_are_removed.
Theorem C137_returned_points_are_on_both_circles_refuted : exists c1 c2 p, cr2 c1 = 1000 /\ cr2 c2 = 4 / 100 /\ orthonormal2 (fb2 (cf2 c1)) /\ orthonormal2 (fb2 (cf2 c2)) /\ circle2_circle_intersections c1 c2 = Ok [p] /\
  circle2_point_distance c2 p > 3 / 100 /\ exists q, on_circle2 c1 q /\ on_circle2 c2 q.
Proof. exact circles_snapped_wrong. Qed.
Print Assumptions C137_returned_points_are_on_both_circles_refuted.
Example C105_nonvacuous : exists c1 c2, cr2 c1 = 1 /\ cr2 c2 = 1 /\ point_distance2 (center2 c1) (center2 c2) = 1 /\ / 10 ^ 6 <= Rabs (cr2 c1 - (cr2 c1 * cr2 c1 - cr2 c2 * cr2 c2 + 1 * 1) / (2 * 1)).
Proof.
  exists (K2 0 1), (K2 1 1). split; [reflexivity|]. split; [reflexivity|]. split; [unfold point_distance2; apply norm_r; unfold K2, center2, sub2; cbn [cf2 org2 x2 y2]; lra|]. cbn [K2 cr2]. rewrite Rabs_pos_eq; lra.
Qed.

(** ** C106: curvilinear abscissas and discretization *)
Theorem C106_every_parameter_gives_a_point_of_the_circle c t : orthonormal2 (fb2 (cf2 c)) -> 0 <= cr2 c -> on_circle2 c (circle2_point c t).
Proof. exact (circle2_point_on c t). Qed.
Print Assumptions C106_every_parameter_gives_a_point_of_the_circle.
Theorem C106_point_at_abscissa_is_the_point_at_that_arc_length c s : orthonormal2 (fb2 (cf2 c)) -> cr2 c <> 0 -> circle2_point_at_abscissa c s = Ok (circle2_point c (s / cr2 c)).
Proof. exact (circle2_at_ok c s). Qed.
Print Assumptions C106_point_at_abscissa_is_the_point_at_that_arc_length.
Theorem C106_point_at_abscissa_of_a_null_circle c s : cr2 c = 0 -> circle2_point_at_abscissa c s = Err ZeroDivisionError.
Proof. exact (circle2_at_zero c s). Qed.
Print Assumptions C106_point_at_abscissa_of_a_null_circle.
Theorem C106_the_length_is_the_first_return_to_the_start c : orthonormal2 (fb2 (cf2 c)) -> 0 < cr2 c ->
  circle2_point c (circle2_length c / cr2 c) = circle2_point c 0 /\
  forall s, 0 < s < circle2_length c -> circle2_point c (s / cr2 c) <> circle2_point c 0.
Proof. exact (length_first_return c). Qed.
Print Assumptions C106_the_length_is_the_first_return_to_the_start.
Theorem C106_abscissa_of_a_point_is_its_arc_length c t tol : orthonormal2 (fb2 (cf2 c)) -> 0 < cr2 c -> 0 <= tol -> 0 <= t < 2 * PI * (1 - / 10 ^ 9) -> circle2_abscissa c (circle2_point c t) tol = Ok (cr2 c * t).
Proof. exact (circle2_abscissa_exact c t tol). Qed.
Print Assumptions C106_abscissa_of_a_point_is_its_arc_length.
Theorem C106_abscissa_then_point_at_abscissa_is_the_identity c p tol : orthonormal2 (fb2 (cf2 c)) -> 0 < cr2 c -> 0 <= tol -> on_circle2 c p ->
  exists s q, circle2_abscissa c p tol = Ok s /\ 0 <= s < 2 * PI * cr2 c /\ circle2_point_at_abscissa c s = Ok q /\ point_distance2 p q <= 2 * PI * / 10 ^ 9 * cr2 c /\ (p = q \/ s = 0).
Proof. exact (circle2_abscissa_on c p tol). Qed.
Print Assumptions C106_abscissa_then_point_at_abscissa_is_the_identity.
Theorem C106_abscissa_of_a_point_off_the_circle_fails c p tol : Rmax (/ 10 ^ 9 * Rmax (Rabs (point_distance2 p (center2 c))) (Rabs (cr2 c))) tol < circle2_point_distance c p -> circle2_abscissa c p tol = Err ValueError.
Proof. exact (circle2_abscissa_off c p tol). Qed.
Print Assumptions C106_abscissa_of_a_point_off_the_circle_fails.
Theorem C106_discretization_points_are_evenly_spaced c n : (2 <= n)%nat -> length (circle2_discretization c n) = n /\ forall i d, (i < n)%nat -> nth i (circle2_discretization c n) d = circle2_point c (INR i * (2 * PI / INR (n - 1))).
Proof. exact (circle2_discretization_ok c n). Qed.
Print Assumptions C106_discretization_points_are_evenly_spaced.
Theorem C106_discretization_is_closed c n d : (2 <= n)%nat -> nth (n - 1) (circle2_discretization c n) d = nth 0 (circle2_discretization c n) d.
Proof. exact (circle2_discretization_closed c n d). Qed.
Print Assumptions C106_discretization_is_closed.
Theorem C106_every_parameter_gives_a_point_of_the_3d_circle c t : orthonormal (fb3 (cf3 c)) -> 0 <= cr3 c -> on_circle3 c (circle3_point c t).
Proof. exact (circle3_point_on c t). Qed.
Print Assumptions C106_every_parameter_gives_a_point_of_the_3d_circle.
Theorem C106_every_point_of_the_3d_circle_has_a_parameter c p : direct (fb3 (cf3 c)) -> 0 < cr3 c -> on_circle3 c p -> exists t, 0 <= t < 2 * PI /\ p = circle3_point c t.
Proof. exact (circle3_point_all c p). Qed.
Print Assumptions C106_every_point_of_the_3d_circle_has_a_parameter.
Theorem C106_point_at_abscissa_of_a_3d_circle c s : direct (fb3 (cf3 c)) -> cr3 c <> 0 -> circle3_point_at_abscissa c s = Ok (circle3_point c (s / cr3 c)).
Proof. exact (circle3_at_ok c s). Qed.
Print Assumptions C106_point_at_abscissa_of_a_3d_circle.
Theorem C106_abscissa_of_a_point_of_a_3d_circle c t tol : direct (fb3 (cf3 c)) -> 0 < cr3 c -> 0 <= tol -> 0 <= t < 2 * PI * (1 - / 10 ^ 9) ->
  unsnapped (/ 10 ^ 16) (cr3 c * cos t) -> unsnapped (/ 10 ^ 16) (cr3 c * sin t) -> circle3_abscissa c (circle3_point c t) tol = Ok (cr3 c * t).
Proof. exact (circle3_abscissa_exact c t tol). Qed.
Print Assumptions C106_abscissa_of_a_point_of_a_3d_circle.
Theorem C106_discretization_of_a_3d_circle c n : (2 <= n)%nat -> length (circle3_discretization c n) = n /\ forall i d, (i < n)%nat -> nth i (circle3_discretization c n) d = circle3_point c (INR i * (2 * PI / INR (n - 1))).
Proof. exact (circle3_discretization_ok c n). Qed.
Print Assumptions C106_discretization_of_a_3d_circle.
Example C106_nonvacuous : direct (fb3 (cf3 K3)) /\ on_circle3 K3 (V3 0 1 0) /\ unsnapped (/ 10 ^ 16) (1 * cos 0).
Proof.
  split; [unfold direct, orthonormal, K3, dot3, cross3; cbn [cf3 fb3 bu bv bw x3 y3 z3]; split; [repeat split; ring|f_equal; ring]|]. split.
  - split; [|unfold K3, center3, dot3, sub3; cbn [cf3 fb3 bw org3 x3 y3 z3]; ring]. unfold point_distance3. rewrite norm3_dot. unfold K3, center3, dot3, sub3. cbn [cf3 cr3 org3 x3 y3 z3]. replace ((0 - 0) * (0 - 0) + (1 - 0) * (1 - 0) + (0 - 0) * (0 - 0)) with 1 by ring. apply sqrt_1.
  - right. rewrite cos_0, Rabs_pos_eq; lra.
Qed.

(** ** C107: circles of space *)
Theorem C107_from_3_points_passes_through_the_points_within_2e_6 p1 p2 p3 u1 u2 : cross3 (sub3 p2 p1) (sub3 p2 p3) <> V3 0 0 0 ->
  unit_vector3 (sub3 p2 p1) = Ok u1 -> unit_vector3 (sub3 p2 p3) = Ok u2 -> / 10 ^ 6 < point_distance3 u1 u2 ->
  exists c, circle3_from_3_points p1 p2 p3 = Ok c /\ direct (fb3 (cf3 c)) /\ on_circle3 c p1 /\
    dot3 (bw (fb3 (cf3 c))) (sub3 p2 (center3 c)) = 0 /\ dot3 (bw (fb3 (cf3 c))) (sub3 p3 (center3 c)) = 0 /\
    point_distance3 p2 (center3 c) = point_distance3 p3 (center3 c) /\ Rabs (point_distance3 p2 (center3 c) - cr3 c) <= 2 * / 10 ^ 6.
Proof. exact (circle3_3_points_ok p1 p2 p3 u1 u2). Qed.
Print Assumptions C107_from_3_points_passes_through_the_points_within_2e_6.
Theorem C107_from_3_points_fails_on_equal_points p1 p2 p3 : p1 = p2 \/ p2 = p3 -> circle3_from_3_points p1 p2 p3 = Err ZeroDivisionError.
Proof. exact (circle3_3_points_same p1 p2 p3). Qed.
Print Assumptions C107_from_3_points_fails_on_equal_points.
Theorem C107_from_3_points_fails_on_aligned_points p1 p2 p3 : cross3 (sub3 p2 p1) (sub3 p2 p3) = V3 0 0 0 -> circle3_from_3_points p1 p2 p3 = Err ZeroDivisionError.
Proof. exact (circle3_3_points_aligned p1 p2 p3). Qed.
Print Assumptions C107_from_3_points_fails_on_aligned_points.
(** nearly aligned points *)
Theorem C138_from_3_points_passes_through_the_points_refuted : exists p1 p2 p3 c, cross3 (sub3 p2 p1) (sub3 p2 p3) <> V3 0 0 0 /\ circle3_from_3_points p1 p2 p3 = Ok c /\ cr3 c < 1 /\ 1 < point_distance3 p3 (center3 c).
Proof. exact circle3_3_points_wrong. Qed.
Print Assumptions C138_from_3_points_passes_through_the_points_refuted.
Theorem C107_from_center_normal center n r : norm3 n = 1 -> exists c, circle3_from_center_normal center n r = Ok c /\ center3 c = center /\ cr3 c = r /\ bw (fb3 (cf3 c)) = n /\ direct (fb3 (cf3 c)).
Proof. exact (circle3_center_normal_ok center n r). Qed.
Print Assumptions C107_from_center_normal.
Theorem C107_points_of_the_circle_belong c p tol : 0 <= tol -> on_circle3 c p -> circle3_point_belongs c p tol = true.
Proof. exact (circle3_belongs_on c p tol). Qed.
Print Assumptions C107_points_of_the_circle_belong.
Theorem C107_belonging_points_are_near_the_circle c p tol : direct (fb3 (cf3 c)) -> 0 <= cr3 c -> 0 <= tol -> circle3_point_belongs c p tol = true ->
  exists q, on_circle3 c q /\ point_distance3 p q <= 2 * tol + Rmax (/ 10 ^ 9 * Rmax (Rabs (point_distance3 p (center3 c))) (Rabs (cr3 c))) tol.
Proof. exact (circle3_belongs_near c p tol). Qed.
Print Assumptions C107_belonging_points_are_near_the_circle.
Theorem C107_bounding_box_is_the_least_with_the_quarter_points c b : circle3_bounding_box c = Ok b ->
  (in_box b (circle3_point c 0) /\ in_box b (circle3_point c (PI / 2)) /\ in_box b (circle3_point c PI) /\ in_box b (circle3_point c (- (PI / 2)))) /\
  forall b', in_box b' (circle3_point c 0) -> in_box b' (circle3_point c (PI / 2)) -> in_box b' (circle3_point c PI) -> in_box b' (circle3_point c (- (PI / 2))) ->
    box_le b b'.
Proof. exact (circle3_box_quarters c b). Qed.
Print Assumptions C107_bounding_box_is_the_least_with_the_quarter_points.
Theorem C107_bounding_box_never_fails c : exists b, circle3_bounding_box c = Ok b.
Proof. exact (circle3_box_total c). Qed.
Print Assumptions C107_bounding_box_never_fails.
Theorem C107_reverse_keeps_the_points_and_reverses_the_sense c p : direct (fb3 (cf3 c)) -> (on_circle3 (circle3_reverse c) p <-> on_circle3 c p) /\ direct (fb3 (cf3 (circle3_reverse c))) /\ bw (fb3 (cf3 (circle3_reverse c))) = neg3 (bw (fb3 (cf3 c))) /\ forall t, circle3_point (circle3_reverse c) t = circle3_point c (- t).
Proof. exact (circle3_reverse_ok c p). Qed.
Print Assumptions C107_reverse_keeps_the_points_and_reverses_the_sense.
Theorem C138_bounding_box_contains_the_circle_refuted : exists c b p, direct (fb3 (cf3 c)) /\ cr3 c = 1 /\ circle3_bounding_box c = Ok b /\ on_circle3 c p /\ ~ in_box b p.
Proof. exact circle3_box_wrong. Qed.
Print Assumptions C138_bounding_box_contains_the_circle_refuted.
Example C107_nonvacuous : cross3 (sub3 (V3 1 0 0) (V3 0 0 0)) (sub3 (V3 1 0 0) (V3 1 1 0)) <> V3 0 0 0.
Proof. unfold cross3, sub3. cbn [x3 y3 z3]. intros K. pose proof (f_equal z3 K) as KZ. cbn [z3] in KZ. lra. Qed.

