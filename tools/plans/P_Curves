(** C102-C107: lines and circles of curves.py (statements only). *)
From Coq Require Import Reals Lra Lia List.
From Verif.Model Require Import Base RBase Vec Frame BBox Geometry ParamSurf Curves.
From Verif.Spec Require Import VecSpec FrameSpec BBoxSpec PlaneSpec ParamSurfSpec CurvesSpec.
From Verif.Proofs Require Import VecP LineP FrameP CurvesP CurvesP2 CurvesP3 CurvesP4 CurvesP5 CurvesP6 CurvesP7 CurvesP8 CurvesP9 CurvesP10.
Import ListNotations.
Open Scope R_scope.

(** the x axis and the line x = 1 of the plane; the x axis and the y axis of space; the unit circles *)
Definition Lx : vec2 * vec2 := (V2 0 0, V2 1 0).
Definition Lv : vec2 * vec2 := (V2 1 0, V2 1 1).
Definition Mx : vec3 * vec3 := (V3 0 0 0, V3 1 0 0).
Definition My : vec3 * vec3 := (V3 0 0 0, V3 0 1 0).
Definition K2 (x r : R) : circle2 := C2 (F2 (V2 x 0) (B2 (V2 1 0) (V2 0 1))) r.
Definition K3 : circle3 := C3 (F3 (V3 0 0 0) (B3 (V3 1 0 0) (V3 0 1 0) (V3 0 0 1))) 1.

(** ** C102: lines *)
@line2_distance_ok C102_line2d_point_distance_is_the_distance
@line2_distance_degenerate C102_line2d_point_distance_of_a_degenerate_line
@line2_belongs_ok C102_line2d_point_belongs_is_within_tolerance
@line2_inters_ok C102_line2d_intersections_are_the_common_points
@line2_line_distance_cross C102_line2d_distance_of_crossing_lines_is_zero
@line2_line_distance_parallel C102_line2d_distance_of_parallel_lines_is_a_point
@line2_line_distance_wrong C134_line2d_distance_is_the_distance_refuted parallel lines: a point is returned
@line3_distance_ok C102_line3d_point_distance_is_the_distance
@line3_distance_degenerate C102_line3d_point_distance_of_a_degenerate_line
@line3_belongs_ok C102_line3d_point_belongs_is_within_tolerance
@line3_line_distance_skew C102_line3d_distance_of_non_parallel_lines
@line3_line_distance_parallel C102_line3d_distance_of_parallel_lines
@line3_line_distance_wrong C134_line3d_distance_is_the_distance_refuted lines at a small angle are taken for parallel lines
@line3_intersection_ok C102_line3d_intersection_is_a_common_point_within_tolerance
@line3_intersection_complete C102_line3d_intersection_finds_the_common_point
@line3_intersection_wrong C134_line3d_intersection_is_on_both_lines_refuted short directions are taken for perpendicular ones
@line3_skew_ok C102_line3d_skew_to
@line3_line_intersections_none C102_line3d_line_intersections_of_disjoint_lines_is_a_list_with_none
Example C102_nonvacuous : fst Lx <> snd Lx /\ fst Lv <> snd Lv /\ den2 Lx Lv <> 0 /\ fst Mx <> snd Mx /\ cross3 (dir3 Mx) (dir3 My) <> V3 0 0 0 /\ on_line3 Mx O3D /\ on_line3 My O3D.
Proof.
  assert (D2 : forall a b c d : R, V2 a b = V2 c d -> a = c /\ b = d) by (intros * E; split; [exact (f_equal x2 E)|exact (f_equal y2 E)]).
  split; [|split; [|split; [|split; [|split; [|split]]]]].
  - intros K. apply D2 in K. lra.
  - intros K. apply D2 in K. lra.
  - unfold den2, Lx, Lv, cross2, sub2. cbn [fst snd x2 y2]. lra.
  - intros K. pose proof (f_equal x3 K) as K2'. cbn in K2'. lra.
  - intros K. pose proof (f_equal z3 K) as K2'. unfold dir3, Mx, My, cross3, sub3 in K2'. cbn [fst snd x3 y3 z3] in K2'. lra.
  - exists 0. unfold Mx, O3D, seg3, add3, mul3, sub3. cbn [fst snd x3 y3 z3]. f_equal; ring.
  - exists 0. unfold My, O3D, seg3, add3, mul3, sub3. cbn [fst snd x3 y3 z3]. f_equal; ring.
Qed.

(** ** C103: circles of the plane *)
@circle_3_points_ok C103_from_3_points_passes_through_the_points
@circle_3_points_err C103_from_3_points_fails_exactly_on_aligned_points
@circle_unique C103_the_circle_through_three_points_is_unique
@circle_belongs_edge C103_point_belongs_with_edge
@circle_belongs_open C103_point_belongs_without_edge
@circle_distance_minimal C103_point_distance_is_a_lower_bound
@circle_distance_attained C103_point_distance_is_attained
@circle_rectangle_contains C103_bounding_rectangle_contains_the_disc
@circle_rectangle_smallest C103_bounding_rectangle_is_the_smallest
@circle_translation_ok C103_translation_moves_every_point
@circle_axial_ok C103_axial_symmetry_moves_the_centre
@circle_point_symmetric_center C103_point_symmetric_moves_the_centre_to_twice_the_point
@circle_point_symmetric_wrong C135_point_symmetric_is_the_symmetry_refuted
@circle_rotation_ok C103_rotation_moves_every_point
@circle_reverse_ok C103_reverse_keeps_the_points
@reverse_points C103_reverse_goes_through_the_points_backwards
@circle2_of_sense C103_sense_of_a_circle_of_given_center_and_radius
@from_3_points_sense C103_sense_of_the_circle_through_three_points
@circle_moment_shift C103_second_moment_follows_huygens
Example C103_nonvacuous : det3p (V2 0 0) (V2 1 0) (V2 0 1) <> 0 /\ on_circle2 (K2 0 1) (V2 0 1) /\ orthonormal2 (fb2 (cf2 (K2 0 1))).
Proof.
  split; [unfold det3p, cross2, sub2; cbn [x2 y2]; lra|]. split; [unfold on_circle2, point_distance2; apply norm_r; unfold K2, center2, sub2; cbn [cf2 org2 x2 y2 cr2]; lra|].
  unfold orthonormal2, K2, dot2. cbn [cf2 fb2 u2 v2 x2 y2]. repeat split; lra.
Qed.

(** ** C104: line / circle intersections *)
@circle_line_far C104_far_lines_give_nothing
@circle_line_far_true C104_far_lines_have_no_common_point
@circle_line_secant C104_secant_lines_give_exactly_the_common_points
@circle_line_through C104_lines_through_the_centre_give_the_ends_of_a_diameter
@circle_line_tangent_wrong C136_tangent_lines_give_a_common_point_refuted
@circle_line_vertical_wrong C136_line_intersections_never_fails_refuted
Example C104_nonvacuous : exists c l d, orthonormal2 (fb2 (cf2 c)) /\ cr2 c = 5 /\ fst l <> snd l /\ / 10 ^ 6 < point_distance2 (center2 c) O2D /\ dist_to_line2 l (center2 c) d /\ / 10 ^ 6 < d /\ d * d + / 10 ^ 6 < cr2 c * cr2 c.
Proof.
  exists (K2 2 5), Lv, 1. split; [unfold orthonormal2, K2, dot2; cbn [cf2 fb2 u2 v2 x2 y2]; repeat split; lra|]. split; [reflexivity|]. split; [unfold Lv; cbn [fst snd]; intros K; pose proof (f_equal y2 K) as K'; cbn [y2] in K'; lra|].
  assert (D : point_distance2 (center2 (K2 2 5)) O2D = 2) by (unfold point_distance2; apply norm_r; unfold K2, center2, O2D, sub2; cbn [cf2 org2 x2 y2]; lra). rewrite D. split; [lra|]. split; [|cbn [cr2 K2]; split; lra].
  split.
  - exists 0. unfold point_distance2. apply norm_r; unfold K2, center2, Lv, at_param2, add2, mul2, sub2; cbn [cf2 org2 fst snd x2 y2]; lra.
  - intros t. apply sq_le; [apply norm2_pos|]. unfold point_distance2. rewrite norm2_sq. unfold K2, center2, Lv, at_param2, add2, mul2, sub2, dot2. cbn [cf2 org2 fst snd x2 y2]. pose proof (Rle_0_sqr t). unfold Rsqr in H. lra.
Qed.

(** ** C105: circle / circle intersections *)
@circles_disjoint C105_disjoint_circles_give_nothing
@circles_secant C105_secant_circles_give_exactly_the_common_points
@circle_inters_dedup C105_duplicates_are_removed
@circles_snapped_wrong C137_returned_points_are_on_both_circles_refuted
Example C105_nonvacuous : exists c1 c2, cr2 c1 = 1 /\ cr2 c2 = 1 /\ point_distance2 (center2 c1) (center2 c2) = 1 /\ / 10 ^ 6 <= Rabs (cr2 c1 - (cr2 c1 * cr2 c1 - cr2 c2 * cr2 c2 + 1 * 1) / (2 * 1)).
Proof.
  exists (K2 0 1), (K2 1 1). split; [reflexivity|]. split; [reflexivity|]. split; [unfold point_distance2; apply norm_r; unfold K2, center2, sub2; cbn [cf2 org2 x2 y2]; lra|]. cbn [K2 cr2]. rewrite Rabs_pos_eq; lra.
Qed.

(** ** C106: curvilinear abscissas and discretization *)
@circle2_point_on C106_every_parameter_gives_a_point_of_the_circle
@circle2_at_ok C106_point_at_abscissa_is_the_point_at_that_arc_length
@circle2_at_zero C106_point_at_abscissa_of_a_null_circle
@length_first_return C106_the_length_is_the_first_return_to_the_start
@circle2_abscissa_exact C106_abscissa_of_a_point_is_its_arc_length
@circle2_abscissa_on C106_abscissa_then_point_at_abscissa_is_the_identity
@circle2_abscissa_off C106_abscissa_of_a_point_off_the_circle_fails
@circle2_discretization_ok C106_discretization_points_are_evenly_spaced
@circle2_discretization_closed C106_discretization_is_closed
@circle3_point_on C106_every_parameter_gives_a_point_of_the_3d_circle
@circle3_point_all C106_every_point_of_the_3d_circle_has_a_parameter
@circle3_at_ok C106_point_at_abscissa_of_a_3d_circle
@circle3_abscissa_exact C106_abscissa_of_a_point_of_a_3d_circle
@circle3_discretization_ok C106_discretization_of_a_3d_circle
Example C106_nonvacuous : direct (fb3 (cf3 K3)) /\ on_circle3 K3 (V3 0 1 0) /\ unsnapped (/ 10 ^ 16) (1 * cos 0).
Proof.
  split; [unfold direct, orthonormal, K3, dot3, cross3; cbn [cf3 fb3 bu bv bw x3 y3 z3]; split; [repeat split; ring|f_equal; ring]|]. split.
  - split; [|unfold K3, center3, dot3, sub3; cbn [cf3 fb3 bw org3 x3 y3 z3]; ring]. unfold point_distance3. rewrite norm3_dot. unfold K3, center3, dot3, sub3. cbn [cf3 cr3 org3 x3 y3 z3]. replace ((0 - 0) * (0 - 0) + (1 - 0) * (1 - 0) + (0 - 0) * (0 - 0)) with 1 by ring. apply sqrt_1.
  - right. rewrite cos_0, Rabs_pos_eq; lra.
Qed.

(** ** C107: circles of space *)
@circle3_3_points_ok C107_from_3_points_passes_through_the_points_within_2e_6
@circle3_3_points_same C107_from_3_points_fails_on_equal_points
@circle3_3_points_aligned C107_from_3_points_fails_on_aligned_points
@circle3_3_points_wrong C138_from_3_points_passes_through_the_points_refuted nearly aligned points
@circle3_center_normal_ok C107_from_center_normal
@circle3_belongs_on C107_points_of_the_circle_belong
@circle3_belongs_near C107_belonging_points_are_near_the_circle
@circle3_box_quarters C107_bounding_box_is_the_least_with_the_quarter_points
@circle3_box_total C107_bounding_box_never_fails
@circle3_reverse_ok C107_reverse_keeps_the_points_and_reverses_the_sense
@circle3_box_wrong C138_bounding_box_contains_the_circle_refuted
Example C107_nonvacuous : cross3 (sub3 (V3 1 0 0) (V3 0 0 0)) (sub3 (V3 1 0 0) (V3 1 1 0)) <> V3 0 0 0.
Proof. unfold cross3, sub3. cbn [x3 y3 z3]. intros K. pose proof (f_equal z3 K) as KZ. cbn [z3] in KZ. lra. Qed.
