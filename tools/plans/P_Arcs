(** C115-C123: arcs of circles of edges.py (statements only). *)
From Coq Require Import Reals Lra Lia List ZArith.
From Verif.Model Require Import Base RBase Vec Frame BBox Geometry Curves Edges Arcs.
From Verif.Spec Require Import VecSpec FrameSpec BBoxSpec CurvesSpec EdgesSpec ArcsSpec ArcAreaSpec.
From Verif.Proofs Require Import VecP LineP GeometryP CurvesP CurvesP3 EdgesP ArcsP ArcsP2 ArcsP3 ArcsP4 ArcsP5 ArcsP6 ArcsP7 ArcsP8 ArcsP9 ArcsP10 ArcsP11 ArcsP12 ArcsP13.
Import ListNotations.
Open Scope R_scope.

(** ** C115: construction, abscissas, discretization, cutting *)
@arc_new_ok C115_the_constructor_joins_two_points_of_the_circle
@angle_ok C115_angle_and_length
@arc_angle_unique C115_the_angle_is_determined
@at_start C115_abscissa_0_is_the_start
@at_end C115_abscissa_length_is_the_end
@at_on C115_point_at_abscissa_is_on_the_arc
@at_all C115_every_point_of_the_arc_has_an_abscissa
@middle_ok C115_middle_point
@normal_ok C115_normal_vector_points_to_the_center
@discretization_spec C115_discretization_is_regular
@arc_new_null C115_an_arc_of_null_radius_is_rejected
@get_angle_ok C115_angle_of_a_point_counted_from_the_start
@discretization_one C115_discretization_in_one_point_fails
@number_points_given C115_discretization_given_number
@number_points_default C115_discretization_default_number
@number_points_resolution C115_discretization_angle_resolution
@reverse_arc C115_reverse_is_the_same_set
@complementary_arc C115_complementary
@split_at_start C115_split_at_the_start
@split_at_end C115_split_at_the_end
@split_inside C115_split_inside
Example C115_nonvacuous : arc_ok QA /\ arc_ok QC /\ arc_ok HA /\ ast QA <> aen QA /\ arc2_is_trigo QA = true /\ arc2_is_trigo QC = false /\ 0 <= 1 <= arc2_length QA.
Proof.
  split; [exact QA_ok|]. split; [exact QC_ok|]. split; [exact HA_ok|]. split.
  { intros H. pose proof (f_equal x2 H) as X. cbn in X. lra. }
  split; [unfold arc2_is_trigo, circle2_is_trigo; apply Rltb_spec; unfold cross2; cbn; lra|]. split; [unfold arc2_is_trigo, circle2_is_trigo; apply Rltb_false; unfold cross2; cbn; lra|].
  unfold arc2_length, arc2_angle. cbn. pose proof PI2_3_2. rewrite Rabs_pos_eq by lra. lra.
Qed.

(** ** C116: belonging, abscissa of a point, arc through three points *)
@belongs_complete C116_points_of_the_arc_belong
@belongs_on_circle C116_points_of_the_circle_belong_iff_on_the_arc_or_near_an_end
@belongs_iff C116_point_belongs_exactly
@belongs_sound C116_points_that_belong_are_near_the_arc
@abscissa_at C116_abscissa_of_point_at_abscissa
@abscissa_sound C116_abscissas_are_in_range
@abscissa_start C116_abscissa_of_the_start
@abscissa_end C116_abscissa_of_the_end
@three_points_aligned C116_three_aligned_points_are_rejected
@three_points_ok C116_arc_through_three_points
Example C116_nonvacuous : arc_ok QA /\ det3p (V2 1 0) (V2 0 1) (V2 (-1) 0) <> 0 /\ arc_has (ac HA) (ast HA) (aen HA) (V2 0 1).
Proof. split; [exact QA_ok|]. split; [unfold det3p, cross2, sub2; cbn; apply Rgt_not_eq; lra|exact top_on]. Qed.

(** ** C117: areas, centers of mass, second moments *)
@area_ok C117_area_of_the_sector
@sector_unique C117_sector_integrals_are_unique
@center_of_mass_ok C117_center_of_mass_of_the_sector
@second_moment_ok C117_second_moments_about_the_center
@straight_area_ok C117_area_between_the_arc_and_its_chord
@swept_unique C117_swept_areas_are_unique
@straight_area_positive C117_sign_of_the_area
@segment_area C117_segment_area
@straight_com_ok C117_center_of_mass_of_the_segment
@straight_moments_ok C117_second_moments_of_the_segment
Example C117_nonvacuous : arc_ok HA /\ u2 (fb2 (cf2 (ac HA))) = V2 1 0 /\ v2 (fb2 (cf2 (ac HA))) = V2 0 1.
Proof. split; [exact HA_ok|]. split; reflexivity. Qed.

(** ** C118: intersections, distance, transformations *)
@line_secant C118_line_intersections_of_a_secant
@line_far C118_line_intersections_of_a_far_line
@linesegment_sound C118_linesegment_intersections_are_on_both
@circle_arc_secant C118_circle_arc_intersections
@arcs_secant C118_arc_intersections_are_those_of_the_circle_on_the_first_arc
@point_distance_ok C118_point_distance_within_the_tolerance
@translation_arc C118_translation
@rotation_arc C118_rotation
@offset_arc C118_offset
@offset_none C118_offset_beyond_the_center
@rectangle_ok C118_bounding_rectangle_touches_the_arc
Example C118_nonvacuous : arc_ok HA /\ / 10 ^ 6 < cr2 (ac HA) /\ center2 (ac HA) = O2D /\ arc_ok QB.
Proof. split; [exact HA_ok|]. split; [cbn; lra|]. split; [reflexivity|exact QB_ok]. Qed.

(** ** C119: direction vectors *)
@direction_ok C119_direction_vector_up_to_the_orientation
@direction_wrong C119_direction_vector_is_the_velocity_refuted against the motion on a clockwise arc

(** ** C120: the tolerance of point_belongs *)
@belongs_wrong C120_point_belongs_respects_its_tolerance_refuted half a percent of the radius is accepted

(** ** C121: second moments about any point *)
@second_moment_wrong C121_second_moments_about_any_point_refuted Huygens' term is added to the moments about the center of the circle, not of mass
@second_moment_clockwise_wrong C121_second_moments_of_a_clockwise_arc_refuted they are those of the axes of the circle

(** ** C122: bounding rectangle, segments *)
@rectangle_wrong C122_the_bounding_rectangle_contains_the_arc_refuted
@rectangle_samples C122_the_bounding_rectangle_is_that_of_20_points
@linesegment_missed C122_linesegment_intersections_finds_the_common_points_refuted

(** ** C123: two arcs, region of an arc, symmetry *)
@arcs_wrong C123_arc_intersections_are_on_both_arcs_refuted
@straight_belongs_wrong C123_straight_line_point_belongs_is_the_region_refuted
@mirror_wrong C123_axial_symmetry_of_an_arc_refuted
