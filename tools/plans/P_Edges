(** C108-C113: line segments of edges.py (statements only). *)
From Coq Require Import Reals Lra Lia List.
From Verif.Model Require Import Base RBase Vec Frame BBox Geometry Curves Edges.
From Verif.Spec Require Import VecSpec BBoxSpec PlaneSpec CurvesSpec EdgesSpec.
From Verif.Proofs Require Import VecP LineP GeometryP CurvesP EdgesP EdgesP3 EdgesP4 EdgesP5 EdgesP6 EdgesP7 EdgesP8 EdgesP9 EdgesP10 EdgesP11 EdgesP12 EdgesP13.
Import ListNotations.
Open Scope R_scope.

(** the unit segment, the one that crosses it in its middle, one that overlaps it; two crossing segments of space *)
Definition S0 : sg2 := (V2 0 0, V2 1 0).
Definition S1 : sg2 := (V2 (1 / 2) (- 1), V2 (1 / 2) 1).
Definition S2 : sg2 := (V2 2 0, V2 (1 / 2) 0).
Definition E0 : sg3 := (V3 0 0 0, V3 1 0 0).
Definition E1 : sg3 := (V3 (1 / 2) (- 1) 0, V3 (1 / 2) 1 0).

(** ** C108: ends, abscissas, discretization *)
@segment2_ok C108_a_segment_joins_two_different_points
@segment2_err C108_a_segment_of_one_point_is_rejected
@sg2_pat_start C108_abscissa_0_is_the_start
@sg2_pat_end C108_abscissa_length_is_the_end
@sg2_pat_middle C108_the_middle_is_at_half_length
@sg2_pat_dist C108_abscissas_measure_distances
@sg2_pat_param C108_point_at_abscissa_is_on_the_line
@sg2_abscissa_of_pat C108_abscissa_of_point_at_abscissa
@sg2_pat_of_abscissa C108_point_at_abscissa_of_abscissa
@sg2_abscissa_outside C108_abscissa_of_any_point_is_that_of_its_projection
@sg2_abscissa_off C139_abscissa_rejects_points_off_the_segment_refuted the projection decides
@sg2_discretization_is C108_discretization_is_regular
@sg2_abscissa_discretization_spec C108_abscissa_discretization
@sg2_local_discretization_spec C108_local_discretization
@sg2_reverse_spec C108_reverse
@sg2_any_direction_spec C108_direction_independent_is_close
@sg3_pat_start C108_abscissa_0_is_the_start_3d
@sg3_pat_end C108_abscissa_length_is_the_end_3d
@sg3_pat_middle C108_the_middle_is_at_half_length_3d
@sg3_pat_dist C108_abscissas_measure_distances_3d
@sg3_abscissa_of_pat C108_abscissa_of_point_at_abscissa_3d
@sg3_pat_of_abscissa C108_point_at_abscissa_of_abscissa_3d
@sg3_abscissa_outside C108_abscissa_of_any_point_is_that_of_its_projection_3d
@sg3_discretization_is C108_discretization_is_regular_3d
Lemma S0_proper : proper2 S0. Proof. intros H. pose proof (f_equal x2 H) as X. cbn in X. lra. Qed.
Lemma S1_proper : proper2 S1. Proof. intros H. pose proof (f_equal y2 H) as X. cbn in X. lra. Qed.
Lemma S2_proper : proper2 S2. Proof. intros H. pose proof (f_equal x2 H) as X. cbn in X. lra. Qed.
Lemma E0_proper : proper3 E0. Proof. intros H. pose proof (f_equal x3 H) as X. cbn in X. lra. Qed.
Lemma E1_proper : proper3 E1. Proof. intros H. pose proof (f_equal y3 H) as X. cbn in X. lra. Qed.
Example C108_nonvacuous : fst S0 <> snd S0 /\ fst E0 <> snd E0 /\ on_segment2 S0 (V2 (1 / 2) 0) /\ 0 <= 1 / 2 <= sg2_length S0.
Proof.
  split; [exact S0_proper|]. split; [exact E0_proper|]. split; [exists (1 / 2); split; [lra|]; unfold S0, at_param2; vec; v_eq; field|].
  replace (sg2_length S0) with 1; [lra|]. symmetry. unfold sg2_length, point_distance2, norm2, S0. apply GeometryP.sqrt_of_sq; vec; lra.
Qed.

(** ** C109: belonging, splitting, trimming *)
@sg2_distance_is C109_point_distance_is_the_distance
@sg3_distance_is C109_point_distance_is_the_distance_3d
@sg2_belongs_spec C109_point_belongs_is_within_tolerance
@sg3_belongs_spec C109_point_belongs_is_within_tolerance_3d
@sg2_split_spec C109_split_cuts_the_segment_in_two
@sg3_split_spec C109_split_cuts_the_segment_in_two_3d
@sg2_split_off C140_split_keeps_the_points_refuted a point off the segment is accepted
@sg2_trim_spec C109_trim_joins_the_two_points
@sg2_trim_close C140_trim_of_any_two_points_refuted two points less than 1e-4 apart
Example C109_nonvacuous : proper2 S0 /\ proper3 E0 /\ on_segment2 S0 (V2 0 0) /\ on_segment2 S0 (V2 1 0) /\ / 10 ^ 4 < point_distance2 (V2 0 0) (V2 1 0).
Proof.
  split; [exact S0_proper|]. split; [exact E0_proper|]. split; [exact (on_fst S0)|]. split; [exact (on_snd S0)|].
  replace (point_distance2 _ _) with 1; [lra|]. symmetry. unfold point_distance2, norm2. apply GeometryP.sqrt_of_sq; vec; lra.
Qed.

(** ** C110: intersections in the plane *)
@sg2_line_sound C110_line_intersections_are_on_both
@sg2_line_complete C110_line_intersections_finds_the_common_point
@sg2_line_far C110_line_intersections_of_a_line_that_stays_away
@sg2_crossings_sub C110_line_crossings_are_line_intersections
@sg2_crossings_complete C110_line_crossings_leave_out_the_ends
@sg2_inter_sound C110_intersections_are_on_both
@sg2_inter_complete C110_intersections_finds_the_common_point
@sg2_inter_total C110_intersections_never_raises
@sg2_inter_flat C141_intersections_finds_every_common_point_refuted segments that cross at a small angle
@sg2_rect_in C110_bounding_rectangle_contains_the_segment
@sg2_rect_least C110_bounding_rectangle_is_the_least
Example C110_nonvacuous : proper2 S0 /\ proper2 S1 /\ / 10 ^ 15 < Rabs (den2 S0 S1) /\ apart S0 S1 (/ 10 ^ 6) /\ on_segment2 S0 (V2 (1 / 2) 0) /\ on_segment2 S1 (V2 (1 / 2) 0).
Proof.
  split; [exact S0_proper|]. split; [exact S1_proper|]. split.
  { replace (den2 S0 S1) with 2 by (unfold den2, S0, S1; vec; ring). rewrite Rabs_right; lra. }
  split.
  { unfold apart. replace (dot2 _ _) with 0 by (unfold S0, S1; vec; ring). rewrite Rabs_R0. pose proof (sg2_length_pos S0 S0_proper). pose proof (sg2_length_pos S1 S1_proper).
    apply Rmult_lt_0_compat; [|apply Rmult_lt_0_compat; auto]. rewrite Rmax_left; lra. }
  split; exists (1 / 2); (split; [lra|]); unfold S0, S1, at_param2; vec; v_eq; field.
Qed.

(** ** C111: distances in the plane *)
@sg2_distance_total C111_distance_between_segments_is_the_least
@sg2_distance_disjoint C111_distance_between_disjoint_segments_is_exact
@sg2_distance_flat C142_distance_of_crossing_segments_is_zero_refuted segments that cross at a small angle
@sg2_line_distance_spec C111_distance_to_a_line_is_the_least
Example C111_nonvacuous : proper2 S0 /\ proper2 (V2 0 1, V2 1 1) /\ ~ (exists r, on_segment2 S0 r /\ on_segment2 (V2 0 1, V2 1 1) r) /\ den2 S0 (V2 0 1, V2 1 1) = 0.
Proof.
  split; [exact S0_proper|]. split; [intros H; pose proof (f_equal x2 H) as X; cbn in X; lra|]. split; [|unfold den2, S0; vec; ring].
  intros (r & (t & T & ->) & (u & U & E)). pose proof (f_equal y2 E) as Y. unfold S0, at_param2 in Y. vec. lra.
Qed.

(** ** C112: shared section *)
@shared_sound C112_the_shared_section_is_on_both
@shared_complete C112_the_shared_section_of_overlapping_segments
@shared_raises C143_the_shared_section_never_raises_refuted an end of the first is on the second, no end of the second on the first
Example C112_nonvacuous : proper2 S0 /\ proper2 S2 /\
  (exists p q, p <> q /\ on_segment2 S0 p /\ on_segment2 S0 q /\ on_segment2 S2 p /\ on_segment2 S2 q) /\
  (forall e f, In e [fst S0; snd S0] -> In f [fst S2; snd S2] -> e = f \/ / 10 ^ 6 < point_distance2 e f).
Proof.
  split; [exact S0_proper|]. split; [exact S2_proper|]. split.
  - exists (V2 (1 / 2) 0), (V2 1 0). split; [intros H; pose proof (f_equal x2 H) as X; cbn in X; lra|]. split; [exists (1 / 2)|split; [exists 1|split; [exists 1|exists (2 / 3)]]]; (split; [lra|]); unfold S0, S2, at_param2; vec; v_eq; field.
  - intros e f A B. right. assert (G : forall a b : R, 1 / 4 <= (a - b) * (a - b) -> / 10 ^ 6 < point_distance2 (V2 a 0) (V2 b 0)).
    { intros a b L. apply Rlt_le_trans with (1 / 2); [lra|]. unfold point_distance2, norm2. rewrite <- (sqrt_square (1 / 2)) by lra. apply sqrt_le_1_alt. vec. lra. }
    destruct A as [<- |[<- |[]]], B as [<- |[<- |[]]]; apply G; lra.
Qed.

(** ** C113: segments of space *)
@sg3_inter_sound C113_intersections_are_on_both
@sg3_inter_complete C113_intersections_finds_the_common_point
@sg3_line_sound C113_line_intersections_are_on_both
@sg3_line_complete C113_line_intersections_finds_the_common_point
@sg3_box_in C113_bounding_box_contains_the_segment
@sg3_box_least C113_bounding_box_is_the_least
@sg3_distance_cross C113_distance_when_the_common_perpendicular_meets_both
@sg3_distance_lower C113_distance_is_never_too_small
@sg3_distance_points C113_points_returned_with_the_distance
@sg3_distance_wrong C144_distance_is_the_least_refuted the two points are clamped one after the other
@sg3_contains_wrong C144_contains_is_membership_refuted
@sg3_bspline_points_wrong C144_to_bspline_curve_covers_the_segment_refuted
@sg3_bspline_points_is C113_to_bspline_curve_points
Example C113_nonvacuous : proper3 E0 /\ proper3 E1 /\ cross3 (dir3 E0) (dir3 E1) <> V3 0 0 0 /\ dot3 (dir3 E0) (dir3 E1) = 0 /\ on_segment3 E0 (V3 (1 / 2) 0 0) /\ on_segment3 E1 (V3 (1 / 2) 0 0).
Proof.
  split; [exact E0_proper|]. split; [exact E1_proper|]. split; [intros H; pose proof (f_equal z3 H) as X; unfold E0, E1, dir3 in X; vec; lra|].
  split; [unfold E0, E1, dir3; vec; ring|]. split; exists (1 / 2); (split; [lra|]); unfold E0, E1; vec; v_eq; field.
Qed.
