(** C262-C273: ellipses (statements only). *)
From Coq Require Import List Bool Arith ZArith Reals Lra Lia.
From Verif.Model Require Import Base RBase Vec Frame BBox Geometry Curves Ellipse.
From Verif.Spec Require Import VecSpec FrameSpec BBoxSpec PlaneSpec CurvesSpec AngleSpec EllipseSpec EllipseSpec2.
From Verif.Proofs Require Import FrameP EllipseP EllipseP2 EllipseP3 EllipseP4 EllipseP5 EllipseP6 EllipseP7.
Import ListNotations.
Open Scope R_scope.

(** ** C262: intersections of an ellipse and a line *)
@ellipse_line_sound C262_every_intersection_is_on_both
@ellipse_line_complete C262_secant_lines_both_points_are_found
@ellipse_line_far C262_far_lines_have_none
@secant_example C262_nonvacuous

(** ** C263: lines that touch the ellipse, lines just outside *)
@ellipse_tangent_refuted C263_tangent_lines_refuted
@ellipse_outside_refuted C263_lines_outside_refuted

(** ** C264: bounding rectangle *)
@rect_aligned C264_axis_aligned_ellipses_are_in_their_rectangle
@rect_example C264_nonvacuous

(** ** C265: bounding rectangle and box of the others *)
@rect_refuted C265_the_bounding_rectangle_refuted
@box3_quarters C265_the_box_is_that_of_the_quarter_points
@box3_refuted C265_the_bounding_box_refuted

(** ** C266: point_over_ellipse *)
@over_accepts C266_points_of_the_ellipse_are_accepted
@over_sound C266_accepted_points_nearly_satisfy_the_equation
@oxy_ok C266_ellipses_of_the_plane

(** ** C267: discretization *)
@discretization_ok C267_the_points_at_equal_parameters_anticlockwise
@ends_ok C267_closed_from_the_end_of_the_major_axis_on_the_ellipse
@discretization3_ok C267_three_dimensions
@tilted_example C267_nonvacuous

(** ** C268: reverse *)
@reverse_ok C268_the_reversed_ellipse_has_the_same_points
@reverse_same C268_and_the_same_discretization
@reverse_refuted C268_reverse_refuted

(** ** C269: moves *)
@rotation_moves C269_rotation
@translation_moves C269_translation
@mapping_old_moves C269_mapping_to_the_old_frame
@mapping_new_moves C269_mapping_to_a_new_frame
@translation3_moves C269_translation_in_space
@rotation3_moves C269_rotation_in_space

(** ** C270: angles *)
@angle_ok C270_the_angle_of_the_point_of_parameter_t
@angle_total C270_every_point_has_an_angle
@angle_example C270_nonvacuous

(** ** C271: length and area *)
@length_ok C271_length
@area_ok C271_area

(** ** C272: Ellipse3D.point_belongs *)
@belongs3_accepts C272_the_points_of_the_ellipse_belong
@belongs3_sound C272_the_projection_of_a_point_that_belongs_nearly_satisfies_the_equation

(** ** C273: points out of the plane *)
@belongs3_refuted C273_point_belongs_refuted
