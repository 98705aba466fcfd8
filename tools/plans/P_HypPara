(** C297-C309: hyperbolas and parabolas (statements only). *)
From Coq Require Import List Bool Arith ZArith Reals Lra Lia.
From Verif.Model Require Import Base RBase Vec Frame Geometry Plane Curves Ellipse HypPara.
From Verif.Spec Require Import VecSpec FrameSpec PlaneSpec CurvesSpec HypParaSpec.
From Verif.Proofs Require Import HypParaP HypParaP2 HypParaP3.
Import ListNotations.
Open Scope R_scope.

(** ** C297: the points of a hyperbola *)
@points2_ok C297_points_in_the_plane
@points2_default C297_points_without_bounds
@points2_one_bound C297_only_one_bound
@points2_null C297_null_bounds
@points3_ok C297_points_in_space
@branch_bifocal C297_the_foci
Example C297_nonvacuous : exists h : hyperbola2, orthonormal2 (fb2 (hf h)) /\ 0 < ha h /\ 0 < hb h /\ exists p, on_branch2 h p.
Proof. destruct vertical_refuted as ((h & l & p & O & A & B & P & _) & _). eauto 8. Qed.
(** ** C298, C299: points that belong to it *)
@belongs2_refuted C298_points_of_the_plane_refuted
@belongs2_unit C298_minor_axis_one
@belongs3_ignores_height C299_the_height_over_the_plane
@off_plane C299_points_over_the_plane_refuted
@hyp3_accepts C299_points_of_a_hyperbola_in_space
@par3_accepts C299_points_of_a_parabola_in_space
(** ** C300, C301: lines and hyperbolas *)
@hyp_line_ok C300_the_common_points
Example C300_nonvacuous : exists h l, orthonormal2 (fb2 (hf h)) /\ ha h <> 0 /\ hb h <> 0 /\ ~ parallel_to_v (hf h) l /\ (ha h * slope_in (hf h) l) ^ 2 <> hb h ^ 2 /\ exists p, on_branch2 h p /\ line2_has l p.
Proof. exact line_example. Qed.
@vertical_errors C301_lines_parallel_to_the_second_axis
@vertical_refuted C301_common_points_lost_refuted
@asymptote_empty C301_lines_parallel_to_an_asymptote
@asymptote_refuted C301_a_point_on_them_refuted
(** ** C302, C303: tangents *)
@hyp_derivative C302_the_derivative
@hyp_tangent_ok C302_in_the_standard_frame
@hyp3_tangent C302_in_space
Example C302_nonvacuous : exists h, orthonormal (fb3 (hf3 h)) /\ ha3 h <> 0 /\ hb3 h <> 0.
Proof. exists (H3 world3 1 2). cbn [hf3 ha3 hb3]. split; [exact (proj1 std3)|]. split; lra. Qed.
@tangent2_refuted C303_in_other_frames_refuted
(** ** C304: equality *)
@hyp_eq_iff C304_when_two_hyperbolas_are_equal
@hyp_eq_refuted C304_equality_refuted
(** ** C305: points of a parabola *)
@par_points_ok C305_points_in_the_plane
@par_points3_ok C305_points_in_space
@par_belongs C305_points_that_belong
Example C305_nonvacuous : exists p, orthonormal2 (fb2 (pf p)) /\ focal p <> 0 /\ exists q, on_parabola2 p q.
Proof. destruct vertical_refuted as (_ & (q & l & p & O & F & P & _)). exists q. split; [exact O|]. split; [lra|]. eauto. Qed.
(** ** C306, C307: lines and parabolas *)
@par_line_ok C306_the_common_points
Example C306_nonvacuous : exists p l, orthonormal2 (fb2 (pf p)) /\ focal p <> 0 /\ ~ parallel_to_v (pf p) l /\ 0 < slope_in (pf p) l ^ 2 + height_in (pf p) l / focal p.
Proof. exact par_line_example. Qed.
@tangent_line_local C307_tangent_lines
@tangent_line_refuted C307_the_point_of_a_tangent_line_refuted
(** ** C308, C309: tangents and arcs of a parabola *)
@par_derivative C308_the_derivative
@par_tangent_ok C308_in_the_plane
@par3_tangent C308_in_space
Example C308_nonvacuous : exists p, orthonormal (fb3 (pf3 p)) /\ focal3 p <> 0.
Proof. exists (Pa3 world3 1). cbn [pf3 focal3]. split; [exact (proj1 std3)|]. lra. Qed.
@trim_ok C309_the_arc_is_a_bezier_curve
Example C309_nonvacuous : exists p p1 p2, orthonormal2 (fb2 (pf p)) /\ 0 < focal p /\ on_parabola2 p p1 /\ on_parabola2 p p2 /\ / 10 ^ 15 * (2 * focal p) < Rabs (dot2 (sub2 p2 p1) (u2 (fb2 (pf p)))).
Proof. exact trim_example. Qed.
