(** C274-C281: circles and ellipses of space and lines, distance to a circle (statements only). *)
From Coq Require Import List Bool Arith ZArith Reals Lra Lia.
From Verif.Model Require Import Base RBase Vec Frame BBox Geometry Plane Curves Ellipse Conic3.
From Verif.Spec Require Import VecSpec FrameSpec PlaneSpec CurvesSpec EllipseSpec ParamSurfSpec Conic3Spec.
From Verif.Proofs Require Import Conic3P2 Conic3P3 Conic3P6 Conic3P8 Conic3P9 Conic3P10 ParamSurfP6.
Import ListNotations.
Open Scope R_scope.

(** ** C274: circles whose axis is vertical *)
@upright_ok C274_line_and_upright_circle
Example C274_nonvacuous : exists c l m q, upright (cf3 c) /\ direct (fb3 (cf3 c)) /\ cr3 c = 1 /\ fst l <> snd l /\ flat_or_steep l (z3 (center3 c)) /\ on_line3 l q /\
  fst m <> snd m /\ flat_or_steep m (z3 (center3 c)) /\ on_line3 m q /\ on_circle3 c q /\ z3 (fst m) <> z3 (snd m) /\ / 10 ^ 3 <= axis_distance (cf3 c) (V3 3 0 5).
Proof. exact upright_example. Qed.

(** ** C275: the other circles *)
@inclined_ok C275_line_and_inclined_circle
Example C275_nonvacuous : exists c e l p q m p' q' r1 r2, inclined (cf3 c) (/ 10 ^ 6) /\ direct (fb3 (cf3 c)) /\ cr3 c = 2 /\ ef3 e = cf3 c /\ emaj3 e = 2 /\ emin3 e = 1 /\
  l = (frame_point (cf3 c) p, frame_point (cf3 c) q) /\ clean3 p /\ clean3 q /\ p <> q /\ z3 p = 0 /\ z3 q = 0 /\ slanted p q /\ flat_or_steep (p, q) 0 /\
  m = (frame_point (cf3 c) p', frame_point (cf3 c) q') /\ clean3 p' /\ clean3 q' /\ p' <> q' /\ / 10 ^ 6 < Rabs (z3 q' - z3 p') /\ flat_or_steep (p', q') 0 /\
  on_line3 l r1 /\ on_ellipse3 e r1 /\ on_circle3 c r1 /\ on_line3 l r2 /\ on_ellipse3 e r2 /\ on_circle3 c r2 /\ r1 <> r2 /\ on_line3 m r1.
Proof. exact inclined_example. Qed.

(** ** C276: lines parallel to the plane *)
@parallel_refuted C276_a_line_above_the_circle_refuted
@parallel_error C276_the_error_of_every_near_parallel_line

(** ** C277: planes that are almost horizontal *)
@tilted_missed C277_both_points_are_missed_refuted

(** ** C278, C279: the distance from a point to a circle *)
@circle_point_distance_ok C278_the_distance_to_the_circle
Example C278_nonvacuous : exists c p, direct (fb3 (cf3 c)) /\ upright (cf3 c) /\ / 10 ^ 3 <= cr3 c /\ / 10 ^ 3 <= axis_distance (cf3 c) p.
Proof. destruct upright_example as (c & l & m & q & U & D & R1 & _ & _ & _ & _ & _ & _ & _ & _ & A). exists c, (V3 3 0 5). rewrite R1. repeat split; try exact U; try apply D; try exact A. apply ParamSurfP6.pow10_le1. Qed.
@axis_refuted C279_no_distance_from_the_axis_refuted
@tiny_refuted C279_no_distance_to_a_tiny_circle_refuted
@axis_error C279_the_error_of_every_point_of_the_axis

(** ** C280: ellipses *)
@conic_sound C280_line_of_the_plane_sound
@conic_complete C280_line_of_the_plane_complete
@conic_steep C280_line_across_the_plane
@conic_above C280_line_above_a_horizontal_ellipse

(** ** C281: ellipses whose axis is vertical *)
@conic_refuted C281_the_points_are_in_the_wrong_place_refuted
