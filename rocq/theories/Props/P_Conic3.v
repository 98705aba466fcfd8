(** C274-C281: circles and ellipses of space and lines, distance to a circle (statements only). *)
From Coq Require Import List Bool Arith ZArith Reals Lra Lia.
From Verif.Model Require Import Base RBase Vec Frame BBox Geometry Plane Curves Ellipse Conic3.
From Verif.Spec Require Import VecSpec FrameSpec PlaneSpec CurvesSpec EllipseSpec ParamSurfSpec Conic3Spec.
From Verif.Proofs Require Import Conic3P2 Conic3P3 Conic3P6 Conic3P8 Conic3P9 Conic3P10 ParamSurfP6.
Import ListNotations.
Open Scope R_scope.

(** ** C274: circles whose axis is vertical *)
Theorem C274_line_and_upright_circle : forall c l tol, upright (cf3 c) -> 0 <= tol -> 0 <= cr3 c -> fst l <> snd l -> flat_or_steep l (z3 (center3 c)) ->
  exists pts, circle3_line_intersections c l tol = Ok pts /\
  (forall q, In q pts -> on_line3 l q /\ on_plane (cf3 c) q /\ about_radius c q) /\
  (forall q, on_line3 l q -> on_circle3 c q -> exists r, In r pts /\ point_distance3 q r <= / 10 ^ 3).
Proof. exact upright_ok. Qed.
Print Assumptions C274_line_and_upright_circle.
Example C274_nonvacuous : exists c l m q, upright (cf3 c) /\ direct (fb3 (cf3 c)) /\ cr3 c = 1 /\ fst l <> snd l /\ flat_or_steep l (z3 (center3 c)) /\ on_line3 l q /\
  fst m <> snd m /\ flat_or_steep m (z3 (center3 c)) /\ on_line3 m q /\ on_circle3 c q /\ z3 (fst m) <> z3 (snd m) /\ / 10 ^ 3 <= axis_distance (cf3 c) (V3 3 0 5).
Proof. exact upright_example. Qed.

(** ** C275: the other circles *)
Theorem C275_line_and_inclined_circle : forall c l tol p q, direct (fb3 (cf3 c)) -> inclined (cf3 c) tol -> 0 <= tol -> 0 <= cr3 c -> p <> q -> l = (frame_point (cf3 c) p, frame_point (cf3 c) q) ->
  clean3 p -> clean3 q -> flat_or_steep (p, q) 0 ->
  exists pts, circle3_line_intersections c l tol = Ok pts /\
  (forall r, In r pts -> exists r0, near eps r r0 /\ on_line3 l r0 /\ on_plane (cf3 c) r0 /\ about_radius c r0) /\
  (forall r, on_line3 l r -> on_circle3 c r -> exists r', In r' pts /\ point_distance3 r r' <= 2 * / 10 ^ 3).
Proof. exact inclined_ok. Qed.
Print Assumptions C275_line_and_inclined_circle.
Example C275_nonvacuous : exists c e l p q m p' q' r1 r2, inclined (cf3 c) (/ 10 ^ 6) /\ direct (fb3 (cf3 c)) /\ cr3 c = 2 /\ ef3 e = cf3 c /\ emaj3 e = 2 /\ emin3 e = 1 /\
  l = (frame_point (cf3 c) p, frame_point (cf3 c) q) /\ clean3 p /\ clean3 q /\ p <> q /\ z3 p = 0 /\ z3 q = 0 /\ slanted p q /\ flat_or_steep (p, q) 0 /\
  m = (frame_point (cf3 c) p', frame_point (cf3 c) q') /\ clean3 p' /\ clean3 q' /\ p' <> q' /\ / 10 ^ 6 < Rabs (z3 q' - z3 p') /\ flat_or_steep (p', q') 0 /\
  on_line3 l r1 /\ on_ellipse3 e r1 /\ on_circle3 c r1 /\ on_line3 l r2 /\ on_ellipse3 e r2 /\ on_circle3 c r2 /\ r1 <> r2 /\ on_line3 m r1.
Proof. exact inclined_example. Qed.

(** ** C276: lines parallel to the plane *)
Theorem C276_a_line_above_the_circle_refuted : exists c l, direct (fb3 (cf3 c)) /\ 0 < cr3 c /\ fst l <> snd l /\ (forall q, on_line3 l q -> z3 q = z3 (center3 c) + / 2) /\ z3 (bw (fb3 (cf3 c))) = 1 /\
  circle3_line_intersections c l (/ 10 ^ 6) = Err ZeroDivisionError.
Proof. exact parallel_refuted. Qed.
Print Assumptions C276_a_line_above_the_circle_refuted.
Theorem C276_the_error_of_every_near_parallel_line : forall c l tol q, upright (cf3 c) -> 0 <= tol -> fst l <> snd l -> z3 (fst l) = z3 (snd l) ->
  tol + / 10 ^ 9 * (Rabs (z3 (snd l)) + Rabs (z3 (center3 c))) < Rabs (z3 (snd l) - z3 (center3 c)) -> on_line3 l q -> point_distance3 (center3 c) q <= cr3 c ->
  circle3_line_intersections c l tol = Err ZeroDivisionError.
Proof. exact parallel_error. Qed.
Print Assumptions C276_the_error_of_every_near_parallel_line.

(** ** C277: planes that are almost horizontal *)
Theorem C277_both_points_are_missed_refuted : exists c l p q, direct (fb3 (cf3 c)) /\ 0 < cr3 c /\ fst l = center3 c /\ on_plane (cf3 c) (fst l) /\ on_plane (cf3 c) (snd l) /\ point_distance3 (fst l) (snd l) = 1 /\
  p <> q /\ on_line3 l p /\ on_circle3 c p /\ on_line3 l q /\ on_circle3 c q /\ circle3_line_intersections c l (/ 10 ^ 6) = Ok [].
Proof. exact tilted_missed. Qed.
Print Assumptions C277_both_points_are_missed_refuted.

(** ** C278, C279: the distance from a point to a circle *)
Theorem C278_the_distance_to_the_circle : forall c p, direct (fb3 (cf3 c)) -> upright (cf3 c) \/ inclined (cf3 c) (/ 10 ^ 6) -> / 10 ^ 3 <= cr3 c -> / 10 ^ 3 <= axis_distance (cf3 c) p ->
  exists d d0, circle3_point_distance c p = Ok d /\ dist_to_circle3 c p d0 /\ Rabs (d - d0) <= / 10 ^ 8 * cr3 c + / 10 ^ 12.
Proof. exact circle_point_distance_ok. Qed.
Print Assumptions C278_the_distance_to_the_circle.
Example C278_nonvacuous : exists c p, direct (fb3 (cf3 c)) /\ upright (cf3 c) /\ / 10 ^ 3 <= cr3 c /\ / 10 ^ 3 <= axis_distance (cf3 c) p.
Proof. destruct upright_example as (c & l & m & q & U & D & R1 & _ & _ & _ & _ & _ & _ & _ & _ & A). exists c, (V3 3 0 5). rewrite R1. repeat split; try exact U; try apply D; try exact A. apply ParamSurfP6.pow10_le1. Qed.
Theorem C279_no_distance_from_the_axis_refuted : exists c p, direct (fb3 (cf3 c)) /\ 0 < cr3 c /\ circle3_point_distance c p = Err ZeroDivisionError.
Proof. exact axis_refuted. Qed.
Print Assumptions C279_no_distance_from_the_axis_refuted.
Theorem C279_no_distance_to_a_tiny_circle_refuted : exists c p, direct (fb3 (cf3 c)) /\ 0 < cr3 c /\ circle3_point_distance c p = Err IndexError.
Proof. exact tiny_refuted. Qed.
Print Assumptions C279_no_distance_to_a_tiny_circle_refuted.
Theorem C279_the_error_of_every_point_of_the_axis : forall c p, direct (fb3 (cf3 c)) -> upright (cf3 c) \/ inclined (cf3 c) (/ 10 ^ 6) -> axis_distance (cf3 c) p = 0 ->
  py_round 12 (x3 (center3 c)) = x3 (center3 c) -> py_round 12 (y3 (center3 c)) = y3 (center3 c) -> py_round 12 (z3 (center3 c)) = z3 (center3 c) -> circle3_point_distance c p = Err ZeroDivisionError.
Proof. exact axis_error. Qed.
Print Assumptions C279_the_error_of_every_point_of_the_axis.

(** ** C280: ellipses *)
Theorem C280_line_of_the_plane_sound : forall e l p q tol pts r, direct (fb3 (ef3 e)) -> inclined (ef3 e) tol -> 0 <= tol -> 0 < emin3 e <= emaj3 e ->
  l = (frame_point (ef3 e) p, frame_point (ef3 e) q) -> clean3 p -> clean3 q -> p <> q -> z3 p = 0 -> z3 q = 0 -> slanted p q ->
  ellipse3_line_intersections e l tol = Ok pts -> In r pts -> exists r0, near eps r r0 /\ on_line3 l r0 /\ on_ellipse3 e r0.
Proof. exact conic_sound. Qed.
Print Assumptions C280_line_of_the_plane_sound.
Theorem C280_line_of_the_plane_complete : forall e l p q tol r1 r2, direct (fb3 (ef3 e)) -> inclined (ef3 e) tol -> 0 <= tol -> 0 < emin3 e <= emaj3 e ->
  l = (frame_point (ef3 e) p, frame_point (ef3 e) q) -> clean3 p -> clean3 q -> p <> q -> z3 p = 0 -> z3 q = 0 -> slanted p q ->
  on_line3 l r1 -> on_ellipse3 e r1 -> on_line3 l r2 -> on_ellipse3 e r2 -> r1 <> r2 ->
  exists pts, ellipse3_line_intersections e l tol = Ok pts /\ forall r, on_line3 l r -> on_ellipse3 e r -> exists r', In r' pts /\ point_distance3 r r' <= / 10 ^ 5.
Proof. exact conic_complete. Qed.
Print Assumptions C280_line_of_the_plane_complete.
Theorem C280_line_across_the_plane : forall e l p q tol, direct (fb3 (ef3 e)) -> inclined (ef3 e) tol -> tol = / 10 ^ 6 -> / 10 ^ 6 <= emin3 e <= emaj3 e ->
  l = (frame_point (ef3 e) p, frame_point (ef3 e) q) -> clean3 p -> clean3 q -> / 10 ^ 6 < Rabs (z3 q - z3 p) ->
  exists pts, ellipse3_line_intersections e l tol = Ok pts /\
  (forall r, In r pts -> exists r0, near eps r r0 /\ on_line3 l r0 /\ about_ellipse3 e r0 tol) /\
  (forall r, on_line3 l r -> on_ellipse3 e r -> exists r', In r' pts /\ near eps r' r).
Proof. exact conic_steep. Qed.
Print Assumptions C280_line_across_the_plane.
Theorem C280_line_above_a_horizontal_ellipse e l tol : upright (ef3 e) -> 0 <= tol -> z3 (fst l) = z3 (snd l) -> tol < Rabs (z3 (fst l) - z3 (org3 (ef3 e))) -> ellipse3_line_intersections e l tol = Ok [].
Proof. exact (conic_above e l tol). Qed.
Print Assumptions C280_line_above_a_horizontal_ellipse.

(** ** C281: ellipses whose axis is vertical *)
Theorem C281_the_points_are_in_the_wrong_place_refuted : exists e l r, ellipse3_line_intersections e l (/ 10 ^ 6) = Ok r /\ direct (fb3 (ef3 e)) /\ 0 < emin3 e <= emaj3 e /\ on_plane (ef3 e) (fst l) /\ on_plane (ef3 e) (snd l) /\
  r <> [] /\ forall p q, In p r -> on_ellipse3 e q -> 6 <= point_distance3 p q.
Proof. exact conic_refuted. Qed.
Print Assumptions C281_the_points_are_in_the_wrong_place_refuted.

