(** C115-C123: arcs of circles of edges.py (statements only). *)
From Coq Require Import Reals Lra Lia List ZArith.
From Verif.Model Require Import Base RBase Vec Frame BBox Geometry Curves Edges Arcs.
From Verif.Spec Require Import VecSpec FrameSpec BBoxSpec CurvesSpec EdgesSpec ArcsSpec ArcAreaSpec.
From Verif.Proofs Require Import VecP LineP GeometryP CurvesP CurvesP3 EdgesP ArcsP ArcsP2 ArcsP3 ArcsP4 ArcsP5 ArcsP6 ArcsP7 ArcsP8 ArcsP9 ArcsP10 ArcsP11 ArcsP12 ArcsP13.
Import ListNotations.
Open Scope R_scope.

(** ** C115: construction, abscissas, discretization, cutting *)
Theorem C115_the_constructor_joins_two_points_of_the_circle c s e : circle_ok c -> regular c s -> regular c e -> exists a, arc2_new c s e = Ok a /\ ac a = c /\ ast a = s /\ aen a = e /\ arc_ok a.
Proof. exact (arc_new_ok c s e). Qed.
Print Assumptions C115_the_constructor_joins_two_points_of_the_circle.
Theorem C115_angle_and_length a : arc_ok a -> arc_angle (ac a) (ast a) (aen a) (arc2_angle a) /\ arc2_length a = cr2 (ac a) * arc2_angle a.
Proof. exact (angle_ok a). Qed.
Print Assumptions C115_angle_and_length.
Theorem C115_the_angle_is_determined c s e d d' : circle_ok c -> arc_angle c s e d -> arc_angle c s e d' -> d = d'.
Proof. exact (arc_angle_unique c s e d d'). Qed.
Print Assumptions C115_the_angle_is_determined.
Theorem C115_abscissa_0_is_the_start a : arc_ok a -> arc2_at a 0 = Ok (ast a).
Proof. exact (at_start a). Qed.
Print Assumptions C115_abscissa_0_is_the_start.
Theorem C115_abscissa_length_is_the_end a : arc_ok a -> arc2_at a (arc2_length a) = Ok (aen a).
Proof. exact (at_end a). Qed.
Print Assumptions C115_abscissa_length_is_the_end.
Theorem C115_point_at_abscissa_is_on_the_arc a s : arc_ok a -> 0 <= s <= arc2_length a -> exists p, arc2_at a s = Ok p /\ arc_has (ac a) (ast a) (aen a) p /\ arc_angle (ac a) (ast a) (aen a) (arc2_angle a) /\ (0 < s -> arc_angle (ac a) (ast a) p (s / cr2 (ac a))).
Proof. exact (at_on a s). Qed.
Print Assumptions C115_point_at_abscissa_is_on_the_arc.
Theorem C115_every_point_of_the_arc_has_an_abscissa a p : arc_ok a -> arc_has (ac a) (ast a) (aen a) p -> exists s, 0 <= s <= arc2_length a /\ arc2_at a s = Ok p.
Proof. exact (at_all a p). Qed.
Print Assumptions C115_every_point_of_the_arc_has_an_abscissa.
Theorem C115_middle_point a : arc_ok a -> exists m, arc2_middle a = Ok m /\ arc_angle (ac a) (ast a) m (arc2_angle a / 2) /\ arc_angle (ac a) m (aen a) (arc2_angle a / 2).
Proof. exact (middle_ok a). Qed.
Print Assumptions C115_middle_point.
Theorem C115_normal_vector_points_to_the_center a s : arc_ok a -> exists p n, arc2_at a s = Ok p /\ arc2_normal_vector a s = Ok n /\ add2 p n = center2 (ac a) /\ norm2 n = cr2 (ac a).
Proof. exact (normal_ok a s). Qed.
Print Assumptions C115_normal_vector_points_to_the_center.
Theorem C115_discretization_is_regular a n r : arc_ok a -> (2 <= arc2_number_points a n r)%Z -> exists l, arc2_discretization a n r = Ok l /\
  Z.of_nat (length l) = arc2_number_points a n r /\ hd (ast a) l = ast a /\ last l (aen a) = aen a /\ hd_error l = Some (ast a) /\
  (forall p, In p l -> arc_has (ac a) (ast a) (aen a) p) /\
  (forall i d, (S i < length l)%nat -> arc_angle (ac a) (nth i l d) (nth (S i) l d) (arc2_angle a / (INR (length l) - 1))).
Proof. exact (discretization_spec a n r). Qed.
Print Assumptions C115_discretization_is_regular.
Theorem C115_an_arc_of_null_radius_is_rejected c s e : orthonormal2 (fb2 (cf2 c)) -> cr2 c = 0 -> arc2_new c s e = Err ZeroDivisionError.
Proof. exact (arc_new_null c s e). Qed.
Print Assumptions C115_an_arc_of_null_radius_is_rejected.
Theorem C115_angle_of_a_point_counted_from_the_start a p : arc_ok a -> regular (ac a) p -> exists t, get_arc_point_angle a p = Ok t /\ ang1 a <= t < ang1 a + 2 * PI /\ p = circle2_point (ac a) t.
Proof. exact (get_angle_ok a p). Qed.
Print Assumptions C115_angle_of_a_point_counted_from_the_start.
Theorem C115_discretization_in_one_point_fails a r : arc2_discretization a (Some 1%Z) r = Err ZeroDivisionError.
Proof. exact (discretization_one a r). Qed.
Print Assumptions C115_discretization_in_one_point_fails.
Theorem C115_discretization_given_number a n r : n <> 0%Z -> arc2_number_points a (Some n) r = n.
Proof. exact (number_points_given a n r). Qed.
Print Assumptions C115_discretization_given_number.
Theorem C115_discretization_default_number a r : (2 <= arc2_number_points a None r)%Z.
Proof. exact (number_points_default a r). Qed.
Print Assumptions C115_discretization_default_number.
Theorem C115_discretization_angle_resolution a r : (r > 0)%Z -> arc2_angle a * IZR r <= IZR (arc2_number_points a None (Some r) - 1).
Proof. exact (number_points_resolution a r). Qed.
Print Assumptions C115_discretization_angle_resolution.
Theorem C115_reverse_is_the_same_set a : arc_ok a -> regular (circle2_reverse (ac a)) (ast a) -> regular (circle2_reverse (ac a)) (aen a) ->
  exists b, arc2_reverse a = Ok b /\ arc_ok b /\ ast b = aen a /\ aen b = ast a /\ arc2_is_trigo b = negb (arc2_is_trigo a) /\ arc2_length b = arc2_length a /\
  forall p, arc_has (ac b) (ast b) (aen b) p <-> arc_has (ac a) (ast a) (aen a) p.
Proof. exact (reverse_arc a). Qed.
Print Assumptions C115_reverse_is_the_same_set.
Theorem C115_complementary a : arc_ok a -> ast a <> aen a -> exists b, arc2_complementary a = Ok b /\ arc_ok b /\ ac b = ac a /\ ast b = aen a /\ aen b = ast a /\
  arc2_angle b = 2 * PI - arc2_angle a /\ (forall p, on_circle2 (ac a) p -> arc_has (ac a) (ast a) (aen a) p \/ arc_has (ac b) (ast b) (aen b) p) /\
  (forall p, arc_has (ac a) (ast a) (aen a) p -> arc_has (ac b) (ast b) (aen b) p -> p = ast a \/ p = aen a).
Proof. exact (complementary_arc a). Qed.
Print Assumptions C115_complementary.
Theorem C115_split_at_the_start a tol p : 0 <= tol -> point_distance2 p (ast a) <= tol -> arc2_split a p tol = Ok (None, Some a).
Proof. exact (split_at_start a tol p). Qed.
Print Assumptions C115_split_at_the_start.
Theorem C115_split_at_the_end a tol p : 0 <= tol -> tol < point_distance2 p (ast a) -> point_distance2 p (aen a) <= tol -> arc2_split a p tol = Ok (Some a, None).
Proof. exact (split_at_end a tol p). Qed.
Print Assumptions C115_split_at_the_end.
Theorem C115_split_inside a tol p : arc_ok a -> regular (ac a) p -> arc_has (ac a) (ast a) (aen a) p -> 0 <= tol -> tol < point_distance2 p (ast a) -> tol < point_distance2 p (aen a) ->
  exists b c, arc2_split a p tol = Ok (Some b, Some c) /\ arc_ok b /\ arc_ok c /\ ac b = ac a /\ ac c = ac a /\ ast b = ast a /\ aen b = p /\ ast c = p /\ aen c = aen a /\
  arc2_length b + arc2_length c = arc2_length a /\ (forall q, arc_has (ac a) (ast a) (aen a) q <-> arc_has (ac b) (ast b) (aen b) q \/ arc_has (ac c) (ast c) (aen c) q).
Proof. exact (split_inside a tol p). Qed.
Print Assumptions C115_split_inside.
Example C115_nonvacuous : arc_ok QA /\ arc_ok QC /\ arc_ok HA /\ ast QA <> aen QA /\ arc2_is_trigo QA = true /\ arc2_is_trigo QC = false /\ 0 <= 1 <= arc2_length QA.
Proof.
  split; [exact QA_ok|]. split; [exact QC_ok|]. split; [exact HA_ok|]. split.
  { intros H. pose proof (f_equal x2 H) as X. cbn in X. lra. }
  split; [unfold arc2_is_trigo, circle2_is_trigo; apply Rltb_spec; unfold cross2; cbn; lra|]. split; [unfold arc2_is_trigo, circle2_is_trigo; apply Rltb_false; unfold cross2; cbn; lra|].
  unfold arc2_length, arc2_angle. cbn. pose proof PI2_3_2. rewrite Rabs_pos_eq by lra. lra.
Qed.

(** ** C116: belonging, abscissa of a point, arc through three points *)
Theorem C116_points_of_the_arc_belong a p tol : arc_ok a -> 0 <= tol -> arc_has (ac a) (ast a) (aen a) p -> arc2_point_belongs a p tol = Ok true.
Proof. exact (belongs_complete a p tol). Qed.
Print Assumptions C116_points_of_the_arc_belong.
Theorem C116_points_of_the_circle_belong_iff_on_the_arc_or_near_an_end a p tol : arc_ok a -> 0 <= tol -> on_circle2 (ac a) p ->
  exists b, arc2_point_belongs a p tol = Ok b /\ (b = true <-> arc_has (ac a) (ast a) (aen a) p \/ point_distance2 p (ast a) <= tol \/ point_distance2 p (aen a) <= tol).
Proof. exact (belongs_on_circle a p tol). Qed.
Print Assumptions C116_points_of_the_circle_belong_iff_on_the_arc_or_near_an_end.
Theorem C116_point_belongs_exactly a p tol : arc_ok a -> 0 <= tol -> exists b, arc2_point_belongs a p tol = Ok b /\
  (b = true <-> Rabs (point_distance2 p (center2 (ac a)) - cr2 (ac a)) <= 5 / 1000 * Rmax (point_distance2 p (center2 (ac a))) (cr2 (ac a)) /\
     (point_distance2 p (ast a) <= tol \/ point_distance2 p (aen a) <= tol \/ seen_inside a p)).
Proof. exact (belongs_iff a p tol). Qed.
Print Assumptions C116_point_belongs_exactly.
Theorem C116_points_that_belong_are_near_the_arc a p tol : arc_ok a -> 0 <= tol -> arc2_point_belongs a p tol = Ok true ->
  exists q, arc_has (ac a) (ast a) (aen a) q /\ point_distance2 p q <= Rmax tol (6 / 1000 * cr2 (ac a)).
Proof. exact (belongs_sound a p tol). Qed.
Print Assumptions C116_points_that_belong_are_near_the_arc.
Theorem C116_abscissa_of_point_at_abscissa a s tol : arc_ok a -> 0 <= tol -> 0 <= s <= arc2_length a -> forall p, arc2_at a s = Ok p ->
  tol <= point_distance2 p (ast a) -> tol <= point_distance2 p (aen a) -> 0 < s < arc2_length a -> arc2_abscissa a p tol = Ok s.
Proof. exact (abscissa_at a s tol). Qed.
Print Assumptions C116_abscissa_of_point_at_abscissa.
Theorem C116_abscissas_are_in_range a p tol s : arc_ok a -> 0 <= tol < 1 -> arc2_abscissa a p tol = Ok s -> 0 <= s <= arc2_length a.
Proof. exact (abscissa_sound a p tol s). Qed.
Print Assumptions C116_abscissas_are_in_range.
Theorem C116_abscissa_of_the_start a tol : arc_ok a -> 0 < tol -> arc2_abscissa a (ast a) tol = Ok 0.
Proof. exact (abscissa_start a tol). Qed.
Print Assumptions C116_abscissa_of_the_start.
Theorem C116_abscissa_of_the_end a tol : arc_ok a -> 0 < tol -> tol <= point_distance2 (aen a) (ast a) -> arc2_abscissa a (aen a) tol = Ok (arc2_length a).
Proof. exact (abscissa_end a tol). Qed.
Print Assumptions C116_abscissa_of_the_end.
Theorem C116_three_aligned_points_are_rejected p1 p2 p3 : det3p p1 p2 p3 = 0 -> arc2_from_3_points p1 p2 p3 = Err ValueError.
Proof. exact (three_points_aligned p1 p2 p3). Qed.
Print Assumptions C116_three_aligned_points_are_rejected.
Theorem C116_arc_through_three_points p1 p2 p3 c : det3p p1 p2 p3 <> 0 -> circle2_from_3_points p1 p2 p3 true = Ok c ->
  regular c p1 -> regular c p3 -> regular (circle2_reverse c) p1 -> regular (circle2_reverse c) p3 ->
  exists a, arc2_from_3_points p1 p2 p3 = Ok a /\ arc_ok a /\ ast a = p1 /\ aen a = p3 /\ center2 (ac a) = center2 c /\ on_circle2 (ac a) p1 /\ on_circle2 (ac a) p2 /\ on_circle2 (ac a) p3 /\
  (arc_has (ac a) (ast a) (aen a) p2 \/ point_distance2 p2 p1 <= / 10 ^ 6 \/ point_distance2 p2 p3 <= / 10 ^ 6).
Proof. exact (three_points_ok p1 p2 p3 c). Qed.
Print Assumptions C116_arc_through_three_points.
Example C116_nonvacuous : arc_ok QA /\ det3p (V2 1 0) (V2 0 1) (V2 (-1) 0) <> 0 /\ arc_has (ac HA) (ast HA) (aen HA) (V2 0 1).
Proof. split; [exact QA_ok|]. split; [unfold det3p, cross2, sub2; cbn; apply Rgt_not_eq; lra|exact top_on]. Qed.

(** ** C117: areas, centers of mass, second moments *)
Theorem C117_area_of_the_sector a : arc_ok a -> sector_integral (ac a) (ang1 a) (ang2 a) (fun _ => 1) (arc2_area a) /\ 0 < arc2_area a.
Proof. exact (area_ok a). Qed.
Print Assumptions C117_area_of_the_sector.
Theorem C117_sector_integrals_are_unique c t1 t2 f v w : sector_integral c t1 t2 f v -> sector_integral c t1 t2 f w -> v = w.
Proof. exact (sector_unique c t1 t2 f v w). Qed.
Print Assumptions C117_sector_integrals_are_unique.
Theorem C117_center_of_mass_of_the_sector a : arc_ok a -> exists g, arc2_center_of_mass a = Ok g /\
  sector_integral (ac a) (ang1 a) (ang2 a) x2 (arc2_area a * x2 g) /\ sector_integral (ac a) (ang1 a) (ang2 a) y2 (arc2_area a * y2 g).
Proof. exact (center_of_mass_ok a). Qed.
Print Assumptions C117_center_of_mass_of_the_sector.
Theorem C117_second_moments_about_the_center a : arc_ok a -> exists ix iy ixy, arc2_second_moment_area a (center2 (ac a)) = (ix, iy, ixy) /\
  sector_integral (ac a) (ang1 a) (ang2 a) (fun p => dot2 (sub2 p (center2 (ac a))) (v2 (fb2 (cf2 (ac a)))) ^ 2) ix /\
  sector_integral (ac a) (ang1 a) (ang2 a) (fun p => dot2 (sub2 p (center2 (ac a))) (u2 (fb2 (cf2 (ac a)))) ^ 2) iy /\
  sector_integral (ac a) (ang1 a) (ang2 a) (fun p => dot2 (sub2 p (center2 (ac a))) (u2 (fb2 (cf2 (ac a)))) * dot2 (sub2 p (center2 (ac a))) (v2 (fb2 (cf2 (ac a))))) ixy.
Proof. exact (second_moment_ok a). Qed.
Print Assumptions C117_second_moments_about_the_center.
Theorem C117_area_between_the_arc_and_its_chord a : arc_ok a -> swept_area (circle2_point (ac a)) (ast a) (ang1 a) (ang2 a) (arc2_straight_line_area a).
Proof. exact (straight_area_ok a). Qed.
Print Assumptions C117_area_between_the_arc_and_its_chord.
Theorem C117_swept_areas_are_unique P o t1 t2 v w : swept_area P o t1 t2 v -> swept_area P o t1 t2 w -> v = w.
Proof. exact (swept_unique P o t1 t2 v w). Qed.
Print Assumptions C117_swept_areas_are_unique.
Theorem C117_sign_of_the_area a : arc_ok a -> 0 < Rabs (arc2_straight_line_area a) /\ (arc2_is_trigo a = true <-> 0 < arc2_straight_line_area a).
Proof. exact (straight_area_positive a). Qed.
Print Assumptions C117_sign_of_the_area.
Theorem C117_segment_area a : arc_ok a -> segment_integral a (fun _ => 1) (Rabs (arc2_straight_line_area a)).
Proof. exact (segment_area a). Qed.
Print Assumptions C117_segment_area.
Theorem C117_center_of_mass_of_the_segment a : arc_ok a -> / 10 ^ 15 < point_distance2 (ast a) (aen a) -> exists h, arc2_straight_line_center_of_mass a = Ok h /\
  segment_integral a x2 (Rabs (arc2_straight_line_area a) * x2 h) /\ segment_integral a y2 (Rabs (arc2_straight_line_area a) * y2 h).
Proof. exact (straight_com_ok a). Qed.
Print Assumptions C117_center_of_mass_of_the_segment.
Theorem C117_second_moments_of_the_segment a : arc_ok a -> u2 (fb2 (cf2 (ac a))) = V2 1 0 -> v2 (fb2 (cf2 (ac a))) = V2 0 1 ->
  exists ix iy ixy, arc2_straight_line_second_moment_area a (center2 (ac a)) = (ix, iy, ixy) /\
  segment_integral a (fun p => (y2 p - y2 (center2 (ac a))) ^ 2) ix /\ segment_integral a (fun p => (x2 p - x2 (center2 (ac a))) ^ 2) iy /\
  segment_integral a (fun p => (x2 p - x2 (center2 (ac a))) * (y2 p - y2 (center2 (ac a)))) ixy.
Proof. exact (straight_moments_ok a). Qed.
Print Assumptions C117_second_moments_of_the_segment.
Example C117_nonvacuous : arc_ok HA /\ u2 (fb2 (cf2 (ac HA))) = V2 1 0 /\ v2 (fb2 (cf2 (ac HA))) = V2 0 1.
Proof. split; [exact HA_ok|]. split; reflexivity. Qed.

(** ** C118: intersections, distance, transformations *)
Theorem C118_line_intersections_of_a_secant a l d : arc_ok a -> fst l <> snd l -> center2 (ac a) = O2D \/ / 10 ^ 6 < point_distance2 (center2 (ac a)) O2D ->
  dist_to_line2 l (center2 (ac a)) d -> / 10 ^ 6 < d -> d * d + / 10 ^ 6 < cr2 (ac a) * cr2 (ac a) ->
  exists r, arc2_line_intersections a l = Ok r /\ forall p, In p r <-> line2_has l p /\ on_circle2 (ac a) p /\ (arc_has (ac a) (ast a) (aen a) p \/ point_distance2 p (ast a) <= / 10 ^ 6 \/ point_distance2 p (aen a) <= / 10 ^ 6).
Proof. exact (line_secant a l d). Qed.
Print Assumptions C118_line_intersections_of_a_secant.
Theorem C118_line_intersections_of_a_far_line a l d : fst l <> snd l -> dist_to_line2 l (center2 (ac a)) d -> cr2 (ac a) + / 10 ^ 9 < d -> arc2_line_intersections a l = Ok [].
Proof. exact (line_far a l d). Qed.
Print Assumptions C118_line_intersections_of_a_far_line.
Theorem C118_linesegment_intersections_are_on_both a s tol r : arc_ok a -> 0 <= tol -> arc2_linesegment_intersections a s tol = Ok r -> forall p, In p r ->
  (exists q, arc_has (ac a) (ast a) (aen a) q /\ point_distance2 p q <= Rmax tol (6 / 1000 * cr2 (ac a))) /\ sg2_point_belongs s p (/ 10 ^ 6) = Ok true.
Proof. exact (linesegment_sound a s tol r). Qed.
Print Assumptions C118_linesegment_intersections_are_on_both.
Theorem C118_circle_arc_intersections c a tol : circle_ok c -> arc_ok a -> 0 <= tol -> / 10 ^ 6 < point_distance2 (center2 c) (center2 (ac a)) ->
  Rabs (cr2 c - cr2 (ac a)) <= point_distance2 (center2 c) (center2 (ac a)) <= cr2 c + cr2 (ac a) ->
  / 10 ^ 6 <= Rabs (cr2 c - (cr2 c * cr2 c - cr2 (ac a) * cr2 (ac a) + point_distance2 (center2 c) (center2 (ac a)) * point_distance2 (center2 c) (center2 (ac a))) / (2 * point_distance2 (center2 c) (center2 (ac a)))) ->
  exists r, circle2_arc_intersections c a tol = Ok r /\
  (forall p, In p r -> on_circle2 c p /\ on_circle2 (ac a) p /\ (arc_has (ac a) (ast a) (aen a) p \/ point_distance2 p (ast a) <= tol \/ point_distance2 p (aen a) <= tol)) /\
  (forall p, on_circle2 c p -> arc_has (ac a) (ast a) (aen a) p -> In p r \/ exists q, on_circle2 c q /\ on_circle2 (ac a) q /\ point_distance2 p q <= / 10 ^ 6).
Proof. exact (circle_arc_secant c a tol). Qed.
Print Assumptions C118_circle_arc_intersections.
Theorem C118_arc_intersections_are_those_of_the_circle_on_the_first_arc a b tol : arc_ok a -> circle_ok (ac b) -> 0 <= tol -> / 10 ^ 6 < point_distance2 (center2 (ac a)) (center2 (ac b)) ->
  Rabs (cr2 (ac a) - cr2 (ac b)) <= point_distance2 (center2 (ac a)) (center2 (ac b)) <= cr2 (ac a) + cr2 (ac b) ->
  / 10 ^ 6 <= Rabs (cr2 (ac a) - (cr2 (ac a) * cr2 (ac a) - cr2 (ac b) * cr2 (ac b) + point_distance2 (center2 (ac a)) (center2 (ac b)) * point_distance2 (center2 (ac a)) (center2 (ac b))) / (2 * point_distance2 (center2 (ac a)) (center2 (ac b)))) ->
  exists r, arc2_arc_intersections a b tol = Ok r /\ forall p, In p r <-> on_circle2 (ac b) p /\ on_circle2 (ac a) p /\ (arc_has (ac a) (ast a) (aen a) p \/ point_distance2 p (ast a) <= tol \/ point_distance2 p (aen a) <= tol).
Proof. exact (arcs_secant a b tol). Qed.
Print Assumptions C118_arc_intersections_are_those_of_the_circle_on_the_first_arc.
Theorem C118_point_distance_within_the_tolerance a p : arc_ok a -> / 10 ^ 6 < cr2 (ac a) -> exists d, arc2_point_distance a p = Ok d /\
  (exists q, arc_has (ac a) (ast a) (aen a) q /\ point_distance2 p q <= d + Rmax (/ 10 ^ 6) (6 / 1000 * cr2 (ac a))) /\
  (forall q, arc_has (ac a) (ast a) (aen a) q -> d - Rmax (/ 10 ^ 6) (6 / 1000 * cr2 (ac a)) <= point_distance2 p q).
Proof. exact (point_distance_ok a p). Qed.
Print Assumptions C118_point_distance_within_the_tolerance.
Theorem C118_translation a o : arc_ok a -> exists b, arc2_translation a o = Ok b /\ arc_ok b /\ ast b = add2 (ast a) o /\ aen b = add2 (aen a) o /\ arc2_is_trigo b = arc2_is_trigo a /\ arc2_length b = arc2_length a /\
  forall p, arc_has (ac b) (ast b) (aen b) (add2 p o) <-> arc_has (ac a) (ast a) (aen a) p.
Proof. exact (translation_arc a o). Qed.
Print Assumptions C118_translation.
Theorem C118_rotation a o th c : arc_ok a -> point_distance2 o (center2 (ac a)) = 0 \/ / 10 ^ 6 < point_distance2 o (center2 (ac a)) -> c = circle2_rotation (ac a) o th ->
  regular c (rotation2 (ast a) o th) -> regular c (rotation2 (aen a) o th) ->
  exists b, arc2_rotation a o th = Ok b /\ arc_ok b /\ ast b = rotation2 (ast a) o th /\ aen b = rotation2 (aen a) o th /\ arc2_is_trigo b = arc2_is_trigo a /\ arc2_length b = arc2_length a /\
  forall q, arc_has (ac b) (ast b) (aen b) q <-> exists p, arc_has (ac a) (ast a) (aen a) p /\ q = rotation2 p o th.
Proof. exact (rotation_arc a o th c). Qed.
Print Assumptions C118_rotation.
Theorem C118_offset a offset r : arc_ok a -> r = (if arc2_is_trigo a then cr2 (ac a) + offset else cr2 (ac a) - offset) -> 0 < r ->
  exists b, arc2_infinite_primitive a offset = Ok (Some b) /\ arc_ok b /\ arc2_is_trigo b = arc2_is_trigo a /\ center2 (ac b) = center2 (ac a) /\ cr2 (ac b) = r /\ arc2_angle b = arc2_angle a /\
  (forall p, arc_has (ac a) (ast a) (aen a) p -> exists q, arc_has (ac b) (ast b) (aen b) q /\ point_distance2 p q = Rabs offset) /\
  (forall q, arc_has (ac b) (ast b) (aen b) q -> exists p, arc_has (ac a) (ast a) (aen a) p /\ point_distance2 p q = Rabs offset /\ forall p', arc_has (ac a) (ast a) (aen a) p' -> Rabs offset <= point_distance2 p' q).
Proof. exact (offset_arc a offset r). Qed.
Print Assumptions C118_offset.
Theorem C118_offset_beyond_the_center a offset : arc_ok a -> arc2_is_trigo a = false -> cr2 (ac a) < offset -> arc2_infinite_primitive a offset = Ok None.
Proof. exact (offset_none a offset). Qed.
Print Assumptions C118_offset_beyond_the_center.
Theorem C118_bounding_rectangle_touches_the_arc a : arc_ok a -> exists r, arc2_bounding_rectangle a = Ok r /\
  (rxmin r <= x2 (ast a) <= rxmax r /\ rymin r <= y2 (ast a) <= rymax r) /\ (rxmin r <= x2 (aen a) <= rxmax r /\ rymin r <= y2 (aen a) <= rymax r) /\
  (exists q, arc_has (ac a) (ast a) (aen a) q /\ rxmin r = x2 q) /\ (exists q, arc_has (ac a) (ast a) (aen a) q /\ rxmax r = x2 q) /\
  (exists q, arc_has (ac a) (ast a) (aen a) q /\ rymin r = y2 q) /\ (exists q, arc_has (ac a) (ast a) (aen a) q /\ rymax r = y2 q).
Proof. exact (rectangle_ok a). Qed.
Print Assumptions C118_bounding_rectangle_touches_the_arc.
Example C118_nonvacuous : arc_ok HA /\ / 10 ^ 6 < cr2 (ac HA) /\ center2 (ac HA) = O2D /\ arc_ok QB.
Proof. split; [exact HA_ok|]. split; [cbn; lra|]. split; [reflexivity|exact QB_ok]. Qed.

(** ** C119: direction vectors *)
Theorem C119_direction_vector_up_to_the_orientation a s : arc_ok a -> exists d, arc2_direction_vector a s = Ok d /\ norm2 d = cr2 (ac a) /\ velocity (arc2_at a) s (mul2 d ((if arc2_is_trigo a then 1 else -1) / cr2 (ac a))).
Proof. exact (direction_ok a s). Qed.
Print Assumptions C119_direction_vector_up_to_the_orientation.
(** against the motion on a clockwise arc *)
Theorem C119_direction_vector_is_the_velocity_refuted : exists a d, arc_ok a /\ arc2_direction_vector a 0 = Ok d /\ velocity (arc2_at a) 0 (neg2 d) /\ norm2 d = 1.
Proof. exact direction_wrong. Qed.
Print Assumptions C119_direction_vector_is_the_velocity_refuted.

(** ** C120: the tolerance of point_belongs *)
(** half a percent of the radius is accepted *)
Theorem C120_point_belongs_respects_its_tolerance_refuted : exists a p, arc_ok a /\ cr2 (ac a) = 1 /\ arc2_point_belongs a p (/ 10 ^ 6) = Ok true /\ forall q, arc_has (ac a) (ast a) (aen a) q -> 4 / 1000 <= point_distance2 p q.
Proof. exact belongs_wrong. Qed.
Print Assumptions C120_point_belongs_respects_its_tolerance_refuted.

(** ** C121: second moments about any point *)
(** Huygens' term is added to the moments about the center of the circle, not of mass *)
Theorem C121_second_moments_about_any_point_refuted : exists a p ix iy ixy v, arc_ok a /\ arc2_second_moment_area a p = (ix, iy, ixy) /\ sector_integral (ac a) (ang1 a) (ang2 a) (fun q => (y2 q - y2 p) ^ 2) v /\ v + 1 / 2 < ix.
Proof. exact second_moment_wrong. Qed.
Print Assumptions C121_second_moments_about_any_point_refuted.
(** they are those of the axes of the circle *)
Theorem C121_second_moments_of_a_clockwise_arc_refuted : exists a ix iy ixy, arc_ok a /\ arc2_second_moment_area a (center2 (ac a)) = (ix, iy, ixy) /\ sector_integral (ac a) (ang1 a) (ang2 a) (fun q => (x2 q - x2 (center2 (ac a))) * (y2 q - y2 (center2 (ac a)))) (- ixy) /\ ixy = 1 / 8.
Proof. exact second_moment_clockwise_wrong. Qed.
Print Assumptions C121_second_moments_of_a_clockwise_arc_refuted.

(** ** C122: bounding rectangle, segments *)
Theorem C122_the_bounding_rectangle_contains_the_arc_refuted : exists a p r, arc_ok a /\ arc_has (ac a) (ast a) (aen a) p /\ arc2_bounding_rectangle a = Ok r /\ rymax r + 2 / 1000 <= y2 p.
Proof. exact rectangle_wrong. Qed.
Print Assumptions C122_the_bounding_rectangle_contains_the_arc_refuted.
Theorem C122_the_bounding_rectangle_is_that_of_20_points a : arc_ok a -> exists l r, arc2_discretization a (Some 20%Z) (Some 20%Z) = Ok l /\ arc2_bounding_rectangle a = Ok r /\
  (forall q, In q l -> rxmin r <= x2 q <= rxmax r /\ rymin r <= y2 q <= rymax r) /\
  (exists q, In q l /\ rxmin r = x2 q) /\ (exists q, In q l /\ rxmax r = x2 q) /\ (exists q, In q l /\ rymin r = y2 q) /\ (exists q, In q l /\ rymax r = y2 q).
Proof. exact (rectangle_samples a). Qed.
Print Assumptions C122_the_bounding_rectangle_is_that_of_20_points.
Theorem C122_linesegment_intersections_finds_the_common_points_refuted : exists a s p, arc_ok a /\ arc_has (ac a) (ast a) (aen a) p /\ on_segment2 s p /\ arc2_linesegment_intersections a s (/ 10 ^ 6) = Ok [].
Proof. exact linesegment_missed. Qed.
Print Assumptions C122_linesegment_intersections_finds_the_common_points_refuted.

(** ** C123: two arcs, region of an arc, symmetry *)
Theorem C123_arc_intersections_are_on_both_arcs_refuted : exists a b r p, arc_ok a /\ arc_ok b /\ arc2_arc_intersections a b (/ 10 ^ 6) = Ok r /\ In p r /\ forall q, arc_has (ac b) (ast b) (aen b) q -> 1 / 2 <= point_distance2 p q.
Proof. exact arcs_wrong. Qed.
Print Assumptions C123_arc_intersections_are_on_both_arcs_refuted.
Theorem C123_straight_line_point_belongs_is_the_region_refuted : exists a p, arc_ok a /\ ast a = V2 1 0 /\ aen a = V2 0 1 /\ center2 (ac a) = V2 0 0 /\ x2 p + y2 p < 1 / 2 /\ arc2_straight_line_point_belongs a p = Ok true.
Proof. exact straight_belongs_wrong. Qed.
Print Assumptions C123_straight_line_point_belongs_is_the_region_refuted.
Theorem C123_axial_symmetry_of_an_arc_refuted : exists a l b, arc_ok a /\ fst l <> snd l /\ arc2_axial_symmetry a l = Ok b /\ ~ on_circle2 (ac b) (ast b).
Proof. exact mirror_wrong. Qed.
Print Assumptions C123_axial_symmetry_of_an_arc_refuted.

