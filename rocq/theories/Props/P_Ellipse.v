(** C262-C273: ellipses (statements only). *)
From Coq Require Import List Bool Arith ZArith Reals Lra Lia.
From Verif.Model Require Import Base RBase Vec Frame BBox Geometry Curves Ellipse.
From Verif.Spec Require Import VecSpec FrameSpec BBoxSpec PlaneSpec CurvesSpec AngleSpec EllipseSpec EllipseSpec2.
From Verif.Proofs Require Import FrameP EllipseP EllipseP2 EllipseP3 EllipseP4 EllipseP5 EllipseP6 EllipseP7.
Import ListNotations.
Open Scope R_scope.

(** ** C262: intersections of an ellipse and a line *)
Theorem C262_every_intersection_is_on_both : forall e l tol pts p, ellipse_ok e -> well_placed e -> well_directed e l -> fst l <> snd l ->
  ellipse2_line_intersections e l tol = Ok pts -> In p pts -> line2_has l p /\ on_ellipse2 e p.
Proof. exact ellipse_line_sound. Qed.
Print Assumptions C262_every_intersection_is_on_both.
Theorem C262_secant_lines_both_points_are_found : forall e l tol r1 r2, ellipse_ok e -> well_placed e -> well_directed e l -> fst l <> snd l -> 0 <= tol ->
  line2_has l r1 -> on_ellipse2 e r1 -> line2_has l r2 -> on_ellipse2 e r2 -> r1 <> r2 ->
  exists pts, ellipse2_line_intersections e l tol = Ok pts /\ forall r, line2_has l r -> on_ellipse2 e r -> exists p, In p pts /\ point_distance2 r p <= / 10 ^ 6.
Proof. exact ellipse_line_complete. Qed.
Print Assumptions C262_secant_lines_both_points_are_found.
Theorem C262_far_lines_have_none : forall e l tol d, ellipse_ok e -> fst l <> snd l -> dist_to_line2 l (ecenter e) d -> emaj e + tol < d -> ellipse2_line_intersections e l tol = Ok [].
Proof. exact ellipse_line_far. Qed.
Print Assumptions C262_far_lines_have_none.
Theorem C262_nonvacuous : let e := E2 2 1 (F2 O2D (B2 X2D Y2D)) in let l := (V2 (-3) 0, V2 3 0) in let r1 := V2 2 0 in let r2 := V2 (-2) 0 in
  ellipse_ok e /\ well_placed e /\ well_directed e l /\ fst l <> snd l /\ line2_has l r1 /\ on_ellipse2 e r1 /\ line2_has l r2 /\ on_ellipse2 e r2 /\ r1 <> r2.
Proof. exact secant_example. Qed.
Print Assumptions C262_nonvacuous.

(** ** C263: lines that touch the ellipse, lines just outside *)
Theorem C263_tangent_lines_refuted : exists e l p, ellipse_ok e /\ fst l <> snd l /\ line2_has l p /\ on_ellipse2 e p /\ ellipse2_line_intersections e l (/ 10 ^ 6) = Ok [].
Proof. exact ellipse_tangent_refuted. Qed.
Print Assumptions C263_tangent_lines_refuted.
Theorem C263_lines_outside_refuted : exists e l, ellipse_ok e /\ fst l <> snd l /\ (forall p, line2_has l p -> ~ on_ellipse2 e p) /\ ellipse2_line_intersections e l (/ 10 ^ 6) = Err ValueError.
Proof. exact ellipse_outside_refuted. Qed.
Print Assumptions C263_lines_outside_refuted.

(** ** C264: bounding rectangle *)
Theorem C264_axis_aligned_ellipses_are_in_their_rectangle : forall e p, ellipse_ok e -> x2 (major_dir e) * y2 (major_dir e) = 0 -> on_ellipse2 e p -> in_rect (ellipse2_rectangle e) p.
Proof. exact rect_aligned. Qed.
Print Assumptions C264_axis_aligned_ellipses_are_in_their_rectangle.
Theorem C264_nonvacuous : let e := E2 2 1 (F2 O2D (B2 X2D Y2D)) in ellipse_ok e /\ x2 (major_dir e) * y2 (major_dir e) = 0.
Proof. exact rect_example. Qed.
Print Assumptions C264_nonvacuous.

(** ** C265: bounding rectangle and box of the others *)
Theorem C265_the_bounding_rectangle_refuted : exists e p, ellipse_ok e /\ on_ellipse2 e p /\ ~ in_rect (ellipse2_rectangle e) p.
Proof. exact rect_refuted. Qed.
Print Assumptions C265_the_bounding_rectangle_refuted.
Theorem C265_the_box_is_that_of_the_quarter_points : forall e b, ellipse3_bounding_box e = Ok b ->
  (in_box b (ellipse3_point e 0) /\ in_box b (ellipse3_point e (PI / 2)) /\ in_box b (ellipse3_point e PI) /\ in_box b (ellipse3_point e (- (PI / 2)))) /\
  forall b', in_box b' (ellipse3_point e 0) -> in_box b' (ellipse3_point e (PI / 2)) -> in_box b' (ellipse3_point e PI) -> in_box b' (ellipse3_point e (- (PI / 2))) ->
    box_le b b'.
Proof. exact box3_quarters. Qed.
Print Assumptions C265_the_box_is_that_of_the_quarter_points.
Theorem C265_the_bounding_box_refuted : exists e b t, direct (fb3 (ef3 e)) /\ 0 < emin3 e <= emaj3 e /\ ellipse3_bounding_box e = Ok b /\ ~ in_box b (ellipse3_point e t).
Proof. exact box3_refuted. Qed.
Print Assumptions C265_the_bounding_box_refuted.

(** ** C266: point_over_ellipse *)
Theorem C266_points_of_the_ellipse_are_accepted : forall e p tol, ellipse_ok e -> 0 <= tol -> on_ellipse2 e p -> point_over_ellipse e p tol = true.
Proof. exact over_accepts. Qed.
Print Assumptions C266_points_of_the_ellipse_are_accepted.
Theorem C266_accepted_points_nearly_satisfy_the_equation : forall e p tol, ellipse_ok e -> / 10 ^ 6 <= tol -> tol <= 1 -> point_over_ellipse e p tol = true ->
  Rabs (along_major e p ^ 2 / emaj e ^ 2 + along_minor e p ^ 2 / emin e ^ 2 - 1) <= tol + / 2000.
Proof. exact over_sound. Qed.
Print Assumptions C266_accepted_points_nearly_satisfy_the_equation.
Theorem C266_ellipses_of_the_plane : forall a b, 0 < b <= a -> ellipse_ok (E2 a b OXY2).
Proof. exact oxy_ok. Qed.
Print Assumptions C266_ellipses_of_the_plane.

(** ** C267: discretization *)
Theorem C267_the_points_at_equal_parameters_anticlockwise : forall e n, ellipse_ok e -> (2 <= n)%nat -> exists pts, ellipse2_discretization e n = Ok pts /\ length pts = n /\
  (forall i, (i < n)%nat -> nth_error pts i = Some (ellipse2_point e (cross2 (major_dir e) (minor_dir e) * (INR i * (2 * PI / INR (n - 1)))))).
Proof. exact discretization_ok. Qed.
Print Assumptions C267_the_points_at_equal_parameters_anticlockwise.
Theorem C267_closed_from_the_end_of_the_major_axis_on_the_ellipse : forall e n, ellipse_ok e -> (2 <= n)%nat -> exists pts, ellipse2_discretization e n = Ok pts /\
  nth_error pts 0 = Some (add2 (ecenter e) (mul2 (major_dir e) (emaj e))) /\ nth_error pts (n - 1) = nth_error pts 0 /\ forall p, In p pts -> on_ellipse2 e p.
Proof. exact ends_ok. Qed.
Print Assumptions C267_closed_from_the_end_of_the_major_axis_on_the_ellipse.
Theorem C267_three_dimensions : forall e n, (2 <= n)%nat -> length (ellipse3_discretization e n) = n /\
  forall i, (i < n)%nat -> nth_error (ellipse3_discretization e n) i = Some (ellipse3_point e (INR i * (2 * PI / INR (n - 1)))).
Proof. exact discretization3_ok. Qed.
Print Assumptions C267_three_dimensions.
Theorem C267_nonvacuous : ellipse_ok (E2 2 1 (F2 O2D (B2 (V2 (3 / 5) (4 / 5)) (V2 (- (4 / 5)) (3 / 5))))) /\ ellipse_ok (E2 2 1 (F2 O2D (B2 (V2 (3 / 5) (4 / 5)) (V2 (4 / 5) (- (3 / 5)))))).
Proof. exact tilted_example. Qed.
Print Assumptions C267_nonvacuous.

(** ** C268: reverse *)
Theorem C268_the_reversed_ellipse_has_the_same_points : forall e, ellipse_ok e -> ellipse_ok (ellipse2_reverse e) /\ forall p, on_ellipse2 (ellipse2_reverse e) p <-> on_ellipse2 e p.
Proof. exact reverse_ok. Qed.
Print Assumptions C268_the_reversed_ellipse_has_the_same_points.
Theorem C268_and_the_same_discretization : forall e n, ellipse_ok e -> (2 <= n)%nat -> ellipse2_discretization (ellipse2_reverse e) n = ellipse2_discretization e n.
Proof. exact reverse_same. Qed.
Print Assumptions C268_and_the_same_discretization.
Theorem C268_reverse_refuted : exists e pts, ellipse_ok e /\ ellipse2_discretization e 5 = Ok pts /\ ellipse2_discretization (ellipse2_reverse e) 5 = Ok pts /\ pts <> rev pts.
Proof. exact reverse_refuted. Qed.
Print Assumptions C268_reverse_refuted.

(** ** C269: moves *)
Theorem C269_rotation : forall e c a, ellipse_ok e -> exists e', ellipse2_rotation e c a = Ok e' /\ ellipse_ok e' /\ emaj e' = emaj e /\ emin e' = emin e /\
  forall t, ellipse2_point e' t = rotation2 (ellipse2_point e t) c a.
Proof. exact rotation_moves. Qed.
Print Assumptions C269_rotation.
Theorem C269_translation : forall e o t, ellipse2_point (ellipse2_translation e o) t = translation2 (ellipse2_point e t) o.
Proof. exact translation_moves. Qed.
Print Assumptions C269_translation.
Theorem C269_mapping_to_the_old_frame : forall e f t, ellipse2_point (ellipse2_mapping_old e f) t = frame2_l2g f (ellipse2_point e t).
Proof. exact mapping_old_moves. Qed.
Print Assumptions C269_mapping_to_the_old_frame.
Theorem C269_mapping_to_a_new_frame : forall e f, orthonormal2 (fb2 f) -> exists e', ellipse2_mapping_new e f = Ok e' /\ ellipse2_mapping_old e' f = e /\ forall t, frame2_g2l f (ellipse2_point e t) = Ok (ellipse2_point e' t).
Proof. exact mapping_new_moves. Qed.
Print Assumptions C269_mapping_to_a_new_frame.
Theorem C269_translation_in_space : forall e o t, ellipse3_point (ellipse3_translation e o) t = translation3 (ellipse3_point e t) o.
Proof. exact translation3_moves. Qed.
Print Assumptions C269_translation_in_space.
Theorem C269_rotation_in_space : forall e c ax a t, / 10 ^ 6 < point_distance3 c (org3 (ef3 e)) -> ellipse3_point (ellipse3_rotation e c ax a) t = rotation3 (ellipse3_point e t) c ax a.
Proof. exact rotation3_moves. Qed.
Print Assumptions C269_rotation_in_space.

(** ** C270: angles *)
Theorem C270_the_angle_of_the_point_of_parameter_t : forall e t, ellipse_ok e -> 0 <= t < 2 * PI * (1 - / 10 ^ 9) -> point_angle_with_major_dir e (ellipse2_point e t) = Ok t.
Proof. exact angle_ok. Qed.
Print Assumptions C270_the_angle_of_the_point_of_parameter_t.
Theorem C270_every_point_has_an_angle : forall e p, ellipse_ok e -> on_ellipse2 e p -> exists t, point_angle_with_major_dir e p = Ok t /\ 0 <= t < 2 * PI.
Proof. exact angle_total. Qed.
Print Assumptions C270_every_point_has_an_angle.
Theorem C270_nonvacuous : 0 <= 1 < 2 * PI * (1 - / 10 ^ 9).
Proof. exact angle_example. Qed.
Print Assumptions C270_nonvacuous.

(** ** C271: length and area *)
Theorem C271_length : forall e, 0 < emin e -> 0 < emaj e -> exists l, ellipse2_length e = Ok l /\ PI * (emaj e + emin e) <= l <= 14 / 11 * (PI * (emaj e + emin e)) /\
  (emaj e = emin e -> l = 2 * PI * emaj e) /\ (forall f, ellipse2_length (E2 (emin e) (emaj e) f) = Ok l).
Proof. exact length_ok. Qed.
Print Assumptions C271_length.
Theorem C271_area : forall e, ellipse_ok e -> Un_cv (fun n => inscribed_area e (S n)) (ellipse2_area e).
Proof. exact area_ok. Qed.
Print Assumptions C271_area.

(** ** C272: Ellipse3D.point_belongs *)
Theorem C272_the_points_of_the_ellipse_belong : forall e t tol, direct (fb3 (ef3 e)) -> / 10 ^ 6 <= emin3 e -> / 10 ^ 6 <= emaj3 e -> / 10 ^ 6 <= tol -> ellipse3_point_belongs e (ellipse3_point e t) tol = Ok true.
Proof. exact belongs3_accepts. Qed.
Print Assumptions C272_the_points_of_the_ellipse_belong.
Theorem C272_the_projection_of_a_point_that_belongs_nearly_satisfies_the_equation : forall e p tol, direct (fb3 (ef3 e)) -> 0 < emin3 e -> 0 < emaj3 e -> / 10 ^ 6 <= tol <= 1 -> ellipse3_point_belongs e p tol = Ok true -> exists x y,
  Rabs (x - dot3 (sub3 p (org3 (ef3 e))) (bu (fb3 (ef3 e)))) <= eps /\ Rabs (y - dot3 (sub3 p (org3 (ef3 e))) (bv (fb3 (ef3 e)))) <= eps /\
  Rabs (x ^ 2 / emaj3 e ^ 2 + y ^ 2 / emin3 e ^ 2 - 1) <= tol.
Proof. exact belongs3_sound. Qed.
Print Assumptions C272_the_projection_of_a_point_that_belongs_nearly_satisfies_the_equation.

(** ** C273: points out of the plane *)
Theorem C273_point_belongs_refuted : exists e p, direct (fb3 (ef3 e)) /\ 0 < emin3 e <= emaj3 e /\ ellipse3_point_belongs e p (/ 10 ^ 6) = Ok true /\ forall t, 5 <= point_distance3 p (ellipse3_point e t).
Proof. exact belongs3_refuted. Qed.
Print Assumptions C273_point_belongs_refuted.

