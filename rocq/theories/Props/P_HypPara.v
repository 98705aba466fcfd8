(** C297-C309: hyperbolas and parabolas (statements only). *)
From Coq Require Import List Bool Arith ZArith Reals Lra Lia.
From Verif.Model Require Import Base RBase Vec Frame Geometry Plane Curves Ellipse HypPara.
From Verif.Spec Require Import VecSpec FrameSpec PlaneSpec CurvesSpec HypParaSpec.
From Verif.Proofs Require Import HypParaP HypParaP2 HypParaP3.
Import ListNotations.
Open Scope R_scope.

(** ** C297: the points of a hyperbola *)
Theorem C297_points_in_the_plane h lo hi n : ha h <> 0 -> hb h <> 0 -> lo <> 0 \/ hi <> 0 -> (2 <= n)%nat -> exists l, hyperbola2_points h (Some lo) (Some hi) n = Ok l /\ length l = n /\
  (forall p, In p l -> on_branch2 h p) /\
  forall i, (i < n)%nat -> exists x, nth i l O2D = frame2_point (hf h) (V2 x (lo + INR i * ((hi - lo) / INR (n - 1)))).
Proof. exact (points2_ok h lo hi n). Qed.
Print Assumptions C297_points_in_the_plane.
Theorem C297_points_without_bounds h n : ha h <> 0 -> hb h <> 0 -> exists l, hyperbola2_points h None None n = Ok l /\ length l = n /\ (forall p, In p l -> on_branch2 h p).
Proof. exact (points2_default h n). Qed.
Print Assumptions C297_points_without_bounds.
Theorem C297_only_one_bound h y n : y <> 0 -> hyperbola2_points h None (Some y) n = Err TypeError /\ hyperbola2_points h (Some y) None n = Err TypeError.
Proof. exact (points2_one_bound h y n). Qed.
Print Assumptions C297_only_one_bound.
Theorem C297_null_bounds h n : hyperbola2_points h (Some 0) (Some 0) n = hyperbola2_points h None None n.
Proof. exact (points2_null h n). Qed.
Print Assumptions C297_null_bounds.
Theorem C297_points_in_space h lo hi n : ha3 h <> 0 -> hb3 h <> 0 -> lo <> 0 \/ hi <> 0 -> (2 <= n)%nat -> exists l, hyperbola3_points h (Some lo) (Some hi) n = Ok l /\ length l = n /\
  forall p, In p l -> exists p', on_branch3 h p' /\ near (/ 10 ^ 16) p p'.
Proof. exact (points3_ok h lo hi n). Qed.
Print Assumptions C297_points_in_space.
Theorem C297_the_foci h p : orthonormal2 (fb2 (hf h)) -> 0 < ha h -> 0 < hb h -> on_branch2 h p -> bifocal h p.
Proof. exact (branch_bifocal h p). Qed.
Print Assumptions C297_the_foci.
Example C297_nonvacuous : exists h : hyperbola2, orthonormal2 (fb2 (hf h)) /\ 0 < ha h /\ 0 < hb h /\ exists p, on_branch2 h p.
Proof. destruct vertical_refuted as ((h & l & p & O & A & B & P & _) & _). eauto 8. Qed.
(** ** C298, C299: points that belong to it *)
Theorem C298_points_of_the_plane_refuted : exists h p q, orthonormal2 (fb2 (hf h)) /\ 0 < ha h /\ 0 < hb h /\
  on_branch2 h p /\ hyperbola2_point_belongs h p (/ 10 ^ 6) = Ok false /\
  x2 (local2 (hf h) q) ^ 2 / ha h ^ 2 - y2 (local2 (hf h) q) ^ 2 / hb h ^ 2 = 5 /\ hyperbola2_point_belongs h q (/ 10 ^ 6) = Ok true.
Proof. exact belongs2_refuted. Qed.
Print Assumptions C298_points_of_the_plane_refuted.
Theorem C298_minor_axis_one h p tol : orthonormal2 (fb2 (hf h)) -> hb h = 1 -> 0 <= tol -> on_branch2 h p ->
  hyperbola2_point_belongs h p tol = Ok true /\ hyperbola2_point_belongs h (sub2 (mul2 (org2 (hf h)) 2) p) tol = Ok true.
Proof. exact (belongs2_unit h p tol). Qed.
Print Assumptions C298_minor_axis_one.
Theorem C299_the_height_over_the_plane f : direct (fb3 f) -> forall p t tol,
  (forall a b, hyperbola3_point_belongs (H3 f a b) (add3 p (mul3 (bw (fb3 f)) t)) tol = hyperbola3_point_belongs (H3 f a b) p tol) /\
  forall k, parabola3_point_belongs (Pa3 f k) (add3 p (mul3 (bw (fb3 f)) t)) tol = parabola3_point_belongs (Pa3 f k) p tol.
Proof. exact (belongs3_ignores_height f). Qed.
Print Assumptions C299_the_height_over_the_plane.
Theorem C299_points_over_the_plane_refuted : (forall tol, 0 <= tol -> hyperbola3_point_belongs (H3 world3 1 2) (V3 (5 / 4) (3 / 2) 7) tol = Ok true /\ parabola3_point_belongs (Pa3 world3 (1 / 4)) (V3 1 1 7) tol = Ok true) /\
  (forall p, on_branch3 (H3 world3 1 2) p -> 7 <= point_distance3 (V3 (5 / 4) (3 / 2) 7) p) /\ forall p, on_parabola3 (Pa3 world3 (1 / 4)) p -> 7 <= point_distance3 (V3 1 1 7) p.
Proof. exact off_plane. Qed.
Print Assumptions C299_points_over_the_plane_refuted.
Theorem C299_points_of_a_hyperbola_in_space h x y tol : direct (fb3 (hf3 h)) -> ha3 h <> 0 -> hb3 h <> 0 -> branch (ha3 h) (hb3 h) (V2 x y) -> / 10 ^ 16 <= x -> y = 0 \/ / 10 ^ 16 <= Rabs y -> 0 <= tol ->
  hyperbola3_point_belongs h (frame_point (hf3 h) (V3 x y 0)) tol = Ok true.
Proof. exact (hyp3_accepts h x y tol). Qed.
Print Assumptions C299_points_of_a_hyperbola_in_space.
Theorem C299_points_of_a_parabola_in_space p x y tol : direct (fb3 (pf3 p)) -> focal3 p <> 0 -> 4 * focal3 p * y = x ^ 2 -> x = 0 \/ / 10 ^ 16 <= Rabs x -> y = 0 \/ / 10 ^ 16 <= Rabs y -> 0 <= tol ->
  parabola3_point_belongs p (frame_point (pf3 p) (V3 x y 0)) tol = Ok true.
Proof. exact (par3_accepts p x y tol). Qed.
Print Assumptions C299_points_of_a_parabola_in_space.
(** ** C300, C301: lines and hyperbolas *)
Theorem C300_the_common_points h l : orthonormal2 (fb2 (hf h)) -> ha h <> 0 -> hb h <> 0 -> ~ parallel_to_v (hf h) l -> (ha h * slope_in (hf h) l) ^ 2 <> hb h ^ 2 ->
  exists r, hyperbola2_line_intersections h l = Ok r /\ forall p, In p r <-> on_branch2 h p /\ line2_has l p.
Proof. exact (hyp_line_ok h l). Qed.
Print Assumptions C300_the_common_points.
Example C300_nonvacuous : exists h l, orthonormal2 (fb2 (hf h)) /\ ha h <> 0 /\ hb h <> 0 /\ ~ parallel_to_v (hf h) l /\ (ha h * slope_in (hf h) l) ^ 2 <> hb h ^ 2 /\ exists p, on_branch2 h p /\ line2_has l p.
Proof. exact line_example. Qed.
Theorem C301_lines_parallel_to_the_second_axis f l : orthonormal2 (fb2 f) -> parallel_to_v f l -> (forall a b, hyperbola2_line_intersections (H2 f a b) l = Err TypeError) /\ forall k tol, parabola2_line_intersections (Pa2 f k) l tol = Err TypeError.
Proof. exact (vertical_errors f l). Qed.
Print Assumptions C301_lines_parallel_to_the_second_axis.
Theorem C301_common_points_lost_refuted : (exists h l p, orthonormal2 (fb2 (hf h)) /\ 0 < ha h /\ 0 < hb h /\ on_branch2 h p /\ line2_has l p /\ hyperbola2_line_intersections h l = Err TypeError) /\
  exists q l p, orthonormal2 (fb2 (pf q)) /\ 0 < focal q /\ on_parabola2 q p /\ line2_has l p /\ forall tol, parabola2_line_intersections q l tol = Err TypeError.
Proof. exact vertical_refuted. Qed.
Print Assumptions C301_common_points_lost_refuted.
Theorem C301_lines_parallel_to_an_asymptote h l : orthonormal2 (fb2 (hf h)) -> ~ parallel_to_v (hf h) l -> (ha h * slope_in (hf h) l) ^ 2 = hb h ^ 2 -> hyperbola2_line_intersections h l = Ok [].
Proof. exact (asymptote_empty h l). Qed.
Print Assumptions C301_lines_parallel_to_an_asymptote.
Theorem C301_a_point_on_them_refuted : exists h l p, orthonormal2 (fb2 (hf h)) /\ 0 < ha h /\ 0 < hb h /\ on_branch2 h p /\ line2_has l p /\ hyperbola2_line_intersections h l = Ok [].
Proof. exact asymptote_refuted. Qed.
Print Assumptions C301_a_point_on_them_refuted.
(** ** C302, C303: tangents *)
Theorem C302_the_derivative a b y : a <> 0 -> b <> 0 -> derivable_pt_lim (hyp_x a b) y (hyp_dx_dy a b y).
Proof. exact (hyp_derivative a b y). Qed.
Print Assumptions C302_the_derivative.
Theorem C302_in_the_standard_frame h q : hf h = F2 O2D (B2 X2D Y2D) -> ha h <> 0 -> hb h <> 0 -> exists k, hyperbola2_tangent h q = Ok (V2 k 1) /\ derivable_pt_lim (hyp_x (ha h) (hb h)) (y2 q) k.
Proof. exact (hyp_tangent_ok h q). Qed.
Print Assumptions C302_in_the_standard_frame.
Theorem C302_in_space h x y : orthonormal (fb3 (hf3 h)) -> ha3 h <> 0 -> hb3 h <> 0 -> exists k t, hyperbola3_tangent h (frame_point (hf3 h) (V3 x y 0)) = Ok t /\ derivable_pt_lim (hyp_x (ha3 h) (hb3 h)) y k /\
  point_distance3 t (add3 (mul3 (bu (fb3 (hf3 h))) k) (bv (fb3 (hf3 h)))) <= / 10 ^ 12.
Proof. exact (hyp3_tangent h x y). Qed.
Print Assumptions C302_in_space.
Example C302_nonvacuous : exists h, orthonormal (fb3 (hf3 h)) /\ ha3 h <> 0 /\ hb3 h <> 0.
Proof. exists (H3 world3 1 2). cbn [hf3 ha3 hb3]. split; [exact (proj1 std3)|]. split; lra. Qed.
Theorem C303_in_other_frames_refuted : exists h p t k, orthonormal2 (fb2 (hf h)) /\ 0 < ha h /\ 0 < hb h /\ on_branch2 h p /\ derivable_pt_lim (hyp_x (ha h) (hb h)) (y2 (local2 (hf h) p)) k /\
  hyperbola2_tangent h p = Ok t /\ cross2 t (add2 (mul2 (u2 (fb2 (hf h))) k) (v2 (fb2 (hf h)))) <> 0.
Proof. exact tangent2_refuted. Qed.
Print Assumptions C303_in_other_frames_refuted.
(** ** C304: equality *)
Theorem C304_when_two_hyperbolas_are_equal frames a1 b1 a2 b2 : hyperbola_eq frames a1 b1 a2 b2 = true <-> frames = true /\ a1 = a2 /\ b1 <> b2.
Proof. exact (hyp_eq_iff frames a1 b1 a2 b2). Qed.
Print Assumptions C304_when_two_hyperbolas_are_equal.
Theorem C304_equality_refuted : (forall a b, hyperbola_eq true a b a b = false) /\ hyperbola_eq true 1 2 1 3 = true.
Proof. exact hyp_eq_refuted. Qed.
Print Assumptions C304_equality_refuted.
(** ** C305: points of a parabola *)
Theorem C305_points_in_the_plane p lo hi n : orthonormal2 (fb2 (pf p)) -> focal p <> 0 -> lo <> 0 \/ hi <> 0 -> (2 <= n)%nat -> exists l, parabola2_points p (Some lo) (Some hi) n = Ok l /\ length l = n /\
  (forall q, In q l -> on_parabola2 p q) /\
  forall i, (i < n)%nat -> exists y, nth i l O2D = frame2_point (pf p) (V2 (lo + INR i * ((hi - lo) / INR (n - 1))) y).
Proof. exact (par_points_ok p lo hi n). Qed.
Print Assumptions C305_points_in_the_plane.
Theorem C305_points_in_space p lo hi n : focal3 p <> 0 -> lo <> 0 \/ hi <> 0 -> (2 <= n)%nat -> exists l, parabola3_points p (Some lo) (Some hi) n = Ok l /\ length l = n /\
  forall q, In q l -> exists q', on_parabola3 p q' /\ near (/ 10 ^ 16) q q'.
Proof. exact (par_points3_ok p lo hi n). Qed.
Print Assumptions C305_points_in_space.
Theorem C305_points_that_belong p q tol : orthonormal2 (fb2 (pf p)) -> focal p <> 0 -> 0 <= tol -> exists b, parabola2_point_belongs p q tol = Ok b /\ (on_parabola2 p q -> b = true) /\
  (b = true -> exists q', on_parabola2 p q' /\ point_distance2 q q' <= Rmax (/ 10 ^ 9 * Rmax (Rabs (y2 (local2 (pf p) q))) (Rabs (y2 (local2 (pf p) q')))) tol).
Proof. exact (par_belongs p q tol). Qed.
Print Assumptions C305_points_that_belong.
Example C305_nonvacuous : exists p, orthonormal2 (fb2 (pf p)) /\ focal p <> 0 /\ exists q, on_parabola2 p q.
Proof. destruct vertical_refuted as (_ & (q & l & p & O & F & P & _)). exists q. split; [exact O|]. split; [lra|]. eauto. Qed.
(** ** C306, C307: lines and parabolas *)
Theorem C306_the_common_points p l tol : orthonormal2 (fb2 (pf p)) -> focal p <> 0 -> 0 <= tol -> ~ parallel_to_v (pf p) l ->
  let m := slope_in (pf p) l in let c := height_in (pf p) l in
  0 < m ^ 2 + c / focal p \/ (m ^ 2 + c / focal p < - tol /\ m ^ 2 + c / focal p < - (/ 10 ^ 9 * Rmax (m ^ 2) (Rabs (c / focal p)))) ->
  exists r, parabola2_line_intersections p l tol = Ok r /\ forall q, In q r <-> on_parabola2 p q /\ line2_has l q.
Proof. exact (par_line_ok p l tol). Qed.
Print Assumptions C306_the_common_points.
Example C306_nonvacuous : exists p l, orthonormal2 (fb2 (pf p)) /\ focal p <> 0 /\ ~ parallel_to_v (pf p) l /\ 0 < slope_in (pf p) l ^ 2 + height_in (pf p) l / focal p.
Proof. exact par_line_example. Qed.
Theorem C307_tangent_lines p l tol : orthonormal2 (fb2 (pf p)) -> 0 < focal p -> ~ parallel_to_v (pf p) l -> 0 <= tol -> slope_in (pf p) l ^ 2 + height_in (pf p) l / focal p = 0 ->
  exists s, parabola2_line_intersections p l tol = Ok [local2 (pf p) s] /\ on_parabola2 p s /\ line2_has l s.
Proof. exact (tangent_line_local p l tol). Qed.
Print Assumptions C307_tangent_lines.
Theorem C307_the_point_of_a_tangent_line_refuted : exists p l s, orthonormal2 (fb2 (pf p)) /\ 0 < focal p /\ parabola2_line_intersections p l (/ 10 ^ 6) = Ok [s] /\ ~ line2_has l s /\ exists s', on_parabola2 p s' /\ line2_has l s'.
Proof. exact tangent_line_refuted. Qed.
Print Assumptions C307_the_point_of_a_tangent_line_refuted.
(** ** C308, C309: tangents and arcs of a parabola *)
Theorem C308_the_derivative f x : f <> 0 -> derivable_pt_lim (par_y f) x (2 * par_a f * x).
Proof. exact (par_derivative f x). Qed.
Print Assumptions C308_the_derivative.
Theorem C308_in_the_plane p q : orthonormal2 (fb2 (pf p)) -> focal p <> 0 -> exists t k, parabola2_tangent p q = Ok t /\ t = add2 (u2 (fb2 (pf p))) (mul2 (v2 (fb2 (pf p))) k) /\
  derivable_pt_lim (par_y (focal p)) (x2 (local2 (pf p) q)) k.
Proof. exact (par_tangent_ok p q). Qed.
Print Assumptions C308_in_the_plane.
Theorem C308_in_space p x y : orthonormal (fb3 (pf3 p)) -> focal3 p <> 0 -> exists k t, parabola3_tangent p (frame_point (pf3 p) (V3 x y 0)) = Ok t /\ derivable_pt_lim (par_y (focal3 p)) x k /\
  point_distance3 t (add3 (bu (fb3 (pf3 p))) (mul3 (bv (fb3 (pf3 p))) k)) <= / 10 ^ 12.
Proof. exact (par3_tangent p x y). Qed.
Print Assumptions C308_in_space.
Example C308_nonvacuous : exists p, orthonormal (fb3 (pf3 p)) /\ focal3 p <> 0.
Proof. exists (Pa3 world3 1). cbn [pf3 focal3]. split; [exact (proj1 std3)|]. lra. Qed.
Theorem C309_the_arc_is_a_bezier_curve p p1 p2 : orthonormal2 (fb2 (pf p)) -> 0 < focal p -> on_parabola2 p p1 -> on_parabola2 p p2 -> / 10 ^ 15 * (2 * focal p) < Rabs (dot2 (sub2 p2 p1) (u2 (fb2 (pf p)))) ->
  exists q, parabola2_trim p p1 p2 = Ok [p1; q; p2] /\
  (forall t, on_parabola2 p (bezier2 p1 q p2 t)) /\
  forall s, (exists t, 0 <= t <= 1 /\ s = bezier2 p1 q p2 t) <-> on_parabola2 p s /\
    Rmin (x2 (local2 (pf p) p1)) (x2 (local2 (pf p) p2)) <= x2 (local2 (pf p) s) <= Rmax (x2 (local2 (pf p) p1)) (x2 (local2 (pf p) p2)).
Proof. exact (trim_ok p p1 p2). Qed.
Print Assumptions C309_the_arc_is_a_bezier_curve.
Example C309_nonvacuous : exists p p1 p2, orthonormal2 (fb2 (pf p)) /\ 0 < focal p /\ on_parabola2 p p1 /\ on_parabola2 p p2 /\ / 10 ^ 15 * (2 * focal p) < Rabs (dot2 (sub2 p2 p1) (u2 (fb2 (pf p)))).
Proof. exact trim_example. Qed.

