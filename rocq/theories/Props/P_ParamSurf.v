(** C92-C96: analytic surfaces (statements only). *)
From Verif.Model Require Import Base RBase Vec Frame Geometry BBox ParamSurf.
From Verif.Spec Require Import VecSpec FrameSpec BBoxSpec AngleSpec ParamSurfSpec.
From Verif.Proofs Require Import VecP FrameP ParamSurfP ParamSurfP2 ParamSurfP3 ParamSurfP4 ParamSurfP5 ParamSurfP6.
From Coq Require Import Reals Lra Lia.
Open Scope R_scope.

(** ** C92: the parametrisations describe the surfaces *)
Theorem C92_cylinder_points_lie_on_the_cylinder f r p : orthonormal (fb3 f) -> 0 <= r -> on_cylinder f r (cyl_array f r p) /\ height f (cyl_array f r p) = y2 p.
Proof. exact (cyl_array_on f r p). Qed.
Print Assumptions C92_cylinder_points_lie_on_the_cylinder.
Theorem C92_cone_points_lie_on_the_cone f a p : orthonormal (fb3 f) -> on_cone f a (cone_array f a p) /\ height f (cone_array f a p) = y2 p.
Proof. exact (cone_array_on f a p). Qed.
Print Assumptions C92_cone_points_lie_on_the_cone.
Theorem C92_sphere_points_lie_on_the_sphere f r p : orthonormal (fb3 f) -> 0 <= r -> on_sphere f r (sphere_array f r p).
Proof. exact (sphere_array_on f r p). Qed.
Print Assumptions C92_sphere_points_lie_on_the_sphere.
Theorem C92_torus_points_lie_on_the_torus f M m p : orthonormal (fb3 f) -> 0 <= m <= M -> on_torus f M m (torus_array f M m p).
Proof. exact (torus_array_on f M m p). Qed.
Print Assumptions C92_torus_points_lie_on_the_torus.
Theorem C92_every_point_of_the_cylinder_is_reached f r p : direct (fb3 f) -> on_cylinder f r p -> exists theta, - PI < theta <= PI /\ p = cyl_array f r (V2 theta (height f p)).
Proof. exact (cyl_cover f r p). Qed.
Print Assumptions C92_every_point_of_the_cylinder_is_reached.
Theorem C92_every_point_of_the_cone_is_reached f a p : direct (fb3 f) -> 0 <= tan a -> on_cone f a p -> exists theta, - PI < theta <= PI /\ p = cone_array f a (V2 theta (height f p)).
Proof. exact (cone_cover f a p). Qed.
Print Assumptions C92_every_point_of_the_cone_is_reached.
Theorem C92_every_point_of_the_sphere_is_reached f r p : direct (fb3 f) -> 0 < r -> on_sphere f r p ->
  exists theta phi, - PI < theta <= PI /\ - (PI / 2) <= phi <= PI / 2 /\ p = sphere_array f r (V2 theta phi).
Proof. exact (sphere_cover f r p). Qed.
Print Assumptions C92_every_point_of_the_sphere_is_reached.
Theorem C92_every_point_of_the_torus_is_reached f M m p : direct (fb3 f) -> 0 < m <= M -> on_torus f M m p ->
  exists theta phi, - PI < theta <= PI /\ - PI < phi <= PI /\ p = torus_array f M m (V2 theta phi).
Proof. exact (torus_cover f M m p). Qed.
Print Assumptions C92_every_point_of_the_torus_is_reached.
Theorem C92_cylinder_scalar_and_array_versions_agree f r p : near eps (cyl_2d_to_3d f r p) (cyl_array f r p).
Proof. exact (cyl_agree f r p). Qed.
Print Assumptions C92_cylinder_scalar_and_array_versions_agree.
Theorem C92_cone_scalar_and_array_versions_agree f a p : near eps (cone_2d_to_3d f a p) (cone_array f a p).
Proof. exact (cone_agree f a p). Qed.
Print Assumptions C92_cone_scalar_and_array_versions_agree.
Theorem C92_sphere_scalar_and_array_versions_agree f r p : near eps (sphere_2d_to_3d f r p) (sphere_array f r p).
Proof. exact (sphere_agree f r p). Qed.
Print Assumptions C92_sphere_scalar_and_array_versions_agree.
Theorem C92_torus_scalar_and_array_versions_agree f M m p : near eps (torus_2d_to_3d f M m p) (torus_array f M m p).
Proof. exact (torus_agree f M m p). Qed.
Print Assumptions C92_torus_scalar_and_array_versions_agree.
Example C92_nonvacuous : direct (fb3 F0) /\ orthonormal (fb3 F0) /\ on_sphere F0 5 (V3 0 3 4) /\ 0 <= tan (PI / 4).
Proof.
  split; [exact F0_direct|]. split; [apply F0_direct|]. split; [|rewrite tan_PI4; lra].
  unfold on_sphere. rewrite norm_coords by exact F0_direct. rewrite F0_coords. unfold norm3. cbn [x3 y3 z3 dot3].
  apply sqrt_lem_1; lra.
Qed.

(** ** C93: [point3d_to_2d] inverts the parametrisation *)
Theorem C93_cylinder_parameters_are_recovered f r theta z : direct (fb3 f) -> 0 < r -> - PI < theta <= PI ->
  unsnapped (/ 10 ^ 9) theta -> unsnapped (/ 10 ^ 12) (r * cos theta) -> unsnapped (/ 10 ^ 12) (r * sin theta) -> unsnapped eps z ->
  cyl_3d_to_2d f (cyl_array f r (V2 theta z)) = Ok (V2 theta z).
Proof. exact (cyl_inverse f r theta z). Qed.
Print Assumptions C93_cylinder_parameters_are_recovered.
Theorem C93_sphere_parameters_are_recovered f r theta phi : direct (fb3 f) -> 0 < r -> - PI < theta <= PI -> - (PI / 2) < phi < PI / 2 ->
  unsnapped (/ 10 ^ 10) theta -> unsnapped (/ 10 ^ 10) phi ->
  unsnapped (/ 10 ^ 7) (r * cos phi * cos theta) -> unsnapped (/ 10 ^ 7) (r * cos phi * sin theta) -> unsnapped eps (r * sin phi) ->
  sphere_3d_to_2d f r (sphere_array f r (V2 theta phi)) = Ok (V2 theta phi).
Proof. exact (sphere_inverse f r theta phi). Qed.
Print Assumptions C93_sphere_parameters_are_recovered.
Theorem C93_cone_parameters_are_recovered_above_the_apex f a theta z : direct (fb3 f) -> 0 < tan a * z -> - PI < theta <= PI ->
  unsnapped (/ 10 ^ 9) theta -> unsnapped (/ 10 ^ 12) (tan a * z * cos theta) -> unsnapped (/ 10 ^ 12) (tan a * z * sin theta) -> unsnapped eps z ->
  cone_3d_to_2d f (cone_array f a (V2 theta z)) = Ok (V2 theta z).
Proof. exact (cone_inverse f a theta z). Qed.
Print Assumptions C93_cone_parameters_are_recovered_above_the_apex.
Theorem C93_torus_parameters_are_recovered_for_minor_below_twice_major f M m theta phi : direct (fb3 f) -> 0 < m < 2 * M -> - PI < theta <= PI -> - PI < phi <= PI ->
  (M + m * cos phi <= 0 -> M + m * cos phi < 0 /\ theta < PI) ->
  unsnapped (/ 10 ^ 9) theta -> unsnapped (/ 10 ^ 9) (PI - Rabs theta) -> unsnapped (/ 10 ^ 9) phi -> unsnapped (/ 10 ^ 9) (PI - Rabs phi) ->
  unsnapped (/ 10 ^ 12) ((M + m * cos phi) * cos theta) -> unsnapped (/ 10 ^ 12) ((M + m * cos phi) * sin theta) -> unsnapped (/ 10 ^ 6) (m * sin phi) ->
  torus_3d_to_2d f M m (torus_array f M m (V2 theta phi)) = Ok (V2 theta phi).
Proof. exact (torus_inverse f M m theta phi). Qed.
Print Assumptions C93_torus_parameters_are_recovered_for_minor_below_twice_major.
Theorem C177_cone_below_the_apex_refuted : exists f a p, direct (fb3 f) /\ tan a = 1 /\ on_cone f a p /\ p = cone_array f a (V2 0 (-1)) /\
  cone_3d_to_2d f p = Ok (V2 PI (-1)) /\ surface_point_distance (cone_point_projection f a) p = Ok 2 /\ surface_point_belongs (cone_point_projection f a) p (/ 10 ^ 6) = Ok false.
Proof. exact cone_belongs_wrong. Qed.
Print Assumptions C177_cone_below_the_apex_refuted.
Theorem C177_deep_spindle_torus_refuted : exists f M m theta phi q, direct (fb3 f) /\ 0 < M < m /\ - PI < theta <= PI /\ - PI < phi <= PI /\
  torus_3d_to_2d f M m (torus_array f M m (V2 theta phi)) = Ok q /\ point_distance3 (torus_array f M m q) (torus_array f M m (V2 theta phi)) = 2.
Proof. exact torus_inverse_wrong. Qed.
Print Assumptions C177_deep_spindle_torus_refuted.
Example C93_nonvacuous : direct (fb3 F0) /\ - PI < PI / 2 <= PI /\ unsnapped (/ 10 ^ 9) (PI / 2) /\
  unsnapped (/ 10 ^ 9) (PI - Rabs (PI / 2)) /\ unsnapped (/ 10 ^ 12) (1 * cos (PI / 2)) /\ unsnapped (/ 10 ^ 12) (1 * sin (PI / 2)) /\
  unsnapped (/ 10 ^ 6) (1 * sin (PI / 2)) /\ 0 < tan (PI / 4) * 1 /\ 3 + 1 * cos (PI / 2) > 0.
Proof.
  pose proof PI2_1 as P. pose proof PI_RGT_0 as P0. rewrite cos_PI2, sin_PI2, tan_PI4, (Rabs_pos_eq (PI / 2)) by lra.
  split; [exact F0_direct|]. split; [lra|]. split; [apply un1; rewrite Rabs_pos_eq; lra|].
  split; [apply un1; rewrite Rabs_pos_eq; lra|]. split; [left; ring|]. split; [apply un1; rewrite Rabs_pos_eq; lra|].
  split; [apply un1; rewrite Rabs_pos_eq; lra|]. split; lra.
Qed.

(** ** C94: [point_projection] and [point_distance] *)
Theorem C94_cylinder_point_distance f r p : direct (fb3 f) -> 0 <= r ->
  exists q d, cyl_point_projection f r p = Ok q /\ surface_point_distance (cyl_point_projection f r) p = Ok d /\ d = point_distance3 q p /\
  Rabs (d - Rabs (axis_distance f p - r)) <= / 10 ^ 11 + / 10 ^ 9 * r.
Proof. exact (cyl_distance f r p). Qed.
Print Assumptions C94_cylinder_point_distance.
Theorem C94_cylinder_distance_is_minimal f r p q : direct (fb3 f) -> on_cylinder f r q -> Rabs (axis_distance f p - r) <= point_distance3 p q.
Proof. exact (cyl_minimal f r p q). Qed.
Print Assumptions C94_cylinder_distance_is_minimal.
Theorem C94_cylinder_distance_is_attained f r p : direct (fb3 f) -> 0 <= r -> exists q, on_cylinder f r q /\ point_distance3 p q = Rabs (axis_distance f p - r).
Proof. exact (cyl_attained f r p). Qed.
Print Assumptions C94_cylinder_distance_is_attained.
Theorem C94_torus_point_distance f M m p : direct (fb3 f) -> 0 < M -> 0 <= m -> / 10 ^ 11 <= tube_distance f M p ->
  exists q d, torus_point_projection f M m p = Ok q /\ surface_point_distance (torus_point_projection f M m) p = Ok d /\ d = point_distance3 q p /\
  Rabs (d - Rabs (tube_distance f M p - m)) <= / 10 ^ 11 + / 10 ^ 9 * (M + 2 * m).
Proof. exact (torus_distance f M m p). Qed.
Print Assumptions C94_torus_point_distance.
Theorem C94_torus_distance_is_minimal f M m p q : direct (fb3 f) -> 0 <= m <= M -> on_torus f M m q -> Rabs (tube_distance f M p - m) <= point_distance3 p q.
Proof. exact (torus_minimal f M m p q). Qed.
Print Assumptions C94_torus_distance_is_minimal.
Theorem C94_torus_distance_is_attained f M m p : direct (fb3 f) -> 0 <= m <= M -> exists q, on_torus f M m q /\ point_distance3 p q = Rabs (tube_distance f M p - m).
Proof. exact (torus_attained f M m p). Qed.
Print Assumptions C94_torus_distance_is_attained.
Theorem C178_sphere_projection_fixes_the_points_of_the_sphere_partial f r p : direct (fb3 f) -> 0 < r -> on_sphere f r p ->
  exists q, sphere_point_projection f r p = Ok q /\ point_distance3 q p <= 5 * / 10 ^ 7 + 3 * / 10 ^ 10 * r.
Proof. exact (sphere_round_trip f r p). Qed.
Print Assumptions C178_sphere_projection_fixes_the_points_of_the_sphere_partial.
Theorem C178_cone_projection_fixes_the_points_above_the_apex_partial f a p : direct (fb3 f) -> 0 < tan a -> 0 <= height f p -> on_cone f a p ->
  exists q, cone_point_projection f a p = Ok q /\ point_distance3 q p <= (1 + tan a) * / 10 ^ 11 + / 10 ^ 9 * axis_distance f p.
Proof. exact (cone_round_trip f a p). Qed.
Print Assumptions C178_cone_projection_fixes_the_points_above_the_apex_partial.
Theorem C178_sphere_point_distance_is_minimal_refuted : exists f r p d s, direct (fb3 f) /\ 0 < r /\ surface_point_distance (sphere_point_projection f r) p = Ok d /\ on_sphere f r s /\ point_distance3 p s < d / (3 / 2).
Proof. exact sphere_distance_wrong. Qed.
Print Assumptions C178_sphere_point_distance_is_minimal_refuted.
Example C94_nonvacuous : direct (fb3 F0) /\ / 10 ^ 11 <= tube_distance F0 3 (V3 0 0 0) /\ on_cone F0 (PI / 4) (V3 3 4 5).
Proof.
  split; [exact F0_direct|]. split.
  - rewrite tube_coords, F0_coords by exact F0_direct. cbn [x3 y3 z3]. pose proof (pow10_le1 11).
    unfold rho. replace (0 * 0 + 0 * 0) with 0 by ring. rewrite sqrt_0. replace ((0 - 3) * (0 - 3) + 0 * 0) with (3 * 3) by ring.
    rewrite sqrt_square by lra. lra.
  - unfold on_cone. rewrite axis_coords, F0_coords by exact F0_direct. change (height F0 (V3 3 4 5)) with (z3 (coords F0 (V3 3 4 5))).
    rewrite F0_coords, tan_PI4. cbn [x3 y3 z3]. rewrite Rabs_pos_eq by lra. unfold rho. apply sqrt_lem_1; lra.
Qed.

(** ** C95: [point_belongs] *)
Theorem C95_sphere_point_belongs_is_sound f r p tol : orthonormal (fb3 f) -> 0 <= r -> surface_point_belongs (sphere_point_projection f r) p tol = Ok true ->
  exists s, on_sphere f r s /\ point_distance3 s p < tol + 2 * eps.
Proof. exact (sphere_belongs_sound f r p tol). Qed.
Print Assumptions C95_sphere_point_belongs_is_sound.
Theorem C95_sphere_point_belongs_is_complete f r p tol : direct (fb3 f) -> 0 < r -> 5 * / 10 ^ 7 + 3 * / 10 ^ 10 * r < tol -> on_sphere f r p ->
  surface_point_belongs (sphere_point_projection f r) p tol = Ok true.
Proof. exact (sphere_belongs_complete f r p tol). Qed.
Print Assumptions C95_sphere_point_belongs_is_complete.
Theorem C95_torus_point_belongs_is_sound f M m p tol : orthonormal (fb3 f) -> 0 <= m <= M -> surface_point_belongs (torus_point_projection f M m) p tol = Ok true ->
  exists s, on_torus f M m s /\ point_distance3 s p < tol + 2 * eps.
Proof. exact (torus_belongs_sound f M m p tol). Qed.
Print Assumptions C95_torus_point_belongs_is_sound.
Theorem C95_torus_point_belongs_is_complete f M m p tol : direct (fb3 f) -> 0 < M -> / 10 ^ 11 <= m -> / 10 ^ 11 + / 10 ^ 9 * (M + 2 * m) < tol -> on_torus f M m p ->
  surface_point_belongs (torus_point_projection f M m) p tol = Ok true.
Proof. exact (torus_belongs_complete f M m p tol). Qed.
Print Assumptions C95_torus_point_belongs_is_complete.
Theorem C95_cone_point_belongs_is_sound f a p tol : orthonormal (fb3 f) -> surface_point_belongs (cone_point_projection f a) p tol = Ok true ->
  exists s, on_cone f a s /\ point_distance3 s p < tol + 2 * eps.
Proof. exact (cone_belongs_sound f a p tol). Qed.
Print Assumptions C95_cone_point_belongs_is_sound.
Theorem C95_cone_point_belongs_is_complete_above_the_apex f a p tol : direct (fb3 f) -> 0 < tan a -> (1 + tan a) * / 10 ^ 11 + / 10 ^ 9 * axis_distance f p < tol -> 0 <= height f p -> on_cone f a p ->
  surface_point_belongs (cone_point_projection f a) p tol = Ok true.
Proof. exact (cone_belongs_complete f a p tol). Qed.
Print Assumptions C95_cone_point_belongs_is_complete_above_the_apex.
Theorem C179_cylinder_point_belongs_compares_squares f r p tol : direct (fb3 f) ->
  unsnapped eps (dot3 (sub3 p (org3 f)) (bu (fb3 f))) -> unsnapped eps (dot3 (sub3 p (org3 f)) (bv (fb3 f))) ->
  (cyl_point_belongs f r p tol = Ok true <-> Rabs (axis_distance f p ^ 2 - r ^ 2) <= Rmax (/ 10 ^ 9 * Rmax (axis_distance f p ^ 2) (r ^ 2)) tol).
Proof. exact (cyl_belongs_spec f r p tol). Qed.
Print Assumptions C179_cylinder_point_belongs_compares_squares.
Theorem C179_cylinder_point_belongs_is_sound_refuted : exists f r p tol, direct (fb3 f) /\ tol = / 10 ^ 5 /\ cyl_point_belongs f r p tol = Ok true /\
  forall s, on_cylinder f r s -> 100 * tol <= point_distance3 p s.
Proof. exact cyl_belongs_wrong. Qed.
Print Assumptions C179_cylinder_point_belongs_is_sound_refuted.
Theorem C179_cone_point_belongs_is_complete_refuted : exists f a p, direct (fb3 f) /\ tan a = 1 /\ on_cone f a p /\ p = cone_array f a (V2 0 (-1)) /\
  cone_3d_to_2d f p = Ok (V2 PI (-1)) /\ surface_point_distance (cone_point_projection f a) p = Ok 2 /\ surface_point_belongs (cone_point_projection f a) p (/ 10 ^ 6) = Ok false.
Proof. exact cone_belongs_wrong. Qed.
Print Assumptions C179_cone_point_belongs_is_complete_refuted.
Example C95_nonvacuous : direct (fb3 F0) /\ orthonormal (fb3 F0) /\ unsnapped eps (dot3 (sub3 (V3 3 4 5) (org3 F0)) (bu (fb3 F0))) /\
  0 <= height F0 (V3 3 4 5).
Proof.
  split; [exact F0_direct|]. split; [apply F0_direct|]. split.
  - right. change (bu (fb3 F0)) with (V3 1 0 0). change (org3 F0) with (V3 0 0 0). unfold dot3, sub3. cbn [x3 y3 z3]. pose proof eps_le_1. rewrite Rabs_pos_eq; lra.
  - change (height F0 (V3 3 4 5)) with (z3 (coords F0 (V3 3 4 5))). rewrite F0_coords. cbn [z3]. lra.
Qed.

(** ** C96: bounding boxes of the sphere and of the torus *)
Theorem C96_sphere_bounding_box_contains_the_sphere f r : 0 <= r -> exists b, bbox_from_points (sphere_corners f r) = Ok b /\ forall p, on_sphere f r p -> in_box b p.
Proof. exact (sphere_box f r). Qed.
Print Assumptions C96_sphere_bounding_box_contains_the_sphere.
Theorem C96_torus_bounding_box_contains_the_torus f M m : 0 <= M -> 0 <= m -> exists b, bbox_from_points (torus_corners f M m) = Ok b /\ forall p, in_box b (torus_array f M m p).
Proof. exact (torus_box f M m). Qed.
Print Assumptions C96_torus_bounding_box_contains_the_torus.
Example C96_nonvacuous : on_sphere F0 5 (V3 0 3 4).
Proof. apply C92_nonvacuous. Qed.

