(** C92-C96: analytic surfaces (statements only). *)
From Verif.Model Require Import Base RBase Vec Frame Geometry BBox ParamSurf.
From Verif.Spec Require Import VecSpec FrameSpec BBoxSpec AngleSpec ParamSurfSpec.
From Verif.Proofs Require Import VecP FrameP ParamSurfP ParamSurfP2 ParamSurfP3 ParamSurfP4 ParamSurfP5 ParamSurfP6.
From Coq Require Import Reals Lra Lia.
Open Scope R_scope.

(** ** C92: the parametrisations describe the surfaces *)
@cyl_array_on C92_cylinder_points_lie_on_the_cylinder
@cone_array_on C92_cone_points_lie_on_the_cone
@sphere_array_on C92_sphere_points_lie_on_the_sphere
@torus_array_on C92_torus_points_lie_on_the_torus
@cyl_cover C92_every_point_of_the_cylinder_is_reached
@cone_cover C92_every_point_of_the_cone_is_reached
@sphere_cover C92_every_point_of_the_sphere_is_reached
@torus_cover C92_every_point_of_the_torus_is_reached
@cyl_agree C92_cylinder_scalar_and_array_versions_agree
@cone_agree C92_cone_scalar_and_array_versions_agree
@sphere_agree C92_sphere_scalar_and_array_versions_agree
@torus_agree C92_torus_scalar_and_array_versions_agree
Example C92_nonvacuous : direct (fb3 F0) /\ orthonormal (fb3 F0) /\ on_sphere F0 5 (V3 0 3 4) /\ 0 <= tan (PI / 4).
Proof.
  split; [exact F0_direct|]. split; [apply F0_direct|]. split; [|rewrite tan_PI4; lra].
  unfold on_sphere. rewrite norm_coords by exact F0_direct. rewrite F0_coords. unfold norm3. cbn [x3 y3 z3 dot3].
  apply sqrt_lem_1; lra.
Qed.

(** ** C93: [point3d_to_2d] inverts the parametrisation *)
@cyl_inverse C93_cylinder_parameters_are_recovered
@sphere_inverse C93_sphere_parameters_are_recovered
@cone_inverse C93_cone_parameters_are_recovered_above_the_apex
@torus_inverse C93_torus_parameters_are_recovered_for_minor_below_twice_major
@cone_belongs_wrong C177_cone_below_the_apex_refuted
@torus_inverse_wrong C177_deep_spindle_torus_refuted
Example C93_nonvacuous : direct (fb3 F0) /\ - PI < PI / 2 <= PI /\ unsnapped (/ 10 ^ 9) (PI / 2) /\
  unsnapped (/ 10 ^ 9) (PI - Rabs (PI / 2)) /\ unsnapped (/ 10 ^ 12) (1 * cos (PI / 2)) /\ unsnapped (/ 10 ^ 12) (1 * sin (PI / 2)) /\
  unsnapped (/ 10 ^ 6) (1 * sin (PI / 2)) /\ 0 < tan (PI / 4) * 1 /\ 3 + 1 * cos (PI / 2) > 0.
Proof.
  pose proof PI2_1 as P. pose proof PI_RGT_0 as P0. rewrite cos_PI2, sin_PI2, tan_PI4, (Rabs_pos_eq (PI / 2)) by lra.
  split; [exact F0_direct|]. split; [lra|]. split; [apply un1; rewrite Rabs_pos_eq; lra|].
  split; [apply un1; rewrite Rabs_pos_eq; lra|]. split; [left; ring|]. split; [apply un1; rewrite Rabs_pos_eq; lra|].
  split; [apply un1; rewrite Rabs_pos_eq; lra|]. split; lra.
Qed.

(** ** C94: [point_projection] and [point_distance] *)
@cyl_distance C94_cylinder_point_distance
@cyl_minimal C94_cylinder_distance_is_minimal
@cyl_attained C94_cylinder_distance_is_attained
@torus_distance C94_torus_point_distance
@torus_minimal C94_torus_distance_is_minimal
@torus_attained C94_torus_distance_is_attained
@sphere_round_trip C178_sphere_projection_fixes_the_points_of_the_sphere_partial
@cone_round_trip C178_cone_projection_fixes_the_points_above_the_apex_partial
@sphere_distance_wrong C178_sphere_point_distance_is_minimal_refuted
Example C94_nonvacuous : direct (fb3 F0) /\ / 10 ^ 11 <= tube_distance F0 3 (V3 0 0 0) /\ on_cone F0 (PI / 4) (V3 3 4 5).
Proof.
  split; [exact F0_direct|]. split.
  - rewrite tube_coords, F0_coords by exact F0_direct. cbn [x3 y3 z3]. pose proof (pow10_le1 11).
    unfold rho. replace (0 * 0 + 0 * 0) with 0 by ring. rewrite sqrt_0. replace ((0 - 3) * (0 - 3) + 0 * 0) with (3 * 3) by ring.
    rewrite sqrt_square by lra. lra.
  - unfold on_cone. rewrite axis_coords, F0_coords by exact F0_direct. change (height F0 (V3 3 4 5)) with (z3 (coords F0 (V3 3 4 5))).
    rewrite F0_coords, tan_PI4. cbn [x3 y3 z3]. rewrite Rabs_pos_eq by lra. unfold rho. apply sqrt_lem_1; lra.
Qed.

(** ** C95: [point_belongs] *)
@sphere_belongs_sound C95_sphere_point_belongs_is_sound
@sphere_belongs_complete C95_sphere_point_belongs_is_complete
@torus_belongs_sound C95_torus_point_belongs_is_sound
@torus_belongs_complete C95_torus_point_belongs_is_complete
@cone_belongs_sound C95_cone_point_belongs_is_sound
@cone_belongs_complete C95_cone_point_belongs_is_complete_above_the_apex
@cyl_belongs_spec C179_cylinder_point_belongs_compares_squares
@cyl_belongs_wrong C179_cylinder_point_belongs_is_sound_refuted
@cone_belongs_wrong C179_cone_point_belongs_is_complete_refuted
Example C95_nonvacuous : direct (fb3 F0) /\ orthonormal (fb3 F0) /\ unsnapped eps (dot3 (sub3 (V3 3 4 5) (org3 F0)) (bu (fb3 F0))) /\
  0 <= height F0 (V3 3 4 5).
Proof.
  split; [exact F0_direct|]. split; [apply F0_direct|]. split.
  - right. change (bu (fb3 F0)) with (V3 1 0 0). change (org3 F0) with (V3 0 0 0). unfold dot3, sub3. cbn [x3 y3 z3]. pose proof eps_le_1. rewrite Rabs_pos_eq; lra.
  - change (height F0 (V3 3 4 5)) with (z3 (coords F0 (V3 3 4 5))). rewrite F0_coords. cbn [z3]. lra.
Qed.

(** ** C96: bounding boxes of the sphere and of the torus *)
@sphere_box C96_sphere_bounding_box_contains_the_sphere
@torus_box C96_torus_bounding_box_contains_the_torus
Example C96_nonvacuous : on_sphere F0 5 (V3 0 3 4).
Proof. apply C92_nonvacuous. Qed.
