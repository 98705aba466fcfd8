(** C45-C49, C78, C79: angles (statements only). *)
From Coq Require Import Reals Lra.
From Verif.Model Require Import RBase Vec Frame Geometry Curves Geometry3.
From Verif.Spec Require Import AngleSpec CurvesSpec.
From Verif.Proofs Require Import VecP GeometryP GeometryP2.
Open Scope R_scope.

(** ** C45 images of intervals *)
Theorem C45_cos_image_is_the_exact_image x1 x2 : x1 <= x2 -> image_is cos x1 x2 (fst (cos_image x1 x2)) (snd (cos_image x1 x2)).
Proof. exact (cos_image_spec x1 x2). Qed.
Print Assumptions C45_cos_image_is_the_exact_image.
Theorem C45_sin_image_is_the_exact_image x1 x2 : x1 <= x2 -> image_is sin x1 x2 (fst (sin_image x1 x2)) (snd (sin_image x1 x2)).
Proof. exact (sin_image_spec x1 x2). Qed.
Print Assumptions C45_sin_image_is_the_exact_image.
Example C45_nonvacuous : -5 <= 40.
Proof. lra. Qed.

(** ** C46 angle of a point of the unit circle *)
Theorem C46_angle_with_given_cosine_and_sine u1 u2 : u1 * u1 + u2 * u2 = 1 ->
  exists theta, 0 <= theta < 2 * PI /\ cos theta = u1 /\ sin theta = u2 /\
    (theta < 2 * PI * (1 - / 10 ^ 9) -> sin_cos_angle u1 u2 = theta) /\
    (2 * PI * (1 - / 10 ^ 9) <= theta -> sin_cos_angle u1 u2 = 0).
Proof. exact (sin_cos_angle_spec u1 u2). Qed.
Print Assumptions C46_angle_with_given_cosine_and_sine.
Theorem C46_inverts_cos_and_sin t : exists theta, 0 <= theta < 2 * PI /\ same_angle theta t /\
    (theta < 2 * PI * (1 - / 10 ^ 9) -> sin_cos_angle (cos t) (sin t) = theta) /\
    (2 * PI * (1 - / 10 ^ 9) <= theta -> sin_cos_angle (cos t) (sin t) = 0).
Proof. exact (sin_cos_angle_of_angle t). Qed.
Print Assumptions C46_inverts_cos_and_sin.
Theorem C46_range u1 u2 : u1 * u1 + u2 * u2 = 1 -> 0 <= sin_cos_angle u1 u2 < 2 * PI.
Proof. exact (sin_cos_angle_range u1 u2). Qed.
Print Assumptions C46_range.
Example C46_nonvacuous : (-3/5) * (-3/5) + (-4/5) * (-4/5) = 1.
Proof. lra. Qed.

(** ** C47 Euler angles *)
Theorem C47_euler_angles_give_a_rotation psi theta phi : rotation_matrix (euler_angles_to_transfer_matrix psi theta phi).
Proof. exact (euler_rotation psi theta phi). Qed.
Print Assumptions C47_euler_angles_give_a_rotation.
Theorem C47_rotation_rebuilt_from_its_euler_angles r : rotation_matrix r -> exists psi theta phi, transfer_matrix_to_euler_angles r = Ok (psi, theta, phi) /\
  euler_angles_to_transfer_matrix psi theta phi = r.
Proof. exact (euler_round_trip r). Qed.
Print Assumptions C47_rotation_rebuilt_from_its_euler_angles.
(** The second and third columns of the matrix are filled with v.y and w.z three times. *)
Theorem C125_direction_to_euler_angles_refuted : exists u v psi theta phi, dot3 u u = 1 /\ dot3 u v = 0 /\ dot3 v v = 1 /\
  direction_to_euler_angles u v = Ok (psi, theta, phi) /\
  V3 (m11 (euler_angles_to_transfer_matrix psi theta phi)) (m21 (euler_angles_to_transfer_matrix psi theta phi)) (m31 (euler_angles_to_transfer_matrix psi theta phi)) <> u.
Proof. exact direction_euler_wrong. Qed.
Print Assumptions C125_direction_to_euler_angles_refuted.
Example C47_nonvacuous : rotation_matrix (M33 0 (-1) 0 1 0 0 0 0 1) /\ rotation_matrix (M33 1 0 0 0 (-1) 0 0 0 (-1)) /\ rotation_matrix (M33 (3/5) 0 (4/5) 0 1 0 (-4/5) 0 (3/5)).
Proof. unfold rotation_matrix; cbn; repeat split; lra. Qed.

(** ** C48 clockwise angle *)
(** Range (0, 2 pi] instead of [0, 2 pi). *)
Theorem C48_clockwise_angle_rotates_onto_the_second v w : v <> V2 0 0 -> w <> V2 0 0 ->
  0 < clockwise_angle v w <= 2 * PI /\ same_direction (rotate_clockwise v (clockwise_angle v w)) w.
Proof. exact (clockwise_angle_spec v w). Qed.
Print Assumptions C48_clockwise_angle_rotates_onto_the_second.
Theorem C48_null_vector v w : v = V2 0 0 \/ w = V2 0 0 -> clockwise_angle v w = 0.
Proof. exact (clockwise_angle_zero v w). Qed.
Print Assumptions C48_null_vector.
Theorem C48_aligned_vectors_are_a_full_turn_apart v w : v <> V2 0 0 -> same_direction v w -> clockwise_angle v w = 2 * PI.
Proof. exact (clockwise_angle_aligned v w). Qed.
Print Assumptions C48_aligned_vectors_are_a_full_turn_apart.
Theorem C154_range_refuted : exists v w, v <> V2 0 0 /\ w <> V2 0 0 /\ ~ (0 <= clockwise_angle v w < 2 * PI).
Proof. exact clockwise_range_wrong. Qed.
Print Assumptions C154_range_refuted.
Example C48_nonvacuous : V2 1 2 <> V2 0 0 /\ same_direction (V2 1 2) (V2 3 6).
Proof. split; [intros E; apply (f_equal x2) in E; cbn in E; lra|exists 3; cbn; repeat split; lra]. Qed.

(** ** C49 principal measure *)
(** The bound min_angle is ignored. *)
Theorem C180_congruent_up_to_snapping angle m : exists r, 0 <= r < 2 * PI /\ same_angle r angle /\
  (angle_principal_measure angle m = r \/
   (angle_principal_measure angle m = m /\ isclose r m (/ 10 ^ 9) = true) \/
   (angle_principal_measure angle m = m + 2 * PI /\ isclose r (m + 2 * PI) (/ 10 ^ 9) = true)).
Proof. exact (principal_measure_spec angle m). Qed.
Print Assumptions C180_congruent_up_to_snapping.
Theorem C180_range_when_min_angle_is_zero angle : 0 <= angle_principal_measure angle 0 <= 2 * PI.
Proof. exact (principal_measure_0 angle). Qed.
Print Assumptions C180_range_when_min_angle_is_zero.
Theorem C49_default_range_refuted : exists angle, ~ (- PI <= angle_principal_measure angle (- PI) <= - PI + 2 * PI).
Proof. exact principal_range_wrong. Qed.
Print Assumptions C49_default_range_refuted.
Theorem C49_three_quarter_turn : angle_principal_measure (3 * (PI / 2)) (- PI) = 3 * (PI / 2) /\ - PI + 2 * PI < 3 * (PI / 2).
Proof. exact principal_measure_default_wrong. Qed.
Print Assumptions C49_three_quarter_turn.

(** ** C78 angle of two vectors of space *)
Theorem C78_angle_of_two_vectors u v : u <> V3 0 0 0 -> v <> V3 0 0 0 -> exists theta, vectors3d_angle u v = Ok theta /\ 0 <= theta <= PI /\
  norm3 u * norm3 v * cos theta = dot3 u v.
Proof. exact (vectors3d_angle_spec u v). Qed.
Print Assumptions C78_angle_of_two_vectors.
Theorem C78_null_vector_rejected u v : u = V3 0 0 0 \/ v = V3 0 0 0 -> vectors3d_angle u v = Err ZeroDivisionError.
Proof. exact (vectors3d_angle_zero u v). Qed.
Print Assumptions C78_null_vector_rejected.
Example C78_nonvacuous : V3 1 2 3 <> V3 0 0 0.
Proof. intros E; apply (f_equal x3) in E; cbn in E; lra. Qed.

(** ** C79 interior point of a clockwise arc *)
(** For angles outside the last 2e-9 pi of the turn. *)
Theorem C79_interior_point_is_half_way_clockwise c t1 t2 : 0 < cr3 c -> dot3 (bu (fb3 (cf3 c))) (bu (fb3 (cf3 c))) = 1 -> dot3 (bv (fb3 (cf3 c))) (bv (fb3 (cf3 c))) = 1 -> dot3 (bu (fb3 (cf3 c))) (bv (fb3 (cf3 c))) = 0 ->
  0 <= t1 < 2 * PI * (1 - / 10 ^ 9) -> 0 <= t2 < 2 * PI * (1 - / 10 ^ 9) ->
  exists delta, 0 < delta <= PI /\ circle3_point c t2 = circle3_point c (t1 - 2 * delta) /\ clockwise_interior3d (circle3_point c t1) (circle3_point c t2) c = circle3_point c (t1 - delta).
Proof. exact (clockwise_interior3_spec c t1 t2). Qed.
Print Assumptions C79_interior_point_is_half_way_clockwise.
Theorem C79_interior_point_in_the_plane_of_the_circle r t1 t2 : 0 < r -> 0 <= t1 < 2 * PI * (1 - / 10 ^ 9) -> 0 <= t2 < 2 * PI * (1 - / 10 ^ 9) ->
  let s := V2 (r * cos t1) (r * sin t1) in let e := V2 (r * cos t2) (r * sin t2) in
  exists delta, 0 < delta <= PI /\ e = rotate_clockwise s (2 * delta) /\ clockwise_interior2d s e r = rotate_clockwise s delta.
Proof. exact (clockwise_interior_spec r t1 t2). Qed.
Print Assumptions C79_interior_point_in_the_plane_of_the_circle.
Example C79_nonvacuous : 0 < 5 /\ 0 <= 1 < 2 * PI * (1 - / 10 ^ 9) /\ 0 <= 0 < 2 * PI * (1 - / 10 ^ 9).
Proof.
  assert (3 < PI) by (pose proof PI2_3_2; unfold PI2 in *; lra).
  assert (/ 10 ^ 9 < 1/100) by (apply Rmult_lt_reg_l with (10 ^ 9); [lra|]; rewrite Rinv_r by lra; lra).
  assert (0 < / 10 ^ 9) by (apply Rinv_0_lt_compat; lra). repeat split; nra.
Qed.

