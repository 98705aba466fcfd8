(** C45-C49, C78, C79: angles (statements only). *)
From Coq Require Import Reals Lra.
From Verif.Model Require Import RBase Vec Frame Geometry Curves Geometry3.
From Verif.Spec Require Import AngleSpec CurvesSpec.
From Verif.Proofs Require Import VecP GeometryP GeometryP2.
Open Scope R_scope.

(** ** C45 images of intervals *)
@cos_image_spec C45_cos_image_is_the_exact_image
@sin_image_spec C45_sin_image_is_the_exact_image
Example C45_nonvacuous : -5 <= 40.
Proof. lra. Qed.

(** ** C46 angle of a point of the unit circle *)
@sin_cos_angle_spec C46_angle_with_given_cosine_and_sine
@sin_cos_angle_of_angle C46_inverts_cos_and_sin
@sin_cos_angle_range C46_range
Example C46_nonvacuous : (-3/5) * (-3/5) + (-4/5) * (-4/5) = 1.
Proof. lra. Qed.

(** ** C47 Euler angles *)
@euler_rotation C47_euler_angles_give_a_rotation
@euler_round_trip C47_rotation_rebuilt_from_its_euler_angles
@direction_euler_wrong C125_direction_to_euler_angles_refuted The second and third columns of the matrix are filled with v.y and w.z three times.
Example C47_nonvacuous : rotation_matrix (M33 0 (-1) 0 1 0 0 0 0 1) /\ rotation_matrix (M33 1 0 0 0 (-1) 0 0 0 (-1)) /\ rotation_matrix (M33 (3/5) 0 (4/5) 0 1 0 (-4/5) 0 (3/5)).
Proof. unfold rotation_matrix; cbn; repeat split; lra. Qed.

(** ** C48 clockwise angle *)
@clockwise_angle_spec C48_clockwise_angle_rotates_onto_the_second Range (0, 2 pi] instead of [0, 2 pi).
@clockwise_angle_zero C48_null_vector
@clockwise_angle_aligned C48_aligned_vectors_are_a_full_turn_apart
Theorem C154_range_refuted : exists v w, v <> V2 0 0 /\ w <> V2 0 0 /\ ~ (0 <= clockwise_angle v w < 2 * PI).
Proof. exact clockwise_range_wrong. Qed.
Print Assumptions C154_range_refuted.
Example C48_nonvacuous : V2 1 2 <> V2 0 0 /\ same_direction (V2 1 2) (V2 3 6).
Proof. split; [intros E; apply (f_equal x2) in E; cbn in E; lra|exists 3; cbn; repeat split; lra]. Qed.

(** ** C49 principal measure *)
@principal_measure_spec C180_congruent_up_to_snapping The bound min_angle is ignored.
@principal_measure_0 C180_range_when_min_angle_is_zero
Theorem C49_default_range_refuted : exists angle, ~ (- PI <= angle_principal_measure angle (- PI) <= - PI + 2 * PI).
Proof. exact principal_range_wrong. Qed.
Print Assumptions C49_default_range_refuted.
@principal_measure_default_wrong C49_three_quarter_turn

(** ** C78 angle of two vectors of space *)
@vectors3d_angle_spec C78_angle_of_two_vectors
@vectors3d_angle_zero C78_null_vector_rejected
Example C78_nonvacuous : V3 1 2 3 <> V3 0 0 0.
Proof. intros E; apply (f_equal x3) in E; cbn in E; lra. Qed.

(** ** C79 interior point of a clockwise arc *)
@clockwise_interior3_spec C79_interior_point_is_half_way_clockwise For angles outside the last 2e-9 pi of the turn.
@clockwise_interior_spec C79_interior_point_in_the_plane_of_the_circle
Example C79_nonvacuous : 0 < 5 /\ 0 <= 1 < 2 * PI * (1 - / 10 ^ 9) /\ 0 <= 0 < 2 * PI * (1 - / 10 ^ 9).
Proof.
  assert (3 < PI) by (pose proof PI2_3_2; unfold PI2 in *; lra).
  assert (/ 10 ^ 9 < 1/100) by (apply Rmult_lt_reg_l with (10 ^ 9); [lra|]; rewrite Rinv_r by lra; lra).
  assert (0 < / 10 ^ 9) by (apply Rinv_0_lt_compat; lra). repeat split; nra.
Qed.
