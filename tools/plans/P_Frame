(** Property theorems: matrices, bases, frames (C56, C57, C62). *)
From Coq Require Import Reals Lra Lia List Bool.
From Verif.Model Require Import RBase Vec Frame.
From Verif.Spec Require Import VecSpec FrameSpec.
From Verif.Proofs Require Import VecP LineP FrameP FrameP2.
Open Scope R_scope.

(** ** C57 matrices *)
@mmul33_assoc C57_product33_associative
@mmul22_assoc C57_product22_associative
@mmul33_add C57_product33_distributive
@mmul33_id C57_identity33
@mmul22_id C57_identity22
@det33_mul C57_determinant33_multiplicative
@det22_mul C57_determinant22_multiplicative
@inverse33_ok C57_inverse33
@inverse22_ok C57_inverse22
@inverse33_total C57_inverse33_total
@inverse22_total C57_inverse22_total
@inverse33_err C57_inverse33_error
@inverse22_err C57_inverse22_error
@mvec22_mul C57_apply22_compose
@mvec33_near C57_apply33 Matrix33 times vector is the exact product up to 1e-16 per component.
@snap_exact C57_apply33_exact
@madd22_apply C57_sum22
@madd33_apply C57_sum33
@float_mul33_apply C57_scalar33
@det33_scale C57_scalar33_determinant
@mvec22_coords C57_apply22
@det22_coords C57_determinant22
@det33_coords C57_determinant33
@inverse33_small C129_small_scale_refuted An invertible matrix (1e-5 times the identity) whose inverse raises ValueError.

(** ** C56 frames *)
@basis2_g2l_l2g C56_basis2_global_local_global
@basis2_l2g_g2l C56_basis2_local_global_local
@frame2_g2l_l2g C56_frame2_global_local_global
@frame2_l2g_g2l C56_frame2_local_global_local
@frame2_add_l2g C56_frame2_composition
@frame2_mapping_roundtrip C56_frame2_mapping_roundtrip
@frame2_mapping_old_points C56_frame2_mapping_points
@frame2_rotation_points C56_frame2_rotation
@frame2_translation_points C56_frame2_translation
@basis3_roundtrip_gl C56_basis3_global_local_global
@basis3_roundtrip_lg C56_basis3_local_global_local
@frame3_roundtrip_gl C56_frame3_global_local_global
@frame3_roundtrip_lg C56_frame3_local_global_local
@direct_frame_roundtrip C56_direct_frame_roundtrip
@direct_g2l C56_direct_local_coordinates
@direct_inverse C56_direct_inverse_is_transpose
@basis3_add_sub C56_basis3_sub_add
@basis3_add_neg C56_basis3_neg
@frame3_add_l2g C56_frame3_composition
@frame3_sub_add C56_frame3_sub_add
@basis2_l2g_comb C56_basis2_coordinates
@frame2_l2g_comb C56_frame2_coordinates
@basis3_l2g_near C56_basis3_coordinates
@frame3_l2g_near C56_frame3_coordinates
@frame3_translation_points C56_frame3_translation
@frame3_rotation_points C56_frame3_rotation
@frame3_rotation_close C56_frame3_rotation_about_origin
@frame2_rotation_keep C56_frame2_rotation_origin_only
@frame2_rotation_close C56_frame2_rotation_about_origin
@frame3_mapping_roundtrip C56_frame3_mapping_roundtrip
@frame3_mapping_new_total C56_frame3_mapping_total
@frame3_mapping_old_points C56_frame3_mapping_points
@frame3_neg_wrong C128_frame3_neg_refuted The frame added to its opposite is not the global frame.
Example C56_nonvacuous : direct (fb3 (F3 (V3 1 2 3) (B3 Y3D Z3D X3D))) /\ mbound 1 (transfer_matrix3 (B3 Y3D Z3D X3D)).
Proof.
  assert (D : direct (B3 Y3D Z3D X3D)).
  { unfold direct, orthonormal, X3D, Y3D, Z3D, dot3, cross3. cbn. repeat split; try ring. v_eq; ring. }
  split; [exact D|]. apply orthonormal_bound, D.
Qed.
Example C56_nonvacuous2 : / 10 ^ 10 < Rabs (det22 (transfer_matrix2 (B2 (V2 0 1) (V2 (-1) 0)))).
Proof. unfold det22, transfer_matrix2. cbn [a11 a12 a21 a22 u2 v2 x2 y2]. rewrite Rabs_right; lra. Qed.

(** ** C62 frame constructors *)
@from_two_vectors_ok C62_from_two_vectors
@from_two_vectors_wrong C130_from_two_vectors_refuted
@from_3_points_ok C62_from_3_points
@from_point_and_normal_ok C62_from_point_and_normal
@from_point_and_normal_total C62_from_point_and_normal_total
@frame_from_step_ok C62_from_step
@frame_from_step_side C62_from_step_side
@frame_from_step_axis C62_from_step_axis_only
@frame_from_step_ref C62_from_step_ref_only
@frame_from_step_default C62_from_step_default
@euler_value C62_euler_matrix
@from_point_and_vector_ok C62_from_point_and_vector
@from_point_and_vector_total C62_from_point_and_vector_total
@from_point_and_vector_left C130_from_point_and_vector_refuted Opposite to the main axis, the frame returned is left-handed.
@rotation3_direct C62_rotation_direct
@euler_direct C62_euler_direct
@is_orthonormal_sound C62_is_orthonormal_sound
@is_orthonormal_complete C62_is_orthonormal_complete
Example C62_nonvacuous : exists f, from_point_and_vector O3D (V3 1 2 3) X3D = Ok f.
Proof. apply from_point_and_vector_total; auto. intros C; injection C; lra. Qed.
