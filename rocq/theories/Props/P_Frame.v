(** Property theorems: matrices, bases, frames (C56, C57, C62). *)
From Coq Require Import Reals Lra Lia List Bool.
From Verif.Model Require Import RBase Vec Frame.
From Verif.Spec Require Import VecSpec FrameSpec.
From Verif.Proofs Require Import VecP LineP FrameP FrameP2.
Open Scope R_scope.

(** ** C57 matrices *)
Theorem C57_product33_associative a b c : mmul33 (mmul33 a b) c = mmul33 a (mmul33 b c).
Proof. exact (mmul33_assoc a b c). Qed.
Print Assumptions C57_product33_associative.
Theorem C57_product22_associative a b c : mmul22 (mmul22 a b) c = mmul22 a (mmul22 b c).
Proof. exact (mmul22_assoc a b c). Qed.
Print Assumptions C57_product22_associative.
Theorem C57_product33_distributive a b c : mmul33 a (madd33 b c) = madd33 (mmul33 a b) (mmul33 a c).
Proof. exact (mmul33_add a b c). Qed.
Print Assumptions C57_product33_distributive.
Theorem C57_identity33 a : mmul33 I33 a = a /\ mmul33 a I33 = a.
Proof. exact (mmul33_id a). Qed.
Print Assumptions C57_identity33.
Theorem C57_identity22 a : mmul22 I22 a = a /\ mmul22 a I22 = a.
Proof. exact (mmul22_id a). Qed.
Print Assumptions C57_identity22.
Theorem C57_determinant33_multiplicative a b : det33 (mmul33 a b) = det33 a * det33 b.
Proof. exact (det33_mul a b). Qed.
Print Assumptions C57_determinant33_multiplicative.
Theorem C57_determinant22_multiplicative a b : det22 (mmul22 a b) = det22 a * det22 b.
Proof. exact (det22_mul a b). Qed.
Print Assumptions C57_determinant22_multiplicative.
Theorem C57_inverse33 m n : inverse33 m = Ok n -> mmul33 m n = I33 /\ mmul33 n m = I33 /\ / 10 ^ 12 < Rabs (det33 m).
Proof. exact (inverse33_ok m n). Qed.
Print Assumptions C57_inverse33.
Theorem C57_inverse22 m n : inverse22 m = Ok n -> mmul22 m n = I22 /\ mmul22 n m = I22 /\ / 10 ^ 10 < Rabs (det22 m).
Proof. exact (inverse22_ok m n). Qed.
Print Assumptions C57_inverse22.
Theorem C57_inverse33_total m : / 10 ^ 12 < Rabs (det33 m) -> exists n, inverse33 m = Ok n.
Proof. exact (inverse33_total m). Qed.
Print Assumptions C57_inverse33_total.
Theorem C57_inverse22_total m : / 10 ^ 10 < Rabs (det22 m) -> exists n, inverse22 m = Ok n.
Proof. exact (inverse22_total m). Qed.
Print Assumptions C57_inverse22_total.
Theorem C57_inverse33_error m e : inverse33 m = Err e <-> Rabs (det33 m) <= / 10 ^ 12 /\ e = ValueError.
Proof. exact (inverse33_err m e). Qed.
Print Assumptions C57_inverse33_error.
Theorem C57_inverse22_error m e : inverse22 m = Err e <-> Rabs (det22 m) <= / 10 ^ 10 /\ e = ValueError.
Proof. exact (inverse22_err m e). Qed.
Print Assumptions C57_inverse22_error.
Theorem C57_apply22_compose a b v : mvec22 (mmul22 a b) v = mvec22 a (mvec22 b v).
Proof. exact (mvec22_mul a b v). Qed.
Print Assumptions C57_apply22_compose.
(** Matrix33 times vector is the exact product up to 1e-16 per component. *)
Theorem C57_apply33 m v : near eps (mvec33 m v) (mapply m v).
Proof. exact (mvec33_near m v). Qed.
Print Assumptions C57_apply33.
Theorem C57_apply33_exact u : u = 0 \/ eps <= Rabs u -> snap u = u.
Proof. exact (snap_exact u). Qed.
Print Assumptions C57_apply33_exact.
Theorem C57_sum22 m n v : mvec22 (madd22 m n) v = add2 (mvec22 m v) (mvec22 n v).
Proof. exact (madd22_apply m n v). Qed.
Print Assumptions C57_sum22.
Theorem C57_sum33 m n v : mapply (madd33 m n) v = add3 (mapply m v) (mapply n v).
Proof. exact (madd33_apply m n v). Qed.
Print Assumptions C57_sum33.
Theorem C57_scalar33 m k v : mapply (float_multiplication33 m k) v = mul3 (mapply m v) k.
Proof. exact (float_mul33_apply m k v). Qed.
Print Assumptions C57_scalar33.
Theorem C57_scalar33_determinant a k : det33 (float_multiplication33 a k) = k ^ 3 * det33 a.
Proof. exact (det33_scale a k). Qed.
Print Assumptions C57_scalar33_determinant.
Theorem C57_apply22 a b c d x y : mvec22 (M22 a b c d) (V2 x y) = V2 (a * x + b * y) (c * x + d * y).
Proof. exact (mvec22_coords a b c d x y). Qed.
Print Assumptions C57_apply22.
Theorem C57_determinant22 a b c d : det22 (M22 a b c d) = a * d - b * c.
Proof. exact (det22_coords a b c d). Qed.
Print Assumptions C57_determinant22.
Theorem C57_determinant33 a b c d e f g h i : det33 (M33 a b c d e f g h i) = a * (e * i - f * h) - b * (d * i - f * g) + c * (d * h - e * g).
Proof. exact (det33_coords a b c d e f g h i). Qed.
Print Assumptions C57_determinant33.
(** An invertible matrix (1e-5 times the identity) whose inverse raises ValueError. *)
Theorem C129_small_scale_refuted : inverse33 (M33 (/ 10 ^ 5) 0 0 0 (/ 10 ^ 5) 0 0 0 (/ 10 ^ 5)) = Err ValueError.
Proof. exact inverse33_small. Qed.
Print Assumptions C129_small_scale_refuted.

(** ** C56 frames *)
Theorem C56_basis2_global_local_global b v l : basis2_g2l b v = Ok l -> basis2_l2g b l = v.
Proof. exact (basis2_g2l_l2g b v l). Qed.
Print Assumptions C56_basis2_global_local_global.
Theorem C56_basis2_local_global_local b v : / 10 ^ 10 < Rabs (det22 (transfer_matrix2 b)) -> basis2_g2l b (basis2_l2g b v) = Ok v.
Proof. exact (basis2_l2g_g2l b v). Qed.
Print Assumptions C56_basis2_local_global_local.
Theorem C56_frame2_global_local_global f v l : frame2_g2l f v = Ok l -> frame2_l2g f l = v.
Proof. exact (frame2_g2l_l2g f v l). Qed.
Print Assumptions C56_frame2_global_local_global.
Theorem C56_frame2_local_global_local f v : / 10 ^ 10 < Rabs (det22 (transfer_matrix2 (fb2 f))) -> frame2_g2l f (frame2_l2g f v) = Ok v.
Proof. exact (frame2_l2g_g2l f v). Qed.
Print Assumptions C56_frame2_local_global_local.
Theorem C56_frame2_composition f g v : frame2_l2g (frame2_add f g) v = frame2_l2g f (frame2_l2g g v).
Proof. exact (frame2_add_l2g f g v). Qed.
Print Assumptions C56_frame2_composition.
Theorem C56_frame2_mapping_roundtrip g f h : frame2_mapping_new g f = Ok h -> frame2_mapping_old h f = g.
Proof. exact (frame2_mapping_roundtrip g f h). Qed.
Print Assumptions C56_frame2_mapping_roundtrip.
Theorem C56_frame2_mapping_points g f v : frame2_l2g (frame2_mapping_old g f) v = frame2_l2g f (frame2_l2g g v).
Proof. exact (frame2_mapping_old_points g f v). Qed.
Print Assumptions C56_frame2_mapping_points.
Theorem C56_frame2_rotation f c a v : / 10 ^ 6 < point_distance2 c (org2 f) ->
  frame2_l2g (frame2_rotation f c a true) v = rotation2 (frame2_l2g f v) c a.
Proof. exact (frame2_rotation_points f c a v). Qed.
Print Assumptions C56_frame2_rotation.
Theorem C56_frame2_translation f o v : frame2_l2g (frame2_translation f o) v = translation2 (frame2_l2g f v) o.
Proof. exact (frame2_translation_points f o v). Qed.
Print Assumptions C56_frame2_translation.
Theorem C56_basis3_global_local_global b v l K : 0 <= K -> mbound K (transfer_matrix3 b) -> basis3_g2l b v = Ok l ->
  near ((1 + 3 * K) * eps) (basis3_l2g b l) v.
Proof. exact (basis3_roundtrip_gl b v l K). Qed.
Print Assumptions C56_basis3_global_local_global.
Theorem C56_basis3_local_global_local b v n K : 0 <= K -> inverse33 (transfer_matrix3 b) = Ok n -> mbound K n ->
  exists l, basis3_g2l b (basis3_l2g b v) = Ok l /\ near ((1 + 3 * K) * eps) l v.
Proof. exact (basis3_roundtrip_lg b v n K). Qed.
Print Assumptions C56_basis3_local_global_local.
Theorem C56_frame3_global_local_global f v l K : 0 <= K -> mbound K (transfer_matrix3 (fb3 f)) -> frame3_g2l f v = Ok l ->
  near ((1 + 3 * K) * eps) (frame3_l2g f l) v.
Proof. exact (frame3_roundtrip_gl f v l K). Qed.
Print Assumptions C56_frame3_global_local_global.
Theorem C56_frame3_local_global_local f v n K : 0 <= K -> inverse33 (transfer_matrix3 (fb3 f)) = Ok n -> mbound K n ->
  exists l, frame3_g2l f (frame3_l2g f v) = Ok l /\ near ((1 + 3 * K) * eps) l v.
Proof. exact (frame3_roundtrip_lg f v n K). Qed.
Print Assumptions C56_frame3_local_global_local.
Theorem C56_direct_frame_roundtrip f v : direct (fb3 f) ->
  (exists l, frame3_g2l f v = Ok l /\ near (4 * eps) (frame3_l2g f l) v) /\
  (exists l, frame3_g2l f (frame3_l2g f v) = Ok l /\ near (4 * eps) l v).
Proof. exact (direct_frame_roundtrip f v). Qed.
Print Assumptions C56_direct_frame_roundtrip.
Theorem C56_direct_local_coordinates f v : direct (fb3 f) -> exists l, frame3_g2l f v = Ok l /\
  near eps l (V3 (dot3 (sub3 v (org3 f)) (bu (fb3 f))) (dot3 (sub3 v (org3 f)) (bv (fb3 f))) (dot3 (sub3 v (org3 f)) (bw (fb3 f)))).
Proof. exact (direct_g2l f v). Qed.
Print Assumptions C56_direct_local_coordinates.
Theorem C56_direct_inverse_is_transpose b : direct b -> inverse33 (transfer_matrix3 b) = Ok (transpose (transfer_matrix3 b)).
Proof. exact (direct_inverse b). Qed.
Print Assumptions C56_direct_inverse_is_transpose.
Theorem C56_basis3_sub_add b c d : basis3_sub b c = Ok d -> basis3_add c d = b.
Proof. exact (basis3_add_sub b c d). Qed.
Print Assumptions C56_basis3_sub_add.
Theorem C56_basis3_neg b d : basis3_neg b = Ok d -> basis3_add b d = B3 X3D Y3D Z3D /\ basis3_add d b = B3 X3D Y3D Z3D.
Proof. exact (basis3_add_neg b d). Qed.
Print Assumptions C56_basis3_neg.
Theorem C56_frame3_composition f g v K : 0 <= K -> mbound K (transfer_matrix3 (fb3 f)) ->
  near ((3 + 3 * K) * eps) (frame3_l2g (frame3_add f g) v) (frame3_l2g f (frame3_l2g g v)).
Proof. exact (frame3_add_l2g f g v K). Qed.
Print Assumptions C56_frame3_composition.
Theorem C56_frame3_sub_add f g d K : 0 <= K -> mbound K (transfer_matrix3 (fb3 g)) -> frame3_sub f g = Ok d ->
  near ((1 + 3 * K) * eps) (org3 (frame3_add g d)) (org3 f) /\ fb3 (frame3_add g d) = fb3 f.
Proof. exact (frame3_sub_add f g d K). Qed.
Print Assumptions C56_frame3_sub_add.
Theorem C56_basis2_coordinates b v : basis2_l2g b v = add2 (mul2 (u2 b) (x2 v)) (mul2 (v2 b) (y2 v)).
Proof. exact (basis2_l2g_comb b v). Qed.
Print Assumptions C56_basis2_coordinates.
Theorem C56_frame2_coordinates f v : frame2_l2g f v = add2 (add2 (mul2 (u2 (fb2 f)) (x2 v)) (mul2 (v2 (fb2 f)) (y2 v))) (org2 f).
Proof. exact (frame2_l2g_comb f v). Qed.
Print Assumptions C56_frame2_coordinates.
Theorem C56_basis3_coordinates b v : near eps (basis3_l2g b v) (basis_vector b v).
Proof. exact (basis3_l2g_near b v). Qed.
Print Assumptions C56_basis3_coordinates.
Theorem C56_frame3_coordinates f v : near eps (frame3_l2g f v) (frame_point f v).
Proof. exact (frame3_l2g_near f v). Qed.
Print Assumptions C56_frame3_coordinates.
Theorem C56_frame3_translation f o v : frame_point (frame3_translation f o) v = translation3 (frame_point f v) o.
Proof. exact (frame3_translation_points f o v). Qed.
Print Assumptions C56_frame3_translation.
Theorem C56_frame3_rotation f c ax a v : / 10 ^ 6 < point_distance3 c (org3 f) ->
  frame_point (frame3_rotation f c ax a) v = rotation3 (frame_point f v) c ax a.
Proof. exact (frame3_rotation_points f c ax a v). Qed.
Print Assumptions C56_frame3_rotation.
Theorem C56_frame3_rotation_about_origin f c ax a : point_distance3 c (org3 f) <= / 10 ^ 6 ->
  org3 (frame3_rotation f c ax a) = org3 f /\ forall v, basis_vector (fb3 (frame3_rotation f c ax a)) v = rotation3 (basis_vector (fb3 f) v) O3D ax a.
Proof. exact (frame3_rotation_close f c ax a). Qed.
Print Assumptions C56_frame3_rotation_about_origin.
Theorem C56_frame2_rotation_origin_only f c a : fb2 (frame2_rotation f c a false) = fb2 f /\
  (/ 10 ^ 6 < point_distance2 c (org2 f) -> org2 (frame2_rotation f c a false) = rotation2 (org2 f) c a) /\
  (point_distance2 c (org2 f) <= / 10 ^ 6 -> org2 (frame2_rotation f c a false) = org2 f).
Proof. exact (frame2_rotation_keep f c a). Qed.
Print Assumptions C56_frame2_rotation_origin_only.
Theorem C56_frame2_rotation_about_origin f c a : point_distance2 c (org2 f) <= / 10 ^ 6 ->
  org2 (frame2_rotation f c a true) = org2 f /\ forall v, basis2_l2g (fb2 (frame2_rotation f c a true)) v = rotation2 (basis2_l2g (fb2 f) v) O2D a.
Proof. exact (frame2_rotation_close f c a). Qed.
Print Assumptions C56_frame2_rotation_about_origin.
Theorem C56_frame3_mapping_roundtrip g f h K : 0 <= K -> mbound K (transfer_matrix3 (fb3 f)) -> frame3_mapping_new g f = Ok h ->
  near ((1 + 3 * K) * eps) (org3 (frame3_mapping_old h f)) (org3 g) /\
  near ((1 + 3 * K) * eps) (bu (fb3 (frame3_mapping_old h f))) (bu (fb3 g)) /\
  near ((1 + 3 * K) * eps) (bv (fb3 (frame3_mapping_old h f))) (bv (fb3 g)) /\
  near ((1 + 3 * K) * eps) (bw (fb3 (frame3_mapping_old h f))) (bw (fb3 g)).
Proof. exact (frame3_mapping_roundtrip g f h K). Qed.
Print Assumptions C56_frame3_mapping_roundtrip.
Theorem C56_frame3_mapping_total g f : / 10 ^ 12 < Rabs (det33 (transfer_matrix3 (fb3 f))) -> exists h, frame3_mapping_new g f = Ok h.
Proof. exact (frame3_mapping_new_total g f). Qed.
Print Assumptions C56_frame3_mapping_total.
Theorem C56_frame3_mapping_points g f v : Rabs (x3 v) <= 1 -> Rabs (y3 v) <= 1 -> Rabs (z3 v) <= 1 ->
  near (4 * eps) (frame_point (frame3_mapping_old g f) v) (frame_point f (frame_point g v)).
Proof. exact (frame3_mapping_old_points g f v). Qed.
Print Assumptions C56_frame3_mapping_points.
(** The frame added to its opposite is not the global frame. *)
Theorem C128_frame3_neg_refuted : let f := F3 (V3 1 0 0) (B3 X3D Y3D Z3D) in
  exists d, frame3_neg f = Ok d /\ org3 (frame3_add f d) = V3 2 0 0.
Proof. exact frame3_neg_wrong. Qed.
Print Assumptions C128_frame3_neg_refuted.
Example C56_nonvacuous : direct (fb3 (F3 (V3 1 2 3) (B3 Y3D Z3D X3D))) /\ mbound 1 (transfer_matrix3 (B3 Y3D Z3D X3D)).
Proof.
  assert (D : direct (B3 Y3D Z3D X3D)).
  { unfold direct, orthonormal, X3D, Y3D, Z3D, dot3, cross3. cbn. repeat split; try ring. v_eq; ring. }
  split; [exact D|]. apply orthonormal_bound, D.
Qed.
Example C56_nonvacuous2 : / 10 ^ 10 < Rabs (det22 (transfer_matrix2 (B2 (V2 0 1) (V2 (-1) 0)))).
Proof. unfold det22, transfer_matrix2. cbn [a11 a12 a21 a22 u2 v2 x2 y2]. rewrite Rabs_right; lra. Qed.

(** ** C62 frame constructors *)
Theorem C62_from_two_vectors a b f : norm3 a = 1 -> from_two_vectors a b = Ok f -> direct f /\ bu f = a /\ dot3 (bw f) b = 0 /\ 0 < dot3 (bv f) b.
Proof. exact (from_two_vectors_ok a b f). Qed.
Print Assumptions C62_from_two_vectors.
Theorem C130_from_two_vectors_refuted : exists f, from_two_vectors (V3 2 0 0) (V3 1 1 0) = Ok f /\ dot3 (bu f) (bv f) < 0.
Proof. exact from_two_vectors_wrong. Qed.
Print Assumptions C130_from_two_vectors_refuted.
Theorem C62_from_3_points p1 p2 p3 f : from_3_points p1 p2 p3 = Ok f ->
  direct (fb3 f) /\ org3 f = p1 /\ (exists k, 0 < k /\ sub3 p2 p1 = mul3 (bu (fb3 f)) k) /\
  dot3 (sub3 p2 p1) (bw (fb3 f)) = 0 /\ dot3 (sub3 p3 p1) (bw (fb3 f)) = 0.
Proof. exact (from_3_points_ok p1 p2 p3 f). Qed.
Print Assumptions C62_from_3_points.
Theorem C62_from_point_and_normal o n f : norm3 n = 1 -> from_point_and_normal o n = Ok f -> direct (fb3 f) /\ org3 f = o /\ bw (fb3 f) = n.
Proof. exact (from_point_and_normal_ok o n f). Qed.
Print Assumptions C62_from_point_and_normal.
Theorem C62_from_point_and_normal_total o n : norm3 n = 1 -> exists f, from_point_and_normal o n = Ok f.
Proof. exact (from_point_and_normal_total o n). Qed.
Print Assumptions C62_from_point_and_normal_total.
Theorem C62_from_step o w u f : norm3 w = 1 -> frame_from_step o (Some w) (Some u) = Ok f ->
  direct (fb3 f) /\ org3 f = o /\ bw (fb3 f) = w /\ dot3 (bv (fb3 f)) u = 0.
Proof. exact (frame_from_step_ok o w u f). Qed.
Print Assumptions C62_from_step.
Theorem C62_from_step_side o w u f : norm3 w = 1 -> frame_from_step o (Some w) (Some u) = Ok f -> 0 < dot3 (bu (fb3 f)) u.
Proof. exact (frame_from_step_side o w u f). Qed.
Print Assumptions C62_from_step_side.
Theorem C62_from_step_axis_only o w f : frame_from_step o (Some w) None = Ok f -> org3 f = o /\ exists k, 0 < k /\ w = mul3 (bw (fb3 f)) k.
Proof. exact (frame_from_step_axis o w f). Qed.
Print Assumptions C62_from_step_axis_only.
Theorem C62_from_step_ref_only o u f : frame_from_step o None (Some u) = Ok f -> org3 f = o /\ exists k, 0 < k /\ u = mul3 (bu (fb3 f)) k.
Proof. exact (frame_from_step_ref o u f). Qed.
Print Assumptions C62_from_step_ref_only.
Theorem C62_from_step_default o : frame_from_step o None None = Ok (F3 o (B3 X3D Y3D Z3D)).
Proof. exact (frame_from_step_default o). Qed.
Print Assumptions C62_from_step_default.
Theorem C62_euler_matrix psi theta phi : transfer_matrix3 (euler_rotation (B3 X3D Y3D Z3D) psi theta phi) = euler_matrix psi theta phi.
Proof. exact (euler_value psi theta phi). Qed.
Print Assumptions C62_euler_matrix.
Theorem C62_from_point_and_vector p v main f : from_point_and_vector p v main = Ok f ->
  org3 f = p /\
  (exists k, 0 < k /\ v = mul3 (main_of main (fb3 f)) k) /\
  (direct (fb3 f) \/ (exists k, k < 0 /\ v = mul3 main k) /\ fb3 f = B3 (neg3 X3D) (neg3 Y3D) (neg3 Z3D)).
Proof. exact (from_point_and_vector_ok p v main f). Qed.
Print Assumptions C62_from_point_and_vector.
Theorem C62_from_point_and_vector_total p v main : main = X3D \/ main = Y3D \/ main = Z3D -> v <> V3 0 0 0 -> exists f, from_point_and_vector p v main = Ok f.
Proof. exact (from_point_and_vector_total p v main). Qed.
Print Assumptions C62_from_point_and_vector_total.
(** Opposite to the main axis, the frame returned is left-handed. *)
Theorem C130_from_point_and_vector_refuted p : exists f, from_point_and_vector p (V3 (-1) 0 0) X3D = Ok f /\ cross3 (bu (fb3 f)) (bv (fb3 f)) = neg3 (bw (fb3 f)).
Proof. exact (from_point_and_vector_left p). Qed.
Print Assumptions C130_from_point_and_vector_refuted.
Theorem C62_rotation_direct b ax a : dot3 ax ax = 1 -> direct b -> direct (basis3_rotation b ax a).
Proof. exact (rotation3_direct b ax a). Qed.
Print Assumptions C62_rotation_direct.
Theorem C62_euler_direct b psi theta phi : direct b -> direct (euler_rotation b psi theta phi).
Proof. exact (euler_direct b psi theta phi). Qed.
Print Assumptions C62_euler_direct.
Theorem C62_is_orthonormal_sound b tol : 0 <= tol -> is_orthonormal b tol = true ->
  Rabs (dot3 (bu b) (bv b)) < tol /\ Rabs (dot3 (bu b) (bw b)) < tol /\ Rabs (dot3 (bv b) (bw b)) < tol /\
  Rabs (norm3 (bu b) - 1) <= Rmax (/ 10 ^ 9 * Rmax (norm3 (bu b)) 1) tol /\
  Rabs (norm3 (bv b) - 1) <= Rmax (/ 10 ^ 9 * Rmax (norm3 (bv b)) 1) tol /\
  Rabs (norm3 (bw b) - 1) <= Rmax (/ 10 ^ 9 * Rmax (norm3 (bw b)) 1) tol.
Proof. exact (is_orthonormal_sound b tol). Qed.
Print Assumptions C62_is_orthonormal_sound.
Theorem C62_is_orthonormal_complete b tol : 0 < tol -> orthonormal b -> is_orthonormal b tol = true.
Proof. exact (is_orthonormal_complete b tol). Qed.
Print Assumptions C62_is_orthonormal_complete.
Example C62_nonvacuous : exists f, from_point_and_vector O3D (V3 1 2 3) X3D = Ok f.
Proof. apply from_point_and_vector_total; auto. intros C; injection C; lra. Qed.

