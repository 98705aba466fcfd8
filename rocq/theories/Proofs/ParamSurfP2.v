(** Analytic surfaces: the parametrisations cover the surfaces and point3d_to_2d inverts them. *)
From Coq Require Import Reals Lra Lia List Bool.
From Verif.Model Require Import RBase Vec Frame Geometry ParamSurf.
From Verif.Spec Require Import VecSpec FrameSpec ParamSurfSpec AngleSpec.
From Verif.Proofs Require Import VecP LineP FrameP FrameP2 GeometryP ParamSurfP.
Open Scope R_scope.

Lemma g2l_point f v : direct (fb3 f) -> frame3_g2l f (frame_point f v) = Ok (snap3 v).
Proof. intros H. rewrite g2l_coords by auto. rewrite coords_frame_point by apply H. reflexivity. Qed.
Lemma eps12 : eps <= / 10 ^ 12. Proof. apply pow10_le. lia. Qed.
Lemma eps7 : eps <= / 10 ^ 7. Proof. apply pow10_le. lia. Qed.
Lemma eps6 : eps <= / 10 ^ 6. Proof. apply pow10_le. lia. Qed.

(** ** Covering *)
Lemma axis_coords f p : direct (fb3 f) -> axis_distance f p = rho (x3 (coords f p)) (y3 (coords f p)).
Proof. intros H. rewrite <- (frame_point_coords f p H) at 1. apply axis_local, H. Qed.
Lemma cyl_cover f r p : direct (fb3 f) -> on_cylinder f r p -> exists theta, - PI < theta <= PI /\ p = cyl_array f r (V2 theta (height f p)).
Proof.
  intros H. unfold on_cylinder. rewrite axis_coords by auto. intros E. exists (atan2 (y3 (coords f p)) (x3 (coords f p))). split; [apply atan2_range|].
  rewrite cyl_array_local. cbn [x2 y2]. rewrite <- E. destruct (polar (x3 (coords f p)) (y3 (coords f p))) as [-> ->].
  rewrite <- (frame_point_coords f p H) at 1. apply f_equal. unfold height, coords. reflexivity.
Qed.
Lemma cone_cover f a p : direct (fb3 f) -> 0 <= tan a -> on_cone f a p -> exists theta, - PI < theta <= PI /\ p = cone_array f a (V2 theta (height f p)).
Proof.
  intros H Ha. unfold on_cone. rewrite axis_coords by auto. intros E. set (X := x3 (coords f p)) in *. set (Y := y3 (coords f p)) in *.
  destruct (polar X Y) as [PX PY]. rewrite E in PX, PY. destruct (Rle_dec 0 (height f p)) as [L|L].
  - exists (atan2 Y X). split; [apply atan2_range|]. rewrite cone_array_local. cbn [x2 y2]. rewrite Rabs_pos_eq in PX, PY by (apply Rmult_le_pos; auto).
    rewrite PX, PY. rewrite <- (frame_point_coords f p H) at 1. apply f_equal. reflexivity.
  - assert (S : exists t, - PI < t <= PI /\ cos t = - cos (atan2 Y X) /\ sin t = - sin (atan2 Y X)).
    { pose proof (atan2_range Y X) as [L1 L2]. pose proof PI_RGT_0. destruct (Rle_dec (atan2 Y X) 0) as [Q|Q].
      - exists (atan2 Y X + PI). split; [lra|]. rewrite neg_cos, neg_sin. auto.
      - exists (atan2 Y X - PI). split; [lra|]. rewrite cos_minus, sin_minus, cos_PI, sin_PI. split; ring. }
    destruct S as (t & T1 & T2 & T3). exists t. split; auto. rewrite cone_array_local. cbn [x2 y2]. rewrite T2, T3.
    assert (N : tan a * height f p <= 0) by nra. rewrite <- Rabs_Ropp in PX, PY. rewrite Rabs_pos_eq in PX, PY by lra.
    replace (tan a * height f p * - cos (atan2 Y X)) with X by lra. replace (tan a * height f p * - sin (atan2 Y X)) with Y by lra.
    rewrite <- (frame_point_coords f p H) at 1. reflexivity.
Qed.
Lemma norm_coords f p : direct (fb3 f) -> point_distance3 p (org3 f) = norm3 (coords f p).
Proof. intros H. rewrite <- (frame_point_coords f p H) at 1. apply sphere_local, H. Qed.
Lemma asin_of_unit z r : 0 < r -> - r <= z <= r -> r * sin (asin (z / r)) = z /\ - (PI / 2) <= asin (z / r) <= PI / 2 /\ r * cos (asin (z / r)) = sqrt (r * r - z * z).
Proof.
  intros Hr Hz. assert (B : -1 <= z / r <= 1).
  { split; apply Rmult_le_reg_r with r; auto; unfold Rdiv; rewrite Rmult_assoc, Rinv_l by lra; lra. }
  rewrite sin_asin by auto. split; [field; lra|]. split; [apply asin_bound|]. rewrite cos_asin by auto. symmetry.
  apply sqrt_of_sq; [apply Rmult_le_pos; [lra|apply sqrt_pos]|].
  assert (Q : 0 <= 1 - (z / r)²) by (unfold Rsqr; nra). pose proof (sqrt_sqrt _ Q) as S. set (w := sqrt (1 - (z / r)²)) in *.
  transitivity (r * r * (w * w)); [|ring]. rewrite S. unfold Rsqr. field. lra.
Qed.
Lemma sphere_cover f r p : direct (fb3 f) -> 0 < r -> on_sphere f r p ->
  exists theta phi, - PI < theta <= PI /\ - (PI / 2) <= phi <= PI / 2 /\ p = sphere_array f r (V2 theta phi).
Proof.
  intros H Hr. unfold on_sphere. rewrite norm_coords by auto. intros E. apply (f_equal (fun t => t * t)) in E. rewrite norm3_sq in E. unfold dot3 in E.
  destruct (coords f p) as [X Y Z] eqn:EC. cbn [x3 y3 z3] in E. exists (atan2 Y X), (asin (Z / r)).
  destruct (asin_of_unit Z r Hr) as (A1 & A2 & A3); [split; nra|]. split; [apply atan2_range|]. split; auto.
  rewrite sphere_array_local. cbn [x2 y2]. rewrite A1, A3. replace (r * r - Z * Z) with (X * X + Y * Y) by lra. fold (rho X Y).
  destruct (polar X Y) as [-> ->]. rewrite <- EC. symmetry. apply frame_point_coords, H.
Qed.
Lemma torus_cover f M m p : direct (fb3 f) -> 0 < m <= M -> on_torus f M m p ->
  exists theta phi, - PI < theta <= PI /\ - PI < phi <= PI /\ p = torus_array f M m (V2 theta phi).
Proof.
  intros H Hr. unfold on_torus, tube_distance. rewrite axis_coords by auto. intros E. replace (height f p) with (z3 (coords f p)) in E by reflexivity.
  destruct (coords f p) as [X Y Z] eqn:EC. cbn [x3 y3 z3] in E. exists (atan2 Y X), (atan2 Z (rho X Y - M)).
  split; [apply atan2_range|]. split; [apply atan2_range|].
  destruct (polar (rho X Y - M) Z) as [A1 A2].
  assert (E2 : rho (rho X Y - M) Z = m). { rewrite <- E. unfold rho at 1. apply f_equal. ring. }
  rewrite E2 in A1, A2. rewrite torus_array_local. cbn [x2 y2]. rewrite A1, A2. replace (M + (rho X Y - M)) with (rho X Y) by ring.
  destruct (polar X Y) as [-> ->]. rewrite <- EC. symmetry. apply frame_point_coords, H.
Qed.

(** ** Exact inverses away from the tolerance zones *)
Lemma snap3_zap t x : eps <= t -> unsnapped t x -> zap t (snap x) = x.
Proof. intros H U. rewrite zap_snap by auto. apply zap_id, U. Qed.
Lemma cyl_inverse f r theta z : direct (fb3 f) -> 0 < r -> - PI < theta <= PI ->
  unsnapped (/ 10 ^ 9) theta -> unsnapped (/ 10 ^ 12) (r * cos theta) -> unsnapped (/ 10 ^ 12) (r * sin theta) -> unsnapped eps z ->
  cyl_3d_to_2d f (cyl_array f r (V2 theta z)) = Ok (V2 theta z).
Proof.
  intros H Hr T U1 U2 U3 U4. rewrite cyl_array_local. unfold cyl_3d_to_2d. rewrite g2l_point by auto. unfold bind, snap3. cbn [x3 y3 z3 x2 y2].
  rewrite !snap3_zap by (auto; apply eps12). rewrite atan2_unique by auto. rewrite zap_id by auto. rewrite snap_id by auto. reflexivity.
Qed.
Lemma cone_inverse f a theta z : direct (fb3 f) -> 0 < tan a * z -> - PI < theta <= PI ->
  unsnapped (/ 10 ^ 9) theta -> unsnapped (/ 10 ^ 12) (tan a * z * cos theta) -> unsnapped (/ 10 ^ 12) (tan a * z * sin theta) -> unsnapped eps z ->
  cone_3d_to_2d f (cone_array f a (V2 theta z)) = Ok (V2 theta z).
Proof.
  intros H Hr T U1 U2 U3 U4. rewrite cone_array_local. unfold cone_3d_to_2d. rewrite g2l_point by auto. unfold bind, snap3. cbn [x3 y3 z3 x2 y2].
  rewrite !snap3_zap by (auto; apply eps12). rewrite atan2_unique by auto. rewrite zap_id by auto. rewrite snap_id by auto. reflexivity.
Qed.
Lemma pyclamp_id r z : - r <= z <= r -> pyclamp r z = z.
Proof. intros. unfold pyclamp. rewrite Rmax_right by lra. apply Rmin_right. lra. Qed.
Lemma sphere_inverse f r theta phi : direct (fb3 f) -> 0 < r -> - PI < theta <= PI -> - (PI / 2) < phi < PI / 2 ->
  unsnapped (/ 10 ^ 10) theta -> unsnapped (/ 10 ^ 10) phi ->
  unsnapped (/ 10 ^ 7) (r * cos phi * cos theta) -> unsnapped (/ 10 ^ 7) (r * cos phi * sin theta) -> unsnapped eps (r * sin phi) ->
  sphere_3d_to_2d f r (sphere_array f r (V2 theta phi)) = Ok (V2 theta phi).
Proof.
  intros H Hr T P U1 U2 U3 U4 U5. rewrite sphere_array_local. unfold sphere_3d_to_2d. rewrite g2l_point by auto. unfold bind, snap3. cbn [x3 y3 z3 x2 y2].
  assert (C : 0 < cos phi) by (apply cos_gt_0; lra). pose proof (SIN_bound phi) as S.
  rewrite !snap3_zap by (auto; apply eps7). rewrite (snap_id _ U5). rewrite (proj2 (Reqb_false r 0)) by lra.
  rewrite pyclamp_id by (split; nra). rewrite atan2_unique by (auto; nra). replace (r * sin phi / r) with (sin phi) by (field; lra).
  rewrite asin_sin by lra. rewrite !zap_id by auto. reflexivity.
Qed.
