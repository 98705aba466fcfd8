(** Analytic surfaces: local coordinates, parametrisations, inverses. *)
From Coq Require Import Reals Lra Lia List Bool.
From Verif.Model Require Import RBase Vec Frame Geometry ParamSurf.
From Verif.Spec Require Import VecSpec FrameSpec ParamSurfSpec.
From Verif.Proofs Require Import VecP LineP FrameP FrameP2 GeometryP.
Open Scope R_scope.

(** ** Local coordinates in a direct frame *)
Definition coords (f : frame3) (p : vec3) : vec3 :=
  V3 (dot3 (sub3 p (org3 f)) (bu (fb3 f))) (dot3 (sub3 p (org3 f)) (bv (fb3 f))) (dot3 (sub3 p (org3 f)) (bw (fb3 f))).
Definition snap3 (v : vec3) : vec3 := V3 (snap (x3 v)) (snap (y3 v)) (snap (z3 v)).
Lemma g2l_coords f p : direct (fb3 f) -> frame3_g2l f p = Ok (snap3 (coords f p)).
Proof.
  intros H. unfold frame3_g2l, basis3_g2l, bind. rewrite direct_inverse by auto. apply f_equal. rewrite mvec33_snap. unfold snap3, coords.
  unfold mapply, transpose, transfer_matrix3, dot3. cbn [x3 y3 z3 m11 m12 m13 m21 m22 m23 m31 m32 m33].
  apply vec3_ext; cbn [x3 y3 z3]; apply f_equal; ring.
Qed.
Lemma frame_point_dot f v t : dot3 (sub3 (frame_point f v) (org3 f)) t =
  x3 v * dot3 (bu (fb3 f)) t + y3 v * dot3 (bv (fb3 f)) t + z3 v * dot3 (bw (fb3 f)) t.
Proof. unfold frame_point, basis_vector. des. ring. Qed.
Lemma coords_frame_point f v : orthonormal (fb3 f) -> coords f (frame_point f v) = v.
Proof.
  intros (A1 & A2 & A3 & A4 & A5 & A6). unfold coords. rewrite !frame_point_dot.
  rewrite (dot3_sym (bv (fb3 f)) (bu (fb3 f))), (dot3_sym (bw (fb3 f)) (bu (fb3 f))), (dot3_sym (bw (fb3 f)) (bv (fb3 f))).
  rewrite A1, A2, A3, A4, A5, A6. destruct v as [a b c]. cbn [x3 y3 z3]. v_eq; ring.
Qed.
Lemma frame_point_coords f p : direct (fb3 f) -> frame_point f (coords f p) = p.
Proof.
  intros H. pose proof (direct_inverse _ H) as I. apply inverse33_ok in I as (I & _ & _).
  assert (E : coords f p = mapply (transpose (transfer_matrix3 (fb3 f))) (sub3 p (org3 f))).
  { unfold coords, mapply, transpose, transfer_matrix3, dot3. cbn [x3 y3 z3 m11 m12 m13 m21 m22 m23 m31 m32 m33]. apply vec3_ext; cbn [x3 y3 z3]; ring. }
  unfold frame_point. rewrite <- mapply_basis, E, <- mapply_mul, I, mapply_id. destruct p as [a b c], (org3 f) as [d e g]. unfold add3, sub3. cbn [x3 y3 z3]. v_eq; ring.
Qed.
Lemma frame_point_dist f a b : orthonormal (fb3 f) -> point_distance3 (frame_point f a) (frame_point f b) = point_distance3 a b.
Proof.
  intros (A1 & A2 & A3 & A4 & A5 & A6). unfold point_distance3. rewrite !norm3_dot. apply f_equal.
  set (u := bu (fb3 f)) in *. set (v := bv (fb3 f)) in *. set (w := bw (fb3 f)) in *.
  transitivity ((x3 a - x3 b) * (x3 a - x3 b) * dot3 u u + (y3 a - y3 b) * (y3 a - y3 b) * dot3 v v + (z3 a - z3 b) * (z3 a - z3 b) * dot3 w w
    + 2 * (x3 a - x3 b) * (y3 a - y3 b) * dot3 u v + 2 * (x3 a - x3 b) * (z3 a - z3 b) * dot3 u w + 2 * (y3 a - y3 b) * (z3 a - z3 b) * dot3 v w).
  - unfold frame_point, basis_vector. fold u v w. generalize u v w. clear. intros. des. ring.
  - rewrite A1, A2, A3, A4, A5, A6. unfold dot3, sub3. cbn [x3 y3 z3]. ring.
Qed.
Lemma frame_point_org f : frame_point f (V3 0 0 0) = org3 f.
Proof. unfold frame_point, basis_vector. des. v_eq; ring. Qed.
Lemma height_local f v : orthonormal (fb3 f) -> height f (frame_point f v) = z3 v.
Proof. intros H. pose proof (coords_frame_point f v H) as E. apply (f_equal z3) in E. exact E. Qed.
Lemma sphere_local f v : orthonormal (fb3 f) -> point_distance3 (frame_point f v) (org3 f) = norm3 v.
Proof.
  intros H. rewrite <- (frame_point_org f). rewrite frame_point_dist by auto. unfold point_distance3. apply f_equal. destruct v as [a b c]. unfold sub3. cbn [x3 y3 z3]. v_eq; ring.
Qed.
Lemma axis_local f v : orthonormal (fb3 f) -> axis_distance f (frame_point f v) = sqrt (x3 v * x3 v + y3 v * y3 v).
Proof.
  intros H. unfold axis_distance. rewrite norm3_dot. apply f_equal. rewrite VecP.lagrange3.
  fold (height f (frame_point f v)). rewrite height_local by auto. destruct H as (A1 & A2 & A3 & A4 & A5 & A6). rewrite A3.
  pose proof (sphere_local f v (conj A1 (conj A2 (conj A3 (conj A4 (conj A5 A6)))))) as S. unfold point_distance3 in S.
  apply (f_equal (fun t => t * t)) in S. rewrite !norm3_sq in S. rewrite S. unfold dot3. ring.
Qed.

(** ** Polar coordinates *)
Lemma atan2_scale k y x : 0 < k -> atan2 (k * y) (k * x) = atan2 y x.
Proof.
  intros H. unfold atan2.
  assert (S : forall a, (0 < k * a <-> 0 < a) /\ (k * a < 0 <-> a < 0) /\ (0 <= k * a <-> 0 <= a)).
  { intros a. split; [|split]; split; intros; nra. }
  assert (B1 : forall a, Rltb 0 (k * a) = Rltb 0 a). { intros a. apply eq_true_iff_eq. rewrite !Rltb_spec. apply S. }
  assert (B2 : forall a, Rltb (k * a) 0 = Rltb a 0). { intros a. apply eq_true_iff_eq. rewrite !Rltb_spec. apply S. }
  assert (B3 : forall a, Rleb 0 (k * a) = Rleb 0 a). { intros a. apply eq_true_iff_eq. rewrite !Rleb_spec. apply S. }
  rewrite !B1, !B2, !B3. destruct (Rltb 0 x) eqn:E1; rb.
  - replace (k * y / (k * x)) with (y / x) by (field; lra). reflexivity.
  - destruct (Rltb x 0) eqn:E2; rb; auto. replace (k * y / (k * x)) with (y / x) by (field; lra). reflexivity.
Qed.
Definition rho (x y : R) : R := sqrt (x * x + y * y).
Lemma rho_pos x y : 0 <= rho x y. Proof. apply sqrt_pos. Qed.
Lemma rho_sq x y : rho x y * rho x y = x * x + y * y. Proof. apply sqrt_sqrt. nra. Qed.
Lemma polar x y : rho x y * cos (atan2 y x) = x /\ rho x y * sin (atan2 y x) = y.
Proof.
  pose proof (rho_pos x y) as P. pose proof (rho_sq x y) as Q. destruct (Req_dec (rho x y) 0) as [E|E].
  - rewrite E in *. rewrite !Rmult_0_l. split; nra.
  - assert (0 < rho x y) by lra. set (q := rho x y) in *.
    rewrite <- (atan2_scale (/ q)) by (apply Rinv_0_lt_compat; lra).
    destruct (atan2_spec (/ q * y) (/ q * x)) as [C S].
    + replace (/ q * x * (/ q * x) + / q * y * (/ q * y)) with (/ q * / q * (x * x + y * y)) by ring. rewrite <- Q. field. lra.
    + rewrite C, S. split; field; lra.
Qed.
(** two angles of ]-PI, PI] with the same cosine and sine are equal *)
Lemma angle_unique a b : - PI < a <= PI -> - PI < b <= PI -> cos a = cos b -> sin a = sin b -> a = b.
Proof.
  intros A B C S. destruct (same_angle_intro a b C S) as [k E]. pose proof PI_RGT_0.
  assert (k = 0%Z). { assert (L : IZR k * (2 * PI) = a - b) by lra. assert (-1 < IZR k < 1) as [L1 L2] by (split; nra). apply lt_IZR in L1, L2. lia. }
  subst k. lra.
Qed.
Lemma atan2_unique t k : - PI < t <= PI -> 0 < k -> atan2 (k * sin t) (k * cos t) = t.
Proof.
  intros T K. rewrite atan2_scale by auto. pose proof (sc1 t) as S. destruct (atan2_spec (sin t) (cos t)) as [A B]; [lra|].
  apply angle_unique; auto. apply atan2_range.
Qed.
Lemma chord a b : (cos a - cos b) * (cos a - cos b) + (sin a - sin b) * (sin a - sin b) <= (a - b) * (a - b).
Proof.
  assert (E : (cos a - cos b) * (cos a - cos b) + (sin a - sin b) * (sin a - sin b) = 2 - 2 * cos (a - b)).
  { rewrite cos_minus. pose proof (sc1 a). pose proof (sc1 b). nra. }
  rewrite E. assert (H : cos (a - b) = 1 - 2 * sin ((a - b) / 2) * sin ((a - b) / 2)) by (rewrite <- cos_2a_sin; apply f_equal; lra).
  rewrite H. set (t := (a - b) / 2). assert (T : a - b = 2 * t) by (unfold t; lra). rewrite T.
  assert (sin t * sin t <= t * t); [|nra].
  assert (L : forall u, 0 <= u -> sin u * sin u <= u * u).
  { intros u Hu. destruct (Req_dec u 0) as [-> |N]; [rewrite sin_0; lra|]. pose proof (sin_lt_x u ltac:(lra)).
    destruct (Rle_dec 0 (sin u)); [nra|]. pose proof (SIN_bound u). destruct (Rle_dec u 1).
    - pose proof PI_RGT_0. pose proof PI2_1. assert (0 <= sin u) by (apply sin_ge_0; lra). lra.
    - nra. }
  destruct (Rle_dec 0 t); [apply L; auto|]. specialize (L (- t) ltac:(lra)). rewrite sin_neg in L. nra.
Qed.

(** ** Snapping *)
Lemma zap_err t x : 0 <= t -> Rabs (zap t x - x) <= t.
Proof.
  intros. unfold zap. destruct (Rltb (Rabs x) t) eqn:E; rb; [replace (0 - x) with (- x) by ring; rewrite Rabs_Ropp; lra|].
  replace (x - x) with 0 by ring. rewrite Rabs_R0. lra.
Qed.
Lemma zap_id t x : unsnapped t x -> zap t x = x.
Proof. unfold zap. intros [-> |H]; [destruct (Rltb _ _); auto|]. rewrite (proj2 (Rltb_false _ _)) by lra. reflexivity. Qed.
Lemma zap_snap t x : eps <= t -> zap t (snap x) = zap t x.
Proof.
  intros H. unfold snap. fold eps. destruct (Rltb (Rabs x) eps) eqn:E; rb; auto. unfold zap. rewrite Rabs_R0.
  rewrite (proj2 (Rltb_spec (Rabs x) t)) by lra. destruct (Rltb 0 t); auto.
Qed.
Lemma unsnapped_weaken s t x : s <= t -> unsnapped t x -> unsnapped s x.
Proof. intros H [E|E]; [left; auto|right; lra]. Qed.
Lemma pow10_le m n : (m <= n)%nat -> / 10 ^ n <= / 10 ^ m.
Proof. intros H. apply Rinv_le_contravar; [apply pow_lt; lra|]. apply Rle_pow; [lra|auto]. Qed.
Lemma snap_id x : unsnapped eps x -> snap x = x.
Proof. exact (snap_exact x). Qed.

(** ** The two versions of the parametrisations agree and lie on the surface *)
Lemma cyl_array_local f r p : cyl_array f r p = frame_point f (V3 (r * cos (x2 p)) (r * sin (x2 p)) (y2 p)).
Proof. unfold cyl_array, frame_point, basis_vector. generalize (cos (x2 p)), (sin (x2 p)). intros. des. v_eq; ring. Qed.
Lemma cone_array_local f a p : cone_array f a p = frame_point f (V3 (tan a * y2 p * cos (x2 p)) (tan a * y2 p * sin (x2 p)) (y2 p)).
Proof. unfold cone_array, frame_point, basis_vector. generalize (cos (x2 p)), (sin (x2 p)), (tan a). intros. des. v_eq; ring. Qed.
Lemma sphere_array_local f r p : sphere_array f r p = frame_point f (V3 (r * cos (y2 p) * cos (x2 p)) (r * cos (y2 p) * sin (x2 p)) (r * sin (y2 p))).
Proof. unfold sphere_array, frame_point, basis_vector. generalize (cos (x2 p)), (sin (x2 p)), (cos (y2 p)), (sin (y2 p)). intros. des. v_eq; ring. Qed.
Lemma torus_array_local f M m p : torus_array f M m p =
  frame_point f (V3 ((M + m * cos (y2 p)) * cos (x2 p)) ((M + m * cos (y2 p)) * sin (x2 p)) (m * sin (y2 p))).
Proof. unfold torus_array, frame_point, basis_vector. generalize (cos (x2 p)), (sin (x2 p)), (cos (y2 p)), (sin (y2 p)). intros. des. v_eq; ring. Qed.
Lemma cyl_agree f r p : near eps (cyl_2d_to_3d f r p) (cyl_array f r p).
Proof. rewrite cyl_array_local. apply frame3_l2g_near. Qed.
Lemma cone_agree f a p : near eps (cone_2d_to_3d f a p) (cone_array f a p).
Proof. rewrite cone_array_local. apply frame3_l2g_near. Qed.
Lemma sphere_agree f r p : near eps (sphere_2d_to_3d f r p) (sphere_array f r p).
Proof. rewrite sphere_array_local. apply frame3_l2g_near. Qed.
Lemma torus_agree f M m p : near eps (torus_2d_to_3d f M m p) (torus_array f M m p).
Proof. rewrite torus_array_local. apply frame3_l2g_near. Qed.

Lemma rho_polar k t : rho (k * cos t) (k * sin t) = Rabs k.
Proof.
  unfold rho. replace (k * cos t * (k * cos t) + k * sin t * (k * sin t)) with (Rsqr k * (sin t * sin t + cos t * cos t)) by (unfold Rsqr; ring).
  rewrite sc1, Rmult_1_r. apply sqrt_Rsqr_abs.
Qed.
Lemma cyl_array_on f r p : orthonormal (fb3 f) -> 0 <= r -> on_cylinder f r (cyl_array f r p) /\ height f (cyl_array f r p) = y2 p.
Proof.
  intros H Hr. rewrite cyl_array_local. unfold on_cylinder. rewrite axis_local, height_local by auto. cbn [x3 y3 z3]. split; auto.
  fold (rho (r * cos (x2 p)) (r * sin (x2 p))). rewrite rho_polar. apply Rabs_pos_eq, Hr.
Qed.
Lemma cone_array_on f a p : orthonormal (fb3 f) -> on_cone f a (cone_array f a p) /\ height f (cone_array f a p) = y2 p.
Proof.
  intros H. rewrite cone_array_local. unfold on_cone. rewrite axis_local, height_local by auto. cbn [x3 y3 z3]. split; auto.
  fold (rho (tan a * y2 p * cos (x2 p)) (tan a * y2 p * sin (x2 p))). apply rho_polar.
Qed.
Lemma sphere_array_on f r p : orthonormal (fb3 f) -> 0 <= r -> on_sphere f r (sphere_array f r p).
Proof.
  intros H Hr. rewrite sphere_array_local. unfold on_sphere. rewrite sphere_local by auto. unfold norm3. cbn [x3 y3 z3]. apply sqrt_of_sq; auto.
  pose proof (sc1 (x2 p)) as A. pose proof (sc1 (y2 p)) as B. set (c := cos (x2 p)) in *. set (s := sin (x2 p)) in *. set (c' := cos (y2 p)) in *. set (s' := sin (y2 p)) in *.
  transitivity (r * r * (c' * c' * (s * s + c * c) + s' * s')); [ring|]. rewrite A. transitivity (r * r * (s' * s' + c' * c')); [ring|rewrite B; ring].
Qed.
Lemma torus_array_on f M m p : orthonormal (fb3 f) -> 0 <= m <= M -> on_torus f M m (torus_array f M m p).
Proof.
  intros H Hr. rewrite torus_array_local. unfold on_torus, tube_distance. rewrite axis_local, height_local by auto. cbn [x3 y3 z3].
  match goal with |- context [sqrt (?a * ?a + ?b * ?b)] => change (sqrt (a * a + b * b)) with (rho a b) end. rewrite rho_polar.
  pose proof (COS_bound (y2 p)). rewrite Rabs_pos_eq by nra. apply sqrt_of_sq; [lra|].
  pose proof (sc1 (y2 p)) as B. set (c' := cos (y2 p)) in *. set (s' := sin (y2 p)) in *. transitivity (m * m * (s' * s' + c' * c')); [ring|rewrite B; ring].
Qed.
