(** Spheres and cones: round trips and membership; counter-examples; bounding boxes. *)
From Coq Require Import Reals Lra Lia List Bool.
From Verif.Model Require Import RBase Vec Frame Geometry ParamSurf BBox.
From Verif.Spec Require Import VecSpec FrameSpec ParamSurfSpec AngleSpec BBoxSpec.
From Verif.Proofs Require Import VecP LineP FrameP FrameP2 GeometryP BBoxP ParamSurfP ParamSurfP2 ParamSurfP3 ParamSurfP4 ParamSurfP5.
Open Scope R_scope.

Lemma snap_abs z : Rabs (snap z) <= Rabs z.
Proof. unfold snap. destruct (Rltb _ _); [rewrite Rabs_R0; apply Rabs_pos|lra]. Qed.
Lemma snap_cases z : snap z = z \/ snap z = 0 /\ Rabs z <= eps.
Proof. unfold snap. fold eps. destruct (Rltb _ _) eqn:E; rb; [right; split; lra|left; auto]. Qed.
(** ** Sphere: projecting a point of the sphere gives it back *)
Lemma sphere_round_trip f r p : direct (fb3 f) -> 0 < r -> on_sphere f r p ->
  exists q, sphere_point_projection f r p = Ok q /\ point_distance3 q p <= 5 * / 10 ^ 7 + 3 * / 10 ^ 10 * r.
Proof.
  intros H Hr. unfold on_sphere. rewrite norm_coords by auto. intros E. unfold sphere_point_projection, sphere_3d_to_2d. rewrite g2l_coords by auto. unfold bind, snap3.
  pose proof (frame_point_coords f p H) as EP. destruct (coords f p) as [X Y Z]. subst p. apply (f_equal (fun t => t * t)) in E. rewrite norm3_sq in E. unfold dot3 in E.
  cbn [x3 y3 z3] in *. rewrite (proj2 (Reqb_false r 0)) by lra. eexists. split; [reflexivity|]. rewrite !zap_snap by apply eps7.
  assert (BZ : Rabs Z <= r). { apply sq_le; [lra|]. rewrite <- Rabs_mult, Rabs_pos_eq by apply Rle_0_sqr. nra. }
  pose proof (snap_abs Z) as SA. pose proof (snap_err Z) as SE. assert (BZ' : - r <= snap Z <= r) by (unfold Rabs in *; repeat destruct (Rcase_abs _); lra).
  rewrite pyclamp_id by auto. destruct (asin_of_unit (snap Z) r Hr BZ') as (A1 & A2 & A3). set (b := asin (snap Z / r)) in *.
  set (k := sqrt (r * r - snap Z * snap Z)) in *. assert (K2 : k * k = r * r - snap Z * snap Z). { apply sqrt_sqrt. nra. }
  assert (Pk : 0 <= k) by apply sqrt_pos. pose proof (rho_sq X Y) as RS. pose proof (rho_pos X Y) as RP.
  assert (DK : Rabs (rho X Y - k) <= eps).
  { destruct (snap_cases Z) as [Q|[Q1 Q2]].
    - rewrite Q in K2. assert (rho X Y = k) by nra. rewrite H0. replace (k - k) with 0 by ring. rewrite Rabs_R0. apply Rlt_le, eps_pos.
    - rewrite Q1 in K2. assert (k = r) by nra. assert (rho X Y <= k) by nra. rewrite Rabs_left1 by lra. eapply Rle_trans; [|exact Q2]. apply sq_le; [apply Rabs_pos|].
      rewrite <- Rabs_mult, (Rabs_pos_eq (Z * Z)) by apply Rle_0_sqr. nra. }
  pose proof (circle_projection X Y k (/ 10 ^ 7) (/ 10 ^ 10) Pk ltac:(apply Rlt_le, pow10_inv_pos) ltac:(apply Rlt_le, pow10_inv_pos)) as C. cbv zeta in C.
  set (th := zap (/ 10 ^ 10) (atan2 (zap (/ 10 ^ 7) Y) (zap (/ 10 ^ 7) X))) in *. assert (C' : rho (k * cos th - X) (k * sin th - Y) <= eps + 4 * / 10 ^ 7 + k * / 10 ^ 10).
  { unfold Rabs in C at 1. destruct (Rcase_abs _); lra. }
  clear C. pose proof (pow10_inv_pos 10) as P10. pose proof (zap_err (/ 10 ^ 10) b ltac:(lra)) as ZB. set (b' := zap (/ 10 ^ 10) b) in *.
  pose proof (sphere_agree f r (V2 th b')) as N. rewrite sphere_array_local in N. cbn [x2 y2] in N. apply near_dist in N. set (q := sphere_2d_to_3d f r (V2 th b')) in *.
  pose proof (torus_local_lip 0 r th b' th b ltac:(lra) ltac:(lra)) as L3. unfold torus_local in L3. rewrite !Rplus_0_l in L3. replace (th - th) with 0 in L3 by ring. rewrite Rabs_R0, Rmult_0_r, Rplus_0_l in L3. rewrite A1, A3 in L3.
  set (P1 := V3 (r * cos b' * cos th) (r * cos b' * sin th) (r * sin b')) in *. set (P2 := V3 (k * cos th) (k * sin th) (snap Z)) in *.
  pose proof (dist3_split (k * cos th) (k * sin th) (snap Z) X Y Z) as S. fold P2 in S.
  assert (S' : point_distance3 P2 (V3 X Y Z) <= 2 * eps + 4 * / 10 ^ 7 + k * / 10 ^ 10) by (unfold Rabs in S at 1; destruct (Rcase_abs _); lra).
  pose proof (dist3_triangle q (frame_point f P1) (frame_point f (V3 X Y Z))) as T1. rewrite frame_point_dist in T1 by apply H. pose proof (dist3_triangle P1 P2 (V3 X Y Z)) as T2.
  assert (Kr : k <= r) by nra. assert (r * Rabs (b' - b) <= r * / 10 ^ 10) by (apply Rmult_le_compat_l; lra). assert (k * / 10 ^ 10 <= r * / 10 ^ 10) by (apply Rmult_le_compat_r; lra).
  pose proof eps_small. assert (/ 10 ^ 12 <= / 10 ^ 7) by (apply pow10_le; lia). pose proof eps_pos. lra.
Qed.
(** ** Cone: the nappe of positive height *)
Lemma cone_round_trip f a p : direct (fb3 f) -> 0 < tan a -> 0 <= height f p -> on_cone f a p ->
  exists q, cone_point_projection f a p = Ok q /\ point_distance3 q p <= (1 + tan a) * / 10 ^ 11 + / 10 ^ 9 * axis_distance f p.
Proof.
  intros H Ha HH. unfold on_cone. rewrite !axis_coords by auto. unfold cone_point_projection, cone_3d_to_2d. rewrite g2l_coords by auto. unfold bind, snap3.
  change (height f p) with (z3 (coords f p)) in *. pose proof (frame_point_coords f p H) as EP. destruct (coords f p) as [X Y Z]. subst p. cbn [x3 y3 z3] in *.
  intros E. rewrite Rabs_pos_eq in E by (apply Rmult_le_pos; lra). eexists. split; [reflexivity|]. rewrite !zap_snap by apply eps12.
  pose proof (snap_err Z) as SE. set (r := tan a * snap Z).
  assert (Pr : 0 <= r). { unfold r. apply Rmult_le_pos; [lra|]. destruct (snap_cases Z) as [-> |[-> _]]; lra. }
  assert (DR : Rabs (rho X Y - r) <= tan a * eps).
  { rewrite E. unfold r. replace (tan a * Z - tan a * snap Z) with (tan a * - (snap Z - Z)) by ring. rewrite Rabs_mult, Rabs_Ropp, (Rabs_pos_eq (tan a)) by lra. apply Rmult_le_compat_l; lra. }
  assert (Rr : r <= rho X Y). { rewrite E. unfold r. apply Rmult_le_compat_l; [lra|]. destruct (snap_cases Z) as [-> |[-> _]]; lra. }
  pose proof (circle_projection X Y r (/ 10 ^ 12) (/ 10 ^ 9) Pr ltac:(apply Rlt_le, pow10_inv_pos) ltac:(apply Rlt_le, pow10_inv_pos)) as C. cbv zeta in C.
  set (th := zap (/ 10 ^ 9) (atan2 (zap (/ 10 ^ 12) Y) (zap (/ 10 ^ 12) X))) in *.
  assert (C' : rho (r * cos th - X) (r * sin th - Y) <= tan a * eps + 4 * / 10 ^ 12 + r * / 10 ^ 9) by (unfold Rabs in C at 1; destruct (Rcase_abs _); lra).
  pose proof (cone_agree f a (V2 th (snap Z))) as N. rewrite cone_array_local in N. cbn [x2 y2] in N. fold r in N. apply near_dist in N. set (q := cone_2d_to_3d f a (V2 th (snap Z))) in *.
  pose proof (dist3_split (r * cos th) (r * sin th) (snap Z) X Y Z) as S. set (P2 := V3 (r * cos th) (r * sin th) (snap Z)) in *.
  pose proof (pow10_inv_pos 9) as P9. pose proof eps_small. pose proof e12. pose proof eps_pos.
  assert (S' : point_distance3 P2 (V3 X Y Z) <= eps + tan a * eps + 4 * / 10 ^ 12 + r * / 10 ^ 9) by (unfold Rabs in S at 1; destruct (Rcase_abs _); lra).
  pose proof (dist3_triangle q (frame_point f P2) (frame_point f (V3 X Y Z))) as T1. rewrite frame_point_dist in T1 by apply H.
  assert (r * / 10 ^ 9 <= rho X Y * / 10 ^ 9) by (apply Rmult_le_compat_r; lra). assert (tan a * eps <= tan a * / 10 ^ 11) by (apply Rmult_le_compat_l; lra). lra.
Qed.
(** ** What a positive answer of point_belongs means *)
Lemma belongs_gen (S : vec3 -> Prop) (proj : vec3 -> res vec3) p tol : (forall q, proj p = Ok q -> exists s, S s /\ near eps q s) ->
  surface_point_belongs proj p tol = Ok true -> exists s, S s /\ point_distance3 s p < tol + 2 * eps.
Proof.
  intros HS. unfold surface_point_belongs, surface_point_distance, bind. destruct (proj p) as [q|]; [|discriminate]. intros E. apply Ok_inj in E. rb.
  destruct (HS q eq_refl) as (s & Hs & N). exists s. split; auto. apply near_dist in N. pose proof (dist3_triangle s q p). rewrite (dist3_sym s q) in H. lra.
Qed.
Lemma sphere_belongs_sound f r p tol : orthonormal (fb3 f) -> 0 <= r -> surface_point_belongs (sphere_point_projection f r) p tol = Ok true ->
  exists s, on_sphere f r s /\ point_distance3 s p < tol + 2 * eps.
Proof.
  intros H Hr. apply belongs_gen. intros q. unfold sphere_point_projection, bind. destruct (sphere_3d_to_2d f r p) as [l|]; [|discriminate]. intros E; apply Ok_inj in E; subst q.
  exists (sphere_array f r l). split; [apply sphere_array_on; auto|apply sphere_agree].
Qed.
Lemma cone_belongs_sound f a p tol : orthonormal (fb3 f) -> surface_point_belongs (cone_point_projection f a) p tol = Ok true ->
  exists s, on_cone f a s /\ point_distance3 s p < tol + 2 * eps.
Proof.
  intros H. apply belongs_gen. intros q. unfold cone_point_projection, bind. destruct (cone_3d_to_2d f p) as [l|]; [|discriminate]. intros E; apply Ok_inj in E; subst q.
  exists (cone_array f a l). split; [apply cone_array_on; auto|apply cone_agree].
Qed.
Lemma torus_belongs_sound f M m p tol : orthonormal (fb3 f) -> 0 <= m <= M -> surface_point_belongs (torus_point_projection f M m) p tol = Ok true ->
  exists s, on_torus f M m s /\ point_distance3 s p < tol + 2 * eps.
Proof.
  intros H Hr. apply belongs_gen. intros q. unfold torus_point_projection, bind. destruct (frame3_g2l f p) as [l|]; [|discriminate].
  destruct (vectors3d_angle _ _) as [t|]; [|discriminate]. intros E; apply Ok_inj in E. subst q. eexists. split; [|apply torus_agree]. apply torus_array_on; auto.
Qed.
Lemma belongs_complete proj p q tol : proj p = Ok q -> (surface_point_belongs proj p tol = Ok true <-> point_distance3 q p < tol).
Proof.
  intros E. unfold surface_point_belongs, surface_point_distance, bind. rewrite E. split; [intros Q; apply Ok_inj in Q; rb; auto|]. intros Q. apply (proj2 (Rltb_spec _ _)) in Q. rewrite Q. reflexivity.
Qed.
Lemma sphere_belongs_complete f r p tol : direct (fb3 f) -> 0 < r -> 5 * / 10 ^ 7 + 3 * / 10 ^ 10 * r < tol -> on_sphere f r p ->
  surface_point_belongs (sphere_point_projection f r) p tol = Ok true.
Proof. intros H Hr Ht Hp. destruct (sphere_round_trip f r p H Hr Hp) as (q & E & D). apply (belongs_complete _ _ _ _ E). lra. Qed.
Lemma cone_belongs_complete f a p tol : direct (fb3 f) -> 0 < tan a -> (1 + tan a) * / 10 ^ 11 + / 10 ^ 9 * axis_distance f p < tol -> 0 <= height f p -> on_cone f a p ->
  surface_point_belongs (cone_point_projection f a) p tol = Ok true.
Proof. intros H Hr Ht Hz Hp. destruct (cone_round_trip f a p H Hr Hz Hp) as (q & E & D). apply (belongs_complete _ _ _ _ E). lra. Qed.
Lemma torus_belongs_complete f M m p tol : direct (fb3 f) -> 0 < M -> / 10 ^ 11 <= m -> / 10 ^ 11 + / 10 ^ 9 * (M + 2 * m) < tol -> on_torus f M m p ->
  surface_point_belongs (torus_point_projection f M m) p tol = Ok true.
Proof.
  intros H HM Hm Ht Hp. unfold on_torus in Hp. pose proof (pow10_inv_pos 11). destruct (torus_distance f M m p H HM ltac:(lra)) as (q & d & E & _ & -> & D); [rewrite Hp; auto|].
  apply (belongs_complete _ _ _ _ E). rewrite Hp in D. replace (m - m) with 0 in D by ring. rewrite Rabs_R0, Rminus_0_r, Rabs_pos_eq in D by apply norm3_pos. lra.
Qed.
(** CylindricalSurface3D.point_belongs compares squares *)
Lemma cyl_belongs_spec f r p tol : direct (fb3 f) ->
  unsnapped eps (dot3 (sub3 p (org3 f)) (bu (fb3 f))) -> unsnapped eps (dot3 (sub3 p (org3 f)) (bv (fb3 f))) ->
  (cyl_point_belongs f r p tol = Ok true <-> Rabs (axis_distance f p ^ 2 - r ^ 2) <= Rmax (/ 10 ^ 9 * Rmax (axis_distance f p ^ 2) (r ^ 2)) tol).
Proof.
  intros H U1 U2. unfold cyl_point_belongs. rewrite g2l_coords by auto. unfold bind, snap3. rewrite axis_coords by auto. unfold coords. cbn [x3 y3 z3].
  rewrite !snap_id by auto. set (X := dot3 (sub3 p (org3 f)) (bu (fb3 f))). set (Y := dot3 (sub3 p (org3 f)) (bv (fb3 f))).
  assert (E : rho X Y ^ 2 = X ^ 2 + Y ^ 2). { pose proof (rho_sq X Y). cbn [pow]. lra. } rewrite E. unfold isclose.
  assert (A1 : Rabs (X ^ 2 + Y ^ 2) = X ^ 2 + Y ^ 2). { apply Rabs_pos_eq. pose proof (pow2_ge_0 X). pose proof (pow2_ge_0 Y). lra. }
  assert (A2 : Rabs (r ^ 2) = r ^ 2) by (apply Rabs_pos_eq, pow2_ge_0). rewrite A1, A2. split; [intros Q; apply Ok_inj in Q; rb; auto|]. intros Q. apply (proj2 (Rleb_spec _ _)) in Q. rewrite Q. reflexivity.
Qed.

(** ** Counter-examples in the standard frame *)
Definition F0 : frame3 := F3 (V3 0 0 0) (B3 X3D Y3D Z3D).
Lemma F0_direct : direct (fb3 F0). Proof. exact std_direct. Qed.
Lemma F0_coords p : coords F0 p = p.
Proof. destruct p as [a b c]. unfold coords, F0, X3D, Y3D, Z3D. des. v_eq; ring. Qed.
Lemma F0_g2l p : frame3_g2l F0 p = Ok (snap3 p).
Proof. rewrite g2l_coords by apply F0_direct. rewrite F0_coords. reflexivity. Qed.
Lemma F0_l2g p : frame3_l2g F0 p = snap3 p.
Proof.
  destruct p as [a b c]. unfold frame3_l2g, basis3_l2g. rewrite mvec33_snap. unfold F0, X3D, Y3D, Z3D, mapply, transfer_matrix3, snap3, add3. cbn [x3 y3 z3 m11 m12 m13 m21 m22 m23 m31 m32 m33 fb3 org3 bu bv bw].
  replace (1 * a + 0 * b + 0 * c) with a by ring. replace (0 * a + 1 * b + 0 * c) with b by ring. replace (0 * a + 0 * b + 1 * c) with c by ring. v_eq; ring.
Qed.
Lemma eps_le_1 : eps <= 1. Proof. unfold eps. apply Rmult_le_reg_r with (10 ^ 16); [lra|]. rewrite Rinv_l by lra. lra. Qed.
Lemma pow10_le1 n : / 10 ^ n <= 1. Proof. pose proof (pow10_le 0 n ltac:(lia)). cbn [pow] in H. rewrite Rinv_1 in H. exact H. Qed.
Lemma un1 n x : 1 <= Rabs x -> unsnapped (/ 10 ^ n) x. Proof. intros H. right. pose proof (pow10_le1 n). lra. Qed.
Lemma un0 t : unsnapped t 0. Proof. left. reflexivity. Qed.
Lemma atan2_0_pos x : 0 < x -> atan2 0 x = 0.
Proof. intros H. unfold atan2. rewrite (proj2 (Rltb_spec 0 x)) by lra. unfold Rdiv. rewrite Rmult_0_l. apply atan_0. Qed.
Lemma atan2_0_neg x : x < 0 -> atan2 0 x = PI.
Proof.
  intros H. unfold atan2. rewrite (proj2 (Rltb_false 0 x)) by lra. rewrite (proj2 (Rltb_spec x 0)) by lra. rewrite (proj2 (Rleb_spec 0 0)) by lra. unfold Rdiv. rewrite Rmult_0_l, atan_0. ring.
Qed.
Lemma sphere_proj_ex : sphere_point_projection F0 1 (V3 2 0 1) = Ok (V3 0 0 1).
Proof.
  unfold sphere_point_projection, sphere_3d_to_2d. rewrite F0_g2l. unfold bind, snap3. cbn [x3 y3 z3].
  rewrite (snap_id 2), (snap_id 0), (snap_id 1) by (try apply un0; right; pose proof eps_le_1; rewrite Rabs_pos_eq; lra).
  rewrite (zap_id (/ 10 ^ 7) 2), (zap_id (/ 10 ^ 7) 0) by (try apply un0; apply un1; rewrite Rabs_pos_eq; lra). rewrite atan2_0_pos by lra. rewrite (zap_id (/ 10 ^ 10) 0) by apply un0.
  rewrite (proj2 (Reqb_false 1 0)) by lra. rewrite pyclamp_id by lra. replace (1 / 1) with 1 by field. rewrite asin_1.
  rewrite (zap_id _ (PI / 2)) by (apply un1; pose proof PI2_1; rewrite Rabs_pos_eq; lra). unfold sphere_2d_to_3d. cbn [x2 y2]. rewrite F0_l2g. rewrite cos_PI2, sin_PI2, cos_0, sin_0. unfold snap3. cbn [x3 y3 z3].
  replace (1 * 0 * 1) with 0 by ring. replace (1 * 0 * 0) with 0 by ring. replace (1 * 1) with 1 by ring.
  rewrite (snap_id 0), (snap_id 1) by (try apply un0; right; pose proof eps_le_1; rewrite Rabs_pos_eq; lra). reflexivity.
Qed.
Lemma sphere_distance_wrong : exists f r p d s, direct (fb3 f) /\ 0 < r /\ surface_point_distance (sphere_point_projection f r) p = Ok d /\ on_sphere f r s /\ point_distance3 p s < d / (3 / 2).
Proof.
  exists F0, 1, (V3 2 0 1), 2. set (k := / sqrt 5). exists (V3 (2 * k) 0 k). split; [apply F0_direct|]. split; [lra|].
  assert (S5 : sqrt 5 * sqrt 5 = 5) by (apply sqrt_sqrt; lra). assert (P5 : 0 < sqrt 5) by (apply sqrt_lt_R0; lra). assert (K : k * k = / 5). { transitivity (/ (sqrt 5 * sqrt 5)); [unfold k; field; lra|rewrite S5; reflexivity]. }
  assert (Pk : 0 < k) by (unfold k; apply Rinv_0_lt_compat; auto). assert (K5 : k * sqrt 5 = 1) by (unfold k; field; lra).
  split; [|split].
  - unfold surface_point_distance, bind. rewrite sphere_proj_ex. apply f_equal. unfold point_distance3, norm3, sub3. cbn [x3 y3 z3]. apply sqrt_of_sq; lra.
  - unfold on_sphere, point_distance3, norm3, sub3, F0. cbn [x3 y3 z3 org3]. apply sqrt_of_sq; [lra|]. nra.
  - assert (E : point_distance3 (V3 2 0 1) (V3 (2 * k) 0 k) = sqrt 5 - 1).
    { unfold point_distance3, norm3, sub3. cbn [x3 y3 z3]. apply sqrt_of_sq; nra. }
    rewrite E. assert (sqrt 5 < 23 / 10); [|lra]. nra.
Qed.
Lemma tan_PI4' : tan (PI / 4) = 1. Proof. apply tan_PI4. Qed.
Lemma cone_proj_ex : cone_3d_to_2d F0 (V3 (-1) 0 (-1)) = Ok (V2 PI (-1)) /\ cone_point_projection F0 (PI / 4) (V3 (-1) 0 (-1)) = Ok (V3 1 0 (-1)).
Proof.
  assert (A : cone_3d_to_2d F0 (V3 (-1) 0 (-1)) = Ok (V2 PI (-1))).
  { unfold cone_3d_to_2d. rewrite F0_g2l. unfold bind, snap3. cbn [x3 y3 z3].
    rewrite (snap_id (-1)), (snap_id 0) by (try apply un0; right; pose proof eps_le_1; rewrite Rabs_left; lra).
    rewrite (zap_id (/ 10 ^ 12) (-1)), (zap_id (/ 10 ^ 12) 0) by (try apply un0; apply un1; rewrite Rabs_left; lra). rewrite atan2_0_neg by lra.
    rewrite zap_id; [reflexivity|]. apply un1. pose proof PI2_1. rewrite Rabs_pos_eq; lra. }
  split; auto. unfold cone_point_projection. rewrite A. unfold bind, cone_2d_to_3d. cbn [x2 y2]. rewrite F0_l2g, tan_PI4', cos_PI, sin_PI. unfold snap3. cbn [x3 y3 z3].
  replace (1 * -1 * -1) with 1 by ring. replace (1 * -1 * 0) with 0 by ring.
  rewrite (snap_id (-1)), (snap_id 0), (snap_id 1) by (try apply un0; right; pose proof eps_le_1; unfold Rabs; destruct (Rcase_abs _); lra). reflexivity.
Qed.
Lemma cone_belongs_wrong : exists f a p, direct (fb3 f) /\ tan a = 1 /\ on_cone f a p /\ p = cone_array f a (V2 0 (-1)) /\
  cone_3d_to_2d f p = Ok (V2 PI (-1)) /\ surface_point_distance (cone_point_projection f a) p = Ok 2 /\ surface_point_belongs (cone_point_projection f a) p (/ 10 ^ 6) = Ok false.
Proof.
  exists F0, (PI / 4), (V3 (-1) 0 (-1)). split; [apply F0_direct|]. split; [apply tan_PI4'|].
  assert (A : V3 (-1) 0 (-1) = cone_array F0 (PI / 4) (V2 0 (-1))).
  { unfold cone_array, F0, X3D, Y3D, Z3D. cbn [x2 y2]. rewrite cos_0, sin_0, tan_PI4'. des. v_eq; ring. }
  assert (D : surface_point_distance (cone_point_projection F0 (PI / 4)) (V3 (-1) 0 (-1)) = Ok 2).
  { unfold surface_point_distance, bind. rewrite (proj2 cone_proj_ex). apply f_equal. unfold point_distance3, norm3, sub3. cbn [x3 y3 z3]. apply sqrt_of_sq; lra. }
  split; [rewrite A; apply cone_array_on, F0_direct|]. split; auto. split; [apply cone_proj_ex|]. split; auto.
  unfold surface_point_belongs. rewrite D. unfold bind. rewrite (proj2 (Rltb_false 2 (/ 10 ^ 6))); auto. pose proof (pow10_le1 6). lra.
Qed.
(** a point of the axis of a cylinder of radius 1e-3 "belongs" to it with the default tolerance 1e-5 *)
Lemma cyl_belongs_wrong : exists f r p tol, direct (fb3 f) /\ tol = / 10 ^ 5 /\ cyl_point_belongs f r p tol = Ok true /\
  forall s, on_cylinder f r s -> 100 * tol <= point_distance3 p s.
Proof.
  exists F0, (/ 10 ^ 3), (V3 0 0 0), (/ 10 ^ 5). split; [apply F0_direct|]. split; auto. split.
  - apply cyl_belongs_spec; [apply F0_direct| | |]; try (unfold F0, X3D, Y3D; des; left; ring).
    assert (E : axis_distance F0 (V3 0 0 0) = 0). { rewrite axis_coords by apply F0_direct. rewrite F0_coords. cbn [x3 y3]. unfold rho. apply sqrt_of_sq; [lra|ring]. }
    rewrite E. eapply Rle_trans; [|apply Rmax_r]. rewrite Rabs_minus_sym, Rabs_pos_eq by (cbn [pow]; lra). cbn [pow]. lra.
  - intros s Hs. assert (E : axis_distance F0 (V3 0 0 0) = 0). { rewrite axis_coords by apply F0_direct. rewrite F0_coords. cbn [x3 y3]. unfold rho. apply sqrt_of_sq; [lra|ring]. }
    pose proof (cyl_minimal F0 _ (V3 0 0 0) s F0_direct Hs) as M. rewrite E in M. rewrite Rabs_minus_sym, Rabs_pos_eq in M by lra. lra.
Qed.
(** a spindle torus with minor > 2 major: the inner sheet is not inverted *)
Lemma torus_inverse_wrong : exists f M m theta phi q, direct (fb3 f) /\ 0 < M < m /\ - PI < theta <= PI /\ - PI < phi <= PI /\
  torus_3d_to_2d f M m (torus_array f M m (V2 theta phi)) = Ok q /\ point_distance3 (torus_array f M m q) (torus_array f M m (V2 theta phi)) = 2.
Proof.
  pose proof PI_RGT_0 as PP. exists F0, 1, 3, 0, PI, (V2 PI 0). split; [apply F0_direct|]. split; [lra|]. split; [lra|]. split; [lra|].
  assert (A : torus_array F0 1 3 (V2 0 PI) = V3 (-2) 0 0). { unfold torus_array, F0, X3D, Y3D, Z3D. cbn [x2 y2]. rewrite cos_0, sin_0, cos_PI, sin_PI. des. v_eq; ring. }
  rewrite A. split.
  - unfold torus_3d_to_2d. rewrite F0_g2l. unfold bind, snap3. cbn [x3 y3 z3].
    rewrite (snap_id (-2)), (snap_id 0) by (try apply un0; right; pose proof eps_le_1; rewrite Rabs_left; lra). rewrite pyclamp_id by lra.
    rewrite (zap_id (/ 10 ^ 12) (-2)), (zap_id (/ 10 ^ 12) 0), (zap_id (/ 10 ^ 6) 0) by (try apply un0; apply un1; rewrite Rabs_left; lra).
    rewrite (proj2 (Reqb_false 3 0)) by lra. replace (0 / 3) with 0 by field. rewrite asin_0. rewrite (zap_id (/ 10 ^ 9) 0) by apply un0.
    assert (S : sqrt (3 ^ 2 - 0 ^ 2) = 3) by (apply sqrt_of_sq; lra). rewrite S. rewrite (proj2 (Reqb_false (1 + 3) 0)) by lra.
    replace (0 / (1 + 3)) with 0 by field. rewrite atan2_0_neg by lra. rewrite cos_PI, sin_PI, Rabs_R1.
    assert (EV : sub3 (V3 (-2) 0 0) (V3 (1 * -1) (1 * 0) 0) = V3 (1 * -1) (1 * 0) 0) by (unfold sub3; cbn [x3 y3 z3]; v_eq; ring). rewrite EV.
    destruct (tube_angle 1 1 0 (-1) 0) as (t & Et & Ht & Bt & Ct); [lra|lra|left; lra|]. rewrite Rabs_R1 in Et. rewrite Et.
    rewrite (proj2 (Rltb_false (/ 2 * PI) t)) by (destruct (Rlt_dec (PI / 2) t) as [L|L]; [apply Ht in L; lra|lra]). rewrite !andb_false_r.
    rewrite (zap_id (/ 10 ^ 9) 0) by apply un0. rewrite (zap_id (/ 10 ^ 9) PI) by (apply un1; pose proof PI2_1; rewrite Rabs_pos_eq; lra).
    rewrite (proj2 (Rltb_spec 1 3)) by lra. rewrite Rabs_R0. rewrite (proj2 (Rltb_false (acos (- (1) / 3)) 0)) by apply acos_bound. reflexivity.
  - unfold torus_array, F0, X3D, Y3D, Z3D. cbn [x2 y2]. rewrite cos_0, sin_0, cos_PI, sin_PI. unfold point_distance3, norm3. des. apply sqrt_of_sq; [lra|]. ring.
Qed.

(** ** Bounding boxes *)
Lemma sq_range t r : 0 <= r -> t * t <= r * r -> - r <= t <= r.
Proof. intros. split; nra. Qed.
Lemma sphere_box f r : 0 <= r -> exists b, bbox_from_points (sphere_corners f r) = Ok b /\ forall p, on_sphere f r p -> in_box b p.
Proof.
  intros Hr. unfold sphere_corners, bbox_from_points. eexists. split; [reflexivity|]. intros p Hp. unfold on_sphere in Hp. apply (f_equal (fun t => t * t)) in Hp. unfold point_distance3 in Hp. rewrite norm3_sq in Hp.
  destruct p as [a b c], (org3 f) as [d e g]. unfold dot3, sub3, add3 in *. cbn [x3 y3 z3] in *. unfold in_box. cbn [xmin xmax ymin ymax zmin zmax x3 y3 z3 map]. unfold lmin, lmax. cbn [fold_left].
  pose proof (Rle_0_sqr (a - d)). pose proof (Rle_0_sqr (b - e)). pose proof (Rle_0_sqr (c - g)). unfold Rsqr in *.
  destruct (sq_range (a - d) r Hr ltac:(lra)). destruct (sq_range (b - e) r Hr ltac:(lra)). destruct (sq_range (c - g) r Hr ltac:(lra)).
  repeat match goal with |- context [Rmin ?x ?y] => rewrite (Rmin_left x y) by lra | |- context [Rmax ?x ?y] => rewrite (Rmax_right x y) by lra end. lra.
Qed.
(** one coordinate of a combination of the frame vectors is bounded by that of a corner *)
Lemma corner_bound o u v w a b c D m : Rabs a <= D -> Rabs b <= D -> Rabs c <= m ->
  exists s1 s2 s3, (s1 = 1 \/ s1 = -1) /\ (s2 = 1 \/ s2 = -1) /\ (s3 = 1 \/ s3 = -1) /\
    o + a * u + b * v + c * w <= o + s1 * (u * D) + s2 * (v * D) + s3 * (w * m).
Proof.
  assert (K : forall t x T, Rabs t <= T -> exists s, (s = 1 \/ s = -1) /\ t * x <= s * (x * T)).
  { intros t x T H. destruct (Rle_dec 0 x) as [L|L]; [exists 1|exists (-1)]; (split; [tauto|]); unfold Rabs in H; destruct (Rcase_abs t); nra. }
  intros A B C. destruct (K a u D A) as (s1 & H1 & L1). destruct (K b v D B) as (s2 & H2 & L2). destruct (K c w m C) as (s3 & H3 & L3).
  exists s1, s2, s3. split; auto. split; auto. split; auto. lra.
Qed.
Lemma torus_corner_in f M m s1 s2 s3 : (s1 = 1 \/ s1 = -1) -> (s2 = 1 \/ s2 = -1) -> (s3 = 1 \/ s3 = -1) ->
  In (add3 (add3 (add3 (org3 f) (mul3 (mul3 (bu (fb3 f)) (M + m)) s1)) (mul3 (mul3 (bv (fb3 f)) (M + m)) s2)) (mul3 (mul3 (bw (fb3 f)) m) s3)) (torus_corners f M m).
Proof.
  intros H1 H2 H3. unfold torus_corners.
  assert (P : forall p v, add3 p (mul3 v 1) = add3 p v). { intros. des. v_eq; ring. }
  assert (N : forall p v, add3 p (mul3 v (-1)) = sub3 p v). { intros. des. v_eq; ring. }
  destruct H1 as [-> | ->], H2 as [-> | ->], H3 as [-> | ->]; rewrite ?P, ?N; cbn [In]; tauto.
Qed.
Lemma torus_box f M m : 0 <= M -> 0 <= m -> exists b, bbox_from_points (torus_corners f M m) = Ok b /\ forall p, in_box b (torus_array f M m p).
Proof.
  intros HM Hm. pose proof (torus_corner_in f M m) as TC. unfold torus_corners in *. cbv zeta in *.
  match type of TC with context [In _ (?h :: ?t)] => set (c0 := h) in *; set (cs := t) in * end. unfold bbox_from_points. eexists. split; [reflexivity|]. intros [th ph].
  rewrite torus_array_local. cbn [x2 y2]. set (a := (M + m * cos ph) * cos th). set (b := (M + m * cos ph) * sin th). set (c := m * sin ph).
  pose proof (COS_bound th). pose proof (SIN_bound th). pose proof (COS_bound ph). pose proof (SIN_bound ph).
  assert (K : Rabs (M + m * cos ph) <= M + m) by (apply Rabs_le; split; nra).
  assert (A : Rabs a <= M + m). { unfold a. rewrite Rabs_mult. assert (Rabs (cos th) <= 1) by (apply Rabs_le; lra). pose proof (Rabs_pos (cos th)). pose proof (Rabs_pos (M + m * cos ph)). nra. }
  assert (B : Rabs b <= M + m). { unfold b. rewrite Rabs_mult. assert (Rabs (sin th) <= 1) by (apply Rabs_le; lra). pose proof (Rabs_pos (sin th)). pose proof (Rabs_pos (M + m * cos ph)). nra. }
  assert (C : Rabs c <= m). { unfold c. apply Rabs_le. split; nra. }
  assert (Up : forall k : vec3 -> R, (forall u v, k (add3 u v) = k u + k v) -> (forall u t, k (mul3 u t) = k u * t) -> exists q, In q (c0 :: cs) /\ k (frame_point f (V3 a b c)) <= k q).
  { intros k KA KM. destruct (corner_bound (k (org3 f)) (k (bu (fb3 f))) (k (bv (fb3 f))) (k (bw (fb3 f))) a b c (M + m) m A B C) as (s1 & s2 & s3 & H3 & H4 & H5 & L).
    eexists. split; [apply (TC s1 s2 s3); auto|]. unfold frame_point, basis_vector. rewrite !KA, !KM. cbn [x3 y3 z3]. lra. }
  assert (Lo : forall k : vec3 -> R, (forall u v, k (add3 u v) = k u + k v) -> (forall u t, k (mul3 u t) = k u * t) -> exists q, In q (c0 :: cs) /\ k q <= k (frame_point f (V3 a b c))).
  { intros k KA KM. destruct (Up (fun v => - k v)) as (q & I & L); [intros; rewrite KA; ring|intros; rewrite KM; ring|]. exists q. split; auto. lra. }
  unfold in_box. cbn [xmin xmax ymin ymax zmin zmax].
  split; [|split]; split;
  match goal with
  | |- lmin (?g c0) _ <= _ => destruct (Lo g) as (q & I & L); [reflexivity|reflexivity|]; eapply Rle_trans; [apply (lmin_in g c0 cs q I)|exact L]
  | |- _ <= lmax (?g c0) _ => destruct (Up g) as (q & I & L); [reflexivity|reflexivity|]; eapply Rle_trans; [exact L|apply (lmax_in g c0 cs q I)]
  end.
Qed.
