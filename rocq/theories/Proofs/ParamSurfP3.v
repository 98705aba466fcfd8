(** ToroidalSurface3D.point3d_to_2d. *)
From Coq Require Import Reals Lra Lia List Bool.
From Verif.Model Require Import RBase Vec Frame Geometry ParamSurf.
From Verif.Spec Require Import VecSpec FrameSpec ParamSurfSpec AngleSpec.
From Verif.Proofs Require Import VecP LineP FrameP FrameP2 GeometryP ParamSurfP ParamSurfP2.
Open Scope R_scope.

Lemma asin_sin_far phi : PI / 2 < phi <= PI -> asin (sin phi) = PI - phi.
Proof. intros H. rewrite <- sin_PI_x. apply asin_sin. lra. Qed.
Lemma asin_sin_far' phi : - PI < phi < - (PI / 2) -> asin (sin phi) = - PI - phi.
Proof.
  intros H. assert (E : sin phi = sin (- PI - phi)).
  { replace (- PI - phi) with (- (phi + PI)) by ring. rewrite sin_neg, neg_sin. ring. }
  rewrite E. apply asin_sin. lra.
Qed.
Lemma cos_sign phi : - PI < phi <= PI -> (cos phi < 0 <-> PI / 2 < phi \/ phi < - (PI / 2)).
Proof.
  intros H. pose proof PI_RGT_0. split.
  - intros C. destruct (Rlt_dec (PI / 2) phi); auto. destruct (Rlt_dec phi (- (PI / 2))); auto. exfalso. assert (0 <= cos phi) by (apply cos_ge_0; lra). lra.
  - intros [L|L]; [apply cos_lt_0; lra|]. rewrite <- cos_neg. apply cos_lt_0; lra.
Qed.
Lemma acute_of_cos t : 0 <= t <= PI -> (PI / 2 < t <-> cos t < 0).
Proof.
  intros H. pose proof PI_RGT_0. split; intros L; [apply cos_lt_0; lra|]. destruct (Rlt_dec (PI / 2) t); auto. assert (0 <= cos t) by (apply cos_ge_0; lra). lra.
Qed.
(** the value computed for phi once the side of the tube is known *)
Lemma torus_phi phi : - PI < phi <= PI -> unsnapped (/ 10 ^ 9) phi -> unsnapped (/ 10 ^ 9) (PI - Rabs phi) ->
  forall phi2, (/ 2 * PI < phi2 <-> cos phi < 0) ->
  let p0 := zap (/ 10 ^ 9) (asin (sin phi)) in
  (if Rleb 0 p0 && Rltb (/ 2 * PI) phi2 then PI - p0 else if Rltb p0 0 && Rltb (/ 2 * PI) phi2 then - PI - p0 else p0) = phi.
Proof.
  intros H U1 U2 phi2 HP. cbv zeta. pose proof PI_RGT_0 as PP. pose proof (cos_sign phi H) as CS. pose proof (pow10_inv_pos 9).
  destruct (Rlt_dec (PI / 2) phi) as [L|L]; [|destruct (Rlt_dec phi (- (PI / 2))) as [L'|L']].
  - rewrite asin_sin_far by lra. rewrite Rabs_pos_eq in U2 by lra. rewrite zap_id by auto. rewrite (proj2 (Rleb_spec 0 (PI - phi))) by lra.
    rewrite (proj2 (Rltb_spec (/ 2 * PI) phi2)) by (apply HP, CS; auto). cbn [andb]. ring.
  - rewrite asin_sin_far' by lra. rewrite Rabs_left in U2 by lra. rewrite zap_id.
    2:{ destruct U2 as [U2|U2]; [left; lra|right]. replace (- PI - phi) with (- (PI - - phi)) by ring. rewrite Rabs_Ropp. auto. }
    rewrite (proj2 (Rleb_false 0 (- PI - phi))) by lra. rewrite (proj2 (Rltb_spec (- PI - phi) 0)) by lra.
    rewrite (proj2 (Rltb_spec (/ 2 * PI) phi2)) by (apply HP, CS; auto). cbn [andb]. ring.
  - rewrite asin_sin by lra. rewrite zap_id by auto. rewrite (proj2 (Rltb_false (/ 2 * PI) phi2)).
    + rewrite !andb_false_r. reflexivity.
    + destruct (Rlt_dec (/ 2 * PI) phi2); [|lra]. exfalso. assert (cos phi < 0) as C by (apply HP; auto). apply CS in C. destruct C; lra.
Qed.
Lemma sqrt_minor m phi : 0 < m -> sqrt (m ^ 2 - (m * sin phi) ^ 2) = m * Rabs (cos phi).
Proof.
  intros H. apply sqrt_of_sq; [apply Rmult_le_pos; [lra|apply Rabs_pos]|]. pose proof (sc1 phi).
  assert (E : Rabs (cos phi) * Rabs (cos phi) = cos phi * cos phi) by (rewrite <- Rabs_mult; apply Rabs_pos_eq; nra).
  transitivity (m * m * (Rabs (cos phi) * Rabs (cos phi))); [|ring]. rewrite E. nra.
Qed.
(** the angle seen from the centre of the tube *)
Lemma tube_angle M k z c s : 0 < M -> c * c + s * s = 1 -> (k <> 0 \/ z <> 0) ->
  exists t, vectors3d_angle (V3 (Rabs M * c) (Rabs M * s) 0) (V3 (k * c) (k * s) z) = Ok t /\ (PI / 2 < t <-> k < 0) /\ 0 <= t <= PI /\
  sqrt (k * k + z * z) * cos t = k.
Proof.
  intros HM CS HK. rewrite (Rabs_pos_eq M) by lra.
  assert (N1 : norm3 (V3 (M * c) (M * s) 0) = M). { unfold norm3. cbn [x3 y3 z3]. apply sqrt_of_sq; [lra|]. transitivity (M * M * (c * c + s * s)); [ring|rewrite CS; ring]. }
  assert (N2 : norm3 (V3 (k * c) (k * s) z) = sqrt (k * k + z * z)).
  { unfold norm3. cbn [x3 y3 z3]. apply f_equal. transitivity (k * k * (c * c + s * s) + z * z); [ring|rewrite CS; ring]. }
  assert (P2 : 0 < sqrt (k * k + z * z)). { apply sqrt_lt_R0. destruct HK; nra. }
  destruct (vectors3d_angle_spec (V3 (M * c) (M * s) 0) (V3 (k * c) (k * s) z)) as (t & E & B & D).
  { intros Q. apply norm3_zero in Q. rewrite N1 in Q. lra. } { intros Q. apply norm3_zero in Q. rewrite N2 in Q. lra. }
  rewrite N1, N2 in D. unfold dot3 in D. cbn [x3 y3 z3] in D.
  assert (D' : sqrt (k * k + z * z) * cos t = k).
  { apply Rmult_eq_reg_l with M; [|lra]. transitivity (M * c * (k * c) + M * s * (k * s) + 0 * z); [rewrite <- D; ring|]. transitivity (M * k * (c * c + s * s)); [ring|rewrite CS; ring]. }
  exists t. split; auto. split; [|auto]. rewrite (acute_of_cos t B). set (q := sqrt (k * k + z * z)) in *. clearbody q. rewrite <- D'. split; intros; nra.
Qed.
Lemma torus_inverse f M m theta phi : direct (fb3 f) -> 0 < m < 2 * M -> - PI < theta <= PI -> - PI < phi <= PI ->
  (M + m * cos phi <= 0 -> M + m * cos phi < 0 /\ theta < PI) ->
  unsnapped (/ 10 ^ 9) theta -> unsnapped (/ 10 ^ 9) (PI - Rabs theta) -> unsnapped (/ 10 ^ 9) phi -> unsnapped (/ 10 ^ 9) (PI - Rabs phi) ->
  unsnapped (/ 10 ^ 12) ((M + m * cos phi) * cos theta) -> unsnapped (/ 10 ^ 12) ((M + m * cos phi) * sin theta) -> unsnapped (/ 10 ^ 6) (m * sin phi) ->
  torus_3d_to_2d f M m (torus_array f M m (V2 theta phi)) = Ok (V2 theta phi).
Proof.
  intros H Hm T P NZ U1 U2 U3 U4 U5 U6 U7. rewrite torus_array_local. unfold torus_3d_to_2d. rewrite g2l_point by auto. unfold bind, snap3. cbn [x3 y3 z3 x2 y2].
  pose proof PI_RGT_0 as PP. pose proof (SIN_bound phi) as SB. pose proof (COS_bound phi) as CB. pose proof (pow10_inv_pos 9) as P9.
  rewrite (snap3_zap (/ 10 ^ 12) ((M + m * cos phi) * cos theta)) by (auto; apply eps12).
  rewrite (snap3_zap (/ 10 ^ 12) ((M + m * cos phi) * sin theta)) by (auto; apply eps12).
  rewrite (snap_id (m * sin phi)) by (eapply unsnapped_weaken; [apply eps6|auto]). rewrite pyclamp_id by (split; nra). rewrite (zap_id (/ 10 ^ 6)) by auto.
  rewrite (proj2 (Reqb_false m 0)) by lra. replace (m * sin phi / m) with (sin phi) by (field; lra). rewrite sqrt_minor by lra.
  set (u := M + m * Rabs (cos phi)). assert (PU : 0 < u) by (unfold u; pose proof (Rabs_pos (cos phi)); nra). rewrite (proj2 (Reqb_false u 0)) by lra.
  replace ((M + m * cos phi) * sin theta / u) with (/ u * ((M + m * cos phi) * sin theta)) by (unfold Rdiv; ring).
  replace ((M + m * cos phi) * cos theta / u) with (/ u * ((M + m * cos phi) * cos theta)) by (unfold Rdiv; ring).
  rewrite atan2_scale by (apply Rinv_0_lt_compat; auto).
  assert (NSC : m * cos phi <> 0 \/ m * sin phi <> 0). { pose proof (sc1 phi). destruct (Req_dec (cos phi) 0) as [C0|C0]; [right|left]; nra. }
  destruct (Rle_dec (M + m * cos phi) 0) as [L|L].
  - (* inner part of a spindle torus *)
    destruct (NZ L) as [L1 L2]. set (k := - (M + m * cos phi)). assert (Pk : 0 < k) by (unfold k; lra).
    assert (E0 : exists t0, - PI < t0 <= PI /\ cos t0 = - cos theta /\ sin t0 = - sin theta /\ unsnapped (/ 10 ^ 9) t0 /\
       (if Rleb 0 t0 then t0 - PI else t0 + PI) = theta).
    { destruct (Rle_dec theta 0) as [Q|Q].
      - exists (theta + PI). rewrite neg_cos, neg_sin. rewrite (proj2 (Rleb_spec 0 (theta + PI))) by lra. split; [lra|]. split; auto. split; auto. split; [|ring].
        rewrite Rabs_left1 in U2 by lra. replace (PI - - theta) with (theta + PI) in U2 by ring. auto.
      - exists (theta - PI). rewrite cos_minus, sin_minus, cos_PI, sin_PI. rewrite (proj2 (Rleb_false 0 (theta - PI))) by lra. split; [lra|]. split; [ring|]. split; [ring|]. split; [|ring].
        rewrite Rabs_pos_eq in U2 by lra. destruct U2 as [U2|U2]; [left; lra|right]. rewrite <- Rabs_Ropp. replace (- (theta - PI)) with (PI - theta) by ring. auto. }
    destruct E0 as (t0 & R0 & C0 & S0 & U0 & F0).
    replace ((M + m * cos phi) * cos theta) with (k * cos t0) by (unfold k; rewrite C0; ring).
    replace ((M + m * cos phi) * sin theta) with (k * sin t0) by (unfold k; rewrite S0; ring).
    rewrite atan2_unique by auto.
    assert (EV : sub3 (V3 (k * cos t0) (k * sin t0) (m * sin phi)) (V3 (Rabs M * cos t0) (Rabs M * sin t0) 0) = V3 ((k - M) * cos t0) ((k - M) * sin t0) (m * sin phi)).
    { unfold sub3. cbn [x3 y3 z3]. rewrite (Rabs_pos_eq M) by lra. v_eq; ring. }
    rewrite EV. clear EV. assert (KM : k - M < 0) by (unfold k; nra).
    destruct (tube_angle M (k - M) (m * sin phi) (cos t0) (sin t0)) as (t & -> & Ht & _ & _); [lra|pose proof (sc1 t0); lra|left; lra|].
    assert (CN : cos phi < 0) by nra.
    assert (HP : / 2 * PI < t <-> cos phi < 0). { split; intros; auto. replace (/ 2 * PI) with (PI / 2) by (unfold Rdiv; ring). tauto. }
    rewrite (torus_phi phi P U3 U4 t HP). rewrite (zap_id _ t0) by auto. rewrite (zap_id _ phi) by auto.
    assert (MM : M < m) by nra. rewrite (proj2 (Rltb_spec M m)) by auto.
    rewrite (proj2 (Rltb_spec (acos (- M / m)) (Rabs phi))).
    + rewrite F0. reflexivity.
    + assert (B : -1 <= - M / m <= 1).
      { split; apply Rmult_le_reg_r with m; try lra; unfold Rdiv; rewrite Rmult_assoc, Rinv_l by lra; lra. }
      assert (CA : cos (Rabs phi) = cos phi). { unfold Rabs. destruct (Rcase_abs phi); [apply cos_neg|auto]. }
      pose proof (acos_bound (- M / m)) as AB. destruct (Rlt_dec (acos (- M / m)) (Rabs phi)) as [|N]; auto. exfalso.
      assert (L3 : Rabs phi <= acos (- M / m)) by lra.
      assert (cos (acos (- M / m)) <= cos (Rabs phi)). { destruct L3 as [L3|L3]; [left; apply cos_decreasing_1; try lra; pose proof (Rabs_pos phi); lra|rewrite L3; lra]. }
      rewrite cos_acos, CA in H0 by auto. assert (- M <= cos phi * m); [|lra]. apply Rmult_le_compat_r with (r := m) in H0; [|lra].
      unfold Rdiv in H0. rewrite Rmult_assoc, Rinv_l in H0 by lra. lra.
  - assert (Pk : 0 < M + m * cos phi) by lra. rewrite atan2_unique by auto.
    assert (EV : sub3 (V3 ((M + m * cos phi) * cos theta) ((M + m * cos phi) * sin theta) (m * sin phi)) (V3 (Rabs M * cos theta) (Rabs M * sin theta) 0) =
                 V3 (m * cos phi * cos theta) (m * cos phi * sin theta) (m * sin phi)).
    { unfold sub3. cbn [x3 y3 z3]. rewrite (Rabs_pos_eq M) by lra. v_eq; ring. }
    rewrite EV. clear EV.
    destruct (tube_angle M (m * cos phi) (m * sin phi) (cos theta) (sin theta)) as (t & -> & Ht & _ & _); [lra|pose proof (sc1 theta); lra|auto|].
    assert (HP : / 2 * PI < t <-> cos phi < 0). { replace (/ 2 * PI) with (PI / 2) by (unfold Rdiv; ring). rewrite Ht. split; intros; nra. }
    rewrite (torus_phi phi P U3 U4 t HP). rewrite (zap_id _ theta) by auto. rewrite (zap_id _ phi) by auto.
    destruct (Rltb M m) eqn:MM; rb; [|reflexivity]. rewrite (proj2 (Rltb_false (acos (- M / m)) (Rabs phi))); [reflexivity|].
    assert (B : -1 <= - M / m <= 1).
    { split; apply Rmult_le_reg_r with m; try lra; unfold Rdiv; rewrite Rmult_assoc, Rinv_l by lra; lra. }
    assert (CA : cos (Rabs phi) = cos phi). { unfold Rabs. destruct (Rcase_abs phi); [apply cos_neg|auto]. }
    pose proof (acos_bound (- M / m)) as AB. destruct (Rle_dec (Rabs phi) (acos (- M / m))) as [|N]; auto. exfalso.
    assert (cos (Rabs phi) < cos (acos (- M / m))). { apply cos_decreasing_1; try lra; unfold Rabs; destruct (Rcase_abs phi); lra. }
    rewrite cos_acos, CA in H0 by auto. assert (cos phi * m < - M); [|lra]. apply Rmult_lt_compat_r with (r := m) in H0; [|lra].
    unfold Rdiv in H0. rewrite Rmult_assoc, Rinv_l in H0 by lra. lra.
Qed.
