From Coq Require Import Reals Lra Lia List Bool ZArith.
From Verif.Model Require Import Base RBase Vec Frame BBox Geometry Plane Curves Ellipse Conic3.
From Verif.Spec Require Import VecSpec FrameSpec BBoxSpec PlaneSpec CurvesSpec EllipseSpec ParamSurfSpec Conic3Spec.
From Verif.Proofs Require Import VecP LineP FrameP FrameP2 PlaneP CurvesP EllipseP EllipseP2 EllipseP4 Conic3P Conic3P2 ParamSurfP ParamSurfP2 ParamSurfP4 Conic3P3 Conic3P4 Conic3P5.
Import ListNotations.
Open Scope R_scope.

Lemma comp_z u : Rabs (z3 u) <= norm3 u.
Proof.
  rewrite <- sqrt_Rsqr_abs. apply sqrt_le_1_alt. unfold Rsqr. pose proof (Rle_0_sqr (x3 u)). pose proof (Rle_0_sqr (y3 u)). unfold Rsqr in *. lra.
Qed.
Lemma frame_point_scaled f w k : frame_point f (mul3 w k) = add3 (org3 f) (mul3 (basis_vector (fb3 f) w) k).
Proof. unfold frame_point, basis_vector. destruct f as [[o1 o2 o3] [[a1 a2 a3] [b1 b2 b3] [c1 c2 c3]]], w as [w1 w2 w3]. unfold add3, mul3. cbn [x3 y3 z3 bu bv bw fb3 org3]. f_equal; ring. Qed.
Lemma bounds_mix r rho delta : 0 <= r -> / 10 ^ 3 <= rho -> delta <= 2 * / 10 ^ 12 -> 2 * r * delta / rho + 2 * eps <= / 10 ^ 8 * r + / 10 ^ 12.
Proof.
  intros R0 A D. assert (T3 : / 10 ^ 3 = / 1000) by (f_equal; ring). assert (T12 : / 10 ^ 12 = / 1000000000000) by (f_equal; ring). assert (T8 : / 10 ^ 8 = / 100000000) by (f_equal; ring).
  assert (E16 : eps <= / 10 ^ 13) by (apply pow10_le; lia). assert (T13 : / 10 ^ 13 = / 10000000000000) by (f_equal; ring). rewrite T3 in A. rewrite T12 in *. rewrite T8. rewrite T13 in E16.
  assert (0 <= / rho <= 1000). { split; [apply Rlt_le, Rinv_0_lt_compat; lra|]. replace 1000 with (/ / 1000) by field. apply Rinv_le_contravar; lra. }
  assert (2 * r * delta / rho <= 2 * r * (2 * / 1000000000000) * 1000).
  { unfold Rdiv. eapply Rle_trans; [apply Rmult_le_compat_r; [lra|apply Rmult_le_compat_l; [lra|exact D]]|]. apply Rmult_le_compat_l; [|lra]. apply Rmult_le_pos; lra. }
  lra.
Qed.
Lemma circle_point_distance_ok : forall c p, direct (fb3 (cf3 c)) -> upright (cf3 c) \/ inclined (cf3 c) (/ 10 ^ 6) -> / 10 ^ 3 <= cr3 c -> / 10 ^ 3 <= axis_distance (cf3 c) p ->
  exists d d0, circle3_point_distance c p = Ok d /\ dist_to_circle3 c p d0 /\ Rabs (d - d0) <= / 10 ^ 8 * cr3 c + / 10 ^ 12.
Proof.
  intros c p D U R0 A. set (f := cf3 c) in *. assert (O := proj1 D). assert (P3 := pow10_inv_pos 3). assert (P6 := pow10_inv_pos 6). assert (P16 : 0 < eps) by apply pow10_inv_pos.
  assert (RP := rounded_projection f p O). set (q' := point_to_3d _ _ _ _) in RP. set (a := x3 (coords f p)) in *. set (b := y3 (coords f p)) in *.
  assert (LC : point_distance3 (coords f q') (V3 a b 0) <= / 10 ^ 12). { rewrite <- (frame_point_coords f q' D) in RP. rewrite frame_point_dist in RP by exact O. exact RP. }
  assert (NAB : norm3 (V3 a b 0) = axis_distance f p). { rewrite (axis_coords f p D). fold a b. unfold ParamSurfP.rho, norm3. cbn [x3 y3 z3]. f_equal. ring. }
  assert (T3 : / 10 ^ 3 = / 1000) by (f_equal; ring). assert (T6 : / 10 ^ 6 = / 1000000) by (f_equal; ring). assert (T12 : / 10 ^ 12 = / 1000000000000) by (f_equal; ring).
  assert (E12 : eps <= / 10 ^ 13) by (apply pow10_le; lia). assert (T13 : / 10 ^ 13 = / 10000000000000) by (f_equal; ring). rewrite T13 in E12.
  assert (Far : forall v delta, point_distance3 v (V3 a b 0) <= delta -> delta < / 10 ^ 3 -> v <> V3 0 0 0).
  { intros v delta H L ->. assert (K : point_distance3 (V3 0 0 0) (V3 a b 0) = norm3 (V3 a b 0)). { rewrite dist3_sym. unfold point_distance3. f_equal. unfold sub3. cbn [x3 y3 z3]. f_equal; ring. } rewrite K, NAB in H. lra. }
  assert (Zs : forall v delta, point_distance3 v (V3 a b 0) <= delta -> Rabs (z3 v) <= delta).
  { intros v delta H. eapply Rle_trans; [|exact H]. unfold point_distance3. eapply Rle_trans; [|apply comp_z]. unfold sub3. cbn [z3]. rewrite Rminus_0_r. lra. }
  unfold circle3_point_distance. cbv zeta. change (center3 c) with (org3 f). fold f. fold q'. unfold circle3_line_intersections.
  destruct U as [U|I1].
  - assert (Zq : z3 (coords f q') = (z3 q' - z3 (org3 f)) \/ z3 (coords f q') = - (z3 q' - z3 (org3 f))).
    { unfold coords. cbn [z3]. destruct U as [-> | ->]; [left|right]; unfold dot3, sub3, Z3D; cbn [x3 y3 z3]; ring. }
    assert (Zb : Rabs (z3 q' - z3 (org3 f)) <= / 10 ^ 12). { assert (K := Zs _ _ LC). destruct Zq as [Zq|Zq]; rewrite Zq in K; [|rewrite Rabs_Ropp in K]; exact K. }
    assert (Nq : q' <> center3 c). { intro K. apply (Far _ _ LC); [lra|]. rewrite K. change (center3 c) with (org3 f). unfold coords. replace (sub3 (org3 f) (org3 f)) with (V3 0 0 0) by (unfold sub3; f_equal; ring). unfold dot3. cbn [x3 y3 z3]. f_equal; ring. }
    destruct (radial_points c q' (/ 10 ^ 6) 1 (upright_horizontal _ _ U (Rlt_le _ _ P6)) (Rlt_le _ _ P6) R0 Nq) as (u & s0 & UU & S0 & Eq & EL).
    { change (center3 c) with (org3 f). rewrite Rabs_minus_sym. lra. } { change (center3 c) with (org3 f). lra. }
    change (org3 f, q') with (center3 c, q'). rewrite EL. cbn [bind]. set (w := coords f (add3 (org3 f) u)). assert (Ew : basis_vector (fb3 f) w = u).
    { assert (K := frame_point_coords f (add3 (org3 f) u) D). fold w in K. unfold frame_point in K. destruct (basis_vector (fb3 f) w) as [w1 w2 w3], (org3 f) as [o1 o2 o3], u as [u1 u2 u3]. unfold add3 in K. cbn [x3 y3 z3] in K. injection K as K1 K2 K3. f_equal; lra. }
    assert (WW : dot3 w w = 1).
    { assert (K := sphere_local f w O). assert (G : point_distance3 (frame_point f w) (org3 f) = norm3 u). { unfold point_distance3, frame_point. rewrite Ew. f_equal. destruct u as [u1 u2 u3], (org3 f) as [o1 o2 o3]. unfold sub3, add3. cbn [x3 y3 z3]. f_equal; ring. }
      rewrite G in K. apply (f_equal (fun t => t * t)) in K. rewrite !norm3_sq in K. lra. }
    destruct (circle_distance_core c p (add3 (center3 c) (mul3 u (cr3 c))) (add3 (center3 c) (mul3 u (- cr3 c))) w s0 (/ 10 ^ 12) (2 * eps) D) as (d0 & Dd & Bd).
    { fold f. lra. } { lra. } { exact WW. } { exact S0. }
    { fold f. fold a b. assert (K : frame_point f (mul3 w s0) = q'). { rewrite frame_point_scaled, Ew. change (org3 f) with (center3 c). rewrite <- Eq. destruct q' as [q1 q2 q3], (center3 c) as [o1 o2 o3]. unfold sub3, add3. cbn [x3 y3 z3]. f_equal; ring. }
      rewrite <- K in LC. rewrite coords_frame_point in LC by exact O. exact LC. }
    { fold f. rewrite frame_point_scaled, Ew. change (org3 f) with (center3 c). rewrite dist_self. lra. } { fold f. rewrite frame_point_scaled, Ew. change (org3 f) with (center3 c). rewrite dist_self. lra. }
    cbv zeta in Bd. eexists. exists d0. split; [reflexivity|]. split; [exact Dd|]. change (org3 f) with (center3 c). eapply Rle_trans; [exact Bd|]. apply bounds_mix; fold f; lra.
  - rewrite loop_inclined by (fold f; apply inclined_horizontal; [exact O|exact I1|lra]). fold f. rewrite own_mapping by exact D. cbn [bind]. unfold line3_mapping_new. cbn [fst snd].
    rewrite (g2l_coords f (org3 f) D). replace (coords f (org3 f)) with (V3 0 0 0). 2:{ unfold coords. replace (sub3 (org3 f) (org3 f)) with (V3 0 0 0) by (unfold sub3; f_equal; ring). unfold dot3. cbn [x3 y3 z3]. f_equal; ring. }
    cbn [bind]. destruct (direct_g2l f q' D) as (s & -> & Ns). cbn [bind]. fold (coords f q') in Ns. apply near_dist in Ns. unfold snap3. cbn [x3 y3 z3]. rewrite snap_0.
    assert (LS : point_distance3 s (V3 a b 0) <= 2 * / 10 ^ 12). { eapply Rle_trans; [apply (dist3_triangle _ (coords f q'))|]. lra. }
    set (C := C3 LOCAL (cr3 c)).
    assert (Zb := Zs _ _ LS). assert (Ns0 : s <> center3 C). { apply (Far _ _ LS). lra. }
    destruct (radial_points C s (/ 10 ^ 6) 0) as (w & s0 & WW & S0 & Eq & EL).
    { apply upright_horizontal; [left; reflexivity|lra]. } { lra. } { exact R0. } { exact Ns0. } { change (z3 (center3 C)) with 0. rewrite Rabs_minus_sym, Rminus_0_r. lra. } { change (z3 (center3 C)) with 0. rewrite Rminus_0_r. lra. }
    change (circle3_line_loop 1 C (center3 C, s) (/ 10 ^ 6)) with (circle3_line_loop 1 C (V3 0 0 0, s) (/ 10 ^ 6)) in EL. rewrite EL. cbn [bind map]. assert (PZ : forall v, add3 (center3 C) v = v). { intros [v1 v2 v3]. unfold add3. cbn. f_equal; ring. } rewrite !PZ.
    destruct (circle_distance_core c p (frame3_l2g f (mul3 w (cr3 c))) (frame3_l2g f (mul3 w (- cr3 c))) w s0 (2 * / 10 ^ 12) (2 * eps) D) as (d0 & Dd & Bd).
    { fold f. lra. } { lra. } { exact WW. } { exact S0. }
    { fold f. fold a b. rewrite <- Eq. replace (sub3 s (center3 C)) with s; [exact LS|]. destruct s as [s1 s2 s3]. unfold sub3. cbn. f_equal; ring. }
    { apply near_dist, frame3_l2g_near. } { apply near_dist, frame3_l2g_near. }
    cbv zeta in Bd. eexists. exists d0. split; [reflexivity|]. split; [exact Dd|]. eapply Rle_trans; [exact Bd|]. apply bounds_mix; fold f; lra.
Qed.
