From Coq Require Import Reals Lra Lia List Bool ZArith.
From Verif.Model Require Import Base RBase Vec Frame BBox Geometry Plane Curves Ellipse Conic3.
From Verif.Spec Require Import VecSpec FrameSpec BBoxSpec PlaneSpec CurvesSpec EllipseSpec Conic3Spec.
From Verif.Proofs Require Import VecP LineP FrameP FrameP2 PlaneP CurvesP EllipseP EllipseP2 EllipseP4 Conic3P Conic3P2 ParamSurfP ParamSurfP2 ParamSurfP4.
Import ListNotations.
Open Scope R_scope.

Definition LOCAL : frame3 := F3 (V3 0 0 0) (B3 (V3 1 0 0) (V3 0 1 0) (V3 0 0 1)).
Lemma snap_0 : snap 0 = 0.
Proof. unfold snap. destruct (Rltb (Rabs 0) (/ 10 ^ 16)); reflexivity. Qed.
Lemma snap_1 : snap 1 = 1.
Proof.
  unfold snap. destruct (Rltb (Rabs 1) (/ 10 ^ 16)) eqn:E; [exfalso|reflexivity]. apply Rltb_spec in E. rewrite Rabs_R1 in E.
  assert (/ 10 ^ 16 <= / 10 ^ 0) by (apply pow10_le; lia). cbn [pow] in *. rewrite Rinv_1 in H. lra.
Qed.
Lemma own_mapping f : direct (fb3 f) -> frame3_mapping_new f f = Ok LOCAL.
Proof.
  intros D. unfold frame3_mapping_new. assert (O := g2l_coords f (org3 f) D).
  assert (Z : coords f (org3 f) = V3 0 0 0). { unfold coords. replace (sub3 (org3 f) (org3 f)) with (V3 0 0 0) by (unfold sub3; f_equal; ring). unfold dot3. cbn [x3 y3 z3]. f_equal; ring. }
  rewrite O, Z. cbn [bind].
  assert (G : forall v, basis3_g2l (fb3 f) v = Ok (snap3 (V3 (dot3 v (bu (fb3 f))) (dot3 v (bv (fb3 f))) (dot3 v (bw (fb3 f)))))).
  { intros v. assert (A := g2l_coords f (add3 v (org3 f)) D). unfold frame3_g2l, coords in A. replace (sub3 (add3 v (org3 f)) (org3 f)) with v in A; [exact A|]. destruct v as [a b c]. unfold sub3, add3. cbn [x3 y3 z3]. f_equal; ring. }
  rewrite !G. cbn [bind]. destruct (proj1 D) as (A1 & A2 & A3 & A4 & A5 & A6).
  rewrite (dot3_sym (bv (fb3 f)) (bu (fb3 f))), (dot3_sym (bw (fb3 f)) (bu (fb3 f))), (dot3_sym (bw (fb3 f)) (bv (fb3 f))). rewrite A1, A2, A3, A4, A5, A6.
  unfold snap3. cbn [x3 y3 z3]. rewrite snap_0, snap_1. reflexivity.
Qed.
Lemma clean_snap v : clean3 v -> snap3 v = v.
Proof.
  assert (A : forall x, x = 0 \/ eps <= Rabs x -> snap x = x). { intros x [-> | H]; [apply snap_0|]. unfold snap. destruct (Rltb (Rabs x) (/ 10 ^ 16)) eqn:E; [exfalso|reflexivity]. apply Rltb_spec in E. unfold eps in H. lra. }
  intros (X & Y & Z). unfold snap3. rewrite !A by assumption. destruct v as [a b c]. reflexivity.
Qed.
Lemma line_local f p q v : on_line3 (p, q) v -> on_line3 (frame_point f p, frame_point f q) (frame_point f v).
Proof.
  intros [t ->]. exists t. cbn [fst snd]. unfold frame_point, basis_vector. destruct f as [[o1 o2 o3] [[a1 a2 a3] [b1 b2 b3] [c1 c2 c3]]], p as [p1 p2 p3], q as [q1 q2 q3]. unfold add3, sub3, mul3. cbn [x3 y3 z3 bu bv bw fb3 org3]. f_equal; ring.
Qed.
Lemma line_global f p q v : orthonormal (fb3 f) -> on_line3 (frame_point f p, frame_point f q) v -> exists w, v = frame_point f w /\ on_line3 (p, q) w.
Proof.
  intros O [t E]. exists (add3 p (mul3 (sub3 q p) t)). split; [|exists t; reflexivity]. rewrite E. cbn [fst snd].
  unfold frame_point, basis_vector. destruct f as [[o1 o2 o3] [[a1 a2 a3] [b1 b2 b3] [c1 c2 c3]]], p as [p1 p2 p3], q as [q1 q2 q3]. unfold add3, sub3, mul3. cbn [x3 y3 z3 bu bv bw fb3 org3]. f_equal; ring.
Qed.
Lemma plane_local f v : orthonormal (fb3 f) -> on_plane f (frame_point f v) <-> z3 v = 0.
Proof. intros O. unfold on_plane. assert (H := height_local f v O). unfold ParamSurfSpec.height in H. rewrite H. tauto. Qed.
Lemma loop_inclined n c l tol : horizontal (cf3 c) tol = false -> circle3_line_loop (S n) c l tol =
  do g <- frame3_mapping_new (cf3 c) (cf3 c); do l' <- line3_mapping_new l (cf3 c); do r <- circle3_line_loop n (C3 g (cr3 c)) l' (/ 10 ^ 6); Ok (map (frame3_l2g (cf3 c)) r).
Proof. intros H. cbn [circle3_line_loop]. rewrite H. reflexivity. Qed.
Lemma inclined_ok : forall c l tol p q, direct (fb3 (cf3 c)) -> inclined (cf3 c) tol -> 0 <= tol -> 0 <= cr3 c -> p <> q -> l = (frame_point (cf3 c) p, frame_point (cf3 c) q) ->
  clean3 p -> clean3 q -> flat_or_steep (p, q) 0 ->
  exists pts, circle3_line_intersections c l tol = Ok pts /\
  (forall r, In r pts -> exists r0, near eps r r0 /\ on_line3 l r0 /\ on_plane (cf3 c) r0 /\ about_radius c r0) /\
  (forall r, on_line3 l r -> on_circle3 c r -> exists r', In r' pts /\ point_distance3 r r' <= 2 * / 10 ^ 3).
Proof.
  intros c l tol p q D I1 T R0 N -> CP CQ F. unfold circle3_line_intersections. set (f := cf3 c) in *. assert (O := proj1 D).
  set (C := C3 LOCAL (cr3 c)). destruct (level_ok C (p, q) (/ 10 ^ 6) 0) as (pts & E & A & B).
  { apply upright_horizontal; [left; reflexivity|apply Rlt_le, pow10_inv_pos]. } { apply Rlt_le, pow10_inv_pos. } { exact R0. } { exact N. } { exact F. }
  exists (map (frame3_l2g f) pts). split.
  - rewrite loop_inclined by (apply inclined_horizontal; assumption). fold f. rewrite own_mapping by exact D. cbn [bind]. unfold line3_mapping_new. cbn [fst snd]. rewrite !g2l_point by exact D. cbn [bind].
    rewrite !clean_snap by assumption. fold C. rewrite E. reflexivity.
  - assert (CC : forall v, point_distance3 (frame_point f v) (center3 c) = point_distance3 v (center3 C)).
    { intros v. change (center3 c) with (org3 f). rewrite <- (frame_point_org f). apply frame_point_dist, O. }
    split.
    + intros r Ir. apply in_map_iff in Ir as (v & <- & Iv). destruct (A v Iv) as (L & Z & AR). exists (frame_point f v). split; [apply frame3_l2g_near|]. split; [apply line_local, L|]. split; [apply plane_local; assumption|].
      unfold about_radius in *. rewrite CC. exact AR.
    + intros r L [Dc Pc]. destruct (line_global f p q r O L) as (w & -> & Lw). destruct (B w Lw) as (v & Iv & Dv).
      { change (z3 w = 0). apply (plane_local f w O). unfold on_plane. rewrite dot3_sym. exact Pc. } { change (cr3 C) with (cr3 c). rewrite <- CC. exact Dc. }
      exists (frame3_l2g f v). split; [apply in_map, Iv|]. assert (Nr := frame3_l2g_near f v). apply near_dist in Nr.
      assert (Tr := dist3_triangle (frame_point f w) (frame_point f v) (frame3_l2g f v)). rewrite (dist3_sym (frame_point f v) (frame3_l2g f v)), frame_point_dist in Tr by exact O.
      assert (eps <= / 10 ^ 4) by (apply pow10_le; lia). assert (/ 10 ^ 4 = / 10000) by (f_equal; ring). assert (/ 10 ^ 3 = / 1000) by (f_equal; ring). lra.
Qed.
