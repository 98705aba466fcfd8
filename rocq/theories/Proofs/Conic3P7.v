From Coq Require Import Reals Lra Lia List Bool ZArith.
From Verif.Model Require Import Base RBase Vec Frame BBox Geometry Plane Curves Ellipse Conic3.
From Verif.Spec Require Import VecSpec FrameSpec BBoxSpec PlaneSpec CurvesSpec EllipseSpec EllipseSpec2 ParamSurfSpec Conic3Spec.
From Verif.Proofs Require Import VecP LineP FrameP FrameP2 PlaneP PlaneP3 CurvesP CurvesP4 EllipseP EllipseP2 EllipseP3 EllipseP4 EllipseP6 EllipseP7 Conic3P Conic3P2 ParamSurfP ParamSurfP2 ParamSurfP4 Conic3P3 Conic3P5.
Import ListNotations.
Open Scope R_scope.

(** ellipses whose frame is the local one *)
Lemma unit2_x a : 0 < a -> unit_vector2 (V2 a 0) = Ok (V2 1 0).
Proof.
  intros A. unfold unit_vector2. assert (N : norm2 (V2 a 0) = a). { unfold norm2. cbn [x2 y2]. replace (a * a + 0 * 0) with (a * a) by ring. apply sqrt_square. lra. }
  rewrite N. rewrite (proj2 (Reqb_false _ _)) by lra. cbn [x2 y2]. apply f_equal. f_equal; field; lra.
Qed.
Lemma unit2_y a : 0 < a -> unit_vector2 (V2 0 a) = Ok (V2 0 1).
Proof.
  intros A. unfold unit_vector2. assert (N : norm2 (V2 0 a) = a). { unfold norm2. cbn [x2 y2]. replace (0 * 0 + a * a) with (a * a) by ring. apply sqrt_square. lra. }
  rewrite N. rewrite (proj2 (Reqb_false _ _)) by lra. cbn [x2 y2]. apply f_equal. f_equal; field; lra.
Qed.
Definition zframe (o : vec3) : frame3 := F3 o (B3 (V3 1 0 0) (V3 0 1 0) (V3 0 0 1)).
Lemma self_2d_ok a b o : 0 < a -> 0 < b -> ellipse3_self_2d (E3 a b (zframe o)) = Ok (E2 a b OXY2).
Proof.
  intros A B. unfold ellipse3_self_2d, ellipse3_to_2d. cbn [ef3 emaj3 emin3 zframe org3 fb3 bu bv].
  assert (Z : to_2d o o (V3 1 0 0) (V3 0 1 0) = V2 0 0) by (unfold to_2d, dot3; cbn [x3 y3 z3]; f_equal; ring). rewrite Z.
  replace (sub2 (to_2d (add3 o (mul3 (V3 1 0 0) a)) o (V3 1 0 0) (V3 0 1 0)) (V2 0 0)) with (V2 a 0) by (unfold to_2d, dot3, sub2, add3, mul3; cbn [x3 y3 z3 x2 y2]; f_equal; ring).
  replace (sub2 (to_2d (add3 o (mul3 (V3 0 1 0) b)) o (V3 1 0 0) (V3 0 1 0)) (V2 0 0)) with (V2 0 b) by (unfold to_2d, dot3, sub2, add3, mul3; cbn [x3 y3 z3 x2 y2]; f_equal; ring).
  rewrite unit2_x, unit2_y by assumption. reflexivity.
Qed.
Lemma flat_lines n a b o p q tol : 0 < a -> 0 < b -> 0 <= tol -> z3 p = z3 o -> z3 q = z3 o -> p <> q ->
  ellipse3_line_loop (S n) (E3 a b (zframe o)) (p, q) tol = do r <- ellipse2_line_intersections (E2 a b OXY2) (V2 (x3 p - x3 o) (y3 p - y3 o), V2 (x3 q - x3 o) (y3 q - y3 o)) (/ 10 ^ 6); Ok (map (fun i => V3 (x2 i) (y2 i) (z3 o)) r).
Proof.
  intros A B T Zp Zq N. cbn [ellipse3_line_loop ef3]. rewrite upright_horizontal by (try (left; reflexivity); exact T). cbn [negb fst snd zframe org3]. rewrite Zp, Zq. rewrite !Rminus_diag_eq by reflexivity. rewrite !Rabs_R0, !(proj2 (Rleb_spec 0 tol)) by exact T. cbn [andb].
  change (F3 o (B3 (V3 1 0 0) (V3 0 1 0) (V3 0 0 1))) with (zframe o). rewrite self_2d_ok by assumption. cbn [bind zframe fb3 bu bv].
  assert (P2 : forall v, to_2d v o (V3 1 0 0) (V3 0 1 0) = V2 (x3 v - x3 o) (y3 v - y3 o)) by (intros v; unfold to_2d, dot3; cbn [x3 y3 z3]; f_equal; ring). rewrite !P2. cbn [x2 y2].
  destruct (Reqb (x3 p - x3 o) (x3 q - x3 o) && Reqb (y3 p - y3 o) (y3 q - y3 o)) eqn:E; [exfalso|reflexivity].
  apply andb_true_iff in E as [E1 E2]. apply Reqb_spec in E1, E2. apply N. destruct p as [p1 p2 p3], q as [q1 q2 q3]. cbn [x3 y3 z3] in *. f_equal; lra.
Qed.
Lemma ellipse_loop_inclined n e l tol : horizontal (ef3 e) tol = false -> ellipse3_line_loop (S n) e l tol =
  do g <- frame3_mapping_new (ef3 e) (ef3 e); do l' <- line3_mapping_new l (ef3 e); do r <- ellipse3_line_loop n (E3 (emaj3 e) (emin3 e) g) l' tol; Ok (map (frame3_l2g (ef3 e)) r).
Proof. intros H. cbn [ellipse3_line_loop]. rewrite H. reflexivity. Qed.
Lemma inclined_form e p q tol : direct (fb3 (ef3 e)) -> inclined (ef3 e) tol -> 0 <= tol -> clean3 p -> clean3 q ->
  ellipse3_line_intersections e (frame_point (ef3 e) p, frame_point (ef3 e) q) tol = do r <- ellipse3_line_loop 1 (E3 (emaj3 e) (emin3 e) LOCAL) (p, q) tol; Ok (map (frame3_l2g (ef3 e)) r).
Proof.
  intros D I1 T CP CQ. unfold ellipse3_line_intersections. rewrite ellipse_loop_inclined by (apply inclined_horizontal; [apply D|exact I1|exact T]). rewrite own_mapping by exact D. cbn [bind].
  unfold line3_mapping_new. cbn [fst snd]. rewrite !g2l_point by exact D. cbn [bind]. rewrite !clean_snap by assumption. reflexivity.
Qed.
Lemma oxy_point a b t : ellipse2_point (E2 a b OXY2) t = V2 (a * cos t) (b * sin t).
Proof. unfold ellipse2_point, ecenter, major_dir, minor_dir, OXY2. cbn [ef emaj emin org2 fb2 u2 v2]. unfold O2D, X2D, Y2D, add2, mul2. cbn [x2 y2]. f_equal; ring. Qed.
Lemma ellipse3_local e t : ellipse3_point e t = frame_point (ef3 e) (V3 (emaj3 e * cos t) (emin3 e * sin t) 0).
Proof.
  unfold ellipse3_point, frame_point, basis_vector. destruct (ef3 e) as [[o1 o2 o3] [[a1 a2 a3] [b1 b2 b3] [c1 c2 c3]]]. unfold add3, mul3. cbn [x3 y3 z3 bu bv bw fb3 org3]. f_equal; ring.
Qed.
Lemma flat_has p q x y : z3 p = 0 -> z3 q = 0 -> (line2_has (V2 (x3 p) (y3 p), V2 (x3 q) (y3 q)) (V2 x y) <-> on_line3 (p, q) (V3 x y 0)).
Proof.
  intros Zp Zq. unfold line2_has, on_line3. split; intros [t E]; exists t; cbn [fst snd] in *.
  - unfold at_param2 in E. cbn [fst snd] in E. unfold add2, sub2, mul2 in E. cbn [x2 y2] in E. injection E as E1 E2. unfold add3, mul3, sub3. cbn [x3 y3 z3]. rewrite Zp, Zq. f_equal; [lra|lra|ring].
  - unfold add3, mul3, sub3 in E. cbn [x3 y3 z3] in E. injection E as E1 E2 E3. unfold at_param2, add2, sub2, mul2. cbn [fst snd x2 y2]. f_equal; lra.
Qed.
