From Coq Require Import Reals Lra Lia List Bool ZArith.
From Verif.Model Require Import Base RBase Vec Frame BBox Geometry Plane Curves Ellipse Conic3.
From Verif.Spec Require Import VecSpec FrameSpec BBoxSpec PlaneSpec CurvesSpec EllipseSpec ParamSurfSpec Conic3Spec.
From Verif.Proofs Require Import VecP LineP FrameP FrameP2 PlaneP CurvesP EllipseP EllipseP2 EllipseP4 Conic3P Conic3P2 ParamSurfP ParamSurfP2 ParamSurfP4 Conic3P3.
Import ListNotations.
Open Scope R_scope.

(** in local coordinates: w is close to the radial direction, p1 and p2 to the two ends of the diameter *)
Lemma dist_diff p q r : Rabs (point_distance3 p r - point_distance3 q r) <= point_distance3 p q.
Proof. apply dist3_lip. Qed.
Lemma scaled_dist u v k : 0 <= k -> point_distance3 (mul3 u k) (mul3 v k) = k * point_distance3 u v.
Proof. intros K. unfold point_distance3. replace (sub3 (mul3 u k) (mul3 v k)) with (mul3 (sub3 u v) k) by (unfold sub3, mul3; cbn [x3 y3 z3]; f_equal; ring). rewrite norm3_scale, Rabs_right by lra. reflexivity. Qed.
Lemma radial_far r a b rho w s0 delta : 0 < rho -> rho * rho = a * a + b * b -> 0 <= r -> dot3 w w = 1 -> 0 < s0 -> point_distance3 (mul3 w s0) (V3 a b 0) <= delta ->
  point_distance3 (mul3 w r) (V3 (r * a / rho) (r * b / rho) 0) <= 2 * r * delta / rho.
Proof.
  intros P Q R0 W S0 D. assert (N : norm3 (V3 a b 0) = rho). { unfold norm3. cbn [x3 y3 z3]. replace (a * a + b * b + 0 * 0) with (rho * rho) by lra. apply sqrt_square. lra. }
  assert (M : norm3 (mul3 w s0) = s0). { rewrite norm3_scale, Rabs_right by lra. rewrite norm3_dot, W, sqrt_1. ring. }
  assert (L : Rabs (s0 - rho) <= delta).
  { rewrite <- N, <- M. assert (K := dist_diff (mul3 w s0) (V3 a b 0) (V3 0 0 0)). assert (Z : forall v, point_distance3 v (V3 0 0 0) = norm3 v) by (intros [v1 v2 v3]; unfold point_distance3; f_equal; unfold sub3; cbn [x3 y3 z3]; f_equal; ring).
    rewrite !Z in K. lra. }
  assert (T : point_distance3 (mul3 w rho) (V3 a b 0) <= 2 * delta).
  { eapply Rle_trans; [apply (dist3_triangle _ (mul3 w s0))|]. assert (point_distance3 (mul3 w rho) (mul3 w s0) <= delta); [|lra].
    unfold point_distance3. replace (sub3 (mul3 w rho) (mul3 w s0)) with (mul3 w (rho - s0)) by (unfold sub3, mul3; cbn [x3 y3 z3]; f_equal; ring). rewrite norm3_scale, norm3_dot, W, sqrt_1, Rabs_minus_sym. lra. }
  replace (mul3 w r) with (mul3 (mul3 w rho) (r / rho)) by (unfold mul3; cbn [x3 y3 z3]; f_equal; field; lra).
  replace (V3 (r * a / rho) (r * b / rho) 0) with (mul3 (V3 a b 0) (r / rho)) by (unfold mul3; cbn [x3 y3 z3]; f_equal; field; lra).
  assert (K : 0 <= r / rho) by (apply Rmult_le_pos; [lra|apply Rlt_le, Rinv_0_lt_compat, P]). rewrite scaled_dist by exact K.
  replace (2 * r * delta / rho) with (r / rho * (2 * delta)) by (field; lra). apply Rmult_le_compat_l; assumption.
Qed.
Definition circle_best (r a b h rho : R) : R := point_distance3 (V3 a b h) (V3 (r * a / rho) (r * b / rho) 0).
Lemma sqrt_le_sq a b : a <= b -> sqrt a <= sqrt b.
Proof. apply sqrt_le_1_alt. Qed.
Lemma circle_best_least r a b h rho x y : 0 < rho -> rho * rho = a * a + b * b -> 0 <= r -> x * x + y * y = r * r -> circle_best r a b h rho <= point_distance3 (V3 a b h) (V3 x y 0).
Proof.
  intros P Q R0 X. unfold circle_best, point_distance3, norm3. apply sqrt_le_sq. unfold sub3. cbn [x3 y3 z3].
  assert (C : a * x + b * y <= rho * r).
  { destruct (Rle_dec (a * x + b * y) (rho * r)) as [L|L]; [exact L|exfalso]. apply Rnot_le_lt in L.
    assert (0 <= rho * r) by (apply Rmult_le_pos; lra). assert (rho * r * (rho * r) < (a * x + b * y) * (a * x + b * y)) by (apply Rmult_le_0_lt_compat; lra).
    assert (E : (a * x + b * y) * (a * x + b * y) + (a * y - b * x) * (a * y - b * x) = (a * a + b * b) * (x * x + y * y)) by ring. rewrite <- Q, X in E.
    pose proof (Rle_0_sqr (a * y - b * x)) as Sq. unfold Rsqr in Sq. lra. }
  assert (E1 : (a - r * a / rho) * (a - r * a / rho) + (b - r * b / rho) * (b - r * b / rho) = (a * a + b * b) * ((1 - r / rho) * (1 - r / rho))) by (field; lra).
  rewrite <- Q in E1. assert (E2 : rho * rho * ((1 - r / rho) * (1 - r / rho)) = rho * rho - 2 * (rho * r) + r * r) by (field; lra). rewrite E2 in E1.
  replace (h - 0) with h by ring. assert (E3 : (a - x) * (a - x) + (b - y) * (b - y) = (a * a + b * b) - 2 * (a * x + b * y) + (x * x + y * y)) by ring. rewrite <- Q, X in E3. lra.
Qed.
Lemma radial_min r a b h rho w s0 delta eta p1 p2 : 0 < rho -> rho * rho = a * a + b * b -> 0 <= r -> dot3 w w = 1 -> s0 <> 0 -> point_distance3 (mul3 w s0) (V3 a b 0) <= delta ->
  point_distance3 p1 (mul3 w r) <= eta -> point_distance3 p2 (mul3 w (- r)) <= eta ->
  Rabs ((let d1 := point_distance3 p1 (V3 a b h) in let d2 := point_distance3 p2 (V3 a b h) in if Rltb d2 d1 then d2 else d1) - circle_best r a b h rho) <= 2 * r * delta / rho + eta.
Proof.
  intros P Q R0. revert w s0 p1 p2. assert (Pos : forall w s0 p1 p2, dot3 w w = 1 -> 0 < s0 -> point_distance3 (mul3 w s0) (V3 a b 0) <= delta ->
  point_distance3 p1 (mul3 w r) <= eta -> point_distance3 p2 (mul3 w (- r)) <= eta ->
  Rabs (point_distance3 p1 (V3 a b h) - circle_best r a b h rho) <= 2 * r * delta / rho + eta /\ circle_best r a b h rho - (2 * r * delta / rho + eta) <= point_distance3 p2 (V3 a b h)).
  { intros w s0 p1 p2 W S0 D H1 H2. assert (F := radial_far r a b rho w s0 delta P Q R0 W S0 D). set (e := V3 (r * a / rho) (r * b / rho) 0) in *. split.
    - unfold circle_best. fold e. rewrite (dist3_sym (V3 a b h) e). eapply Rle_trans; [apply dist_diff|]. eapply Rle_trans; [apply (dist3_triangle _ (mul3 w r))|]. lra.
    - assert (G : point_distance3 (mul3 w (- r)) (V3 (- (r * a / rho)) (- (r * b / rho)) 0) <= 2 * r * delta / rho).
      { unfold point_distance3 in *. replace (sub3 (mul3 w (- r)) (V3 (- (r * a / rho)) (- (r * b / rho)) 0)) with (mul3 (sub3 (mul3 w r) e) (-1)) by (unfold e, sub3, mul3; cbn [x3 y3 z3]; f_equal; ring).
        rewrite norm3_scale, Rabs_left by lra. lra. }
      assert (B : circle_best r a b h rho <= point_distance3 (V3 a b h) (V3 (- (r * a / rho)) (- (r * b / rho)) 0)).
      { apply circle_best_least; auto. transitivity ((a * a + b * b) * (r * r) / (rho * rho)); [field; lra|]. rewrite <- Q. field. lra. }
      set (e' := V3 (- (r * a / rho)) (- (r * b / rho)) 0) in *. assert (K := dist_diff e' p2 (V3 a b h)). assert (T := dist3_triangle e' (mul3 w (- r)) p2). rewrite (dist3_sym e' (mul3 w (- r))), (dist3_sym (mul3 w (- r)) p2) in T.
      rewrite (dist3_sym (V3 a b h) e') in B. assert (Rabs (point_distance3 e' (V3 a b h) - point_distance3 p2 (V3 a b h)) <= 2 * r * delta / rho + eta) by lra.
      pose proof (Rle_abs (point_distance3 e' (V3 a b h) - point_distance3 p2 (V3 a b h))). lra. }
  intros w s0 p1 p2 W S0 D H1 H2. destruct (Rlt_le_dec 0 s0) as [Lp|Ln].
  - destruct (Pos w s0 p1 p2 W Lp D H1 H2) as [A B]. cbv zeta. destruct (Rltb _ _) eqn:E; [|exact A]. apply Rltb_spec in E. apply Rabs_le. pose proof (Rle_abs (point_distance3 p1 (V3 a b h) - circle_best r a b h rho)). lra.
  - destruct (Pos (mul3 w (-1)) (- s0) p2 p1) as [A B].
    + unfold dot3, mul3 in *. cbn [x3 y3 z3]. lra.
    + lra.
    + replace (mul3 (mul3 w (-1)) (- s0)) with (mul3 w s0) by (unfold mul3; cbn [x3 y3 z3]; f_equal; ring). exact D.
    + replace (mul3 (mul3 w (-1)) r) with (mul3 w (- r)) by (unfold mul3; cbn [x3 y3 z3]; f_equal; ring). exact H2.
    + replace (mul3 (mul3 w (-1)) (- r)) with (mul3 w r) by (unfold mul3; cbn [x3 y3 z3]; f_equal; ring). exact H1.
    + cbv zeta. destruct (Rltb _ _) eqn:E; [exact A|]. apply Rltb_false in E. apply Rabs_le. pose proof (Rle_abs (point_distance3 p2 (V3 a b h) - circle_best r a b h rho)). lra.
Qed.
