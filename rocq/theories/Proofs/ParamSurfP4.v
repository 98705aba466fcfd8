(** Projection on cylinders and tori, distances, round trips; where they fail. *)
From Coq Require Import Reals Lra Lia List Bool.
From Verif.Model Require Import RBase Vec Frame Geometry ParamSurf.
From Verif.Spec Require Import VecSpec FrameSpec ParamSurfSpec AngleSpec.
From Verif.Proofs Require Import VecP LineP FrameP FrameP2 GeometryP ParamSurfP ParamSurfP2 ParamSurfP3.
Open Scope R_scope.

Lemma rho_norm x y : rho x y = norm2 (V2 x y). Proof. reflexivity. Qed.
Lemma rho_lip x y x' y' : Rabs (rho x y - rho x' y') <= rho (x - x') (y - y').
Proof.
  rewrite !rho_norm. pose proof (norm2_triangle (V2 (x - x') (y - y')) (V2 x' y')) as A. pose proof (norm2_triangle (V2 (x' - x) (y' - y)) (V2 x y)) as B.
  unfold add2 in A, B. cbn [x2 y2] in A, B. replace (x - x' + x') with x in A by ring. replace (y - y' + y') with y in A by ring.
  replace (x' - x + x) with x' in B by ring. replace (y' - y + y) with y' in B by ring.
  assert (E : norm2 (V2 (x' - x) (y' - y)) = norm2 (V2 (x - x') (y - y'))) by (unfold norm2; cbn [x2 y2]; apply f_equal; ring).
  rewrite E in B. apply Rabs_le. lra.
Qed.
Lemma rho_abs x y : rho x y <= Rabs x + Rabs y.
Proof.
  apply sq_le; [pose proof (Rabs_pos x); pose proof (Rabs_pos y); lra|]. rewrite rho_sq.
  assert (A : Rabs x * Rabs x = x * x) by (rewrite <- Rabs_mult; apply Rabs_pos_eq; nra).
  assert (B : Rabs y * Rabs y = y * y) by (rewrite <- Rabs_mult; apply Rabs_pos_eq; nra). pose proof (Rabs_pos x); pose proof (Rabs_pos y). nra.
Qed.
Lemma rho_scale k x y : rho (k * x) (k * y) = Rabs k * rho x y.
Proof.
  unfold rho. replace (k * x * (k * x) + k * y * (k * y)) with (Rsqr k * (x * x + y * y)) by (unfold Rsqr; ring).
  rewrite sqrt_mult_alt by apply Rle_0_sqr. rewrite sqrt_Rsqr_abs. reflexivity.
Qed.
Lemma rho_tri a b c d : rho (a + c) (b + d) <= rho a b + rho c d.
Proof. rewrite !rho_norm. apply (norm2_triangle (V2 a b) (V2 c d)). Qed.
Lemma chord_rho k a b : rho (k * cos a - k * cos b) (k * sin a - k * sin b) <= Rabs k * Rabs (a - b).
Proof.
  replace (k * cos a - k * cos b) with (k * (cos a - cos b)) by ring. replace (k * sin a - k * sin b) with (k * (sin a - sin b)) by ring.
  rewrite rho_scale. apply Rmult_le_compat_l; [apply Rabs_pos|]. apply sq_le; [apply Rabs_pos|]. rewrite rho_sq, <- Rabs_mult.
  eapply Rle_trans; [apply chord|]. apply Rle_abs.
Qed.
(** distance of a point to the circle of radius r around the origin, reached at the snapped angle *)
Lemma circle_projection x y r t s : 0 <= r -> 0 <= t -> 0 <= s ->
  let th := zap s (atan2 (zap t y) (zap t x)) in
  Rabs (rho (r * cos th - x) (r * sin th - y) - Rabs (rho x y - r)) <= 4 * t + r * s.
Proof.
  intros Hr Ht Hs. cbv zeta. pose proof (zap_err t x Ht) as ZX. pose proof (zap_err t y Ht) as ZY. set (X := zap t x) in *. set (Y := zap t y) in *.
  set (a := atan2 Y X). pose proof (zap_err s a Hs) as ZA. set (th := zap s a) in *. destruct (polar X Y) as [PX PY]. fold a in PX, PY.
  assert (D1 : rho (X - x) (Y - y) <= 2 * t) by (pose proof (rho_abs (X - x) (Y - y)); lra).
  pose proof (rho_lip X Y x y) as D2. set (q := rho X Y) in *.
  assert (D3 : rho (r * cos a - X) (r * sin a - Y) = Rabs (q - r)).
  { rewrite <- PX at 1. rewrite <- PY at 1. replace (r * cos a - q * cos a) with ((r - q) * cos a) by ring. replace (r * sin a - q * sin a) with ((r - q) * sin a) by ring.
    rewrite rho_polar, <- Rabs_Ropp. apply f_equal. ring. }
  pose proof (chord_rho r th a) as D4. rewrite (Rabs_pos_eq r Hr) in D4.
  assert (D5 : rho (r * cos th - r * cos a) (r * sin th - r * sin a) <= r * s) by nra.
  pose proof (rho_lip (r * cos th - x) (r * sin th - y) (r * cos a - X) (r * sin a - Y)) as D6.
  replace (r * cos th - x - (r * cos a - X)) with ((r * cos th - r * cos a) + (X - x)) in D6 by ring.
  replace (r * sin th - y - (r * sin a - Y)) with ((r * sin th - r * sin a) + (Y - y)) in D6 by ring.
  pose proof (rho_tri (r * cos th - r * cos a) (r * sin th - r * sin a) (X - x) (Y - y)) as D7. rewrite D3 in D6.
  pose proof (Rabs_triang_inv2 (q - r) (rho x y - r)) as D8. replace (q - r - (rho x y - r)) with (q - rho x y) in D8 by ring.
  set (d := rho (r * cos th - x) (r * sin th - y)) in *. set (e := Rabs (q - r)) in *. set (g := Rabs (rho x y - r)) in *.
  replace (d - g) with ((d - e) + (e - g)) by ring. eapply Rle_trans; [apply Rabs_triang|]. lra.
Qed.
Lemma dist3_split a b c a' b' c' : Rabs (point_distance3 (V3 a b c) (V3 a' b' c') - rho (a - a') (b - b')) <= Rabs (c - c').
Proof.
  assert (E : point_distance3 (V3 a b c) (V3 a' b' c') = rho (rho (a - a') (b - b')) (c - c')).
  { unfold point_distance3, norm3, sub3. cbn [x3 y3 z3]. unfold rho at 1. rewrite rho_sq. reflexivity. }
  rewrite E. set (q := rho (a - a') (b - b')). assert (Hq : 0 <= q) by apply rho_pos.
  pose proof (rho_lip q (c - c') q 0) as L. replace (q - q) with 0 in L by ring. rewrite Rminus_0_r in L.
  assert (E1 : rho q 0 = q) by (apply sqrt_of_sq; [auto|ring]). rewrite E1 in L. pose proof (rho_abs 0 (c - c')) as A. rewrite Rabs_R0 in A. lra.
Qed.
Lemma near_dist k u v : near k u v -> point_distance3 u v <= 2 * k.
Proof.
  intros (A & B & C). destruct u as [a b c], v as [a' b' c']. cbn [x3 y3 z3] in *.
  assert (0 <= k) by (pose proof (Rabs_pos (a - a')); lra). apply sq_le; [lra|]. unfold point_distance3. rewrite norm3_sq. unfold dot3, sub3. cbn [x3 y3 z3].
  assert (Q : forall t, Rabs t <= k -> t * t <= k * k).
  { intros t Q. assert (E : Rabs t * Rabs t = t * t) by (rewrite <- Rabs_mult; apply Rabs_pos_eq; nra). rewrite <- E. pose proof (Rabs_pos t). nra. }
  apply Q in A, B, C. nra.
Qed.
Lemma dist3_lip p q r : Rabs (point_distance3 p r - point_distance3 q r) <= point_distance3 p q.
Proof.
  pose proof (dist3_triangle p q r). pose proof (dist3_triangle q p r). rewrite (dist3_sym q p) in H0. apply Rabs_le. lra.
Qed.
Lemma eps_small : 16 * eps <= / 10 ^ 12.
Proof. unfold eps. apply Rmult_le_reg_r with (10 ^ 16); [lra|]. rewrite Rmult_assoc, Rinv_l by lra. lra. Qed.
Lemma e12 : 8 * / 10 ^ 12 <= / 10 ^ 11. Proof. lra. Qed.

(** ** Cylinder: the distance returned is the distance to the cylinder *)
Lemma cyl_distance f r p : direct (fb3 f) -> 0 <= r ->
  exists q d, cyl_point_projection f r p = Ok q /\ surface_point_distance (cyl_point_projection f r) p = Ok d /\ d = point_distance3 q p /\
  Rabs (d - Rabs (axis_distance f p - r)) <= / 10 ^ 11 + / 10 ^ 9 * r.
Proof.
  intros H Hr. unfold surface_point_distance, cyl_point_projection, cyl_3d_to_2d. rewrite g2l_coords by auto. unfold bind, snap3. cbn [x3 y3 z3].
  eexists. eexists. split; [reflexivity|]. split; [reflexivity|]. split; [reflexivity|].
  rewrite axis_coords by auto. pose proof (frame_point_coords f p H) as EP. destruct (coords f p) as [X Y Z]. subst p. cbn [x3 y3 z3].
  rewrite !zap_snap by apply eps12. set (th := zap (/ 10 ^ 9) (atan2 (zap (/ 10 ^ 12) Y) (zap (/ 10 ^ 12) X))).
  pose proof (circle_projection X Y r (/ 10 ^ 12) (/ 10 ^ 9) Hr ltac:(apply Rlt_le, pow10_inv_pos) ltac:(apply Rlt_le, pow10_inv_pos)) as C. cbv zeta in C. fold th in C.
  pose proof (cyl_agree f r (V2 th (snap Z))) as N. rewrite cyl_array_local in N. cbn [x2 y2] in N. apply near_dist in N.
  set (q := cyl_2d_to_3d f r (V2 th (snap Z))) in *. pose proof (dist3_lip q (frame_point f (V3 (r * cos th) (r * sin th) (snap Z))) (frame_point f (V3 X Y Z))) as L.
  rewrite frame_point_dist in L by apply H. pose proof (dist3_split (r * cos th) (r * sin th) (snap Z) X Y Z) as S. pose proof (snap_err Z) as SZ.
  pose proof eps_small. pose proof e12. pose proof eps_pos.
  set (d1 := point_distance3 q (frame_point f (V3 X Y Z))) in *. set (d2 := point_distance3 (V3 (r * cos th) (r * sin th) (snap Z)) (V3 X Y Z)) in *.
  set (d3 := rho (r * cos th - X) (r * sin th - Y)) in *. set (d4 := Rabs (rho X Y - r)) in *.
  replace (d1 - d4) with ((d1 - d2) + ((d2 - d3) + (d3 - d4))) by ring. eapply Rle_trans; [apply Rabs_triang|]. pose proof (Rabs_triang (d2 - d3) (d3 - d4)). lra.
Qed.
Lemma cyl_minimal f r p q : direct (fb3 f) -> on_cylinder f r q -> Rabs (axis_distance f p - r) <= point_distance3 p q.
Proof.
  intros H Q. unfold on_cylinder in Q. rewrite <- Q. rewrite !axis_coords by auto. clear Q. pose proof (frame_point_coords f p H) as EP. pose proof (frame_point_coords f q H) as EQ.
  destruct (coords f p) as [X Y Z], (coords f q) as [X' Y' Z']. subst p q. rewrite frame_point_dist by apply H. cbn [x3 y3 z3]. eapply Rle_trans; [apply rho_lip|].
  unfold point_distance3, norm3, sub3, rho. cbn [x3 y3 z3]. apply sqrt_le_1_alt. pose proof (Rle_0_sqr (Z - Z')) as QQ. unfold Rsqr in QQ. lra.
Qed.
Lemma cyl_attained f r p : direct (fb3 f) -> 0 <= r -> exists q, on_cylinder f r q /\ point_distance3 p q = Rabs (axis_distance f p - r).
Proof.
  intros H Hr. set (a := atan2 (y3 (coords f p)) (x3 (coords f p))). exists (cyl_array f r (V2 a (height f p))). split; [apply cyl_array_on; auto; apply H|].
  rewrite cyl_array_local. cbn [x2 y2]. rewrite axis_coords by auto. change (height f p) with (z3 (coords f p)).
  pose proof (frame_point_coords f p H) as EP. unfold a. clear a. destruct (coords f p) as [X Y Z]. subst p. cbn [x3 y3 z3]. set (a := atan2 Y X).
  rewrite frame_point_dist by apply H. cbn [x3 y3 z3] in *. destruct (polar X Y) as [PX PY]. fold a in PX, PY. set (q := rho X Y) in *.
  unfold point_distance3, norm3, sub3. cbn [x3 y3 z3]. rewrite <- PX, <- PY. rewrite <- sqrt_Rsqr_abs. apply f_equal. unfold Rsqr. pose proof (sc1 a). set (c := cos a) in *. set (s := sin a) in *.
  transitivity ((q - r) * (q - r) * (s * s + c * c)); [ring|]. rewrite H0. ring.
Qed.
