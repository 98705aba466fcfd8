(** Circles of space: points, abscissas, boxes. *)
From Coq Require Import Reals Lra Lia List Bool ZArith.
From Verif.Model Require Import Base RBase Vec Frame BBox Geometry ParamSurf Curves.
From Verif.Spec Require Import VecSpec FrameSpec BBoxSpec PlaneSpec ParamSurfSpec CurvesSpec.
From Verif.Proofs Require Import VecP LineP FrameP GeometryP ParamSurfP PlaneP CurvesP CurvesP3 CurvesP4 CurvesP7 CurvesP8.
Import ListNotations.
Open Scope R_scope.

Lemma circle3_3_points_same p1 p2 p3 : p1 = p2 \/ p2 = p3 -> circle3_from_3_points p1 p2 p3 = Err ZeroDivisionError.
Proof.
  intros H. unfold circle3_from_3_points. assert (Z : forall p, sub3 p p = V3 0 0 0) by (intros; vec; v_eq; ring). destruct H as [-> | ->].
  - rewrite Z, (proj2 (unit3_err (V3 0 0 0) ZeroDivisionError)) by auto. auto.
  - destruct (unit_vector3 (sub3 p3 p1)) as [u|e] eqn:U; cbn [bind].
    + rewrite Z, (proj2 (unit3_err (V3 0 0 0) ZeroDivisionError)) by auto. auto.
    + apply unit3_err in U as [_ ->]. auto.
Qed.
Lemma circle3_3_points_aligned p1 p2 p3 : cross3 (sub3 p2 p1) (sub3 p2 p3) = V3 0 0 0 -> circle3_from_3_points p1 p2 p3 = Err ZeroDivisionError.
Proof.
  intros H. unfold circle3_from_3_points. destruct (unit_vector3 (sub3 p2 p1)) as [u1|e] eqn:U1; cbn [bind]; [|apply unit3_err in U1 as [_ ->]; auto].
  destruct (unit_vector3 (sub3 p2 p3)) as [u2|e] eqn:U2; cbn [bind]; [|apply unit3_err in U2 as [_ ->]; auto].
  destruct (unit3_spec _ _ U1) as (A1 & B1 & C1). destruct (unit3_spec _ _ U2) as (A2 & B2 & C2). set (k1 := norm3 (sub3 p2 p1)) in *. set (k2 := norm3 (sub3 p2 p3)) in *. clearbody k1 k2. rewrite <- B1, <- B2 in H.
  assert (E : cross3 (mul3 u1 k1) (mul3 u2 k2) = mul3 (cross3 u2 u1) (- (k1 * k2))) by (clear; vec; v_eq; ring). rewrite E in H.
  assert (X : cross3 u2 u1 = V3 0 0 0). { assert (K : - (k1 * k2) <> 0) by nra. pose proof (f_equal x3 H) as X1. pose proof (f_equal y3 H) as X2. pose proof (f_equal z3 H) as X3. unfold mul3 in X1, X2, X3. cbn [x3 y3 z3] in X1, X2, X3. apply vec3_ext; cbn [x3 y3 z3]; apply Rmult_eq_reg_r with (- (k1 * k2)); auto; lra. }
  rewrite (proj2 (unit3_err (cross3 u2 u1) ZeroDivisionError)) by auto. auto.
Qed.
(** points *)
Lemma circle3_point_local c t : circle3_point c t = frame_point (cf3 c) (V3 (cr3 c * cos t) (cr3 c * sin t) 0).
Proof. unfold circle3_point, frame_point, basis_vector, center3. destruct (cf3 c) as [o [u v w]]. cbn [fb3 org3 bu bv bw x3 y3 z3]. vec; v_eq; ring. Qed.
Lemma circle3_point_on c t : orthonormal (fb3 (cf3 c)) -> 0 <= cr3 c -> on_circle3 c (circle3_point c t).
Proof.
  intros O R. rewrite circle3_point_local. split.
  - change (center3 c) with (org3 (cf3 c)). rewrite sphere_local by auto. rewrite norm3_dot. unfold dot3. cbn [x3 y3 z3]. replace (cr3 c * cos t * (cr3 c * cos t) + cr3 c * sin t * (cr3 c * sin t) + 0 * 0) with (cr3 c * cr3 c * (sin t * sin t + cos t * cos t)) by ring. rewrite sc1, Rmult_1_r. apply sqrt_square. auto.
  - rewrite dot3_sym. change (center3 c) with (org3 (cf3 c)). rewrite frame_point_dot. cbn [x3 y3 z3]. destruct O as (A & B & C & D & E & F). rewrite E, F. ring.
Qed.
Lemma circle3_point_all c p : direct (fb3 (cf3 c)) -> 0 < cr3 c -> on_circle3 c p -> exists t, 0 <= t < 2 * PI /\ p = circle3_point c t.
Proof.
  intros O R [Q H]. set (q := coords (cf3 c) p). assert (P : p = frame_point (cf3 c) q) by (symmetry; apply frame_point_coords; auto).
  assert (N : norm3 q = cr3 c) by (rewrite <- (sphere_local (cf3 c)) by apply O; rewrite <- P; auto). assert (Z : z3 q = 0) by (rewrite <- H, dot3_sym; reflexivity).
  assert (S : x3 q * x3 q + y3 q * y3 q = cr3 c * cr3 c) by (rewrite <- N, norm3_sq; unfold dot3; rewrite Z; ring).
  assert (U : x3 q / cr3 c * (x3 q / cr3 c) + y3 q / cr3 c * (y3 q / cr3 c) = 1) by (transitivity ((x3 q * x3 q + y3 q * y3 q) / (cr3 c * cr3 c)); [field; lra|rewrite S; field; lra]).
  destruct (sin_cos_angle_spec _ _ U) as (t & T & C & S' & _). exists t. split; auto. rewrite circle3_point_local, C, S', P. f_equal. apply vec3_ext; cbn [x3 y3 z3]; auto; field; lra.
Qed.
Lemma circle3_at_ok c s : direct (fb3 (cf3 c)) -> cr3 c <> 0 -> circle3_point_at_abscissa c s = Ok (circle3_point c (s / cr3 c)).
Proof.
  intros [(A & B & C & D & E & F) W] R. unfold circle3_point_at_abscissa. cbv zeta. rewrite (proj2 (Reqb_false _ _)) by auto. f_equal. unfold circle3_point, center3. destruct (cf3 c) as [o [u v w]]. cbn [fb3 org3 bu bv bw] in *.
  set (k := cr3 c). set (a := s / k). rewrite rotation3_rod. replace (sub3 (add3 o (mul3 u k)) o) with (mul3 u k) by (clear; vec; v_eq; ring).
  assert (WU : cross3 w u = v). { rewrite <- W. transitivity (neg3 (cross3 u (cross3 u v))); [clear; vec; v_eq; ring|]. rewrite double_cross. rewrite A, D. clear; vec; v_eq; ring. }
  unfold rod. replace (dot3 (mul3 u k) w) with (k * dot3 u w) by (clear; vec; ring). replace (cross3 w (mul3 u k)) with (mul3 (cross3 w u) k) by (clear; vec; v_eq; ring). rewrite E, WU. clear. clearbody a k. vec; v_eq; ring.
Qed.
Lemma circle3_abscissa_exact c t tol : direct (fb3 (cf3 c)) -> 0 < cr3 c -> 0 <= tol -> 0 <= t < 2 * PI * (1 - / 10 ^ 9) ->
  unsnapped (/ 10 ^ 16) (cr3 c * cos t) -> unsnapped (/ 10 ^ 16) (cr3 c * sin t) -> circle3_abscissa c (circle3_point c t) tol = Ok (cr3 c * t).
Proof.
  intros O R T Ht S1 S2. destruct (circle3_point_on c t (proj1 O) ltac:(lra)) as [Q _]. unfold circle3_abscissa. rewrite dist3_sym, Q, isclose_refl by auto. cbn [negb]. rewrite g2l_coords by auto. cbn [bind]. rewrite (proj2 (Reqb_false _ _)) by lra.
  rewrite circle3_point_local, coords_frame_point by apply O. unfold snap3. cbn [x3 y3]. rewrite !snap_id by auto. rewrite sin_cos_angle_exact by auto. rewrite Rabs_pos_eq by lra. auto.
Qed.
(** a belonging point is close to a point of the circle *)
Lemma circle3_belongs_on c p tol : 0 <= tol -> on_circle3 c p -> circle3_point_belongs c p tol = true.
Proof. intros T [A B]. unfold circle3_point_belongs. rewrite A, B, isclose_refl by auto. rewrite (proj2 (isclose_0 0 tol T)); auto. rewrite Rabs_R0. auto. Qed.
Lemma circle3_belongs_near c p tol : direct (fb3 (cf3 c)) -> 0 <= cr3 c -> 0 <= tol -> circle3_point_belongs c p tol = true ->
  exists q, on_circle3 c q /\ point_distance3 p q <= 2 * tol + Rmax (/ 10 ^ 9 * Rmax (Rabs (point_distance3 p (center3 c))) (Rabs (cr3 c))) tol.
Proof.
  intros O R T H. unfold circle3_point_belongs in H. apply andb_true_iff in H as [H1 H2]. unfold isclose in H1 at 1. apply Rleb_spec in H1. apply isclose_0 in H2; auto. set (tau := Rmax _ _) in *.
  set (q := coords (cf3 c) p). assert (P : p = frame_point (cf3 c) q) by (symmetry; apply frame_point_coords; auto). assert (Z : Rabs (z3 q) <= tol) by (rewrite dot3_sym in H2; exact H2).
  assert (N : norm3 q = point_distance3 p (center3 c)) by (rewrite <- (sphere_local (cf3 c)) by apply O; rewrite <- P; auto).
  pose proof (polar (x3 q) (y3 q)) as [PX PY]. set (k := rho (x3 q) (y3 q)) in *. set (t := atan2 (y3 q) (x3 q)) in *. pose proof (rho_pos (x3 q) (y3 q)) as KP. fold k in KP. pose proof (rho_sq (x3 q) (y3 q)) as KS. fold k in KS.
  exists (circle3_point c t). split; [apply circle3_point_on; auto; apply O|]. rewrite P, circle3_point_local, frame_point_dist by apply O.
  assert (KN : Rabs (k - norm3 q) <= Rabs (z3 q)).
  { assert (NS : norm3 q * norm3 q = k * k + z3 q * z3 q) by (rewrite norm3_sq; unfold dot3; lra). pose proof (norm3_pos q). assert (ZZ : Rabs (z3 q) * Rabs (z3 q) = z3 q * z3 q) by (rewrite <- Rabs_mult; apply Rabs_pos_eq, Rle_0_sqr). pose proof (Rabs_pos (z3 q)). rewrite Rabs_left1; nra. }
  assert (KR : Rabs (k - cr3 c) <= tol + tau). { rewrite N in KN. replace (k - cr3 c) with ((k - point_distance3 p (center3 c)) + (point_distance3 p (center3 c) - cr3 c)) by ring. eapply Rle_trans; [apply Rabs_triang|]. lra. }
  apply Rle_trans with (point_distance3 q (V3 (x3 q) (y3 q) 0) + point_distance3 (V3 (x3 q) (y3 q) 0) (V3 (cr3 c * cos t) (cr3 c * sin t) 0)); [apply dist3_triangle|].
  assert (D1 : point_distance3 q (V3 (x3 q) (y3 q) 0) = Rabs (z3 q)). { unfold point_distance3. rewrite norm3_dot. unfold dot3, sub3. cbn [x3 y3 z3]. replace ((x3 q - x3 q) * (x3 q - x3 q) + (y3 q - y3 q) * (y3 q - y3 q) + (z3 q - 0) * (z3 q - 0)) with (Rsqr (z3 q)) by (unfold Rsqr; ring). apply sqrt_Rsqr_abs. }
  assert (D2 : point_distance3 (V3 (x3 q) (y3 q) 0) (V3 (cr3 c * cos t) (cr3 c * sin t) 0) = Rabs (k - cr3 c)).
  { unfold point_distance3. rewrite norm3_dot. unfold dot3, sub3. cbn [x3 y3 z3]. rewrite <- PX at 1 2. rewrite <- PY. replace ((k * cos t - cr3 c * cos t) * (k * cos t - cr3 c * cos t) + (k * sin t - cr3 c * sin t) * (k * sin t - cr3 c * sin t) + (0 - 0) * (0 - 0)) with (Rsqr (k - cr3 c) * (sin t * sin t + cos t * cos t)) by (unfold Rsqr; ring). rewrite sc1, Rmult_1_r. apply sqrt_Rsqr_abs. }
  rewrite D1, D2. lra.
Qed.
Lemma circle3_discretization_ok c n : (2 <= n)%nat -> length (circle3_discretization c n) = n /\ forall i d, (i < n)%nat -> nth i (circle3_discretization c n) d = circle3_point c (INR i * (2 * PI / INR (n - 1))).
Proof.
  intros N. assert (L : length (linspace_2pi n) = n) by (unfold linspace_2pi; rewrite map_length, seq_length; auto). unfold circle3_discretization. split; [rewrite map_length; auto|]. intros i d I.
  change (fun t => add3 (add3 (center3 c) (mul3 (bu (fb3 (cf3 c))) (cr3 c * cos t))) (mul3 (bv (fb3 (cf3 c))) (cr3 c * sin t))) with (circle3_point c). rewrite nth_indep with (d' := circle3_point c 0) by (rewrite map_length, L; auto). rewrite map_nth, linspace_nth; auto.
Qed.
Lemma circle3_reverse_ok c p : direct (fb3 (cf3 c)) -> (on_circle3 (circle3_reverse c) p <-> on_circle3 c p) /\ direct (fb3 (cf3 (circle3_reverse c))) /\ bw (fb3 (cf3 (circle3_reverse c))) = neg3 (bw (fb3 (cf3 c))) /\ forall t, circle3_point (circle3_reverse c) t = circle3_point c (- t).
Proof.
  intros [(A & B & C & D & E & F) W]. unfold circle3_reverse, on_circle3, circle3_point, center3. cbv zeta. destruct (cf3 c) as [o [u v w]]. cbn [fb3 org3 bu bv bw cf3 cr3] in *.
  assert (N : cross3 u (neg3 v) = neg3 w) by (rewrite <- W; clear; vec; v_eq; ring). rewrite N. split; [|split; [|split; [auto|]]].
  - replace (dot3 (neg3 w) (sub3 p o)) with (- dot3 w (sub3 p o)) by (clear; vec; ring). split; intros [H1 H2]; split; auto; lra.
  - unfold direct, orthonormal. cbn [bu bv bw]. split; auto. assert (V1 : dot3 (neg3 v) (neg3 v) = dot3 v v) by (clear; vec; ring). assert (V2 : dot3 (neg3 w) (neg3 w) = dot3 w w) by (clear; vec; ring). assert (V3' : dot3 u (neg3 v) = - dot3 u v) by (clear; vec; ring). assert (V4 : dot3 u (neg3 w) = - dot3 u w) by (clear; vec; ring). assert (V5 : dot3 (neg3 v) (neg3 w) = dot3 v w) by (clear; vec; ring). rewrite V1, V2, V3', V4, V5, D, E. repeat split; auto; ring.
  - intros t. rewrite cos_neg, sin_neg. clear. generalize (cr3 c). intros. vec; v_eq; ring.
Qed.
Lemma circle3_center_normal_ok center n r : norm3 n = 1 -> exists c, circle3_from_center_normal center n r = Ok c /\ center3 c = center /\ cr3 c = r /\ bw (fb3 (cf3 c)) = n /\ direct (fb3 (cf3 c)).
Proof.
  intros N. destruct (det_normal_exists n) as (v & V1 & V2 & V3'). { rewrite N. lra. }
  unfold circle3_from_center_normal, deterministic_unit_normal_vector. rewrite V1. cbn [bind]. assert (U : exists u, unit_vector3 v = Ok u) by (eexists; apply unit3_ok; split; [auto|reflexivity]). destruct U as [u U]. rewrite U. cbn [bind]. eexists. split; [reflexivity|].
  unfold center3. cbn [cf3 cr3 org3 fb3 bw]. split; auto. split; auto. split; auto. destruct (unit3_spec _ _ U) as (A & B & C). set (k := norm3 v) in *. clearbody k.
  assert (P : dot3 u n = 0). { apply Rmult_eq_reg_r with k; [|lra]. transitivity (dot3 (mul3 u k) n); [clear; vec; ring|rewrite B; lra]. }
  assert (NN : dot3 n n = 1) by (rewrite <- norm3_sq, N; ring). assert (UU : dot3 u u = 1) by (rewrite <- norm3_sq, A; ring).
  unfold direct, orthonormal. cbn [bu bv bw]. assert (VV : dot3 (cross3 n u) (cross3 n u) = 1) by (rewrite VecP.lagrange3, NN, UU, (dot3_sym n u), P; ring). rewrite double_cross, UU, P. split; [|clear; vec; v_eq; ring]. repeat split; auto; clear; vec; ring.
Qed.
(** the four points of the frame axes are not enough for a box: u along the diagonal of x and y *)
Lemma circle3_box_wrong : exists c b p, direct (fb3 (cf3 c)) /\ cr3 c = 1 /\ circle3_bounding_box c = Ok b /\ on_circle3 c p /\ ~ in_box b p.
Proof.
  set (s := / sqrt 2). assert (S0 : 0 < s) by (apply Rinv_0_lt_compat, sqrt_lt_R0; lra). assert (SS : 2 * (s * s) = 1). { unfold s. rewrite <- Rinv_mult. rewrite sqrt_sqrt by lra. field. }
  set (c := C3 (F3 (V3 0 0 0) (B3 (V3 s s 0) (V3 (- s) s 0) (V3 0 0 1))) 1). assert (S1 : s < 1) by nra.
  assert (O : direct (fb3 (cf3 c))) by (unfold direct, orthonormal, c, dot3, cross3; cbn [fb3 cf3 bu bv bw x3 y3 z3]; split; [repeat split; lra|f_equal; lra]).
  exists c. eexists. exists (V3 1 0 0). split; auto. split; auto. split; [unfold circle3_bounding_box, circle3_corners, bbox_from_points; cbn [map]; reflexivity|]. split.
  - split.
    + unfold point_distance3. rewrite norm3_dot. unfold c, center3, dot3, sub3. cbn [cf3 cr3 org3 x3 y3 z3]. replace ((1 - 0) * (1 - 0) + (0 - 0) * (0 - 0) + (0 - 0) * (0 - 0)) with 1 by ring. apply sqrt_1.
    + unfold c, center3, dot3, sub3. cbn [cf3 cr3 fb3 bw org3 x3 y3 z3]. ring.
  - intros [[_ K] _]. unfold c, center3, add3, mul3, neg3 in K. cbn [map cf3 cr3 fb3 bu bv org3 x3 y3 z3 xmax lmax fold_left fold_right] in K. unfold lmax in K. cbn [fold_left fold_right] in K.
    repeat match type of K with context [Rmax ?a ?b] => revert K; unfold Rmax; repeat match goal with |- context [Rle_dec ?x ?y] => destruct (Rle_dec x y) end; intros K end; lra.
Qed.
(** three nearly aligned points, the second one at an end: the third point is 1 away from the circle *)
Lemma circle3_3_points_wrong : exists p1 p2 p3 c, cross3 (sub3 p2 p1) (sub3 p2 p3) <> V3 0 0 0 /\ circle3_from_3_points p1 p2 p3 = Ok c /\ cr3 c < 1 /\ 1 < point_distance3 p3 (center3 c).
Proof.
  set (k := / (4 * 10 ^ 6)). assert (K0 : 0 < k) by (unfold k; apply Rinv_0_lt_compat; lra). assert (K1 : k <= / 10 ^ 3) by (unfold k; apply Rinv_le_contravar; lra). assert (K2 : 4 * k = / 10 ^ 6) by (unfold k; field).
  set (a := (1 - k * k) / (1 + k * k)). set (b := 2 * k / (1 + k * k)). assert (KK : 0 < k * k < / 10 ^ 5) by nra. assert (AB : a * a + b * b = 1) by (unfold a, b; field; lra).
  assert (B0 : 0 < b) by (unfold b; apply Rdiv_lt_0_compat; lra). assert (B1 : b <= 2 * k) by (unfold b; apply Rmult_le_reg_r with (1 + k * k); [lra|]; unfold Rdiv; rewrite Rmult_assoc, Rinv_l by lra; nra).
  assert (A1 : a = 1 - k * b) by (unfold a, b; field; lra). assert (A0 : 0 < a) by nra. clearbody a b.
  set (p1 := V3 (-1) 0 0). set (p2 := V3 0 0 0). set (p3 := V3 (-2 * a) (-2 * b) 0).
  assert (E1 : sub3 p2 p1 = V3 1 0 0) by (unfold sub3, p1, p2; cbn [x3 y3 z3]; f_equal; ring). assert (E2 : sub3 p2 p3 = V3 (2 * a) (2 * b) 0) by (unfold sub3, p3, p2; cbn [x3 y3 z3]; f_equal; ring).
  assert (U : forall v d n, 0 < d -> dot3 v v = d * d -> n = mul3 v (/ d) -> unit_vector3 v = Ok n). { intros v d n D V ->. assert (N : norm3 v = d) by (rewrite norm3_dot, V; apply sqrt_square; lra). apply unit3_ok. split; [|rewrite N; auto]. intros K. apply norm3_zero in K. lra. }
  assert (U1 : unit_vector3 (V3 1 0 0) = Ok (V3 1 0 0)) by (apply (U _ 1); [lra|unfold dot3; cbn [x3 y3 z3]; ring|unfold mul3; cbn [x3 y3 z3]; f_equal; field]).
  assert (U2 : unit_vector3 (V3 (2 * a) (2 * b) 0) = Ok (V3 a b 0)) by (apply (U _ 2); [lra|unfold dot3; cbn [x3 y3 z3]; transitivity (4 * (a * a + b * b)); [ring|rewrite AB; ring]|unfold mul3; cbn [x3 y3 z3]; f_equal; field]).
  assert (X : cross3 (V3 a b 0) (V3 1 0 0) = V3 0 0 (- b)) by (unfold cross3; cbn [x3 y3 z3]; f_equal; ring). assert (U3 : unit_vector3 (V3 0 0 (- b)) = Ok (V3 0 0 (-1))) by (apply (U _ b); [lra|unfold dot3; cbn [x3 y3 z3]; ring|unfold mul3; cbn [x3 y3 z3]; f_equal; field; lra]).
  assert (CL : is_close3 (V3 1 0 0) (V3 a b 0) (/ 10 ^ 6) = true). { pose proof (pow10_inv_pos 6). apply is_close3_spec; [lra|]. apply sq_le; [lra|]. unfold point_distance3. rewrite norm3_sq. unfold dot3, sub3. cbn [x3 y3 z3]. rewrite A1. rewrite <- K2. nra. }
  assert (X2 : cross3 (V3 0 0 (-1)) (V3 1 0 0) = V3 0 (-1) 0) by (unfold cross3; cbn [x3 y3 z3]; f_equal; ring). assert (U4 : unit_vector3 (V3 0 (-1) 0) = Ok (V3 0 (-1) 0)) by (apply (U _ 1); [lra|unfold dot3; cbn [x3 y3 z3]; ring|unfold mul3; cbn [x3 y3 z3]; f_equal; field]).
  assert (X3 : cross3 (V3 0 0 (-1)) (V3 0 (-1) 0) = V3 (-1) 0 0) by (unfold cross3; cbn [x3 y3 z3]; f_equal; ring).
  set (m1 := V3 (- 1 / 2) 0 0). set (m2 := V3 (- a) (- b) 0). set (m := V3 (- 1 / 2) (- b) 0).
  assert (M1 : mul3 (add3 p1 p2) (1 / 2) = m1) by (unfold m1, p1, p2, mul3, add3; cbn [x3 y3 z3]; f_equal; field). assert (M2 : mul3 (add3 p2 p3) (1 / 2) = m2) by (unfold m2, p3, p2, mul3, add3; cbn [x3 y3 z3]; f_equal; field).
  assert (BL : forall p, / 4 < Rabs (x3 p + 1 / 2) -> line_point_belongs_with_points m1 (add3 m1 (V3 0 (-1) 0)) p = false).
  { intros p P. unfold line_point_belongs_with_points. cbv zeta. replace (sub3 (add3 m1 (V3 0 (-1) 0)) m1) with (V3 0 (-1) 0) by (unfold m1, sub3, add3; cbn [x3 y3 z3]; f_equal; ring). assert (N1 : norm3 (V3 0 (-1) 0) = 1) by (rewrite norm3_dot; unfold dot3; cbn [x3 y3 z3]; replace (0 * 0 + -1 * -1 + 0 * 0) with 1 by ring; apply sqrt_1). rewrite N1.
    apply Rltb_false. unfold Rdiv. rewrite Rinv_1, Rmult_1_r. apply Rle_trans with (Rabs (x3 p + 1 / 2)); [lra|]. rewrite norm3_dot. rewrite <- sqrt_Rsqr_abs. apply sqrt_le_1_alt. unfold m1, dot3, cross3, sub3, Rsqr. cbn [x3 y3 z3]. nra. }
  assert (G : fst (get_minimum_distance_points_lines m1 (add3 m1 (V3 0 (-1) 0)) m2 (add3 m2 (V3 (-1) 0 0))) = m).
  { unfold get_minimum_distance_points_lines. rewrite !BL; [|unfold m2, add3; cbn [x3 y3 z3]; rewrite Rabs_left; lra|unfold m2; cbn [x3 y3 z3]; rewrite Rabs_left; nra]. cbv zeta.
    set (den := _ - _). assert (DE : den = 1) by (unfold den, m1, m2, dot3, sub3, add3; cbn [x3 y3 z3]; ring). rewrite DE, (proj2 (Reqb_false _ _)) by lra. cbn [fst]. unfold m, m1, m2, dot3, sub3, add3, mul3. cbn [x3 y3 z3]. f_equal; field. }
  exists p1, p2, p3. rewrite E1, E2. unfold circle3_from_3_points. rewrite E1, E2, U1, U2. cbn [bind]. rewrite X, U3. cbn [bind]. rewrite CL, X2, U4. cbn [bind]. cbv zeta. rewrite X3, M1, M2, G.
  eexists. split; [|split; [reflexivity|]].
  - unfold cross3. cbn [x3 y3 z3]. intros K. pose proof (f_equal z3 K) as KZ. cbn [z3] in KZ. unfold p2 in KZ. cbn [z3] in KZ. lra.
  - unfold center3. cbn [cf3 cr3 org3]. split.
    + rewrite norm3_dot. rewrite <- sqrt_1. apply sqrt_lt_1_alt. unfold m, p1, dot3, sub3. cbn [x3 y3 z3]. nra.
    + unfold point_distance3. rewrite norm3_dot. rewrite <- sqrt_1. apply sqrt_lt_1_alt. unfold m, p3, dot3, sub3. cbn [x3 y3 z3]. nra.
Qed.
