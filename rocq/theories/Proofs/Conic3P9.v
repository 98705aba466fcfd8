From Coq Require Import Reals Lra Lia List Bool ZArith.
From Verif.Model Require Import Base RBase Vec Frame BBox Geometry Plane Curves Ellipse Conic3.
From Verif.Spec Require Import VecSpec FrameSpec BBoxSpec PlaneSpec CurvesSpec EllipseSpec EllipseSpec2 ParamSurfSpec Conic3Spec.
From Verif.Proofs Require Import VecP LineP FrameP FrameP2 PlaneP PlaneP3 CurvesP CurvesP4 EllipseP EllipseP2 EllipseP3 EllipseP4 EllipseP6 EllipseP7 Conic3P Conic3P2 ParamSurfP ParamSurfP2 ParamSurfP4 Conic3P3 Conic3P5 Conic3P6 Conic3P7 Conic3P8.
Import ListNotations.
Open Scope R_scope.

Lemma far_heights a b tol : tol + / 10 ^ 9 * (Rabs a + Rabs b) < Rabs (a - b) -> 0 <= tol -> isclose a b tol = false.
Proof.
  intros H T. destruct (isclose a b tol) eqn:E; [exfalso|reflexivity]. apply isclose_bound in E; [|exact T]. pose proof (pow10_inv_pos 9) as P9. pose proof (Rabs_pos a). pose proof (Rabs_pos b).
  assert (M : Rmax (Rabs a) (Rabs b) <= Rabs a + Rabs b) by (apply Rmax_lub; lra). assert (/ 10 ^ 9 * Rmax (Rabs a) (Rabs b) <= / 10 ^ 9 * (Rabs a + Rabs b)) by (apply Rmult_le_compat_l; lra). lra.
Qed.
Lemma parallel_error : forall c l tol q, upright (cf3 c) -> 0 <= tol -> fst l <> snd l -> z3 (fst l) = z3 (snd l) ->
  tol + / 10 ^ 9 * (Rabs (z3 (snd l)) + Rabs (z3 (center3 c))) < Rabs (z3 (snd l) - z3 (center3 c)) -> on_line3 l q -> point_distance3 (center3 c) q <= cr3 c ->
  circle3_line_intersections c l tol = Err ZeroDivisionError.
Proof.
  intros c l tol q U T N Z F L Dq. unfold circle3_line_intersections. cbn [circle3_line_loop]. rewrite upright_horizontal by assumption. cbn [negb].
  destruct (line3_distance_ok l (center3 c) N) as (d & -> & (DE & DM)). cbn [bind]. specialize (DM q L). rewrite (proj2 (Rltb_false _ _)) by lra. rewrite (far_heights _ _ _ F T). rewrite andb_false_r.
  unfold dir3, sub3. cbn [z3]. rewrite Z, Rminus_diag_eq by reflexivity. rewrite (proj2 (Reqb_spec 0 0) eq_refl). reflexivity.
Qed.
Definition unit_circle := C3 LOCAL 1.
Definition above : vec3 * vec3 := (V3 0 0 (/ 2), V3 1 0 (/ 2)).
Lemma parallel_refuted : exists c l, direct (fb3 (cf3 c)) /\ 0 < cr3 c /\ fst l <> snd l /\ (forall q, on_line3 l q -> z3 q = z3 (center3 c) + / 2) /\ z3 (bw (fb3 (cf3 c))) = 1 /\
  circle3_line_intersections c l (/ 10 ^ 6) = Err ZeroDivisionError.
Proof.
  exists unit_circle, above. split; [exact local_direct|]. split; [cbn; lra|]. split; [cbn; intro K; injection K as K; lra|]. split.
  { intros q [t ->]. unfold above, add3, mul3, sub3, unit_circle, center3. cbn. ring. } split; [reflexivity|].
  apply (parallel_error _ _ _ (V3 0 0 (/ 2))).
  - left. reflexivity.
  - apply Rlt_le, pow10_inv_pos.
  - cbn; intro K; injection K as K; lra.
  - reflexivity.
  - cbn [above snd z3 unit_circle center3 cf3 LOCAL org3]. rewrite Rabs_R0, Rplus_0_r, Rminus_0_r, Rabs_right by lra. assert (/ 10 ^ 6 = / 1000000) by (f_equal; ring). assert (/ 10 ^ 9 = / 1000000000) by (f_equal; ring). lra.
  - exists 0. unfold above, add3, mul3, sub3. cbn. f_equal; ring.
  - change (cr3 unit_circle) with 1. change (center3 unit_circle) with (V3 0 0 0). rewrite dist3_sym. unfold point_distance3, norm3, sub3. cbn [x3 y3 z3]. replace ((0 - 0) * (0 - 0) + (0 - 0) * (0 - 0) + (/ 2 - 0) * (/ 2 - 0)) with (/ 2 * / 2) by ring. rewrite sqrt_square by lra. lra.
Qed.

(** a circle whose plane is inclined by 2/2000: the test on w accepts it as horizontal, the test on the heights does not *)
Definition tc : R := (4000000 - 1) / (4000000 + 1).
Definition ts : R := 4000 / (4000000 + 1).
Lemma tcs : tc * tc + ts * ts = 1.
Proof. unfold tc, ts. field. Qed.
Definition tilted := C3 (F3 (V3 0 0 0) (B3 (V3 1 0 0) (V3 0 tc ts) (V3 0 (- ts) tc))) 1.
Definition diameter : vec3 * vec3 := (V3 0 0 0, V3 0 tc ts).
Lemma tilted_missed : exists c l p q, direct (fb3 (cf3 c)) /\ 0 < cr3 c /\ fst l = center3 c /\ on_plane (cf3 c) (fst l) /\ on_plane (cf3 c) (snd l) /\ point_distance3 (fst l) (snd l) = 1 /\
  p <> q /\ on_line3 l p /\ on_circle3 c p /\ on_line3 l q /\ on_circle3 c q /\ circle3_line_intersections c l (/ 10 ^ 6) = Ok [].
Proof.
  pose proof tcs as TC. assert (Sq : forall x, sqrt (0 * 0 + x) = sqrt x) by (intros; f_equal; ring).
  exists tilted, diameter, (V3 0 tc ts), (V3 0 (- tc) (- ts)). split.
  { unfold direct, orthonormal, tilted, dot3, cross3. cbn. repeat split; try ring; try lra. f_equal; try ring; lra. }
  split; [cbn; lra|]. split; [reflexivity|]. split; [unfold on_plane, tilted, diameter, dot3, sub3; cbn; ring|]. split; [unfold on_plane, tilted, diameter, dot3, sub3; cbn; ring|].
  assert (N1 : forall a b, a * a + b * b = 1 -> point_distance3 (V3 0 a b) (V3 0 0 0) = 1). { intros a b H. unfold point_distance3, norm3, sub3. cbn [x3 y3 z3]. replace ((0 - 0) * (0 - 0) + (a - 0) * (a - 0) + (b - 0) * (b - 0)) with 1 by (rewrite <- H; ring). apply sqrt_1. }
  split; [unfold diameter; cbn [fst snd]; rewrite dist3_sym; apply N1, TC|]. split; [intro K; injection K as K; assert (0 < tc) by (unfold tc; lra); lra|].
  split; [exists 1; unfold diameter, add3, mul3, sub3; cbn; f_equal; ring|]. split; [split; [apply N1, TC|unfold tilted, dot3, sub3; cbn; ring]|].
  split; [exists (-1); unfold diameter, add3, mul3, sub3; cbn; f_equal; ring|]. split; [split; [apply N1; lra|unfold tilted, dot3, sub3; cbn; ring]|].
  assert (T6 : / 10 ^ 6 = / 1000000) by (f_equal; ring). assert (T9 : / 10 ^ 9 = / 1000000000) by (f_equal; ring). assert (P6 := pow10_inv_pos 6).
  unfold circle3_line_intersections. cbn [circle3_line_loop]. assert (H : horizontal (cf3 tilted) (/ 10 ^ 6) = true).
  { unfold horizontal, tilted, dot3, Z3D. cbn [cf3 fb3 bw x3 y3 z3]. replace (0 * 0 + - ts * 0 + tc * 1) with tc by ring. apply small_isclose; [lra|]. rewrite T6. unfold tc. rewrite (Rabs_right ((4000000 - 1) / (4000000 + 1))) by lra. rewrite Rabs_left1 by lra. lra. }
  rewrite H. cbn [negb]. assert (Nd : fst diameter <> snd diameter) by (unfold diameter; cbn; intro K; injection K as K _; unfold tc in K; lra).
  destruct (line3_distance_ok diameter (center3 tilted) Nd) as (d & -> & (DE & DM)). cbn [bind].
  assert (D0 : d <= 0). { rewrite <- (dist_self (center3 tilted)). apply DM. exists 0. unfold diameter, tilted, center3, add3, mul3, sub3. cbn. f_equal; ring. }
  rewrite (proj2 (Rltb_false _ _)) by (cbn; lra). rewrite close_heights; cbn [andb].
  2:{ unfold diameter. cbn [fst snd z3]. rewrite T6, Rminus_0_r, Rabs_right; unfold ts; lra. } 2:{ cbn. rewrite Rabs_R0. lra. } 2:{ unfold diameter. cbn [fst snd z3]. rewrite Rabs_right; unfold ts; lra. }
  unfold diameter, dir3, sub3, tilted, center3. cbn [fst snd x3 y3 z3 cf3 org3 cr3]. rewrite (proj2 (Reqb_false _ _)) by (unfold ts; lra).
  replace ((0 - 0) / (ts - 0) * (0 - 0) + 0 - 0) with 0 by (unfold ts; field; lra). replace ((0 - 0) / (ts - 0) * (tc - 0) + 0 - 0) with 0 by (unfold ts; field; lra).
  rewrite far_heights; [reflexivity| |lra]. replace (0 ^ 2 + 0 ^ 2) with 0 by ring. replace (1 ^ 2) with 1 by ring. rewrite Rabs_R0, Rabs_R1, Rabs_left by lra. lra.
Qed.
(** the points of the plane of the ellipse are not mapped back *)
Definition far_ellipse := E3 2 1 (zframe (V3 10 0 0)).
Lemma conic_refuted : exists e l r, ellipse3_line_intersections e l (/ 10 ^ 6) = Ok r /\ direct (fb3 (ef3 e)) /\ 0 < emin3 e <= emaj3 e /\ on_plane (ef3 e) (fst l) /\ on_plane (ef3 e) (snd l) /\
  r <> [] /\ forall p q, In p r -> on_ellipse3 e q -> 6 <= point_distance3 p q.
Proof.
  set (e2 := E2 2 1 OXY2). set (l2 := (V2 (0 - 10) (0 - 0), V2 (20 - 10) (0 - 0))). assert (OK : ellipse_ok e2) by (apply oxy_ok; lra).
  assert (W : well_directed e2 l2). { right. unfold along_major, ecenter, major_dir, e2, l2, OXY2, O2D, X2D, sub2, dot2. cbn [fst snd ef org2 fb2 u2 x2 y2]. assert (/ 10 ^ 6 = / 1000000) by (f_equal; ring). split; [rewrite Rabs_right by lra; lra|split; [rewrite Rabs_left by lra; lra|rewrite Rabs_right by lra; lra]]. }
  assert (N2 : fst l2 <> snd l2) by (unfold l2; cbn; intro K; injection K as K; lra).
  destruct (ellipse_line_complete e2 l2 (/ 10 ^ 6) (V2 2 0) (V2 (-2) 0) OK (or_introl (conj eq_refl eq_refl)) W N2 (Rlt_le _ _ (pow10_inv_pos 6))) as (pts & E & C).
  { exists (12 / 20). unfold l2, at_param2, add2, sub2, mul2. cbn [fst snd x2 y2]. f_equal; field. } { exists 0. unfold e2. rewrite oxy_point, cos_0, sin_0. f_equal; ring. }
  { exists (8 / 20). unfold l2, at_param2, add2, sub2, mul2. cbn [fst snd x2 y2]. f_equal; field. } { exists PI. unfold e2. rewrite oxy_point, cos_PI, sin_PI. f_equal; ring. } { intro K. injection K as K. lra. }
  exists far_ellipse, (V3 0 0 0, V3 20 0 0), (map (fun i => V3 (x2 i) (y2 i) 0) pts). split.
  { unfold ellipse3_line_intersections, far_ellipse. rewrite flat_lines by (first [reflexivity | lra | apply Rlt_le, pow10_inv_pos | intro K; injection K as K; lra]). cbn [x3 y3 z3]. fold e2 l2. rewrite E. reflexivity. }
  split; [exact local_direct|]. split; [cbn; lra|]. split; [unfold on_plane, far_ellipse, zframe, dot3, sub3; cbn; ring|]. split; [unfold on_plane, far_ellipse, zframe, dot3, sub3; cbn; ring|]. split.
  { destruct (C (V2 2 0)) as (p & Ip & _); [exists (12 / 20); unfold l2, at_param2, add2, sub2, mul2; cbn [fst snd x2 y2]; f_equal; field|exists 0; unfold e2; rewrite oxy_point, cos_0, sin_0; f_equal; ring|]. destruct pts; [destruct Ip|discriminate]. }
  intros p q Ip [t Et]. apply in_map_iff in Ip as (i & <- & Ii). destruct (ellipse_line_sound e2 l2 _ _ i OK (or_introl (conj eq_refl eq_refl)) W N2 E Ii) as [_ [s Es]]. unfold e2 in Es. rewrite oxy_point in Es.
  rewrite ellipse3_local in Et. assert (Ex : x3 q = 10 + 2 * cos t). { rewrite Et. unfold frame_point, basis_vector, far_ellipse, zframe, add3, mul3. cbn. ring. }
  assert (B : x3 q - x2 i >= 6). { rewrite Ex, Es. cbn [x2]. pose proof (COS_bound s). pose proof (COS_bound t). lra. }
  rewrite dist3_sym. unfold point_distance3. eapply Rle_trans; [|rewrite norm3_dot; apply sqrt_le_1_alt with (x := 6 * 6)].
  - rewrite sqrt_square; lra.
  - unfold dot3, sub3. cbn [x3 y3 z3]. pose proof (Rle_0_sqr (y3 q - y2 i)) as S1. pose proof (Rle_0_sqr (z3 q - 0)) as S2. unfold Rsqr in *. assert (6 * 6 <= (x3 q - x2 i) * (x3 q - x2 i)) by (apply Rmult_le_compat; lra). lra.
Qed.
(** point_distance *)
Lemma axis_error : forall c p, direct (fb3 (cf3 c)) -> upright (cf3 c) \/ inclined (cf3 c) (/ 10 ^ 6) -> axis_distance (cf3 c) p = 0 ->
  py_round 12 (x3 (center3 c)) = x3 (center3 c) -> py_round 12 (y3 (center3 c)) = y3 (center3 c) -> py_round 12 (z3 (center3 c)) = z3 (center3 c) -> circle3_point_distance c p = Err ZeroDivisionError.
Proof.
  intros c p D U A R1 R2 R3. assert (O := proj1 D). rewrite (axis_coords _ _ D) in A. unfold ParamSurfP.rho in A. assert (S0 := f_equal (fun t => t * t) A). cbv beta in S0.
  rewrite sqrt_sqrt in S0 by (pose proof (Rle_0_sqr (x3 (coords (cf3 c) p))); pose proof (Rle_0_sqr (y3 (coords (cf3 c) p))); unfold Rsqr in *; lra). rewrite Rmult_0_l in S0.
  assert (X0 : x3 (coords (cf3 c) p) = 0). { pose proof (Rle_0_sqr (x3 (coords (cf3 c) p))) as Q1. pose proof (Rle_0_sqr (y3 (coords (cf3 c) p))) as Q2. apply Rsqr_eq_0. unfold Rsqr in *. lra. }
  assert (Y0 : y3 (coords (cf3 c) p) = 0). { pose proof (Rle_0_sqr (x3 (coords (cf3 c) p))) as Q1. pose proof (Rle_0_sqr (y3 (coords (cf3 c) p))) as Q2. apply Rsqr_eq_0. unfold Rsqr in *. lra. }
  unfold circle3_point_distance. cbv zeta. set (b := fb3 (cf3 c)) in *. assert (Q : point_to_3d (to_2d p (center3 c) (bu b) (bv b)) (center3 c) (bu b) (bv b) = center3 c).
  { assert (T0 : to_2d p (center3 c) (bu b) (bv b) = V2 0 0). { unfold to_2d. unfold coords in X0, Y0. cbn [x3 y3] in X0, Y0. fold b in X0, Y0. change (org3 (cf3 c)) with (center3 c) in *. rewrite <- X0 at 1. rewrite <- Y0. unfold dot3, sub3. cbn [x3 y3 z3]. f_equal; ring. }
    rewrite T0. unfold point_to_3d, to_3d. cbn [x2 y2 x3 y3 z3]. rewrite !Rmult_0_r, !Rplus_0_r. rewrite R1, R2, R3. destruct (center3 c). reflexivity. }
  rewrite Q. unfold circle3_line_intersections. destruct U as [U|U].
  - cbn [circle3_line_loop]. rewrite upright_horizontal by (first [exact U | apply Rlt_le, pow10_inv_pos]). cbn [negb]. rewrite line3_distance_degenerate by reflexivity. reflexivity.
  - rewrite loop_inclined by (apply inclined_horizontal; [exact O|exact U|apply Rlt_le, pow10_inv_pos]). rewrite own_mapping by exact D. cbn [bind]. unfold line3_mapping_new. cbn [fst snd].
    rewrite (g2l_coords (cf3 c) (center3 c) D). cbn [bind circle3_line_loop]. rewrite upright_horizontal by (first [left; reflexivity | apply Rlt_le, pow10_inv_pos]). cbn [negb]. rewrite line3_distance_degenerate by reflexivity. reflexivity.
Qed.
Lemma round_int n : py_round 12 (IZR n) = IZR n.
Proof. assert (E : IZR (n * 1000000000000) / 10 ^ 12 = IZR n) by (rewrite mult_IZR; lra). rewrite <- E. apply py_round_fixed. Qed.
Lemma axis_refuted : exists c p, direct (fb3 (cf3 c)) /\ 0 < cr3 c /\ circle3_point_distance c p = Err ZeroDivisionError.
Proof.
  exists unit_circle, (V3 0 0 1). split; [exact local_direct|]. split; [cbn; lra|]. apply axis_error.
  - exact local_direct.
  - left. left. reflexivity.
  - rewrite (axis_coords _ _ local_direct). unfold ParamSurfP.rho, coords, unit_circle, LOCAL, dot3, sub3. cbn. transitivity (sqrt 0); [f_equal; ring|apply sqrt_0].
  - apply (round_int 0). - apply (round_int 0). - apply (round_int 0).
Qed.
Lemma tiny_refuted : exists c p, direct (fb3 (cf3 c)) /\ 0 < cr3 c /\ circle3_point_distance c p = Err IndexError.
Proof.
  set (c := C3 LOCAL (/ 10 ^ 4)). exists c, (V3 1 0 0). split; [exact local_direct|]. split; [cbn [cr3 c]; apply pow10_inv_pos|].
  unfold circle3_point_distance. cbv zeta. assert (Q : point_to_3d (to_2d (V3 1 0 0) (center3 c) (bu (fb3 (cf3 c))) (bv (fb3 (cf3 c)))) (center3 c) (bu (fb3 (cf3 c))) (bv (fb3 (cf3 c))) = V3 1 0 0).
  { unfold point_to_3d, to_3d, to_2d, c, center3, LOCAL, dot3. cbn [cf3 org3 fb3 bu bv x3 y3 z3 x2 y2].
    replace (0 + 1 * (1 * 1 + 0 * 0 + 0 * 0 - (0 * 1 + 0 * 0 + 0 * 0)) + 0 * (1 * 0 + 0 * 1 + 0 * 0 - (0 * 0 + 0 * 1 + 0 * 0))) with 1 by ring.
    replace (0 + 0 * (1 * 1 + 0 * 0 + 0 * 0 - (0 * 1 + 0 * 0 + 0 * 0)) + 1 * (1 * 0 + 0 * 1 + 0 * 0 - (0 * 0 + 0 * 1 + 0 * 0))) with 0 by ring.
    replace (0 + 0 * (1 * 1 + 0 * 0 + 0 * 0 - (0 * 1 + 0 * 0 + 0 * 0)) + 0 * (1 * 0 + 0 * 1 + 0 * 0 - (0 * 0 + 0 * 1 + 0 * 0))) with 0 by ring. rewrite (round_int 1), (round_int 0). reflexivity. }
  rewrite Q. assert (P6 := pow10_inv_pos 6). assert (P7 := pow10_inv_pos 7). assert (P4 := pow10_inv_pos 4). assert (N : fst (center3 c, V3 1 0 0) <> snd (center3 c, V3 1 0 0)) by (cbn; intro K; injection K as K; lra).
  unfold circle3_line_intersections. cbn [circle3_line_loop]. rewrite upright_horizontal by (try (left; reflexivity); lra). cbn [negb].
  destruct (line3_distance_ok (center3 c, V3 1 0 0) (center3 c) N) as (d & -> & (DE & DM)). cbn [bind fst snd].
  assert (D0 : d <= 0). { rewrite <- (dist_self (center3 c)). apply DM. exists 0. unfold c, center3, LOCAL, add3, mul3, sub3. cbn. f_equal; ring. }
  rewrite (proj2 (Rltb_false _ _)) by (cbn [cr3 c]; lra). change (z3 (center3 c)) with 0. cbn [z3]. rewrite !small_isclose by (try rewrite Rminus_0_r, Rabs_R0; lra). cbn [andb].
  destruct (planar_form c (center3 c, V3 1 0 0) (/ 10 ^ 7) N) as (p & u & s & _ & UU & S0 & P & D & F). cbv zeta in F. cbn [fst snd] in *. rewrite F. clear F.
  assert (K : (dot3 u (sub3 p (center3 c))) ^ 2 - sq3 (sub3 p (center3 c)) = 0).
  { destruct P as [-> | ->].
    - replace (sub3 (center3 c) (center3 c)) with (V3 0 0 0) by (unfold sub3; f_equal; ring). unfold sq3, dot3. cbn [x3 y3 z3]. ring.
    - rewrite D. transitivity (s * s * (dot3 u u * dot3 u u - dot3 u u)); [unfold sq3, dot3, mul3; cbn [x3 y3 z3]; ring|rewrite UU; ring]. }
  set (b := dot3 u (sub3 p (center3 c))) in *. replace (4 * (b ^ 2 - (sq3 (sub3 p (center3 c)) - cr3 c ^ 2))) with (4 * cr3 c ^ 2) by lra.
  assert (E8 : 4 * cr3 c ^ 2 = 4 * / 10 ^ 8). { cbn [cr3 c]. rewrite pow_inv, <- pow_mult. reflexivity. }
  rewrite E8. assert (T8 : / 10 ^ 8 = / 100000000) by (f_equal; ring). assert (T7 : / 10 ^ 7 = / 10000000) by (f_equal; ring). rewrite T8, T7. rewrite (proj2 (Rltb_false _ _)) by lra. rewrite small_isclose by (try rewrite Rminus_0_r, Rabs_right; lra). reflexivity.
Qed.
