From Coq Require Import Reals Lra Lia List Bool ZArith.
From Verif.Model Require Import Base RBase Vec Frame BBox Geometry Plane Curves Ellipse Conic3.
From Verif.Spec Require Import VecSpec FrameSpec BBoxSpec PlaneSpec CurvesSpec EllipseSpec ParamSurfSpec Conic3Spec.
From Verif.Proofs Require Import VecP LineP FrameP FrameP2 PlaneP CurvesP EllipseP EllipseP2 EllipseP4 Conic3P Conic3P2 ParamSurfP ParamSurfP2 ParamSurfP4 Conic3P3 Conic3P4.
Import ListNotations.
Open Scope R_scope.

Lemma small_isclose a b tol : 0 <= tol -> Rabs (a - b) <= tol -> isclose a b tol = true.
Proof. intros T H. apply Rleb_spec. eapply Rle_trans; [exact H|apply Rmax_r]. Qed.
Lemma dist_self p : point_distance3 p p = 0.
Proof. apply dist3_zero. reflexivity. Qed.
Lemma radial_points c s tol n : horizontal (cf3 c) tol = true -> 0 <= tol -> / 10 ^ 3 <= cr3 c -> s <> center3 c -> Rabs (z3 (center3 c) - z3 s) <= / 10 ^ 6 -> Rabs (z3 s - z3 (center3 c)) <= tol ->
  exists u s0, dot3 u u = 1 /\ s0 <> 0 /\ sub3 s (center3 c) = mul3 u s0 /\ circle3_line_loop (S n) c (center3 c, s) tol = Ok [add3 (center3 c) (mul3 u (cr3 c)); add3 (center3 c) (mul3 u (- cr3 c))].
Proof.
  intros H T R0 N Z1 Z2. cbn [circle3_line_loop]. rewrite H. cbn [negb]. assert (N' : fst (center3 c, s) <> snd (center3 c, s)) by (cbn; congruence).
  destruct (line3_distance_ok (center3 c, s) (center3 c) N') as (d & -> & (DE & DM)). cbn [bind fst snd].
  assert (P3 := pow10_inv_pos 3). assert (P6 := pow10_inv_pos 6). assert (P7 := pow10_inv_pos 7).
  assert (D0 : d <= 0). { rewrite <- (dist_self (center3 c)). apply DM. exists 0. unfold add3, mul3, sub3. cbn [fst snd]. destruct (center3 c) as [c1 c2 c3]. cbn [x3 y3 z3]. f_equal; ring. }
  rewrite (proj2 (Rltb_false _ _)) by lra. rewrite !small_isclose by (assumption || lra). cbn [andb].
  destruct (planar_form c (center3 c, s) (/ 10 ^ 7) N') as (p & u & s0 & _ & UU & S0 & P & D & F). cbv zeta in F. cbn [fst snd] in *. exists u, s0. split; [exact UU|]. split; [exact S0|]. split; [exact D|]. rewrite F.
  assert (T3 : / 10 ^ 3 = / 1000) by (f_equal; ring). assert (T7 : / 10 ^ 7 = / 10000000) by (f_equal; ring).
  set (r := cr3 c) in *. assert (R2 : / 1000000 <= r ^ 2). { rewrite T3 in R0. assert (/ 1000 * / 1000 <= r * r) by (apply Rmult_le_compat; lra). lra. }
  set (b := dot3 u (sub3 p (center3 c))) in *. set (k := sq3 (sub3 p (center3 c))) in *.
  assert (K : k = b ^ 2 /\ forall t, add3 p (mul3 u (- b + t)) = add3 (center3 c) (mul3 u t)).
  { destruct P as [-> | ->].
    - unfold b, k. replace (sub3 (center3 c) (center3 c)) with (V3 0 0 0) by (unfold sub3; f_equal; ring). split; [unfold sq3, dot3; cbn [x3 y3 z3]; ring|]. intros t. f_equal. unfold mul3, dot3. cbn [x3 y3 z3]. f_equal; ring.
    - assert (B : b = s0). { unfold b. rewrite D. transitivity (s0 * dot3 u u); [unfold dot3, mul3; cbn [x3 y3 z3]; ring|rewrite UU; ring]. }
      split. { rewrite B. unfold k. rewrite D. transitivity (s0 * s0 * dot3 u u); [unfold sq3, dot3, mul3; cbn [x3 y3 z3]; ring|rewrite UU; ring]. }
      intros t. rewrite B. assert (Es : s = add3 (center3 c) (mul3 u s0)). { rewrite <- D. destruct s as [s1 s2 s3], (center3 c) as [c1 c2 c3]. unfold add3, sub3. cbn [x3 y3 z3]. f_equal; ring. }
      rewrite Es. unfold add3, mul3. cbn [x3 y3 z3]. f_equal; ring. }
  destruct K as [K1 K2]. rewrite K1. replace (4 * (b ^ 2 - (b ^ 2 - r ^ 2))) with (4 * r ^ 2) by ring.
  rewrite (proj2 (Rltb_false _ _)) by lra. assert (IC : isclose (4 * r ^ 2) 0 (/ 10 ^ 7) = false). { apply isclose_0_false; [lra|]. rewrite Rabs_right by lra. rewrite T7. lra. } rewrite IC.
  replace (sqrt (4 * r ^ 2)) with (2 * r). 2:{ symmetry. replace (4 * r ^ 2) with (2 * r * (2 * r)) by ring. apply sqrt_square. lra. }
  replace (- b + 2 * r / 2) with (- b + r) by field. replace (- b - 2 * r / 2) with (- b + - r) by field. rewrite !K2. reflexivity.
Qed.
Lemma rounded_projection f p : orthonormal (fb3 f) ->
  point_distance3 (point_to_3d (to_2d p (org3 f) (bu (fb3 f)) (bv (fb3 f))) (org3 f) (bu (fb3 f)) (bv (fb3 f))) (frame_point f (V3 (x3 (coords f p)) (y3 (coords f p)) 0)) <= / 10 ^ 12.
Proof.
  intros O. set (q := to_3d (to_2d p (org3 f) (bu (fb3 f)) (bv (fb3 f))) (org3 f) (bu (fb3 f)) (bv (fb3 f))).
  assert (E : frame_point f (V3 (x3 (coords f p)) (y3 (coords f p)) 0) = q).
  { unfold q, to_3d, to_2d, frame_point, basis_vector, coords. destruct f as [[o1 o2 o3] [[a1 a2 a3] [b1 b2 b3] [c1 c2 c3]]], p as [p1 p2 p3]. unfold add3, mul3, sub3, dot3. cbn [x3 y3 z3 x2 y2 bu bv bw fb3 org3]. f_equal; ring. }
  rewrite E. unfold point_to_3d. fold q. assert (N : near (/ 10 ^ 12 / 2) (V3 (py_round 12 (x3 q)) (py_round 12 (y3 q)) (py_round 12 (z3 q))) q) by (repeat split; cbn [x3 y3 z3]; apply py_round_err).
  apply near_dist in N. lra.
Qed.
(** in the frame of the circle: two opposite points of a line close to the radial one *)
Lemma circle_distance_core c p p1 p2 w s0 delta eta : direct (fb3 (cf3 c)) -> 0 < axis_distance (cf3 c) p -> 0 <= cr3 c -> dot3 w w = 1 -> s0 <> 0 ->
  point_distance3 (mul3 w s0) (V3 (x3 (coords (cf3 c) p)) (y3 (coords (cf3 c) p)) 0) <= delta ->
  point_distance3 p1 (frame_point (cf3 c) (mul3 w (cr3 c))) <= eta -> point_distance3 p2 (frame_point (cf3 c) (mul3 w (- cr3 c))) <= eta ->
  exists d0, dist_to_circle3 c p d0 /\ Rabs ((let d1 := point_distance3 p1 p in let d2 := point_distance3 p2 p in if Rltb d2 d1 then d2 else d1) - d0) <= 2 * cr3 c * delta / axis_distance (cf3 c) p + eta.
Proof.
  intros D A R0 W S0 H H1 H2. set (f := cf3 c) in *. set (r := cr3 c) in *. assert (O := proj1 D). assert (AC := axis_coords f p D). set (a := x3 (coords f p)) in *. set (b := y3 (coords f p)) in *. set (h := z3 (coords f p)).
  set (rho := axis_distance f p) in *. assert (Q : rho * rho = a * a + b * b). { rewrite AC. unfold ParamSurfP.rho. apply sqrt_sqrt. pose proof (Rle_0_sqr a). pose proof (Rle_0_sqr b). unfold Rsqr in *. lra. }
  assert (Ep : p = frame_point f (V3 a b h)). { symmetry. unfold a, b, h. replace (V3 (x3 (coords f p)) (y3 (coords f p)) (z3 (coords f p))) with (coords f p) by (destruct (coords f p); reflexivity). apply frame_point_coords, D. }
  assert (L : forall x v, point_distance3 x (frame_point f v) = point_distance3 (coords f x) v). { intros x v. rewrite <- (frame_point_coords f x D) at 1. apply frame_point_dist, O. }
  exists (circle_best r a b h rho). split.
  - split.
    + exists (frame_point f (V3 (r * a / rho) (r * b / rho) 0)). split.
      * split.
        -- change (center3 c) with (org3 f). rewrite sphere_local by exact O. unfold norm3. cbn [x3 y3 z3]. replace (r * a / rho * (r * a / rho) + r * b / rho * (r * b / rho) + 0 * 0) with (r * r); [apply sqrt_square, R0|].
           transitivity ((rho * rho) * (r * r) / (rho * rho)); [field; lra|rewrite Q at 1; field; lra].
        -- change (center3 c) with (org3 f). fold f. rewrite dot3_sym. apply (plane_local f (V3 (r * a / rho) (r * b / rho) 0) O). reflexivity.
      * rewrite Ep at 1. apply frame_point_dist, O.
    + intros q [Dq Pq]. rewrite dot3_sym in Pq. fold f in Pq. change (center3 c) with (org3 f) in *. rewrite <- (frame_point_coords f q D) in Dq, Pq |- *. set (v := coords f q) in *. assert (Z : z3 v = 0) by (apply (plane_local f v O); exact Pq).
      rewrite sphere_local in Dq by exact O. rewrite Ep at 1. rewrite frame_point_dist by exact O. destruct v as [v1 v2 v3]. cbn [z3] in Z. subst v3. apply circle_best_least; auto.
      fold r in Dq. rewrite <- Dq. rewrite norm3_sq. unfold dot3. cbn [x3 y3 z3]. ring.
  - rewrite L in H1, H2. assert (M := radial_min r a b h rho w s0 delta eta (coords f p1) (coords f p2) A Q R0 W S0 H H1 H2). cbv zeta in *. rewrite <- !L, <- Ep in M. exact M.
Qed.
