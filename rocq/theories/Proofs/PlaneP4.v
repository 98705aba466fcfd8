(** Two planes: intersection, angle, parallelism, the plane between two planes. *)
From Coq Require Import Reals Lra Lia List Bool ZArith.
From Verif.Model Require Import Base RBase Vec Frame Geometry Plane.
From Verif.Spec Require Import VecSpec FrameSpec PlaneSpec.
From Verif.Proofs Require Import VecP LineP FrameP FrameP2 GeometryP PlaneP PlaneP2 PlaneP3.
Open Scope R_scope.

Lemma not_colinear u v tol : 0 <= tol -> dot3 u u = 1 -> dot3 v v = 1 -> is_colinear_to3 u v tol = false -> Rabs (dot3 u v) < 1 - tol.
Proof.
  intros Ht U V. unfold is_colinear_to3. rewrite (dot3_1 _ U), (dot3_1 _ V). rewrite !(proj2 (Reqb_false 1 0)) by lra.
  replace (Rabs (dot3 u v) / 1 / 1) with (Rabs (dot3 u v)) by field. pose proof (unit_dot_le u v U V) as L. unfold isclose. intros C. rb.
  assert (T : tol < Rabs (Rabs (dot3 u v) - 1)) by (eapply Rle_lt_trans; [apply Rmax_r|apply C]). rewrite Rabs_left1 in T by lra. lra.
Qed.
Lemma colinear_iff u v tol : / 10 ^ 9 <= tol -> dot3 u u = 1 -> dot3 v v = 1 -> (is_colinear_to3 u v tol = true <-> 1 - tol <= Rabs (dot3 u v)).
Proof.
  intros Ht U V. pose proof (pow10_inv_pos 9) as P9. split.
  - unfold is_colinear_to3. rewrite (dot3_1 _ U), (dot3_1 _ V). rewrite !(proj2 (Reqb_false 1 0)) by lra.
    replace (Rabs (dot3 u v) / 1 / 1) with (Rabs (dot3 u v)) by field. pose proof (unit_dot_le u v U V) as L. unfold isclose. intros C. rb.
    set (d := Rabs (dot3 u v)) in *. pose proof (Rabs_pos (dot3 u v)) as DP. fold d in DP. clearbody d. rewrite (Rabs_pos_eq 1), (Rabs_pos_eq d), (Rmax_right d 1) in C by lra. rewrite Rmult_1_r, (Rmax_right _ tol) in C by auto. rewrite (Rabs_left1 (d - 1)) in C by lra. lra.
  - intros H. destruct (is_colinear_to3 u v tol) eqn:E; auto. apply not_colinear in E; auto; lra.
Qed.
Lemma prod_err a b a' b' e : 0 <= e <= 1 -> Rabs a <= 1 -> Rabs b <= 1 -> Rabs (a' - a) <= e -> Rabs (b' - b) <= e -> Rabs (a' * b' - a * b) <= 3 * e.
Proof.
  intros He Ha Hb Da Db. replace (a' * b' - a * b) with ((a' - a) * b + a * (b' - b) + (a' - a) * (b' - b)) by ring.
  eapply Rle_trans; [apply Rabs_triang|]. eapply Rle_trans; [apply Rplus_le_compat_r, Rabs_triang|]. rewrite !Rabs_mult.
  pose proof (Rabs_pos a). pose proof (Rabs_pos b). pose proof (Rabs_pos (a' - a)). pose proof (Rabs_pos (b' - b)). nra.
Qed.
Lemma unit_comp v : dot3 v v = 1 -> Rabs (x3 v) <= 1 /\ Rabs (y3 v) <= 1 /\ Rabs (z3 v) <= 1.
Proof.
  intros V. unfold dot3 in V. assert (S : forall t, t * t <= 1 -> Rabs t <= 1). { intros t Ht. apply sq_le; [lra|]. rewrite <- Rabs_mult, Rabs_pos_eq by apply Rle_0_sqr. lra. }
  pose proof (Rle_0_sqr (x3 v)). pose proof (Rle_0_sqr (y3 v)). pose proof (Rle_0_sqr (z3 v)). unfold Rsqr in *. repeat split; apply S; lra.
Qed.
Lemma abs4 a b c d e : Rabs a <= e -> Rabs b <= e -> Rabs c <= e -> Rabs d <= e -> forall x y z, Rabs (a * x + b * y + c * z + d) <= e * (1 + Rabs x + Rabs y + Rabs z).
Proof.
  intros A B C D x y z. eapply Rle_trans; [apply Rabs_triang|]. eapply Rle_trans; [apply Rplus_le_compat_r, Rabs_triang|]. eapply Rle_trans; [do 2 apply Rplus_le_compat_r; apply Rabs_triang|]. rewrite !Rabs_mult.
  pose proof (Rabs_pos x). pose proof (Rabs_pos y). pose proof (Rabs_pos z). nra.
Qed.
(** a point that satisfies the rounded equation is near the plane *)
Lemma rounded_on f p a b c d : plane_coefficients f = (a, b, c, d) -> a * x3 p + b * y3 p + c * z3 p + d = 0 -> Rabs (plane_height f p) <= err12 p.
Proof.
  unfold plane_coefficients. intros E H. repeat apply pair_equal_spec in E as [E ?]. subst.
  set (w := bw (fb3 f)) in *. pose proof (py_round_err 12 (x3 w)) as A. pose proof (py_round_err 12 (y3 w)) as B. pose proof (py_round_err 12 (z3 w)) as C. pose proof (py_round_err 12 (- dot3 (org3 f) w)) as D.
  pose proof (abs4 _ _ _ _ _ A B C D (x3 p) (y3 p) (z3 p)) as Q. unfold err12.
  replace (plane_height f p) with (- ((py_round 12 (x3 w) - x3 w) * x3 p + (py_round 12 (y3 w) - y3 w) * y3 p + (py_round 12 (z3 w) - z3 w) * z3 p + (py_round 12 (- dot3 (org3 f) w) - - dot3 (org3 f) w))).
  - rewrite Rabs_Ropp. exact Q.
  - unfold plane_height. fold w. set (r1 := py_round 12 (x3 w)) in *. set (r2 := py_round 12 (y3 w)) in *. set (r3 := py_round 12 (z3 w)) in *. set (r4 := py_round 12 (- dot3 (org3 f) w)) in *.
    clearbody r1 r2 r3 r4. unfold dot3, sub3. cbn [x3 y3 z3]. lra.
Qed.
Lemma two_planes_point_ok f g : dot3 (bw (fb3 f)) (bw (fb3 f)) = 1 -> dot3 (bw (fb3 g)) (bw (fb3 g)) = 1 -> Rabs (dot3 (bw (fb3 f)) (bw (fb3 g))) < 1 - / 10 ^ 8 ->
  exists p, two_planes_point f g = Ok p /\ Rabs (plane_height f p) <= err12 p /\ Rabs (plane_height g p) <= err12 p.
Proof.
  intros W1 W2 H. destruct (plane_coefficients f) as [[[a1 b1] c1] d1] eqn:E1. destruct (plane_coefficients g) as [[[a2 b2] c2] d2] eqn:E2.
  pose proof (fun p => rounded_on f p _ _ _ _ E1) as R1. pose proof (fun p => rounded_on g p _ _ _ _ E2) as R2.
  unfold two_planes_point. rewrite E1, E2. cbv zeta. set (tol := / 10 ^ 10).
  destruct (Rltb tol (Rabs (a1 * b2 - a2 * b1))) eqn:C1; [|destruct (Rltb tol (Rabs (a2 * c1 - a1 * c2))) eqn:C2; [|destruct (Rltb tol (Rabs (c1 * b2 - b1 * c2))) eqn:C3]]; rb; assert (TP : 0 < tol) by apply pow10_inv_pos.
  - assert (N : a1 * b2 - a2 * b1 <> 0) by (intros Z; rewrite Z, Rabs_R0 in C1; lra). eexists. split; [reflexivity|]. split; [apply R1|apply R2]; cbn [x3 y3 z3]; field; auto.
  - assert (N : a2 * c1 - a1 * c2 <> 0) by (intros Z; rewrite Z, Rabs_R0 in C2; lra). eexists. split; [reflexivity|]. split; [apply R1|apply R2]; cbn [x3 y3 z3]; field; auto.
  - assert (N : b1 * c2 - c1 * b2 <> 0) by (intros Z; replace (c1 * b2 - b1 * c2) with (- (b1 * c2 - c1 * b2)) in C3 by ring; rewrite Z, Ropp_0, Rabs_R0 in C3; lra). eexists. split; [reflexivity|]. split; [apply R1|apply R2]; cbn [x3 y3 z3]; field; auto.
  - exfalso. unfold plane_coefficients in E1, E2. repeat apply pair_equal_spec in E1 as [E1 ?]. repeat apply pair_equal_spec in E2 as [E2 ?]. subst.
    set (w1 := bw (fb3 f)) in *. set (w2 := bw (fb3 g)) in *. pose proof (unit_comp _ W1) as (X1 & Y1 & Z1). pose proof (unit_comp _ W2) as (X2 & Y2 & Z2).
    set (e := / 10 ^ 12 / 2). assert (He : 0 <= e <= 1) by (unfold e; lra).
    pose proof (py_round_err 12 (x3 w1)) as A1. pose proof (py_round_err 12 (y3 w1)) as B1. pose proof (py_round_err 12 (z3 w1)) as K1.
    pose proof (py_round_err 12 (x3 w2)) as A2. pose proof (py_round_err 12 (y3 w2)) as B2. pose proof (py_round_err 12 (z3 w2)) as K2.
    fold e in A1, B1, K1, A2, B2, K2.
    assert (M : forall p q p' q' r s r' s', Rabs p <= 1 -> Rabs q <= 1 -> Rabs r <= 1 -> Rabs s <= 1 -> Rabs (p' - p) <= e -> Rabs (q' - q) <= e -> Rabs (r' - r) <= e -> Rabs (s' - s) <= e ->
      Rabs (p' * q' - r' * s') <= tol -> (p * q - r * s) * (p * q - r * s) <= (2 * tol) * (2 * tol)).
    { intros p q p' q' r s r' s' Hp Hq Hr Hs Dp Dq Dr Ds L. pose proof (prod_err _ _ _ _ e He Hp Hq Dp Dq) as P1. pose proof (prod_err _ _ _ _ e He Hr Hs Dr Ds) as P2.
      assert (T : Rabs (p * q - r * s) <= 2 * tol).
      { replace (p * q - r * s) with ((p' * q' - r' * s') - (p' * q' - p * q) + (r' * s' - r * s)) by ring. eapply Rle_trans; [apply Rabs_triang|]. eapply Rle_trans; [apply Rplus_le_compat_r, Rabs_triang|]. rewrite Rabs_Ropp. unfold e, tol in *. lra. }
      rewrite <- (Rabs_pos_eq (2 * tol)) in T by lra. apply Rsqr_le_abs_1 in T. unfold Rsqr in T. exact T. }
    pose proof (M _ _ _ _ _ _ _ _ X1 Y2 X2 Y1 A1 B2 A2 B1 C1) as Q1. pose proof (M _ _ _ _ _ _ _ _ X2 Z1 X1 Z2 A2 K1 A1 K2 C2) as Q2. pose proof (M _ _ _ _ _ _ _ _ Z1 Y2 Y1 Z2 K1 B2 B1 K2 C3) as Q3.
    pose proof (lagrange3 w1 w2) as LG. rewrite W1, W2 in LG.
    assert (S : dot3 (cross3 w1 w2) (cross3 w1 w2) <= 12 * (tol * tol)). { unfold dot3, cross3. cbn [x3 y3 z3]. lra. }
    assert (D : dot3 w1 w2 * dot3 w1 w2 <= (1 - / 10 ^ 8) * (1 - / 10 ^ 8)). { assert (Q : Rabs (dot3 w1 w2) <= 1 - / 10 ^ 8) by lra. rewrite <- (Rabs_pos_eq (1 - / 10 ^ 8)) in Q by lra. apply Rsqr_le_abs_1 in Q. exact Q. }
    unfold tol in S. lra.
Qed.
Lemma two_planes_ok f g : dot3 (bw (fb3 f)) (bw (fb3 f)) = 1 -> dot3 (bw (fb3 g)) (bw (fb3 g)) = 1 ->
  (exists p, two_planes_intersections f g (/ 10 ^ 8) = Ok (Some (p, add3 p (cross3 (bw (fb3 f)) (bw (fb3 g))))) /\ Rabs (dot3 (bw (fb3 f)) (bw (fb3 g))) < 1 - / 10 ^ 8 /\ Rabs (plane_height f p) <= err12 p /\ Rabs (plane_height g p) <= err12 p) \/
  (two_planes_intersections f g (/ 10 ^ 8) = Ok None /\ 1 - / 10 ^ 8 <= Rabs (dot3 (bw (fb3 f)) (bw (fb3 g)))).
Proof.
  intros W1 W2. unfold two_planes_intersections. destruct (is_colinear_to3 _ _ _) eqn:C.
  - right. split; auto. apply colinear_iff in C; auto; lra.
  - left. apply not_colinear in C; auto; [|lra]. destruct (two_planes_point_ok f g W1 W2 C) as (p & E & A & B). exists p. cbv zeta.
    assert (L : Rltb (norm3 (cross3 (bw (fb3 f)) (bw (fb3 g)))) (/ 10 ^ 8) = false).
    { apply Rltb_false. apply sq_le; [apply norm3_pos|]. rewrite norm3_sq, lagrange3, W1, W2.
      assert (Q : Rabs (dot3 (bw (fb3 f)) (bw (fb3 g))) <= 1 - / 10 ^ 8) by lra. rewrite <- (Rabs_pos_eq (1 - / 10 ^ 8)) in Q by lra. apply Rsqr_le_abs_1 in Q. unfold Rsqr in Q. lra. }
    rewrite L, E. cbn [bind]. auto.
Qed.
(** every common point of the two planes is near the line that is returned *)
Lemma two_planes_cover w1 w2 n : mul3 n (dot3 (cross3 w1 w2) (cross3 w1 w2)) =
  add3 (mul3 (cross3 w1 w2) (dot3 n (cross3 w1 w2))) (add3 (mul3 w1 (dot3 n w1 * dot3 w2 w2 - dot3 w1 w2 * dot3 n w2)) (mul3 w2 (dot3 n w2 * dot3 w1 w1 - dot3 w1 w2 * dot3 n w1))).
Proof. vec. v_eq; ring. Qed.
Lemma two_planes_complete f g l r : dot3 (bw (fb3 f)) (bw (fb3 f)) = 1 -> dot3 (bw (fb3 g)) (bw (fb3 g)) = 1 -> two_planes_intersections f g (/ 10 ^ 8) = Ok (Some l) ->
  on_plane f r -> on_plane g r -> exists q, on_line3 l q /\ point_distance3 r q * (1 - dot3 (bw (fb3 f)) (bw (fb3 g)) ^ 2) <= 4 * err12 (fst l).
Proof.
  intros W1 W2 E R1 R2. destruct (two_planes_ok f g W1 W2) as [(p & E' & C & H1 & H2) | [E' _]]; rewrite E' in E; [|discriminate]. apply Ok_inj in E. injection E as <-. clear E'.
  set (w1 := bw (fb3 f)) in *. set (w2 := bw (fb3 g)) in *. set (D := cross3 w1 w2). set (d := dot3 w1 w2) in *.
  assert (S : dot3 D D = 1 - d ^ 2) by (unfold D; rewrite lagrange3, W1, W2; fold d; ring).
  assert (SP : 0 < 1 - d ^ 2). { assert (Q : Rabs d < 1) by lra. assert (Q2 : Rabs d * Rabs d < 1) by (pose proof (Rabs_pos d); nra). rewrite <- Rabs_mult, Rabs_pos_eq in Q2 by apply Rle_0_sqr. cbn [pow]. lra. }
  set (n := sub3 r p). set (s := 1 - d ^ 2) in *.
  exists (add3 p (mul3 D (dot3 n D / s))). split.
  - exists (dot3 n D / s). cbn [fst snd]. f_equal. f_equal. vec. v_eq; ring.
  - cbn [fst]. assert (N1 : dot3 n w1 = - plane_height f p). { unfold on_plane in R1. unfold n, plane_height. fold w1 in R1 |- *. transitivity (dot3 (sub3 r (org3 f)) w1 - dot3 (sub3 p (org3 f)) w1); [vec; ring|lra]. }
    assert (N2 : dot3 n w2 = - plane_height g p). { unfold on_plane in R2. unfold n, plane_height. fold w2 in R2 |- *. transitivity (dot3 (sub3 r (org3 g)) w2 - dot3 (sub3 p (org3 g)) w2); [vec; ring|lra]. }
    pose proof (two_planes_cover w1 w2 n) as K. fold D d in K. rewrite S, N1, N2, W1, W2 in K. fold s in K.
    set (h1 := plane_height f p) in *. set (h2 := plane_height g p) in *.
    assert (KD : mul3 (sub3 r (add3 p (mul3 D (dot3 n D / s)))) s = add3 (mul3 w1 (- h1 * 1 - d * - h2)) (mul3 w2 (- h2 * 1 - d * - h1))).
    { transitivity (sub3 (mul3 n s) (mul3 D (dot3 n D / s * s))).
      - unfold n. generalize (dot3 (sub3 r p) D / s). intros k. generalize s. intros k2. generalize D. intros D0. vec. v_eq; ring.
      - replace (dot3 n D / s * s) with (dot3 n D) by (field; lra). rewrite K. generalize (mul3 D (dot3 n D)). intros v. generalize (add3 (mul3 w1 (- h1 * 1 - d * - h2)) (mul3 w2 (- h2 * 1 - d * - h1))). intros u. vec. v_eq; ring. }
    assert (NN : point_distance3 r (add3 p (mul3 D (dot3 n D / s))) * s = norm3 (add3 (mul3 w1 (- h1 * 1 - d * - h2)) (mul3 w2 (- h2 * 1 - d * - h1)))).
    { rewrite <- KD, norm3_scale, (Rabs_pos_eq s) by lra. unfold point_distance3. ring. }
    rewrite NN. eapply Rle_trans; [apply norm3_triangle|]. rewrite !norm3_scale, (dot3_1 _ W1), (dot3_1 _ W2), !Rmult_1_r.
    assert (Hd : Rabs d <= 1) by lra. assert (T1 : Rabs (- h1 - d * - h2) <= Rabs h1 + Rabs h2). { eapply Rle_trans; [apply Rabs_triang|]. rewrite !Rabs_Ropp, Rabs_mult, Rabs_Ropp. pose proof (Rabs_pos h2). pose proof (Rabs_pos d). nra. }
    assert (T2 : Rabs (- h2 - d * - h1) <= Rabs h1 + Rabs h2). { eapply Rle_trans; [apply Rabs_triang|]. rewrite !Rabs_Ropp, Rabs_mult, Rabs_Ropp. pose proof (Rabs_pos h1). pose proof (Rabs_pos d). nra. }
    lra.
Qed.

(** ** angle, parallelism, coincidence *)
Lemma angle_planes_ok f g : dot3 (bw (fb3 f)) (bw (fb3 f)) = 1 -> dot3 (bw (fb3 g)) (bw (fb3 g)) = 1 -> exists t, angle_between_planes f g = Ok t /\ 0 <= t <= PI /\ cos t = dot3 (bw (fb3 f)) (bw (fb3 g)).
Proof.
  intros W1 W2. pose proof (unit_dot_le _ _ W1 W2) as L. set (d := dot3 (bw (fb3 f)) (bw (fb3 g))) in *. assert (B : -1 <= d <= 1) by (revert L; unfold Rabs; destruct (Rcase_abs d); lra).
  unfold angle_between_planes. cbv zeta. fold d. rewrite (proj2 (Rltb_false d (-1))), (proj2 (Rltb_false 1 d)) by lra. exists (acos d). split; auto. split; [apply acos_bound|apply cos_acos; auto].
Qed.
Lemma is_parallel_iff f g tol : / 10 ^ 9 <= tol -> dot3 (bw (fb3 f)) (bw (fb3 f)) = 1 -> dot3 (bw (fb3 g)) (bw (fb3 g)) = 1 ->
  (plane_is_parallel f g tol = true <-> 1 - tol <= Rabs (dot3 (bw (fb3 f)) (bw (fb3 g)))).
Proof. intros. apply colinear_iff; auto. Qed.
Lemma is_coincident_iff f g tol : / 10 ^ 9 <= tol -> dot3 (bw (fb3 f)) (bw (fb3 f)) = 1 -> dot3 (bw (fb3 g)) (bw (fb3 g)) = 1 ->
  (plane_is_coincident f g tol = true <-> 1 - tol <= Rabs (dot3 (bw (fb3 f)) (bw (fb3 g))) /\ Rabs (plane_height g (org3 f)) <= tol).
Proof.
  intros Ht W1 W2. unfold plane_is_coincident. rewrite andb_true_iff, is_parallel_iff, plane_belongs_spec; auto; [tauto|]. pose proof (pow10_inv_pos 9). lra.
Qed.
(** planes with the same points are coincident *)
Lemma is_coincident_complete f g tol : / 10 ^ 9 <= tol -> orthonormal (fb3 f) -> direct (fb3 f) -> dot3 (bw (fb3 g)) (bw (fb3 g)) = 1 ->
  (forall p, on_plane f p -> on_plane g p) -> plane_is_coincident f g tol = true.
Proof.
  intros Ht O D W2 H. pose proof (pow10_inv_pos 9) as P9. destruct O as (U & V & W & UV & UW & VW). apply is_coincident_iff; auto.
  assert (Ho : on_plane f (org3 f)) by (unfold on_plane; vec; ring). pose proof (H _ Ho) as Go.
  assert (PU : on_plane g (add3 (org3 f) (bu (fb3 f)))). { apply H. unfold on_plane. rewrite <- UW. vec. ring. }
  assert (PV : on_plane g (add3 (org3 f) (bv (fb3 f)))). { apply H. unfold on_plane. rewrite <- VW. vec. ring. }
  unfold on_plane in *.
  assert (GU : dot3 (bw (fb3 g)) (bu (fb3 f)) = 0). { transitivity (dot3 (sub3 (add3 (org3 f) (bu (fb3 f))) (org3 g)) (bw (fb3 g)) - dot3 (sub3 (org3 f) (org3 g)) (bw (fb3 g))); [vec; ring|lra]. }
  assert (GV : dot3 (bw (fb3 g)) (bv (fb3 f)) = 0). { transitivity (dot3 (sub3 (add3 (org3 f) (bv (fb3 f))) (org3 g)) (bw (fb3 g)) - dot3 (sub3 (org3 f) (org3 g)) (bw (fb3 g))); [vec; ring|lra]. }
  split; [|unfold plane_height; rewrite Go, Rabs_R0; lra].
  destruct D as [_ D]. assert (C : cross3 (bw (fb3 g)) (bw (fb3 f)) = V3 0 0 0). { rewrite <- D, double_cross, GU, GV. vec. v_eq; ring. }
  pose proof (lagrange3 (bw (fb3 g)) (bw (fb3 f))) as L. rewrite C, W, W2 in L. set (d := dot3 (bw (fb3 g)) (bw (fb3 f))) in *. rewrite dot3_sym. fold d.
  assert (L' : d * d = 1) by (revert L; vec; lra). assert (Q : Rabs d * Rabs d = 1) by (rewrite <- Rabs_mult, Rabs_pos_eq; nra). pose proof (Rabs_pos d). nra.
Qed.

(** ** the plane between two planes *)
Lemma plane_between_ok f g h : dot3 (bw (fb3 f)) (bw (fb3 f)) = 1 -> dot3 (bw (fb3 g)) (bw (fb3 g)) = 1 -> plane_between_two_planes f g = Ok h ->
  orthonormal (fb3 h) /\ org3 h = mul3 (add3 (org3 f) (org3 g)) (1 / 2) /\ (exists k, 0 < k /\ add3 (bw (fb3 f)) (bw (fb3 g)) = mul3 (bw (fb3 h)) k) /\
  dot3 (bw (fb3 h)) (bw (fb3 f)) = dot3 (bw (fb3 h)) (bw (fb3 g)) /\ (exists k, 0 < k /\ cross3 (bw (fb3 f)) (bw (fb3 g)) = mul3 (bu (fb3 h)) k) /\
  cross3 (bu (fb3 h)) (bv (fb3 h)) = neg3 (bw (fb3 h)).
Proof.
  intros W1 W2. unfold plane_between_two_planes. destruct (two_planes_ok f g W1 W2) as [(p & -> & C & _) | [-> _]]; [|discriminate]. cbn [bind].
  replace (sub3 (add3 p (cross3 (bw (fb3 f)) (bw (fb3 g)))) p) with (cross3 (bw (fb3 f)) (bw (fb3 g))) by (vec; v_eq; ring).
  set (w1 := bw (fb3 f)) in *. set (w2 := bw (fb3 g)) in *.
  destruct (unit_vector3 (cross3 w1 w2)) as [u|] eqn:Eu; [|discriminate]. cbn [bind]. destruct (unit_vector3 (add3 w1 w2)) as [v|] eqn:Ev; [|discriminate]. cbn [bind].
  unfold div3. rewrite (proj2 (Reqb_false 2 0)) by lra. cbn [bind]. intros E. apply Ok_inj in E. subst h. cbn [fb3 org3 bu bv bw].
  pose proof (unit_dot _ _ Eu) as U. pose proof (unit_dot _ _ Ev) as V. pose proof (unit3_spec _ _ Eu) as (_ & SU & PU). pose proof (unit3_spec _ _ Ev) as (_ & SV & PV).
  destruct (proj1 (unit3_ok _ _) Eu) as [_ EU]. destruct (proj1 (unit3_ok _ _) Ev) as [_ EV].
  assert (UV : dot3 u v = 0). { rewrite EU, EV, dot3_mul_l, (dot3_sym _ (mul3 _ _)), dot3_mul_l, dot3_add_l, !(dot3_sym _ (cross3 w1 w2)), cross3_perp_l, cross3_perp_r. ring. }
  split; [|split; [|split; [|split; [|split]]]].
  - repeat split; cbn [bu bv bw]; auto.
    + rewrite lagrange3, U, V, UV. ring.
    + rewrite dot3_sym. apply cross3_perp_l.
    + apply cross3_perp_r.
  - vec. v_eq; field.
  - eauto.
  - rewrite EV, !dot3_mul_l, !dot3_add_l, W1, W2, (dot3_sym w2 w1). ring.
  - eauto.
  - rewrite double_cross, U, UV. vec. v_eq; ring.
Qed.
Lemma plane_between_parallel f g : dot3 (bw (fb3 f)) (bw (fb3 f)) = 1 -> dot3 (bw (fb3 g)) (bw (fb3 g)) = 1 ->
  (plane_between_two_planes f g = Err IndexError <-> 1 - / 10 ^ 8 <= Rabs (dot3 (bw (fb3 f)) (bw (fb3 g)))).
Proof.
  intros W1 W2. unfold plane_between_two_planes. destruct (two_planes_ok f g W1 W2) as [(p & -> & C & _) | [-> H]]; cbn [bind]; [|tauto].
  split; [|lra]. replace (sub3 (add3 p (cross3 (bw (fb3 f)) (bw (fb3 g)))) p) with (cross3 (bw (fb3 f)) (bw (fb3 g))) by (vec; v_eq; ring).
  destruct (unit_cases (cross3 (bw (fb3 f)) (bw (fb3 g)))) as [[u ->] | [-> _]]; cbn [bind]; [|discriminate].
  destruct (unit_cases (add3 (bw (fb3 f)) (bw (fb3 g)))) as [[v ->] | [-> _]]; cbn [bind]; [|discriminate].
  unfold div3. rewrite (proj2 (Reqb_false 2 0)) by lra. cbn [bind]. discriminate.
Qed.
