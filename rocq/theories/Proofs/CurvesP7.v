(** Curvilinear abscissas and discretization of circles, in 2D and 3D. *)
From Coq Require Import Reals Lra Lia List Bool ZArith.
From Verif.Model Require Import Base RBase Vec Frame BBox Geometry ParamSurf Curves.
From Verif.Spec Require Import VecSpec FrameSpec BBoxSpec PlaneSpec ParamSurfSpec CurvesSpec.
From Verif.Proofs Require Import VecP LineP FrameP GeometryP ParamSurfP PlaneP CurvesP CurvesP3 CurvesP4 CurvesP5 CurvesP6.
Import ListNotations.
Open Scope R_scope.

Lemma circle2_point_l2g c t : circle2_point c t = frame2_l2g (cf2 c) (V2 (cr2 c * cos t) (cr2 c * sin t)).
Proof. rewrite frame2_l2g_eq. unfold circle2_point, center2. destruct (cf2 c) as [o [u v]]. cbn [fb2 org2 u2 v2]. vec; v_eq; ring. Qed.
Lemma circle2_point_on c t : orthonormal2 (fb2 (cf2 c)) -> 0 <= cr2 c -> on_circle2 c (circle2_point c t).
Proof.
  intros O R. unfold on_circle2. rewrite circle2_point_l2g. change (center2 c) with (org2 (cf2 c)). rewrite <- (l2g_loc (cf2 c) (org2 (cf2 c)) O), l2g_dist by auto. rewrite loc_org, dist_O. apply norm_r; auto. cbn [x2 y2].
  transitivity (cr2 c * cr2 c * (sin t * sin t + cos t * cos t)); [ring|rewrite sc1; ring].
Qed.
Lemma circle2_point_all c p : orthonormal2 (fb2 (cf2 c)) -> 0 < cr2 c -> on_circle2 c p -> exists t, 0 <= t < 2 * PI /\ p = circle2_point c t /\
  (t < 2 * PI * (1 - / 10 ^ 9) -> sin_cos_angle (x2 (loc2 (cf2 c) p) / cr2 c) (y2 (loc2 (cf2 c) p) / cr2 c) = t) /\
  (2 * PI * (1 - / 10 ^ 9) <= t -> sin_cos_angle (x2 (loc2 (cf2 c) p) / cr2 c) (y2 (loc2 (cf2 c) p) / cr2 c) = 0).
Proof.
  intros O R Q. unfold on_circle2 in Q. assert (N : norm2 (loc2 (cf2 c) p) = cr2 c) by (rewrite <- dist_O, <- (loc_org (cf2 c)), loc_dist; auto). apply norm_r in N; [|lra]. set (q := loc2 (cf2 c) p) in *.
  assert (U : x2 q / cr2 c * (x2 q / cr2 c) + y2 q / cr2 c * (y2 q / cr2 c) = 1) by (transitivity ((x2 q * x2 q + y2 q * y2 q) / (cr2 c * cr2 c)); [field; lra|rewrite N; field; lra]).
  destruct (sin_cos_angle_spec _ _ U) as (t & T & C & S & A & B). exists t. split; auto. split; auto.
  rewrite circle2_point_l2g, C, S. rewrite <- (l2g_loc (cf2 c) p O) at 1. fold q. f_equal. apply vec2_ext; cbn [x2 y2]; field; lra.
Qed.
Lemma circle2_at_ok c s : orthonormal2 (fb2 (cf2 c)) -> cr2 c <> 0 -> circle2_point_at_abscissa c s = Ok (circle2_point c (s / cr2 c)).
Proof.
  intros O R. unfold circle2_point_at_abscissa. cbv zeta. rewrite (proj2 (Reqb_false _ _)) by auto. f_equal.
  pose proof (ortho_det _ O) as D. pose proof (ortho_rel _ O) as (_ & _ & R3 & R4). set (e := cross2 (u2 (fb2 (cf2 c))) (v2 (fb2 (cf2 c)))) in *.
  assert (F : (e - 1) * (e + 1) = 0) by lra. apply Rmult_integral in F.
  assert (CS : cos (e * s / cr2 c) = cos (s / cr2 c) /\ sin (e * s / cr2 c) = e * sin (s / cr2 c)).
  { destruct F as [F|F]; [replace e with 1 by lra|replace e with (-1) by lra].
    - replace (1 * s / cr2 c) with (s / cr2 c) by (field; auto). split; ring.
    - replace (-1 * s / cr2 c) with (- (s / cr2 c)) by (field; auto). rewrite cos_neg, sin_neg. split; ring. }
  unfold circle2_point, rotation2, center2. cbv zeta. destruct CS as [-> ->]. destruct (cf2 c) as [o [[a b] [c' d]]]. cbn [fb2 org2 u2 v2 x2 y2] in *. cbv zeta.
  unfold sub2, add2, mul2. cbn [x2 y2]. rewrite R3, R4. f_equal; ring.
Qed.
Lemma circle2_at_zero c s : cr2 c = 0 -> circle2_point_at_abscissa c s = Err ZeroDivisionError.
Proof. intros E. unfold circle2_point_at_abscissa. cbv zeta. rewrite E, Reqb_refl. auto. Qed.
Lemma isclose_refl r tol : 0 <= tol -> isclose r r tol = true.
Proof. intros T. unfold isclose. apply Rleb_spec. replace (r - r) with 0 by ring. rewrite Rabs_R0. eapply Rle_trans; [exact T|apply Rmax_r]. Qed.
Lemma circle2_abscissa_on c p tol : orthonormal2 (fb2 (cf2 c)) -> 0 < cr2 c -> 0 <= tol -> on_circle2 c p ->
  exists s q, circle2_abscissa c p tol = Ok s /\ 0 <= s < 2 * PI * cr2 c /\ circle2_point_at_abscissa c s = Ok q /\ point_distance2 p q <= 2 * PI * / 10 ^ 9 * cr2 c /\ (p = q \/ s = 0).
Proof.
  intros O R T Q. pose proof PI_RGT_0 as PP. pose proof (pow10_inv_pos 9) as P9. destruct (circle2_point_all c p O R Q) as (t & Ht & Ep & A & B). unfold circle2_abscissa. unfold on_circle2 in Q. rewrite dist2_sym, Q, isclose_refl by auto. cbn [negb]. rewrite frame2_g2l_ok by auto. cbn [bind]. rewrite (proj2 (Reqb_false _ _)) by lra.
  destruct (Rlt_le_dec t (2 * PI * (1 - / 10 ^ 9))) as [L|L].
  - rewrite A by auto. rewrite Rabs_pos_eq by lra. exists (cr2 c * t), p. split; auto. split; [split; nra|]. split; [rewrite circle2_at_ok by (auto; lra); f_equal; rewrite Ep; f_equal; field; lra|]. split; auto.
    unfold point_distance2. replace (sub2 p p) with (V2 0 0) by (unfold sub2; f_equal; ring). rewrite (proj2 (norm2_zero (V2 0 0)) eq_refl). assert (0 < PI * / 10 ^ 9) by (apply Rmult_lt_0_compat; auto). assert (0 < PI * / 10 ^ 9 * cr2 c) by (apply Rmult_lt_0_compat; auto). lra.
  - rewrite B, Rabs_R0, Rmult_0_r by auto. exists 0, (circle2_point c 0). split; auto. split; [split; [lra|]; assert (0 < PI * cr2 c) by (apply Rmult_lt_0_compat; auto); lra|]. split; [rewrite circle2_at_ok by (auto; lra); f_equal; f_equal; field; lra|]. split; auto.
    rewrite Ep, !circle2_point_l2g, l2g_dist by auto. unfold point_distance2. apply sq_le; [assert (0 < PI * / 10 ^ 9) by (apply Rmult_lt_0_compat; auto); assert (0 < PI * / 10 ^ 9 * cr2 c) by (apply Rmult_lt_0_compat; auto); lra|].
    rewrite norm2_sq. unfold dot2, sub2. cbn [x2 y2]. pose proof (chord t (2 * PI)) as K. rewrite cos_2PI, sin_2PI in K. rewrite cos_0, sin_0.
    apply Rle_trans with (cr2 c * cr2 c * ((cos t - 1) * (cos t - 1) + (sin t - 0) * (sin t - 0))); [right; ring|]. apply Rle_trans with (cr2 c * cr2 c * ((t - 2 * PI) * (t - 2 * PI))); [apply Rmult_le_compat_l; [apply Rle_0_sqr|auto]|].
    replace (2 * PI * / 10 ^ 9 * cr2 c * (2 * PI * / 10 ^ 9 * cr2 c)) with (cr2 c * cr2 c * ((2 * PI * / 10 ^ 9) * (2 * PI * / 10 ^ 9))) by ring. apply Rmult_le_compat_l; [apply Rle_0_sqr|]. set (z := 2 * PI * / 10 ^ 9) in *. assert (0 <= 2 * PI - t <= z) by (unfold z; lra). nra.
Qed.
Lemma circle2_abscissa_exact c t tol : orthonormal2 (fb2 (cf2 c)) -> 0 < cr2 c -> 0 <= tol -> 0 <= t < 2 * PI * (1 - / 10 ^ 9) -> circle2_abscissa c (circle2_point c t) tol = Ok (cr2 c * t).
Proof.
  intros O R T Ht. pose proof (circle2_point_on c t O ltac:(lra)) as Q. unfold on_circle2 in Q. unfold circle2_abscissa. rewrite dist2_sym, Q, isclose_refl by auto. cbn [negb]. rewrite frame2_g2l_ok by auto. cbn [bind]. rewrite (proj2 (Reqb_false _ _)) by lra.
  rewrite circle2_point_l2g, loc_l2g by auto. cbn [x2 y2]. rewrite sin_cos_angle_exact by auto. rewrite Rabs_pos_eq by lra. auto.
Qed.
Lemma circle2_abscissa_off c p tol : Rmax (/ 10 ^ 9 * Rmax (Rabs (point_distance2 p (center2 c))) (Rabs (cr2 c))) tol < circle2_point_distance c p -> circle2_abscissa c p tol = Err ValueError.
Proof.
  intros H. unfold circle2_abscissa. assert (F : isclose (point_distance2 (center2 c) p) (cr2 c) tol = false) by (unfold isclose; apply Rleb_false; rewrite dist2_sym; unfold circle2_point_distance in H; lra). rewrite F. auto.
Qed.
(** ** discretization *)
Lemma linspace_nth n i : (2 <= n)%nat -> (i < n)%nat -> nth i (linspace_2pi n) 0 = INR i * (2 * PI / INR (n - 1)).
Proof.
  intros N I. unfold linspace_2pi. rewrite nth_indep with (d' := (fun i => if (n =? 1)%nat then 0 else INR i * (TWO_PI / INR (n - 1))) 0%nat) by (rewrite map_length, seq_length; auto).
  rewrite (map_nth (fun i => if (n =? 1)%nat then 0 else INR i * (TWO_PI / INR (n - 1)))), seq_nth by auto. cbn [plus]. replace (n =? 1)%nat with false by (symmetry; apply Nat.eqb_neq; lia). auto.
Qed.
Lemma circle2_discretization_ok c n : (2 <= n)%nat -> length (circle2_discretization c n) = n /\ forall i d, (i < n)%nat -> nth i (circle2_discretization c n) d = circle2_point c (INR i * (2 * PI / INR (n - 1))).
Proof.
  intros N. unfold circle2_discretization. split; [rewrite map_length; unfold linspace_2pi; rewrite map_length, seq_length; auto|]. intros i d I. assert (L : length (linspace_2pi n) = n) by (unfold linspace_2pi; rewrite map_length, seq_length; auto).
  change (fun t => add2 (add2 (center2 c) (mul2 (u2 (fb2 (cf2 c))) (cr2 c * cos t))) (mul2 (v2 (fb2 (cf2 c))) (cr2 c * sin t))) with (circle2_point c). rewrite nth_indep with (d' := circle2_point c 0) by (rewrite map_length, L; auto). rewrite map_nth, linspace_nth; auto.
Qed.
Lemma circle2_discretization_closed c n d : (2 <= n)%nat -> nth (n - 1) (circle2_discretization c n) d = nth 0 (circle2_discretization c n) d.
Proof.
  intros N. destruct (circle2_discretization_ok c n N) as [_ H]. rewrite !H by lia. assert (P : 0 < INR (n - 1)) by (apply lt_0_INR; lia). replace (INR (n - 1) * (2 * PI / INR (n - 1))) with (2 * PI) by (field; lra). cbn [INR]. rewrite Rmult_0_l. unfold circle2_point. rewrite cos_2PI, sin_2PI, cos_0, sin_0. auto.
Qed.
