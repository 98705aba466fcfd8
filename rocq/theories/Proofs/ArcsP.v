(** Angles, abscissas and membership for arcs of circles. *)
From Coq Require Import Reals Lra Lia List Bool ZArith.
From Verif.Model Require Import Base RBase Vec Frame BBox Geometry Curves Edges Arcs.
From Verif.Spec Require Import VecSpec FrameSpec AngleSpec CurvesSpec ArcsSpec.
From Verif.Proofs Require Import VecP LineP FrameP GeometryP CurvesP CurvesP3 CurvesP4 CurvesP5 CurvesP6 CurvesP7.
Import ListNotations.
Open Scope R_scope.

Lemma point_inj c a b : circle_ok c -> circle2_point c a = circle2_point c b -> same_angle a b.
Proof.
  intros [O R] E. rewrite !circle2_point_l2g in E. apply (f_equal (loc2 (cf2 c))) in E. rewrite !loc_l2g in E by auto.
  pose proof (f_equal x2 E) as X. pose proof (f_equal y2 E) as Y. cbn [x2 y2] in X, Y. apply Rmult_eq_reg_l in X; [|lra]. apply Rmult_eq_reg_l in Y; [|lra]. apply same_angle_intro; auto.
Qed.
Lemma point_same c a b : same_angle a b -> circle2_point c a = circle2_point c b.
Proof. intros H. apply same_angle_elim in H as [C S]. unfold circle2_point. rewrite C, S. auto. Qed.
Lemma same_range a b m : same_angle a b -> m <= a < m + 2 * PI -> m <= b < m + 2 * PI -> a = b.
Proof.
  intros (k & ->) A B. pose proof PI_RGT_0 as P. assert (k = 0%Z); [|subst; cbn; lra].
  assert (L : IZR k < 1) by nra. assert (G : -1 < IZR k) by nra. apply lt_IZR in L. apply lt_IZR in G. lia.
Qed.
Lemma same_range' a b m : same_angle a b -> m < a <= m + 2 * PI -> m < b <= m + 2 * PI -> a = b.
Proof.
  intros (k & ->) A B. pose proof PI_RGT_0 as P. assert (k = 0%Z); [|subst; cbn; lra].
  assert (L : IZR k < 1) by nra. assert (G : -1 < IZR k) by nra. apply lt_IZR in L. apply lt_IZR in G. lia.
Qed.
Lemma same_sym a b : same_angle a b -> same_angle b a.
Proof. intros (k & ->). exists (- k)%Z. rewrite opp_IZR. ring. Qed.
Lemma same_trans a b c : same_angle a b -> same_angle b c -> same_angle a c.
Proof. intros (k & ->) (l & ->). exists (k + l)%Z. rewrite plus_IZR. ring. Qed.
Lemma same_refl a : same_angle a a.
Proof. exists 0%Z. ring. Qed.
Lemma same_turn a : same_angle (a + 2 * PI) a.
Proof. exists 1%Z. ring. Qed.
Lemma same_add a b c d : same_angle a b -> same_angle c d -> same_angle (a + c) (b + d).
Proof. intros (k & ->) (l & ->). exists (k + l)%Z. rewrite plus_IZR. ring. Qed.
Lemma same_opp a b : same_angle a b -> same_angle (- a) (- b).
Proof. intros (k & ->). exists (- k)%Z. rewrite opp_IZR. ring. Qed.

Lemma point_angle_ok c t : circle_ok c -> 0 <= t < 2 * PI * (1 - / 10 ^ 9) -> arc_point_angle c (circle2_point c t) = Ok t.
Proof.
  intros [O R] T. unfold arc_point_angle. rewrite frame2_g2l_ok by auto. cbn [bind]. rewrite (proj2 (Reqb_false _ _)) by lra.
  rewrite circle2_point_l2g, loc_l2g by auto. cbn [x2 y2]. rewrite sin_cos_angle_exact by auto. auto.
Qed.
Lemma snap_range t : 0 <= t < 2 * PI * (1 - / 10 ^ 9) -> 0 <= t < 2 * PI.
Proof. intros H. pose proof PI_RGT_0. assert (0 < / 10 ^ 9) by (apply Rinv_0_lt_compat; lra). nra. Qed.
(** the two angles of an arc *)
Lemma arc_angles a : arc_ok a -> ast a = circle2_point (ac a) (ang1 a) /\ aen a = circle2_point (ac a) (ang2 a) /\
  0 <= ang1 a < 2 * PI /\ ang1 a < ang2 a <= ang1 a + 2 * PI.
Proof.
  intros (C & (t1 & T1 & E1) & (t2 & T2 & E2) & H). unfold arc2_new in H. rewrite E1, E2, !point_angle_ok in H by auto. cbn [bind] in H. apply Ok_inj in H.
  rewrite <- E1, <- E2 in H. pose proof (f_equal ang1 H) as A1. pose proof (f_equal ang2 H) as A2. cbn [ang1 ang2] in A1, A2. subst t1.
  apply snap_range in T1. apply snap_range in T2. unfold TWO_PI in A2.
  split; auto. destruct (Rleb t2 (ang1 a)) eqn:L; rb; rewrite <- A2; split; try lra; rewrite E2; apply point_same; auto using same_refl. apply same_sym, same_turn.
Qed.
Lemma arc_new_ok c s e : circle_ok c -> regular c s -> regular c e -> exists a, arc2_new c s e = Ok a /\ ac a = c /\ ast a = s /\ aen a = e /\ arc_ok a.
Proof.
  intros C S E. destruct S as (t1 & T1 & ->), E as (t2 & T2 & ->). unfold arc2_new. rewrite !point_angle_ok by auto. cbn [bind]. eexists. split; [reflexivity|]. cbn [ac ast aen].
  do 3 (split; [reflexivity|]). split; [auto|]. split; [exists t1; auto|]. split; [exists t2; auto|]. cbn [ac ast aen]. unfold arc2_new. rewrite !point_angle_ok by auto. reflexivity.
Qed.
Lemma arc_has_iff a p : arc_ok a -> arc_has (ac a) (ast a) (aen a) p <-> exists t, ang1 a <= t <= ang2 a /\ p = circle2_point (ac a) t.
Proof.
  intros A. pose proof (arc_angles a A) as (E1 & E2 & R1 & R2). destruct A as (C & _). split.
  - intros (u & v & t & U & V & W & T & P). rewrite E1 in U. rewrite E2 in V. apply point_inj in U, V; auto. destruct U as (k & U).
    exists (t + IZR k * (2 * PI)). assert (Q : ang2 a = v + IZR k * (2 * PI)).
    { apply (same_range' _ _ (ang1 a)); auto; [|lra]. eapply same_trans; [exact V|]. apply same_sym. exists k. auto. }
    split; [lra|]. rewrite P. apply point_same. apply same_sym. exists k. auto.
  - intros (t & T & P). exists (ang1 a), (ang2 a), t. auto.
Qed.
Lemma angle_ok a : arc_ok a -> arc_angle (ac a) (ast a) (aen a) (arc2_angle a) /\ arc2_length a = cr2 (ac a) * arc2_angle a.
Proof.
  intros A. pose proof (arc_angles a A) as (E1 & E2 & R1 & R2). split.
  - exists (ang1 a). unfold arc2_angle. split; auto. replace (ang1 a + (ang2 a - ang1 a)) with (ang2 a) by ring. split; auto; lra.
  - unfold arc2_length, arc2_angle. rewrite Rabs_pos_eq by lra. auto.
Qed.
Lemma arc_angle_unique c s e d d' : circle_ok c -> arc_angle c s e d -> arc_angle c s e d' -> d = d'.
Proof.
  intros C (a & A & B & D) (a' & A' & B' & D'). rewrite A in A'. rewrite B in B'. apply point_inj in A', B'; auto. apply (same_range' _ _ 0); try lra.
  replace d with (a + d + - a) by ring. replace d' with (a' + d' + - a') by ring. apply same_add; auto. apply same_opp; auto.
Qed.
(** rotation of a point of the circle *)
Lemma rotate_point c t s : circle_ok c ->
  rotation2 (circle2_point c t) (center2 c) (if circle2_is_trigo c then s else - s) = circle2_point c (t + s).
Proof.
  intros [O R]. pose proof (ortho_det _ O) as D. pose proof (ortho_rel _ O) as (_ & _ & R3 & R4). unfold circle2_is_trigo. set (e := cross2 (u2 (fb2 (cf2 c))) (v2 (fb2 (cf2 c)))) in *.
  assert (F : (e - 1) * (e + 1) = 0) by lra. apply Rmult_integral in F. set (w := if Rltb 0 e then s else - s).
  assert (CS : cos w = cos s /\ sin w = e * sin s).
  { unfold w. destruct (Rltb 0 e) eqn:L; rb; destruct F as [F|F]; try lra.
    - replace e with 1 by lra. split; ring.
    - replace e with (-1) by lra. rewrite cos_neg, sin_neg. split; ring. }
  unfold circle2_point, rotation2, center2. cbv zeta. destruct CS as [-> ->]. rewrite cos_plus, sin_plus. destruct (cf2 c) as [o [[a b] [c' d]]]. cbn [fb2 org2 u2 v2 x2 y2] in *. cbv zeta.
  unfold sub2, add2, mul2. cbn [x2 y2]. rewrite R3, R4. assert (e * e = 1) by lra. f_equal.
  - match goal with |- ?x = ?y => transitivity (y - (e * e - 1) * (a * cr2 c * (sin s * sin t))); [ring|rewrite H; ring] end.
  - match goal with |- ?x = ?y => transitivity (y - (e * e - 1) * (b * cr2 c * (sin s * sin t))); [ring|rewrite H; ring] end.
Qed.
Lemma arc_at_point a s : arc_ok a -> arc2_at a s = Ok (circle2_point (ac a) (ang1 a + s / cr2 (ac a))).
Proof.
  intros A. pose proof (arc_angles a A) as (E1 & _). destruct A as ([O R] & _). unfold arc2_at, arc2_is_trigo. rewrite (proj2 (Reqb_false _ _)) by lra. rewrite E1. f_equal.
  rewrite <- rotate_point by (split; auto). destruct (circle2_is_trigo (ac a)); auto. f_equal. field. lra.
Qed.
(** points by abscissa *)
Lemma at_start a : arc_ok a -> arc2_at a 0 = Ok (ast a).
Proof. intros A. rewrite arc_at_point by auto. pose proof (arc_angles a A) as (E1 & _). rewrite E1 at 1. f_equal. f_equal. destruct A as ([O R] & _). field. lra. Qed.
Lemma at_end a : arc_ok a -> arc2_at a (arc2_length a) = Ok (aen a).
Proof.
  intros A. rewrite arc_at_point by auto. destruct (angle_ok a A) as [_ ->]. pose proof (arc_angles a A) as (_ & E2 & _). rewrite E2. f_equal. f_equal. destruct A as ([O R] & _). unfold arc2_angle. field. lra.
Qed.
Lemma at_on a s : arc_ok a -> 0 <= s <= arc2_length a -> exists p, arc2_at a s = Ok p /\ arc_has (ac a) (ast a) (aen a) p /\ arc_angle (ac a) (ast a) (aen a) (arc2_angle a) /\ (0 < s -> arc_angle (ac a) (ast a) p (s / cr2 (ac a))).
Proof.
  intros A S. destruct (angle_ok a A) as [G L]. rewrite L in S. rewrite arc_at_point by auto. eexists. split; [reflexivity|]. pose proof (arc_angles a A) as (E1 & E2 & R1 & R2). pose proof A as ([O R] & _).
  assert (Q : 0 <= s / cr2 (ac a) <= arc2_angle a). { split; [apply Rmult_le_pos; [lra|apply Rlt_le, Rinv_0_lt_compat, R]|]. apply Rmult_le_reg_r with (cr2 (ac a)); auto. unfold Rdiv. rewrite Rmult_assoc, Rinv_l by lra. lra. }
  unfold arc2_angle in Q. split; [apply arc_has_iff; auto; exists (ang1 a + s / cr2 (ac a)); split; auto; lra|]. split; auto.
  intros P. exists (ang1 a). split; auto. split; auto. split; [|lra]. apply Rmult_lt_0_compat; auto. apply Rinv_0_lt_compat, R.
Qed.
Lemma at_all a p : arc_ok a -> arc_has (ac a) (ast a) (aen a) p -> exists s, 0 <= s <= arc2_length a /\ arc2_at a s = Ok p.
Proof.
  intros A H. apply arc_has_iff in H as (t & T & ->); auto. destruct (angle_ok a A) as [_ L]. pose proof A as ([O R] & _). exists (cr2 (ac a) * (t - ang1 a)). rewrite L. unfold arc2_angle. split; [split; nra|].
  rewrite arc_at_point by auto. f_equal. f_equal. field. lra.
Qed.
Lemma middle_ok a : arc_ok a -> exists m, arc2_middle a = Ok m /\ arc_angle (ac a) (ast a) m (arc2_angle a / 2) /\ arc_angle (ac a) m (aen a) (arc2_angle a / 2).
Proof.
  intros A. unfold arc2_middle. destruct (angle_ok a A) as [_ L]. pose proof (arc_angles a A) as (E1 & E2 & R1 & R2). pose proof A as ([O R] & _). rewrite arc_at_point by auto. eexists. split; [reflexivity|].
  replace (arc2_length a / 2 / cr2 (ac a)) with (arc2_angle a / 2) by (rewrite L; field; lra). unfold arc2_angle. split.
  - exists (ang1 a). split; auto. split; auto. lra.
  - exists (ang1 a + (ang2 a - ang1 a) / 2). split; auto. replace (ang1 a + (ang2 a - ang1 a) / 2 + (ang2 a - ang1 a) / 2) with (ang2 a) by field. split; auto. lra.
Qed.
