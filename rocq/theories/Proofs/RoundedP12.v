From Coq Require Import Reals Lra List Lia.
From Verif.Model Require Import Base RBase Vec Frame Geometry Curves Edges Arcs Rounded.
From Verif.Spec Require Import VecSpec CurvesSpec ArcsSpec RoundedSpec.
From Verif.Proofs Require Import VecP CurvesP3 EdgesP ArcsP ArcsP4 RoundedP RoundedP2 RoundedP3 RoundedP4 RoundedP5 RoundedP6 RoundedP7 RoundedP9 RoundedP10 RoundedP11.
Import ListNotations.
Open Scope R_scope.

(** right angles along the axes *)
Definition axis (e : vec2) : Prop := e = V2 1 0 \/ e = V2 0 1 \/ e = V2 (-1) 0 \/ e = V2 0 (-1).
Lemma axis_regular c r b e : axis e -> regular (circle2_of c r b) (add2 c (mul2 e r)).
Proof.
  pose proof PI_RGT_0 as P. intros E. unfold regular.
  assert (W : exists t, 0 <= t <= 3 / 2 * PI /\ add2 c (mul2 e r) = circle2_point (circle2_of c r b) t).
  { destruct E as [->|[->|[->| ->]]].
    - exists 0. split; [lra|]. unfold circle2_point, circle2_of. rewrite cos_0, sin_0. cbn. destruct b; unfold add2, mul2, neg2; cbn; apply vec2_ext; cbn; ring.
    - destruct b; [exists (PI / 2)|exists (3 * (PI / 2))]; (split; [lra|]); unfold circle2_point, circle2_of; [rewrite cos_PI2, sin_PI2|rewrite cos_3PI2, sin_3PI2]; unfold add2, mul2, neg2; cbn; apply vec2_ext; cbn; ring.
    - exists PI. split; [lra|]. unfold circle2_point, circle2_of. rewrite cos_PI, sin_PI. cbn. destruct b; unfold add2, mul2, neg2; cbn; apply vec2_ext; cbn; ring.
    - destruct b; [exists (3 * (PI / 2))|exists (PI / 2)]; (split; [lra|]); unfold circle2_point, circle2_of; [rewrite cos_3PI2, sin_3PI2|rewrite cos_PI2, sin_PI2]; unfold add2, mul2, neg2; cbn; apply vec2_ext; cbn; ring. }
  destruct W as (t & T & E'). exists t. split; auto. apply pi_regular; auto.
Qed.
Lemma axis_neg e : axis e -> axis (neg2 e).
Proof. unfold axis, neg2. intros [->|[->|[->| ->]]]; cbn [x2 y2]; [do 2 right; left|do 3 right|left|right; left]; apply vec2_ext; cbn [x2 y2]; ring. Qed.
Lemma right_half p e1 e2 k1 k2 : axis e1 -> axis e2 -> dot2 e1 e2 = 0 -> 0 < k1 -> 0 < k2 -> half_angle (add2 p (mul2 e1 k1)) p (add2 p (mul2 e2 k2)) (PI / 4).
Proof.
  intros A1 A2 D K1 K2. pose proof PI_RGT_0.
  assert (N : forall e k, axis e -> 0 < k -> add2 p (mul2 e k) <> p).
  { intros e k E K Q. pose proof (f_equal x2 Q) as X. pose proof (f_equal y2 Q) as Y. unfold add2, mul2 in X, Y. destruct E as [->|[->|[->| ->]]]; cbn [x2 y2] in X, Y; lra. }
  split; [auto|]. split; [auto|]. split; [lra|]. replace (2 * (PI / 4)) with (PI / 2) by field. rewrite cos_PI2, Rmult_0_r.
  transitivity (k1 * k2 * dot2 e1 e2); [unfold dot2, sub2, add2, mul2; cbn [x2 y2]; ring|rewrite D; ring].
Qed.
Lemma tan4 r : r / tan (PI / 4) = r. Proof. rewrite tan_PI4. field. Qed.
Lemma cos4 : / 10 ^ 6 < 2 * cos (PI / 4).
Proof. assert (1 / 2 <= cos (PI / 4)) by (rewrite cos_PI4; assert (S := sqrt_sqrt 2 ltac:(lra)); pose proof Rlt_sqrt2_0; apply Rmult_le_reg_r with (sqrt 2); auto; replace (1 / sqrt 2 * sqrt 2) with 1 by (field; lra); nra). lra. Qed.
Lemma right_corner p e1 e2 k1 k2 r : axis e1 -> axis e2 -> dot2 e1 e2 = 0 -> 0 < k1 -> 0 < k2 -> 0 < r ->
  exists q a, arc_features_of (add2 p (mul2 e1 k1)) p (add2 p (mul2 e2 k2)) r = Ok (add2 p (mul2 e1 r), q, add2 p (mul2 e2 r), r, PI / 4) /\
    arc2_from_3_points (add2 p (mul2 e1 r)) q (add2 p (mul2 e2 r)) = Ok a /\ ast a = add2 p (mul2 e1 r) /\ aen a = add2 p (mul2 e2 r).
Proof.
  intros A1 A2 D K1 K2 RP. pose proof (right_half p e1 e2 k1 k2 A1 A2 D K1 K2) as H.
  destruct (arc_features_ok _ _ _ r _ H RP cos4) as (c & p3 & q & p4 & E & R). rewrite tan4 in E.
  pose proof (corner_circle _ _ _ _ _ _ _ _ _ H RP R) as DET. rewrite tan4 in R.
  assert (U : forall e, axis e -> x2 e * x2 e + y2 e * y2 e = 1) by (intros e [->|[->|[->| ->]]]; cbn [x2 y2]; ring).
  assert (FOOT : forall e k p', axis e -> 0 < k -> on_ray p (add2 p (mul2 e k)) r p' -> p' = add2 p (mul2 e r)).
  { intros e k p' A K (m & M & X & Y). assert (X' : sub2 p' p = mul2 e (m * k)) by (rewrite X; unfold sub2, add2, mul2; apply vec2_ext; cbn [x2 y2]; ring).
    assert (m * k = r). { unfold point_distance2 in Y. rewrite X', norm2_scale in Y. rewrite (norm2_of_sq e 1) in Y; [|lra|unfold dot2; rewrite U by auto; ring]. rewrite Rabs_right in Y; [lra|]. apply Rle_ge, Rlt_le, Rmult_lt_0_compat; auto. }
    rewrite <- H0, <- X'. unfold add2, sub2; apply vec2_ext; cbn [x2 y2]; ring. }
  pose proof R as (R1 & R2 & O1 & O2 & _). apply FOOT in R1; auto. apply FOOT in R2; auto. subst p3 p4.
  exists q. destruct (circle_3_points_ok _ q _ true DET) as (k & K & C1 & C2 & C3 & OB).
  assert (KF : k = circle2_of (center2 k) (cr2 k) true). { clear - K. unfold circle2_from_3_points in K. apply bind_ok in K as (c0 & _ & K). apply Ok_inj in K. subst k. reflexivity. }
  assert (CK : center2 k = c). { destruct R as (_ & _ & _ & _ & D1 & D2 & D3 & _). unfold on_circle2 in *. apply (circle_unique _ _ _ _ _ DET); try congruence; rewrite !(dist2_sym _ c); congruence. }
  assert (RK : cr2 k = r). { destruct R as (_ & _ & _ & _ & D1 & D2 & D3 & _). rewrite <- C1, CK, dist2_sym. auto. }
  assert (CC : sub2 c p = add2 (mul2 e1 r) (mul2 e2 r)).
  { assert (X1 : dot2 (sub2 c p) e1 = r). { assert (k1 * (dot2 (sub2 c p) e1 - r) = 0) by (rewrite <- O1; transitivity (k1 * (dot2 (sub2 c p) e1 - r * (x2 e1 * x2 e1 + y2 e1 * y2 e1))); [rewrite U by auto; ring|unfold dot2, sub2, add2, mul2; cbn [x2 y2]; ring]). nra. }
    assert (X2 : dot2 (sub2 c p) e2 = r). { assert (k2 * (dot2 (sub2 c p) e2 - r) = 0) by (rewrite <- O2; transitivity (k2 * (dot2 (sub2 c p) e2 - r * (x2 e2 * x2 e2 + y2 e2 * y2 e2))); [rewrite U by auto; ring|unfold dot2, sub2, add2, mul2; cbn [x2 y2]; ring]). nra. }
    set (w := sub2 c p) in *. unfold dot2 in *. unfold add2, mul2. destruct A1 as [->|[->|[->| ->]]], A2 as [->|[->|[->| ->]]]; cbn [x2 y2] in *; apply vec2_ext; cbn [x2 y2]; lra. }
  assert (P3 : add2 p (mul2 e1 r) = add2 c (mul2 (neg2 e2) r)) by (pose proof (f_equal x2 CC) as X; pose proof (f_equal y2 CC) as Y; unfold sub2, add2, mul2 in X, Y; cbn [x2 y2] in X, Y; unfold add2, mul2, neg2; apply vec2_ext; cbn [x2 y2]; lra).
  assert (P4 : add2 p (mul2 e2 r) = add2 c (mul2 (neg2 e1) r)) by (pose proof (f_equal x2 CC) as X; pose proof (f_equal y2 CC) as Y; unfold sub2, add2, mul2 in X, Y; cbn [x2 y2] in X, Y; unfold add2, mul2, neg2; apply vec2_ext; cbn [x2 y2]; lra).
  rewrite CK, RK in KF.
  assert (RG : forall e, axis e -> regular k (add2 c (mul2 e r)) /\ regular (circle2_reverse k) (add2 c (mul2 e r))).
  { intros e A. rewrite KF. split; [apply axis_regular; auto|]. replace (circle2_reverse (circle2_of c r true)) with (circle2_of c r false) by reflexivity. apply axis_regular; auto. }
  destruct (three_points_ok _ _ _ _ DET K) as (a & E' & _ & S1 & S2 & _).
  { rewrite P3. apply RG, axis_neg; auto. } { rewrite P4. apply RG, axis_neg; auto. } { rewrite P3. apply RG, axis_neg; auto. } { rewrite P4. apply RG, axis_neg; auto. }
  exists a. auto.
Qed.
