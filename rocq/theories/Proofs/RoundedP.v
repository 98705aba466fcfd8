From Coq Require Import Reals Lra List Lia.
From Verif.Model Require Import Base RBase Vec Frame Geometry Curves Edges Arcs Rounded.
From Verif.Spec Require Import VecSpec CurvesSpec RoundedSpec.
From Verif.Proofs Require Import VecP CurvesP3.
Import ListNotations.
Open Scope R_scope.

Lemma norm2_of_sq u x : 0 <= x -> dot2 u u = x * x -> norm2 u = x.
Proof. intros H E. rewrite norm2_dot, E. apply sqrt_square, H. Qed.
(** the algebra of a corner between two unit vectors *)
Section Corner.
Variables (a1 b1 a2 b2 k s : R).
Hypothesis U1 : a1 * a1 + b1 * b1 = 1.
Hypothesis U2 : a2 * a2 + b2 * b2 = 1.
Hypothesis D : a1 * a2 + b1 * b2 = 2 * (k * k) - 1.
Hypothesis KS : k * k + s * s = 1.
Hypothesis K : 0 < k.
Hypothesis S0 : 0 < s.
Let cr := a1 * b2 - b1 * a2.
Lemma corner_cross : cr * cr = (2 * k * s) * (2 * k * s).
Proof.
  assert (L : cr * cr = (a1 * a1 + b1 * b1) * (a2 * a2 + b2 * b2) - (a1 * a2 + b1 * b2) * (a1 * a2 + b1 * b2)) by (unfold cr; ring).
  rewrite U1, U2, D in L. rewrite L. replace (2 * k * s * (2 * k * s)) with (4 * (k * k) * (s * s)) by ring. replace (s * s) with (1 - k * k) by lra. ring.
Qed.
Lemma corner_cross_cases : cr = 2 * k * s \/ cr = - (2 * k * s).
Proof. pose proof corner_cross as C. apply Rsqr_eq in C; tauto. Qed.
(** the second vector in the axes of the first one *)
Lemma corner_u2 : a2 = (2 * (k * k) - 1) * a1 - cr * b1 /\ b2 = (2 * (k * k) - 1) * b1 + cr * a1.
Proof.
  split.
  - transitivity ((a1 * a2 + b1 * b2) * a1 - cr * b1); [|rewrite D; reflexivity]. unfold cr. transitivity (a2 * (a1 * a1 + b1 * b1)); [rewrite U1; ring|ring].
  - transitivity ((a1 * a2 + b1 * b2) * b1 + cr * a1); [|rewrite D; reflexivity]. unfold cr. transitivity (b2 * (a1 * a1 + b1 * b1)); [rewrite U1; ring|ring].
Qed.
End Corner.

Lemma half_acos x a : 0 <= a <= PI / 2 -> x = cos (2 * a) -> acos x / 2 = a.
Proof. intros H ->. rewrite acos_cos by lra. lra. Qed.
Lemma cos_2 a : cos (2 * a) = 2 * (cos a * cos a) - 1.
Proof. rewrite cos_2a_cos. ring. Qed.

Lemma arc_features_ok pt1 pti pt2 r a : half_angle pt1 pti pt2 a -> 0 < r -> / 10 ^ 6 < 2 * cos a ->
  exists c p3 q p4, arc_features_of pt1 pti pt2 r = Ok (p3, q, p4, r / tan a, a) /\ rounds pt1 pti pt2 r (r / tan a) c p3 q p4.
Proof.
  intros (N1 & N2 & Ha & E) Hr Hw.
  assert (V1 : sub2 pt1 pti <> V2 0 0) by (intros Z; apply N1, dist2_zero; unfold point_distance2; rewrite Z; apply norm2_zero; reflexivity).
  assert (V2' : sub2 pt2 pti <> V2 0 0) by (intros Z; apply N2, dist2_zero; unfold point_distance2; rewrite Z; apply norm2_zero; reflexivity).
  pose proof (norm2_ne _ V1) as L1. pose proof (norm2_ne _ V2') as L2.
  unfold point_distance2 in E.
  assert (D3 : norm2 (sub2 pt1 pt2) ^ 2 - norm2 (sub2 pt1 pti) ^ 2 - norm2 (sub2 pt2 pti) ^ 2 = - 2 * dot2 (sub2 pt1 pti) (sub2 pt2 pti)).
  { replace (norm2 (sub2 pt1 pt2) ^ 2) with (dot2 (sub2 pt1 pt2) (sub2 pt1 pt2)) by (rewrite <- norm2_sq; ring).
    replace (norm2 (sub2 pt1 pti) ^ 2) with (dot2 (sub2 pt1 pti) (sub2 pt1 pti)) by (rewrite <- norm2_sq; ring).
    replace (norm2 (sub2 pt2 pti) ^ 2) with (dot2 (sub2 pt2 pti) (sub2 pt2 pti)) by (rewrite <- norm2_sq; ring). vec; ring. }
  assert (K : 0 < cos a) by (apply cos_gt_0; lra). assert (S0 : 0 < sin a) by (apply sin_gt_0; lra).
  assert (S1 : sin a < 1) by (pose proof (sc1 a); nra). pose proof (sc1 a) as SC.
  unfold arc_features_of. cbv zeta. rewrite D3.
  set (v1 := sub2 pt1 pti) in *. set (v2 := sub2 pt2 pti) in *. set (l1 := norm2 v1) in *. set (l2 := norm2 v2) in *.
  replace (- (-2 * dot2 v1 v2) / (2 * l1 * l2)) with (cos (2 * a)) by (rewrite E; field; lra).
  destruct (Reqb (2 * l1 * l2) 0) eqn:Z; [apply Reqb_spec in Z; nra|clear Z].
  destruct (Rltb 1 (Rabs (cos (2 * a)))) eqn:Z; [exfalso; apply Rltb_spec in Z; pose proof (COS_bound (2 * a)) as B; revert Z; unfold Rabs; destruct (Rcase_abs _); lra|clear Z].
  rewrite (half_acos (cos (2 * a)) a) by (try lra; reflexivity).
  destruct (Reqb (sin a) 0) eqn:Z; [apply Reqb_spec in Z; lra|clear Z].
  unfold Vec.div2. destruct (Reqb l1 0) eqn:Z; [apply Reqb_spec in Z; lra|clear Z]. destruct (Reqb l2 0) eqn:Z; [apply Reqb_spec in Z; lra|clear Z]. cbn [bind].
  set (x1 := x2 v1 / l1). set (y1 := y2 v1 / l1). set (X2 := x2 v2 / l2). set (Y2 := y2 v2 / l2).
  assert (Q1 : x2 v1 * x2 v1 + y2 v1 * y2 v1 = l1 * l1) by (unfold l1; rewrite norm2_sq; reflexivity).
  assert (Q2 : x2 v2 * x2 v2 + y2 v2 * y2 v2 = l2 * l2) by (unfold l2; rewrite norm2_sq; reflexivity).
  assert (U1 : x1 * x1 + y1 * y1 = 1) by (unfold x1, y1; transitivity ((x2 v1 * x2 v1 + y2 v1 * y2 v1) / (l1 * l1)); [field; lra|rewrite Q1; field; lra]).
  assert (U2 : X2 * X2 + Y2 * Y2 = 1) by (unfold X2, Y2; transitivity ((x2 v2 * x2 v2 + y2 v2 * y2 v2) / (l2 * l2)); [field; lra|rewrite Q2; field; lra]).
  assert (D : x1 * X2 + y1 * Y2 = 2 * (cos a * cos a) - 1).
  { rewrite <- cos_2. unfold x1, X2, y1, Y2. transitivity (dot2 v1 v2 / (l1 * l2)); [unfold dot2; field; lra|rewrite E; field; lra]. }
  assert (KS : cos a * cos a + sin a * sin a = 1) by lra.
  assert (W : norm2 (add2 (V2 x1 y1) (V2 X2 Y2)) = 2 * cos a).
  { apply norm2_of_sq; [lra|]. unfold dot2, add2; cbn [x2 y2]. transitivity ((x1 * x1 + y1 * y1) + (X2 * X2 + Y2 * Y2) + 2 * (x1 * X2 + y1 * Y2)); [ring|]. rewrite U1, U2, D. ring. }
  destruct (is_close2 (add2 (V2 x1 y1) (V2 X2 Y2)) (V2 0 0) (/ 10 ^ 6)) eqn:Z.
  { exfalso. apply is_close2_spec in Z; [|left; apply Rinv_0_lt_compat, pow_lt; lra]. unfold point_distance2 in Z. replace (sub2 (add2 (V2 x1 y1) (V2 X2 Y2)) (V2 0 0)) with (add2 (V2 x1 y1) (V2 X2 Y2)) in Z by (unfold sub2, add2; cbn [x2 y2]; f_equal; ring). rewrite W in Z. lra. }
  clear Z. unfold unit_vector2. rewrite W. destruct (Reqb (2 * cos a) 0) eqn:Z; [apply Reqb_spec in Z; lra|clear Z]. cbn [bind].
  unfold unit_normal_vector2, unit_vector2. assert (NN : norm2 (normal_vector2 (V2 x1 y1)) = 1) by (apply norm2_of_sq; [lra|]; unfold dot2, normal_vector2; cbn [x2 y2]; lra).
  rewrite NN. destruct (Reqb 1 0) eqn:Z; [apply Reqb_spec in Z; lra|clear Z]. cbn [bind]. unfold normal_vector2, add2; cbn [x2 y2].
  pose proof (corner_u2 x1 y1 X2 Y2 (cos a) U1 D) as (EX & EY).
  pose proof (corner_cross_cases x1 y1 X2 Y2 (cos a) (sin a) U1 U2 D KS) as CC.
  set (cr := x1 * Y2 - y1 * X2) in *.
  set (wx := (x1 + X2) / (2 * cos a)). set (wy := (y1 + Y2) / (2 * cos a)).
  assert (IC : 0 < / (2 * cos a)) by (apply Rinv_0_lt_compat; lra).
  (* the components of w *)
  assert (WX : exists e, (e = 1 \/ e = - 1) /\ wx = cos a * x1 - e * sin a * y1 /\ wy = cos a * y1 + e * sin a * x1 /\ cr = e * (2 * cos a * sin a)).
  { destruct CC as [C|C]; [exists 1|exists (- 1)]; (split; [auto|]); unfold wx, wy; rewrite EX, EY, C; repeat split; try (field; lra). }
  destruct WX as (e & He & EWX & EWY & ECR).
  assert (EE : e * e = 1) by (destruct He; subst e; ring).
  assert (V1E : (if Rltb (dot2 (V2 (- y1 / 1) (x1 / 1)) (V2 wx wy)) 0 then neg2 (V2 (- y1 / 1) (x1 / 1)) else V2 (- y1 / 1) (x1 / 1)) = V2 (- e * y1) (e * x1)).
  { assert (DV : dot2 (V2 (- y1 / 1) (x1 / 1)) (V2 wx wy) = e * sin a).
    { unfold dot2; cbn [x2 y2]. rewrite EWX, EWY. transitivity (e * sin a * (x1 * x1 + y1 * y1)); [field|rewrite U1; ring]. }
    rewrite DV. destruct He; subst e; destruct (Rltb _ 0) eqn:Z; try (apply Rltb_spec in Z; lra); try (apply Rltb_false in Z; lra); unfold neg2; cbn [x2 y2]; f_equal; field. }
  rewrite V1E. unfold mul2; cbn [x2 y2].
  assert (TA : r / tan a = r * cos a / sin a) by (unfold tan; field; lra).
  set (d := r * cos a / sin a) in *. rewrite TA.
  assert (Hd : 0 < d) by (unfold d; apply Rdiv_lt_0_compat; nra).
  eexists (V2 (x2 pti + wx * (r / sin a)) (y2 pti + wy * (r / sin a))), _, _, _. split; [reflexivity|].
  assert (X1 : x2 v1 = x1 * l1) by (unfold x1; field; lra). assert (Y1 : y2 v1 = y1 * l1) by (unfold y1; field; lra).
  assert (X2e : x2 v2 = X2 * l2) by (unfold X2; field; lra). assert (Y2e : y2 v2 = Y2 * l2) by (unfold Y2; field; lra).
  assert (U3 : X2 * wx + Y2 * wy = cos a).
  { unfold wx, wy. transitivity (((x1 * X2 + y1 * Y2) + (X2 * X2 + Y2 * Y2)) / (2 * cos a)); [field; lra|]. rewrite D, U2. field; lra. }
  assert (WW : wx * wx + wy * wy = 1) by (rewrite EWX, EWY; transitivity ((cos a * cos a + e * e * (sin a * sin a)) * (x1 * x1 + y1 * y1)); [ring|rewrite U1, EE; lra]).
  assert (DD : sin a * d = r * cos a) by (unfold d; field; lra).
  assert (RS : sin a * (r / sin a) = r) by (field; lra). set (rs := r / sin a) in *.
  assert (DR : d = rs * cos a) by (unfold d, rs; field; lra).
  assert (rsr : r < rs) by (unfold rs; apply Rmult_lt_reg_r with (sin a); [lra|]; unfold Rdiv; rewrite Rmult_assoc, Rinv_l by lra; nra).
  unfold rounds, on_ray. fold v1 v2.
  split; [|split; [|split; [|split; [|split; [|split; [|split]]]]]].
  - exists (d / l1). split; [apply Rdiv_lt_0_compat; lra|]. split; [unfold sub2, mul2; cbn [x2 y2]; rewrite X1, Y1; f_equal; field; lra|].
    unfold point_distance2. apply norm2_of_sq; [lra|]. unfold dot2, sub2; cbn [x2 y2]. transitivity (d * d * (x1 * x1 + y1 * y1)); [ring|rewrite U1; ring].
  - exists (d / l2). split; [apply Rdiv_lt_0_compat; lra|]. split; [unfold sub2, mul2; cbn [x2 y2]; rewrite X2e, Y2e; f_equal; field; lra|].
    unfold point_distance2. apply norm2_of_sq; [lra|]. unfold dot2, sub2; cbn [x2 y2]. transitivity (d * d * (X2 * X2 + Y2 * Y2)); [ring|rewrite U2; ring].
  - unfold dot2, sub2; cbn [x2 y2]. rewrite X1, Y1, EWX, EWY. transitivity (l1 * (rs * cos a - d) * (x1 * x1 + y1 * y1)); [ring|]. rewrite DR. ring.
  - unfold dot2, sub2; cbn [x2 y2]. rewrite X2e, Y2e. transitivity (l2 * (rs * (X2 * wx + Y2 * wy) - d * (X2 * X2 + Y2 * Y2))); [ring|]. rewrite U3, U2, DR. ring.
  - unfold point_distance2. apply norm2_of_sq; [lra|]. unfold dot2, sub2; cbn [x2 y2]. rewrite EWX, EWY, DR. transitivity ((e * e) * (sin a * rs) * (sin a * rs) * (x1 * x1 + y1 * y1)); [ring|]. rewrite EE, RS, U1. ring.
  - unfold point_distance2. apply norm2_of_sq; [lra|]. unfold dot2, sub2; cbn [x2 y2]. rewrite DR. transitivity (rs * rs * ((wx * wx + wy * wy) - 2 * cos a * (X2 * wx + Y2 * wy) + cos a * cos a * (X2 * X2 + Y2 * Y2))); [ring|]. rewrite U3, U2, WW. transitivity (rs * rs * (1 - cos a * cos a)); [ring|]. replace (1 - cos a * cos a) with (sin a * sin a) by lra. transitivity ((sin a * rs) * (sin a * rs)); [ring|rewrite RS; ring].
  - unfold point_distance2. apply norm2_of_sq; [lra|]. unfold dot2, sub2; cbn [x2 y2].
    transitivity ((r * wx + (rs * wx - d * x1 + e * r * y1)) * (r * wx + (rs * wx - d * x1 + e * r * y1)) + (r * wy + (rs * wy - d * y1 - e * r * x1)) * (r * wy + (rs * wy - d * y1 - e * r * x1))); [ring|].
    assert (Z1 : rs * wx - d * x1 + e * r * y1 = 0) by (rewrite EWX, DR; transitivity (e * y1 * (r - sin a * rs)); [ring|rewrite RS; ring]).
    assert (Z2 : rs * wy - d * y1 - e * r * x1 = 0) by (rewrite EWY, DR; transitivity (e * x1 * (sin a * rs - r)); [ring|rewrite RS; ring]).
    rewrite Z1, Z2.
    transitivity (r * r * (wx * wx + wy * wy)); [ring|rewrite WW; ring].
  - exists (1 - sin a). split; [lra|]. unfold sub2, add2, mul2; cbn [x2 y2].
    assert (Z1 : rs * wx - d * x1 + e * r * y1 = 0) by (rewrite EWX, DR; transitivity (e * y1 * (r - sin a * rs)); [ring|rewrite RS; ring]).
    assert (Z2 : rs * wy - d * y1 - e * r * x1 = 0) by (rewrite EWY, DR; transitivity (e * x1 * (sin a * rs - r)); [ring|rewrite RS; ring]).
    f_equal.
    + transitivity (x2 pti + wx * rs - wx * (sin a * rs)); [rewrite RS|ring]. lra.
    + transitivity (y2 pti + wy * rs - wy * (sin a * rs)); [rewrite RS|ring]. lra.
Qed.
