From Coq Require Import Reals Lra List Lia.
From Verif.Model Require Import Base RBase Vec Frame Geometry Curves Edges Arcs Rounded.
From Verif.Spec Require Import VecSpec CurvesSpec ArcsSpec RoundedSpec.
From Verif.Proofs Require Import VecP CurvesP3 ArcsP4 RoundedP.
Import ListNotations.
Open Scope R_scope.

(** every true corner has a half angle *)
Lemma half_angle_exists pt1 pti pt2 : cross2 (sub2 pt1 pti) (sub2 pt2 pti) <> 0 -> exists a, half_angle pt1 pti pt2 a.
Proof.
  intros C.
  assert (V1 : sub2 pt1 pti <> V2 0 0) by (intros Z; apply C; rewrite Z; unfold cross2; cbn [x2 y2]; ring).
  assert (V2' : sub2 pt2 pti <> V2 0 0) by (intros Z; apply C; rewrite Z; unfold cross2; cbn [x2 y2]; ring).
  pose proof (norm2_ne _ V1) as L1. pose proof (norm2_ne _ V2') as L2.
  set (v1 := sub2 pt1 pti) in *. set (v2 := sub2 pt2 pti) in *. set (c := dot2 v1 v2 / (norm2 v1 * norm2 v2)).
  assert (LG : dot2 v1 v2 * dot2 v1 v2 + cross2 v1 v2 * cross2 v1 v2 = (norm2 v1 * norm2 v2) * (norm2 v1 * norm2 v2)).
  { transitivity (dot2 v1 v1 * dot2 v2 v2); [unfold dot2, cross2; ring|]. rewrite <- !norm2_sq. ring. }
  assert (P : 0 < norm2 v1 * norm2 v2) by nra. set (m := norm2 v1 * norm2 v2) in *.
  assert (CC : 0 < cross2 v1 v2 * cross2 v1 v2) by (destruct (Rtotal_order (cross2 v1 v2) 0) as [|[X0|]]; [nra|destruct (C X0)|nra]).
  assert (DE : dot2 v1 v2 = m * c) by (unfold c; field; lra).
  assert (B0 : c * c < 1) by (apply Rmult_lt_reg_l with (m * m); [nra|]; rewrite DE in LG; nra).
  assert (B : -1 < c < 1) by (split; nra).
  exists (acos c / 2). split; [intros ->; apply V1; unfold v1, sub2; f_equal; ring|]. split; [intros ->; apply V2'; unfold v2, sub2; f_equal; ring|].
  assert (A : 0 < acos c < PI).
  { pose proof (acos_bound c) as [A1 A2]. pose proof (cos_acos c ltac:(lra)) as Q. split.
    - destruct A1 as [|Z]; auto. rewrite <- Z, cos_0 in Q. lra.
    - destruct A2 as [|Z]; auto. rewrite Z, cos_PI in Q. lra. }
  split; [lra|]. unfold point_distance2. fold v1 v2. replace (2 * (acos c / 2)) with (acos c) by field. rewrite cos_acos by lra. exact DE.
Qed.
Lemma half_angle_cross pt1 pti pt2 a : half_angle pt1 pti pt2 a -> cross2 (sub2 pt1 pti) (sub2 pt2 pti) <> 0.
Proof.
  intros (N1 & N2 & Ha & E) C. unfold point_distance2 in E. set (v1 := sub2 pt1 pti) in *. set (v2 := sub2 pt2 pti) in *.
  assert (V1 : v1 <> V2 0 0) by (intros Z; apply N1, dist2_zero; unfold point_distance2; fold v1; rewrite Z; apply norm2_zero; reflexivity).
  assert (V2' : v2 <> V2 0 0) by (intros Z; apply N2, dist2_zero; unfold point_distance2; fold v2; rewrite Z; apply norm2_zero; reflexivity).
  pose proof (norm2_ne _ V1) as L1. pose proof (norm2_ne _ V2') as L2.
  assert (LG : dot2 v1 v2 * dot2 v1 v2 + cross2 v1 v2 * cross2 v1 v2 = (norm2 v1 * norm2 v2) * (norm2 v1 * norm2 v2)).
  { transitivity (dot2 v1 v1 * dot2 v2 v2); [unfold dot2, cross2; ring|]. rewrite <- !norm2_sq. ring. }
  assert (P : 0 < norm2 v1 * norm2 v2) by nra. set (m := norm2 v1 * norm2 v2) in *. rewrite C, E in LG.
  assert (B : -1 < cos (2 * a) < 1) by (split; [rewrite <- cos_PI|rewrite <- cos_0]; apply cos_decreasing_1; lra). assert (Q : m * m * (1 - cos (2 * a) * cos (2 * a)) = 0) by lra. apply Rmult_integral in Q as [Q|Q]; nra.
Qed.
Lemma half_angle_unique pt1 pti pt2 a b : half_angle pt1 pti pt2 a -> half_angle pt1 pti pt2 b -> a = b.
Proof.
  intros (N1 & N2 & Ha & E) (_ & _ & Hb & E').
  assert (L1 : 0 < point_distance2 pt1 pti) by (apply norm2_ne; intros Z; apply N1, dist2_zero; unfold point_distance2; rewrite Z; apply norm2_zero; reflexivity).
  assert (L2 : 0 < point_distance2 pt2 pti) by (apply norm2_ne; intros Z; apply N2, dist2_zero; unfold point_distance2; rewrite Z; apply norm2_zero; reflexivity).
  assert (Q : cos (2 * a) = cos (2 * b)) by (apply Rmult_eq_reg_l with (point_distance2 pt1 pti * point_distance2 pt2 pti); [rewrite <- E, <- E'; auto|nra]).
  assert (X : acos (cos (2 * a)) = acos (cos (2 * b))) by (rewrite Q; auto). rewrite !acos_cos in X by lra. lra.
Qed.
(** the arc drawn in a corner is on the tangent circle *)
Lemma corner_arc pt1 pti pt2 r d c p3 q p4 a : rounds pt1 pti pt2 r d c p3 q p4 -> arc2_from_3_points p3 q p4 = Ok a ->
  center2 (ac a) = c /\ cr2 (ac a) = r /\ ast a = p3 /\ aen a = p4.
Proof.
  intros (_ & _ & _ & _ & R1 & R2 & R3 & _) E.
  destruct (Req_dec (det3p p3 q p4) 0) as [Z|N]; [rewrite (three_points_aligned _ _ _ Z) in E; discriminate|].
  destruct (circle_3_points_ok p3 q p4 true N) as (k & K & O1 & O2 & O3 & _). unfold on_circle2 in *.
  assert (CK : center2 k = c) by (apply (circle_unique p3 q p4); auto; try congruence; rewrite !(dist2_sym _ c); congruence).
  assert (RK : cr2 k = r) by (rewrite <- O1, CK, dist2_sym; auto).
  assert (NW : forall k0 b, arc2_new k0 p3 p4 = Ok b -> ac b = k0 /\ ast b = p3 /\ aen b = p4).
  { intros k0 b. unfold arc2_new. destruct (arc_point_angle k0 p3); cbn [bind]; [|discriminate]. destruct (arc_point_angle k0 p4); cbn [bind]; [|discriminate]. intros Q; apply Ok_inj in Q; subst b. auto. }
  unfold arc2_from_3_points in E. rewrite K in E. cbn [bind] in E. destruct (arc2_new k p3 p4) as [b|] eqn:B; cbn [bind] in E; [|discriminate].
  destruct (arc2_point_belongs b q _) as [[|]|]; cbn [bind] in E; [| |discriminate].
  - apply Ok_inj in E. subst b. apply NW in B as (-> & -> & ->). auto.
  - apply NW in E as (-> & -> & ->). repeat split; auto.
Qed.
Lemma corner_circle pt1 pti pt2 r a c p3 q p4 : half_angle pt1 pti pt2 a -> 0 < r -> rounds pt1 pti pt2 r (r / tan a) c p3 q p4 ->
  det3p p3 q p4 <> 0.
Proof.
  intros H Hr (OR1 & OR2 & P1 & P2 & R1 & R2 & R3 & t & Ht & EQ) Z.
  pose proof (half_angle_cross _ _ _ _ H) as NC.
  destruct OR1 as (k1 & K1 & E1 & D1). destruct OR2 as (k2 & K2 & E2 & D2).
  (* three points of a circle which are aligned are not all different *)
  assert (SQ : forall x, point_distance2 c x = r -> dot2 (sub2 c x) (sub2 c x) = r * r) by (intros x X; rewrite <- norm2_sq; unfold point_distance2 in X; rewrite X; auto).
  apply SQ in R1, R2, R3.
  assert (F1 : p3 = add2 pti (mul2 (sub2 pt1 pti) k1)) by (rewrite <- E1; unfold add2, sub2; apply vec2_ext; cbn [x2 y2]; ring).
  assert (F2 : p4 = add2 pti (mul2 (sub2 pt2 pti) k2)) by (rewrite <- E2; unfold add2, sub2; apply vec2_ext; cbn [x2 y2]; ring).
  set (u := sub2 pt1 pti) in *. set (v := sub2 pt2 pti) in *. set (g := sub2 c pti) in *.
  assert (G1 : sub2 c p3 = sub2 g (mul2 u k1)) by (rewrite F1; unfold g, sub2, add2, mul2; apply vec2_ext; cbn [x2 y2]; ring).
  assert (G2 : sub2 c p4 = sub2 g (mul2 v k2)) by (rewrite F2; unfold g, sub2, add2, mul2; apply vec2_ext; cbn [x2 y2]; ring).
  assert (G3 : sub2 c q = mul2 g (1 - t)) by (rewrite EQ; unfold g, sub2, add2, mul2; apply vec2_ext; cbn [x2 y2]; ring).
  rewrite G1 in R1, P1. rewrite G2 in R2, P2. rewrite G3 in R3.
  unfold det3p in Z. rewrite EQ, F1, F2 in Z.
  assert (Z' : t * k2 * cross2 g v + t * k1 * cross2 u g = k1 * k2 * cross2 u v).
  { assert (Q : cross2 (sub2 (add2 pti (mul2 g t)) (add2 pti (mul2 u k1))) (sub2 (add2 pti (mul2 v k2)) (add2 pti (mul2 u k1))) = t * k2 * cross2 g v - k1 * k2 * cross2 u v + t * k1 * cross2 u g) by (unfold cross2, sub2, add2, mul2; cbn [x2 y2]; ring). rewrite Q in Z. lra. }
  clear Z. unfold dot2, cross2, sub2, mul2 in *. cbn [x2 y2] in *.
  destruct u as [ux uy], v as [vx vy], g as [gx gy]. cbn [x2 y2] in *.
  set (a1 := k1 * ux) in *. set (b1 := k1 * uy) in *. set (a2 := k2 * vx) in *. set (b2 := k2 * vy) in *.
  assert (P1' : (gx - a1) * a1 + (gy - b1) * b1 = 0) by (unfold a1, b1; transitivity (k1 * ((gx - ux * k1) * ux + (gy - uy * k1) * uy)); [ring|rewrite P1; ring]).
  assert (P2' : (gx - a2) * a2 + (gy - b2) * b2 = 0) by (unfold a2, b2; transitivity (k2 * ((gx - vx * k2) * vx + (gy - vy * k2) * vy)); [ring|rewrite P2; ring]).
  assert (R1' : (gx - a1) * (gx - a1) + (gy - b1) * (gy - b1) = r * r) by (unfold a1, b1; rewrite <- R1; ring).
  assert (R2' : (gx - a2) * (gx - a2) + (gy - b2) * (gy - b2) = r * r) by (unfold a2, b2; rewrite <- R2; ring).
  assert (R3' : (1 - t) * (1 - t) * (gx * gx + gy * gy) = r * r) by (rewrite <- R3; ring).
  assert (ZZ : t * (gx * b2 - gy * a2) + t * (a1 * gy - b1 * gx) = a1 * b2 - b1 * a2) by (unfold a1, b1, a2, b2; transitivity (t * k2 * (gx * vy - gy * vx) + t * k1 * (ux * gy - uy * gx)); [ring|rewrite Z'; ring]).
  assert (NC' : a1 * b2 - b1 * a2 <> 0) by (unfold a1, b1, a2, b2; replace (k1 * ux * (k2 * vy) - k1 * uy * (k2 * vx)) with (k1 * k2 * (ux * vy - uy * vx)) by ring; intros Y; apply Rmult_integral in Y as [Y|Y]; [nra|auto]).
  clear - P1' P2' R1' R2' R3' ZZ NC' Ht Hr. clearbody a1 b1 a2 b2.
  (* a1 and a2 are symmetric with respect to g *)
  set (G := gx * gx + gy * gy) in *.
  assert (A1 : a1 * gx + b1 * gy = a1 * a1 + b1 * b1) by lra. assert (A2 : a2 * gx + b2 * gy = a2 * a2 + b2 * b2) by lra.
  assert (B1 : a1 * a1 + b1 * b1 = G - r * r) by (unfold G; lra). assert (B2 : a2 * a2 + b2 * b2 = G - r * r) by (unfold G; lra).
  set (m := G - r * r) in *.
  set (c1 := gx * b1 - gy * a1). set (c2 := gx * b2 - gy * a2).
  assert (C1 : c1 * c1 = m * (r * r)).
  { assert (L : c1 * c1 = G * (a1 * a1 + b1 * b1) - (a1 * gx + b1 * gy) * (a1 * gx + b1 * gy)) by (unfold c1, G; ring). rewrite A1, B1 in L. rewrite L. unfold m. ring. }
  assert (C2' : c2 * c2 = m * (r * r)).
  { assert (L : c2 * c2 = G * (a2 * a2 + b2 * b2) - (a2 * gx + b2 * gy) * (a2 * gx + b2 * gy)) by (unfold c2, G; ring). rewrite A2, B2 in L. rewrite L. unfold m. ring. }
  assert (X : G * (a1 * b2 - b1 * a2) = m * (c2 - c1)).
  { transitivity ((a1 * gx + b1 * gy) * c2 - (a2 * gx + b2 * gy) * c1); [unfold G, c1, c2; ring|]. rewrite A1, A2, B1, B2. ring. }
  assert (Y : t * (c2 - c1) = a1 * b2 - b1 * a2) by (rewrite <- ZZ; unfold c1, c2; ring).
  assert (GP : 0 < G) by (assert (0 < r * r) by nra; assert (0 <= (1 - t) * (1 - t)) by nra; nra).
  assert (N : c2 - c1 <> 0) by (intros Q; rewrite Q in Y; lra).
  assert (TG : t * G = m) by (apply Rmult_eq_reg_r with (c2 - c1); auto; rewrite <- X, <- Y; ring).
  (* r^2 = (1-t) G and r^2 = (1-t)^2 G *)
  unfold m in TG. assert (RR : r * r = (1 - t) * G) by lra. rewrite RR in R3'. assert (0 < (1 - t) * G) by (apply Rmult_lt_0_compat; lra). nra.
Qed.
