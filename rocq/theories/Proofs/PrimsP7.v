From Coq Require Import Reals Lra Lia List Bool ZArith Psatz.
From Verif.Model Require Import Base Mesh RBase Vec Frame BBox Geometry Prims.
From Verif.Spec Require Import VecSpec FrameSpec BBoxSpec PrimsSpec.
From Verif.Proofs Require Import VecP LineP PrimsP2 PrimsP6.
Import ListNotations.
Open Scope R_scope.

(** ** the point of a sphere at an angle from X, turned around X *)
Definition sp (c : vec3) (r a t : R) : vec3 := V3 (x3 c + r * cos a) (y3 c + r * sin a * sin t) (z3 c - r * sin a * cos t).
Lemma meridian c r a : rotation3 (add3 c (mul3 X3D r)) c Y3D a = sp c r a 0.
Proof.
  unfold rotation3, sp, X3D, Y3D, cross3, add3, sub3, mul3, dot3. cbn [x3 y3 z3]. rewrite sin_0, cos_0. f_equal; ring.
Qed.
Lemma parallel c r a t : rotation3 (sp c r a 0) (V3 (dot3 X3D (sp c r a 0)) (y3 c) (z3 c)) X3D t = sp c r a t.
Proof. unfold rotation3, sp, X3D, cross3, add3, sub3, mul3, dot3. cbn [x3 y3 z3]. rewrite sin_0, cos_0. f_equal; ring. Qed.
Lemma dist_sq p q d : 0 <= d -> (x3 p - x3 q) ^ 2 + (y3 p - y3 q) ^ 2 + (z3 p - z3 q) ^ 2 <= d ^ 2 -> point_distance3 p q <= d.
Proof.
  intros D H. unfold point_distance3, norm3, sub3. cbn [x3 y3 z3]. rewrite <- (sqrt_pow2 d) by auto. apply sqrt_le_1_alt.
  replace ((x3 p - x3 q) * (x3 p - x3 q)) with ((x3 p - x3 q) ^ 2) by ring. replace ((y3 p - y3 q) * (y3 p - y3 q)) with ((y3 p - y3 q) ^ 2) by ring. replace ((z3 p - z3 q) * (z3 p - z3 q)) with ((z3 p - z3 q) ^ 2) by ring. exact H.
Qed.
Lemma dist_sq_eq p q d : 0 <= d -> (x3 p - x3 q) ^ 2 + (y3 p - y3 q) ^ 2 + (z3 p - z3 q) ^ 2 = d ^ 2 -> point_distance3 p q = d.
Proof.
  intros D H. unfold point_distance3, norm3, sub3. cbn [x3 y3 z3]. rewrite <- (sqrt_pow2 d) by auto. f_equal. rewrite <- H. ring.
Qed.
Lemma sc t : cos t ^ 2 = 1 - sin t ^ 2.
Proof. pose proof (sin2_cos2 t) as H. unfold Rsqr in H. lra. Qed.
Lemma sp_on c r a t : 0 <= r -> point_distance3 c (sp c r a t) = r.
Proof.
  intros H. apply dist_sq_eq; [auto|]. unfold sp. cbn [x3 y3 z3].
  replace ((x3 c - (x3 c + r * cos a)) ^ 2 + (y3 c - (y3 c + r * sin a * sin t)) ^ 2 + (z3 c - (z3 c - r * sin a * cos t)) ^ 2) with (r ^ 2 * (cos a ^ 2 + sin a ^ 2 * (sin t ^ 2 + cos t ^ 2))) by ring.
  rewrite (sc t), (sc a). ring.
Qed.
Lemma floor_radius c r a : 0 <= r -> 0 <= sin a -> point_distance3 (V3 (dot3 X3D (sp c r a 0)) (y3 c) (z3 c)) (sp c r a 0) = r * sin a.
Proof.
  intros H A. apply dist_sq_eq; [apply Rmult_le_pos; auto|]. unfold sp, X3D, dot3. cbn [x3 y3 z3]. rewrite sin_0, cos_0. ring.
Qed.
Lemma sin_le_abs x : Rabs (sin x) <= Rabs x.
Proof.
  assert (P : forall y, 0 <= y -> Rabs (sin y) <= y).
  { intros y Y. destruct (Req_dec y 0) as [->|N]; [rewrite sin_0, Rabs_R0; lra|]. assert (0 < y) by lra.
    destruct (Rle_dec y 1) as [L|L].
    - rewrite Rabs_right; [pose proof (sin_lt_x y ltac:(lra)); lra|]. apply Rle_ge, sin_ge_0; [lra|]. pose proof PI_RGT_0. pose proof PI2_1. lra.
    - pose proof (SIN_bound y). apply Rabs_le. lra. }
  destruct (Rcase_abs x) as [N|N].
  - rewrite (Rabs_left x) by auto. replace (sin x) with (- sin (- x)) by (rewrite sin_neg; ring). rewrite Rabs_Ropp. apply P. lra.
  - rewrite (Rabs_right x) by auto. apply P. lra.
Qed.
Lemma half_angle s t : (sin s - sin t) ^ 2 + (cos s - cos t) ^ 2 = 4 * sin ((s - t) / 2) ^ 2.
Proof.
  replace ((sin s - sin t) ^ 2 + (cos s - cos t) ^ 2) with (sin s ^ 2 + cos s ^ 2 + (sin t ^ 2 + cos t ^ 2) - 2 * (cos s * cos t + sin s * sin t)) by ring.
  rewrite (sc s), (sc t). rewrite <- cos_minus. replace (s - t) with (2 * ((s - t) / 2)) at 1 by field. rewrite cos_2a_sin. ring.
Qed.
Lemma along c r a s t : 0 <= r -> 0 <= sin a -> point_distance3 (sp c r a s) (sp c r a t) <= r * sin a * Rabs (s - t).
Proof.
  intros H A. assert (P : 0 <= r * sin a) by (apply Rmult_le_pos; auto). apply dist_sq; [apply Rmult_le_pos; [auto|apply Rabs_pos]|]. unfold sp. cbn [x3 y3 z3].
  replace ((x3 c + r * cos a - (x3 c + r * cos a)) ^ 2 + (y3 c + r * sin a * sin s - (y3 c + r * sin a * sin t)) ^ 2 + (z3 c - r * sin a * cos s - (z3 c - r * sin a * cos t)) ^ 2)
    with ((r * sin a) ^ 2 * ((sin s - sin t) ^ 2 + (cos s - cos t) ^ 2)) by ring.
  rewrite half_angle. replace ((r * sin a * Rabs (s - t)) ^ 2) with ((r * sin a) ^ 2 * Rabs (s - t) ^ 2) by ring. apply Rmult_le_compat_l; [apply pow2_ge_0|].
  pose proof (sin_le_abs ((s - t) / 2)) as L. rewrite <- (pow2_abs (sin _)). replace (Rabs ((s - t) / 2)) with (Rabs (s - t) / 2) in L by (unfold Rdiv; rewrite Rabs_mult, (Rabs_right (/ 2)) by lra; reflexivity).
  pose proof (Rabs_pos (sin ((s - t) / 2))). nra.
Qed.
Lemma across c r a b t : 0 <= r -> point_distance3 (sp c r a t) (sp c r b t) = 2 * r * Rabs (sin ((a - b) / 2)).
Proof.
  intros H. apply dist_sq_eq; [apply Rmult_le_pos; [lra|apply Rabs_pos]|]. unfold sp. cbn [x3 y3 z3].
  replace ((x3 c + r * cos a - (x3 c + r * cos b)) ^ 2 + (y3 c + r * sin a * sin t - (y3 c + r * sin b * sin t)) ^ 2 + (z3 c - r * sin a * cos t - (z3 c - r * sin b * cos t)) ^ 2)
    with (r ^ 2 * ((cos a - cos b) ^ 2 + (sin a - sin b) ^ 2 * (sin t ^ 2 + cos t ^ 2))) by ring.
  replace (sin t ^ 2 + cos t ^ 2) with 1 by (rewrite (sc t); ring). rewrite Rmult_1_r, (Rplus_comm ((cos a - cos b) ^ 2)), half_angle.
  replace ((2 * r * Rabs (sin ((a - b) / 2))) ^ 2) with (4 * r ^ 2 * Rabs (sin ((a - b) / 2)) ^ 2) by ring. rewrite pow2_abs. ring.
Qed.
Lemma unit_angle x y : x ^ 2 + y ^ 2 = 1 -> exists s, 0 <= s <= 2 * PI /\ cos s = x /\ sin s = y.
Proof.
  intros E. assert (B : -1 <= x <= 1) by (pose proof (pow2_ge_0 y); split; nra). pose proof (acos_bound x) as AB. pose proof PI_RGT_0.
  assert (SQ : sqrt (1 - Rsqr x) = Rabs y). { replace (1 - Rsqr x) with (Rsqr y) by (unfold Rsqr; lra). apply sqrt_Rsqr_abs. }
  destruct (Rcase_abs y) as [N|N].
  - exists (2 * PI - acos x). split; [lra|]. rewrite cos_minus, sin_minus, cos_2PI, sin_2PI, cos_acos, sin_acos, SQ, (Rabs_left y) by auto. split; ring.
  - exists (acos x). split; [lra|]. rewrite cos_acos, sin_acos, SQ, (Rabs_right y) by auto. auto.
Qed.
Lemma polar c r q : 0 < r -> point_distance3 c q = r -> exists a s, 0 <= a <= PI /\ 0 <= s <= 2 * PI /\ q = sp c r a s.
Proof.
  intros P D. destruct q as [q1 q2 q3], c as [c1 c2 c3].
  assert (E : ((q1 - c1) / r) ^ 2 + ((q2 - c2) ^ 2 + (q3 - c3) ^ 2) / r ^ 2 = 1).
  { unfold point_distance3 in D. apply (f_equal (fun t => t * t)) in D. rewrite norm3_sq in D. unfold dot3, sub3 in D. cbn [x3 y3 z3] in D.
    replace (((q1 - c1) / r) ^ 2 + ((q2 - c2) ^ 2 + (q3 - c3) ^ 2) / r ^ 2) with (((c1 - q1) * (c1 - q1) + (c2 - q2) * (c2 - q2) + (c3 - q3) * (c3 - q3)) / (r * r)) by (field; lra). rewrite D. field. lra. }
  set (x := (q1 - c1) / r) in *. assert (PS : 0 <= ((q2 - c2) ^ 2 + (q3 - c3) ^ 2) / r ^ 2).
  { apply Rmult_le_pos; [pose proof (pow2_ge_0 (q2 - c2)); pose proof (pow2_ge_0 (q3 - c3)); lra|apply Rlt_le, Rinv_0_lt_compat, pow_lt; auto]. }
  assert (B : -1 <= x <= 1) by (split; nra). pose proof (acos_bound x) as AB.
  assert (SA : sin (acos x) ^ 2 = ((q2 - c2) ^ 2 + (q3 - c3) ^ 2) / r ^ 2). { pose proof (sc (acos x)) as K. rewrite cos_acos in K by auto. lra. }
  assert (SP : 0 <= sin (acos x)) by (apply sin_ge_0; lra).
  assert (EX : q1 = c1 + r * x) by (unfold x; field; lra).
  destruct (Req_dec (sin (acos x)) 0) as [Z|NZ].
  - exists (acos x), 0. split; [exact AB|]. split; [pose proof PI_RGT_0; lra|]. unfold sp. cbn [x3 y3 z3]. rewrite cos_acos, Z by auto.
    rewrite Z in SA. assert (ZZ : (q2 - c2) ^ 2 + (q3 - c3) ^ 2 = 0). { apply (Rmult_eq_reg_r (/ r ^ 2)); [|apply Rinv_neq_0_compat, pow_nonzero; lra]. unfold Rdiv in SA. rewrite <- SA. ring. }
    pose proof (pow2_ge_0 (q2 - c2)) as G2. pose proof (pow2_ge_0 (q3 - c3)) as G3.
    assert (K2 : (q2 - c2) * (q2 - c2) = 0) by lra. assert (K3 : (q3 - c3) * (q3 - c3) = 0) by lra. apply Rmult_integral in K2, K3.
    f_equal; [rewrite EX; ring|destruct K2; lra|destruct K3; lra].
  - assert (SS : 0 < r * sin (acos x)) by (apply Rmult_lt_0_compat; lra).
    destruct (unit_angle (- (q3 - c3) / (r * sin (acos x))) ((q2 - c2) / (r * sin (acos x)))) as (s & S1 & S2 & S3).
    { replace ((- (q3 - c3) / (r * sin (acos x))) ^ 2 + ((q2 - c2) / (r * sin (acos x))) ^ 2) with (((q2 - c2) ^ 2 + (q3 - c3) ^ 2) / r ^ 2 / sin (acos x) ^ 2) by (field; split; [auto|lra]). rewrite <- SA. field. auto. }
    exists (acos x), s. split; [exact AB|]. split; [exact S1|]. unfold sp. cbn [x3 y3 z3]. rewrite S2, S3, cos_acos by auto. f_equal; [exact EX|field; split; [auto|lra]|field; split; [auto|lra]].
Qed.
