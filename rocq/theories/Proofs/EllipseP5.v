From Coq Require Import Reals Lra Lia List Bool ZArith.
From Verif.Model Require Import Base RBase Vec Frame BBox Geometry Curves Ellipse.
From Verif.Spec Require Import VecSpec FrameSpec BBoxSpec PlaneSpec CurvesSpec AngleSpec EllipseSpec.
From Verif.Proofs Require Import VecP LineP FrameP FrameP2 BBoxP GeometryP PlaneP CurvesP CurvesP3 CurvesP4 CurvesP5 EllipseP EllipseP2 EllipseP3 EllipseP4.
Import ListNotations.
Open Scope R_scope.

(** * Moves *)
Lemma rotation_moves : forall e c a, ellipse_ok e -> exists e', ellipse2_rotation e c a = Ok e' /\ ellipse_ok e' /\ emaj e' = emaj e /\ emin e' = emin e /\
  forall t, ellipse2_point e' t = rotation2 (ellipse2_point e t) c a.
Proof.
  intros e c a O. pose proof O as ((U & V & UV) & B). change (u2 (fb2 (ef e))) with (major_dir e) in *. change (v2 (fb2 (ef e))) with (minor_dir e) in *.
  assert (CS := cross_sides _ (proj1 O)). change (u2 (fb2 (ef e))) with (major_dir e) in CS. change (v2 (fb2 (ef e))) with (minor_dir e) in CS.
  unfold ellipse2_rotation. set (m := V2 (cos a * x2 (major_dir e) - sin a * y2 (major_dir e)) (sin a * x2 (major_dir e) + cos a * y2 (major_dir e))).
  assert (E : sub2 (rotation2 (add2 (ecenter e) (mul2 (major_dir e) (emaj e))) c a) (rotation2 (ecenter e) c a) = mul2 m (emaj e)).
  { unfold m, sub2, rotation2, add2, mul2, sub2. cbn [x2 y2]. f_equal; ring. }
  assert (CS2 : cos a * cos a + sin a * sin a = 1) by (pose proof (sin2_cos2 a) as Q; unfold Rsqr in Q; lra).
  assert (M : dot2 m m = 1).
  { unfold m, dot2 in *. cbn [x2 y2]. transitivity ((cos a * cos a + sin a * sin a) * (x2 (major_dir e) * x2 (major_dir e) + y2 (major_dir e) * y2 (major_dir e))); [ring|rewrite CS2, U; ring]. }
  assert (UM : unit_vector2 (mul2 m (emaj e)) = Ok m).
  { unfold unit_vector2. assert (N : norm2 (mul2 m (emaj e)) = emaj e).
    { unfold norm2, mul2. cbn [x2 y2]. replace (_ + _) with (emaj e * emaj e * dot2 m m) by (unfold dot2; ring). rewrite M, Rmult_1_r. apply sqrt_square. lra. }
    rewrite N. destruct (Reqb (emaj e) 0) eqn:Z; rb; [lra|]. f_equal. unfold mul2. cbn [x2 y2]. destruct m as [mx my]. cbn [x2 y2]. f_equal; field; lra. }
  rewrite E, UM. cbn [bind]. assert (K : exists b, ellipse2_angles e = Ok b /\ (if snd b then normal_vector2 m else neg2 (normal_vector2 m)) = V2 (cos a * x2 (minor_dir e) - sin a * y2 (minor_dir e)) (sin a * x2 (minor_dir e) + cos a * y2 (minor_dir e))).
  { destruct (angles_of e O) as [[C ->]|[C ->]]; eexists; (split; [reflexivity|]); cbn [snd]; (destruct CS as [[C' W]|[C' W]]; [try (exfalso; lra)|try (exfalso; lra)]); rewrite W; unfold m, normal_vector2, neg2; cbn [x2 y2]; f_equal; ring. }
  destruct K as (b & -> & KV). cbn [bind]. rewrite KV. eexists. split; [reflexivity|]. split; [|split; [reflexivity|split; [reflexivity|]]].
  - split; [|exact B]. unfold orthonormal2. cbn [ef fb2 u2 v2]. split; [exact M|]. unfold m, dot2 in *. cbn [x2 y2]. split.
    + transitivity ((cos a * cos a + sin a * sin a) * (x2 (minor_dir e) * x2 (minor_dir e) + y2 (minor_dir e) * y2 (minor_dir e))); [ring|rewrite CS2, V; ring].
    + transitivity ((cos a * cos a + sin a * sin a) * (x2 (major_dir e) * x2 (minor_dir e) + y2 (major_dir e) * y2 (minor_dir e))); [ring|rewrite CS2, UV; ring].
  - intros t. unfold m, ellipse2_point, ecenter, major_dir, minor_dir. cbn [ef fb2 u2 v2 org2 emaj emin]. unfold rotation2, add2, mul2, sub2. cbn [x2 y2]. f_equal; ring.
Qed.
Lemma translation_moves : forall e o t, ellipse2_point (ellipse2_translation e o) t = translation2 (ellipse2_point e t) o.
Proof. intros e o t. unfold ellipse2_point, ellipse2_translation, frame2_translation, ecenter, major_dir, minor_dir, translation2, add2, mul2. cbn [ef fb2 org2 emaj emin x2 y2]. f_equal; ring. Qed.
Lemma mapping_old_moves : forall e f t, ellipse2_point (ellipse2_mapping_old e f) t = frame2_l2g f (ellipse2_point e t).
Proof. intros e f t. rewrite !point_l2g. unfold ellipse2_mapping_old. cbn [ef emaj emin]. apply frame2_mapping_old_points. Qed.
Lemma mapping_new_moves : forall e f, orthonormal2 (fb2 f) -> exists e', ellipse2_mapping_new e f = Ok e' /\ ellipse2_mapping_old e' f = e /\ forall t, frame2_g2l f (ellipse2_point e t) = Ok (ellipse2_point e' t).
Proof.
  intros e f O. unfold ellipse2_mapping_new. assert (G : exists g, frame2_mapping_new (ef e) f = Ok g).
  { unfold frame2_mapping_new. rewrite frame2_g2l_ok, !basis2_g2l_ok by auto. cbn [bind]. eauto. }
  destruct G as [g G]. rewrite G. cbn [bind]. eexists. split; [reflexivity|].
  assert (E : ellipse2_mapping_old (E2 (emaj e) (emin e) g) f = e). { unfold ellipse2_mapping_old. cbn [ef emaj emin]. rewrite (frame2_mapping_roundtrip _ _ _ G). destruct e; reflexivity. }
  split; [exact E|]. intros t. rewrite <- E at 1. rewrite mapping_old_moves. rewrite frame2_g2l_ok by exact O. f_equal. rewrite loc_l2g by exact O. reflexivity.
Qed.

(** * The angle of a point *)
Lemma angle_ok : forall e t, ellipse_ok e -> 0 <= t < 2 * PI * (1 - / 10 ^ 9) -> point_angle_with_major_dir e (ellipse2_point e t) = Ok t.
Proof.
  intros e t [O B] T. unfold point_angle_with_major_dir. rewrite frame2_g2l_ok by exact O. cbn [bind]. rewrite point_l2g, loc_l2g by exact O. cbn [x2 y2].
  destruct (Reqb (emaj e) 0) eqn:A; rb; [lra|]. destruct (Reqb (emin e) 0) eqn:C; rb; [lra|]. cbn [orb]. f_equal.
  replace (emin e * sin t / emin e) with (emaj e * sin t / emaj e) by (field; lra). apply sin_cos_angle_exact; [lra|exact T].
Qed.
Lemma angle_total : forall e p, ellipse_ok e -> on_ellipse2 e p -> exists t, point_angle_with_major_dir e p = Ok t /\ 0 <= t < 2 * PI.
Proof.
  intros e p [O B] [t ->]. unfold point_angle_with_major_dir. rewrite frame2_g2l_ok by exact O. cbn [bind]. rewrite point_l2g, loc_l2g by exact O. cbn [x2 y2].
  destruct (Reqb (emaj e) 0) eqn:A; rb; [lra|]. destruct (Reqb (emin e) 0) eqn:C; rb; [lra|]. cbn [orb]. eexists. split; [reflexivity|]. apply sin_cos_angle_range.
  replace (emaj e * cos t / emaj e) with (cos t) by (field; lra). replace (emin e * sin t / emin e) with (sin t) by (field; lra). pose proof (sin2_cos2 t) as Q. unfold Rsqr in Q. lra.
Qed.

(** * Length and area *)
Lemma length_ok : forall e, 0 < emin e -> 0 < emaj e -> exists l, ellipse2_length e = Ok l /\ PI * (emaj e + emin e) <= l <= 14 / 11 * (PI * (emaj e + emin e)) /\
  (emaj e = emin e -> l = 2 * PI * emaj e) /\ (forall f, ellipse2_length (E2 (emin e) (emaj e) f) = Ok l).
Proof.
  intros e A B. unfold ellipse2_length. cbn [emaj emin]. set (a := emaj e) in *. set (b := emin e) in *. clearbody a b.
  assert (Z : forall x y, 0 < x -> 0 < y -> Reqb ((x + y) ^ 2) 0 = false) by (intros; apply Reqb_false; nra). rewrite Z, (Z b a) by assumption.
  assert (H2 : (b - a) ^ 2 / (b + a) ^ 2 = (a - b) ^ 2 / (a + b) ^ 2) by (f_equal; [ring|f_equal; ring]). rewrite H2, (Rplus_comm b a). set (h := (a - b) ^ 2 / (a + b) ^ 2).
  assert (P2 : 0 < (a + b) ^ 2) by (simpl; nra). assert (P3 := pow2_ge_0 (a - b)).
  assert (Hh : 0 <= h <= 1). { unfold h. split; [apply Rmult_le_pos; [exact P3|apply Rlt_le, Rinv_0_lt_compat, P2]|]. apply (Rmult_le_reg_r ((a + b) ^ 2)); [exact P2|]. unfold Rdiv. rewrite Rmult_assoc, Rinv_l by lra. simpl. nra. }
  rewrite sqrt_py_ok by lra. cbn [bind]. eexists. split; [reflexivity|]. assert (S1 : 1 <= sqrt (4 - 3 * h)) by (rewrite <- sqrt_1; apply sqrt_le_1; lra).
  assert (K : 0 <= 3 * h / (10 + sqrt (4 - 3 * h)) <= 3 / 11).
  { split; [apply Rmult_le_pos; [lra|apply Rlt_le, Rinv_0_lt_compat; lra]|]. apply (Rmult_le_reg_r (10 + sqrt (4 - 3 * h))); [lra|]. unfold Rdiv at 1. rewrite Rmult_assoc, Rinv_l by lra. nra. }
  pose proof PI_RGT_0 as P. assert (Pab : 0 < PI * (a + b)) by (apply Rmult_lt_0_compat; lra). split; [split; nra|]. split; [|reflexivity].
  intros ->. assert (h = 0) by (unfold h; replace (b - b) with 0 by ring; unfold Rdiv; rewrite pow_ne_zero by lia; ring). rewrite H. unfold Rdiv. ring.
Qed.
