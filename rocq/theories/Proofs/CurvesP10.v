(** Orientation, length and reversal of a 2D circle; corners of a 3D circle's box. *)
From Coq Require Import Reals Lra Psatz List.
From Verif.Model Require Import Base RBase Vec Frame BBox Geometry Curves.
From Verif.Spec Require Import VecSpec FrameSpec BBoxSpec CurvesSpec.
From Verif.Proofs Require Import VecP BBoxP GeometryP CurvesP CurvesP3.
Import ListNotations.
Open Scope R_scope.

Lemma circle2_of_sense c r : cross2 (u2 (fb2 (cf2 (circle2_of c r true)))) (v2 (fb2 (cf2 (circle2_of c r true)))) = 1 /\
  cross2 (u2 (fb2 (cf2 (circle2_of c r false)))) (v2 (fb2 (cf2 (circle2_of c r false)))) = -1.
Proof. cbn. unfold cross2, neg2. cbn. split; lra. Qed.
Lemma from_3_points_sense p1 p2 p3 t c : circle2_from_3_points p1 p2 p3 t = Ok c ->
  cross2 (u2 (fb2 (cf2 c))) (v2 (fb2 (cf2 c))) = if t then 1 else -1.
Proof.
  unfold circle2_from_3_points, bind. destruct (circle_center_from_3_points p1 p2 p3); [|discriminate].
  intros E. apply Ok_inj in E. subst. destruct t; apply circle2_of_sense.
Qed.
Lemma reverse_points c t : circle2_point (circle2_reverse c) t = circle2_point c (- t).
Proof.
  unfold circle2_point, circle2_reverse, center2. cbn [cf2 cr2 org2 fb2 u2 v2]. rewrite cos_neg, sin_neg.
  unfold add2, mul2, neg2. apply vec2_ext; cbn [x2 y2]; ring.
Qed.
Lemma circle2_point_eq_iff c t : orthonormal2 (fb2 (cf2 c)) -> 0 < cr2 c -> 
  circle2_point c t = circle2_point c 0 -> cos t = 1.
Proof.
  intros (U & _ & UV) R E.
  assert (D : dot2 (u2 (fb2 (cf2 c))) (sub2 (circle2_point c t) (center2 c)) = dot2 (u2 (fb2 (cf2 c))) (sub2 (circle2_point c 0) (center2 c))) by (rewrite E; reflexivity).
  assert (F : forall a, dot2 (u2 (fb2 (cf2 c))) (sub2 (circle2_point c a) (center2 c)) =
     dot2 (u2 (fb2 (cf2 c))) (u2 (fb2 (cf2 c))) * (cr2 c * cos a) + dot2 (u2 (fb2 (cf2 c))) (v2 (fb2 (cf2 c))) * (cr2 c * sin a))
   by (intros a; unfold circle2_point, dot2, sub2, add2, mul2; cbn [x2 y2]; ring).
  rewrite !F, U, UV, cos_0 in D. nra.
Qed.
Lemma length_first_return c : orthonormal2 (fb2 (cf2 c)) -> 0 < cr2 c ->
  circle2_point c (circle2_length c / cr2 c) = circle2_point c 0 /\
  forall s, 0 < s < circle2_length c -> circle2_point c (s / cr2 c) <> circle2_point c 0.
Proof.
  intros O R. unfold circle2_length, TWO_PI. pose proof PI_RGT_0 as P. split.
  - replace (2 * PI * cr2 c / cr2 c) with (2 * PI) by (field; lra). unfold circle2_point. now rewrite cos_2PI, sin_2PI, cos_0, sin_0.
  - intros s S E. apply (circle2_point_eq_iff c _ O R) in E.
    assert (A : 0 < s / cr2 c < 2 * PI).
    { split; [apply Rdiv_lt_0_compat; lra|]. apply Rmult_lt_reg_r with (cr2 c); auto. unfold Rdiv. rewrite Rmult_assoc, Rinv_l; lra. }
    set (a := s / cr2 c) in *. replace a with (2 * (a / 2)) in E by lra. rewrite cos_2a_sin in E.
    assert (0 < sin (a / 2)) by (apply sin_gt_0; lra). nra.
Qed.
(** The box is the least one containing the four points of the circle at the quarter turns. *)
Lemma circle3_box_quarters c b : circle3_bounding_box c = Ok b ->
  (in_box b (circle3_point c 0) /\ in_box b (circle3_point c (PI / 2)) /\ in_box b (circle3_point c PI) /\ in_box b (circle3_point c (- (PI / 2)))) /\
  forall b', in_box b' (circle3_point c 0) -> in_box b' (circle3_point c (PI / 2)) -> in_box b' (circle3_point c PI) -> in_box b' (circle3_point c (- (PI / 2))) ->
    box_le b b'.
Proof.
  intros E. unfold circle3_bounding_box in E.
  assert (C : circle3_corners c = [circle3_point c 0; circle3_point c PI; circle3_point c (PI / 2); circle3_point c (- (PI / 2))]).
  { unfold circle3_corners, circle3_point. rewrite cos_neg, sin_neg, cos_0, sin_0, cos_PI, sin_PI, cos_PI2, sin_PI2. cbn [map].
    unfold add3, mul3, neg3. cbn [x3 y3 z3]. do 4 (apply f_equal2; [f_equal; ring|]). reflexivity. }
  rewrite C in E. destruct (from_points_least _ _ E) as (_ & I & L). split.
  - do 3 (split; [apply I; cbn; tauto|]). apply I; cbn; tauto.
  - intros b' H1 H2 H3 H4. apply L. intros p [<- | [<- | [<- | [<- | []]]]]; assumption.
Qed.
Lemma circle3_box_total c : exists b, circle3_bounding_box c = Ok b.
Proof. unfold circle3_bounding_box. apply from_points_err. discriminate. Qed.
