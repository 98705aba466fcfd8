From Coq Require Import Reals Lra.
From Verif.Model Require Import RBase Vec Frame Geometry Curves Geometry3.
From Verif.Spec Require Import AngleSpec CurvesSpec.
From Verif.Proofs Require Import VecP GeometryP.
Open Scope R_scope.
Lemma circle3_to_2d c t : dot3 (bu (fb3 (cf3 c))) (bu (fb3 (cf3 c))) = 1 -> dot3 (bv (fb3 (cf3 c))) (bv (fb3 (cf3 c))) = 1 -> dot3 (bu (fb3 (cf3 c))) (bv (fb3 (cf3 c))) = 0 ->
  to_2d (circle3_point c t) (org3 (cf3 c)) (bu (fb3 (cf3 c))) (bv (fb3 (cf3 c))) = V2 (cr3 c * cos t) (cr3 c * sin t).
Proof.
  unfold circle3_point, center3. intros U V W. set (u := bu (fb3 (cf3 c))) in *. set (v := bv (fb3 (cf3 c))) in *. set (o := org3 (cf3 c)). set (r := cr3 c).
  unfold to_2d. apply vec2_ext; cbn [x2 y2].
  - transitivity (r * cos t * dot3 u u + r * sin t * dot3 u v); [unfold dot3, add3, mul3; cbn [x3 y3 z3]; ring|rewrite U, W; ring].
  - transitivity (r * cos t * dot3 u v + r * sin t * dot3 v v); [unfold dot3, add3, mul3; cbn [x3 y3 z3]; ring|rewrite V, W; ring].
Qed.
Lemma circle3_of_2d c t : to_3d (V2 (cr3 c * cos t) (cr3 c * sin t)) (org3 (cf3 c)) (bu (fb3 (cf3 c))) (bv (fb3 (cf3 c))) = circle3_point c t.
Proof. unfold to_3d, circle3_point, center3, add3, mul3. cbn [x2 y2 x3 y3 z3]. f_equal; ring. Qed.
Lemma clockwise_interior3_spec c t1 t2 : 0 < cr3 c -> dot3 (bu (fb3 (cf3 c))) (bu (fb3 (cf3 c))) = 1 -> dot3 (bv (fb3 (cf3 c))) (bv (fb3 (cf3 c))) = 1 -> dot3 (bu (fb3 (cf3 c))) (bv (fb3 (cf3 c))) = 0 ->
  0 <= t1 < 2 * PI * (1 - / 10 ^ 9) -> 0 <= t2 < 2 * PI * (1 - / 10 ^ 9) ->
  exists delta, 0 < delta <= PI /\ circle3_point c t2 = circle3_point c (t1 - 2 * delta) /\ clockwise_interior3d (circle3_point c t1) (circle3_point c t2) c = circle3_point c (t1 - delta).
Proof.
  intros R U V W T1 T2. destruct (clockwise_interior_spec (cr3 c) t1 t2 R T1 T2) as (d & D & E & I). exists d. split; auto.
  assert (RC : forall x, rotate_clockwise (V2 (cr3 c * cos t1) (cr3 c * sin t1)) x = V2 (cr3 c * cos (t1 - x)) (cr3 c * sin (t1 - x))).
  { intros x. unfold rotate_clockwise. cbn [x2 y2]. rewrite cos_minus, sin_minus. f_equal; ring. }
  rewrite RC in E, I. split.
  - rewrite <- !circle3_of_2d, E. reflexivity.
  - unfold clockwise_interior3d. rewrite !circle3_to_2d by auto. rewrite I. apply circle3_of_2d.
Qed.
