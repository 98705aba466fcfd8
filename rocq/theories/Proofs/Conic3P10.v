From Coq Require Import Reals Lra Lia List Bool ZArith.
From Verif.Model Require Import Base RBase Vec Frame BBox Geometry Plane Curves Ellipse Conic3.
From Verif.Spec Require Import VecSpec FrameSpec BBoxSpec PlaneSpec CurvesSpec EllipseSpec EllipseSpec2 ParamSurfSpec Conic3Spec.
From Verif.Proofs Require Import VecP LineP FrameP Conic3P3 Conic3P8 Conic3P9.
Import ListNotations.
Open Scope R_scope.

Lemma six_small : 0 < / 10 ^ 6 < / 100000. Proof. assert (/ 10 ^ 6 = / 1000000) by (f_equal; ring). lra. Qed.
Lemma nine_small : 0 < / 10 ^ 9 < / 100000. Proof. assert (/ 10 ^ 9 = / 1000000000) by (f_equal; ring). lra. Qed.
(** an upright circle, a line of its plane, a line that crosses its plane at one of its points *)
Lemma upright_example : exists c l m q, upright (cf3 c) /\ direct (fb3 (cf3 c)) /\ cr3 c = 1 /\ fst l <> snd l /\ flat_or_steep l (z3 (center3 c)) /\ on_line3 l q /\
  fst m <> snd m /\ flat_or_steep m (z3 (center3 c)) /\ on_line3 m q /\ on_circle3 c q /\ z3 (fst m) <> z3 (snd m) /\ / 10 ^ 3 <= axis_distance (cf3 c) (V3 3 0 5).
Proof.
  pose proof six_small as S6. exists (C3 (F3 (V3 0 0 2) (B3 (V3 1 0 0) (V3 0 1 0) (V3 0 0 1))) 1), (V3 (-2) 0 2, V3 2 0 2), (V3 0 0 0, V3 1 0 2), (V3 1 0 2).
  split; [left; reflexivity|]. split; [exact local_direct|]. split; [reflexivity|]. split; [cbn; intro K; injection K as K; lra|]. split; [left; split; reflexivity|]. split; [exists (3 / 4); unfold add3, mul3, sub3; cbn; f_equal; field|].
  split; [cbn; intro K; injection K as K; lra|]. split; [right; cbn [fst snd z3]; rewrite Rminus_0_r, Rabs_R0, !Rabs_right by lra; lra|]. split; [exists 1; unfold add3, mul3, sub3; cbn; f_equal; ring|]. split.
  - split; [unfold point_distance3, norm3, sub3, center3; cbn; rewrite <- sqrt_1; f_equal; rewrite sqrt_1; ring|unfold dot3, sub3, center3; cbn; ring].
  - split; [cbn; lra|]. rewrite ParamSurfP2.axis_coords by exact local_direct. unfold ParamSurfP.rho, ParamSurfP.coords, dot3, sub3. cbn [cf3 org3 fb3 bu bv bw x3 y3 z3].
    match goal with |- _ <= sqrt ?x => replace x with (3 * 3) by ring end. rewrite sqrt_square by lra. assert (/ 10 ^ 3 = / 1000) by (f_equal; ring). lra.
Qed.
Definition stand : frame3 := F3 (V3 1 2 3) (B3 (V3 1 0 0) (V3 0 0 1) (V3 0 (-1) 0)).
Lemma stand_direct : direct (fb3 stand).
Proof. unfold direct, orthonormal, stand, dot3, cross3. cbn. repeat split; try ring. f_equal; ring. Qed.
Lemma clean_int a b c : (a = 0 \/ 1 <= Rabs a) -> (b = 0 \/ 1 <= Rabs b) -> (c = 0 \/ 1 <= Rabs c) -> clean3 (V3 a b c).
Proof.
  assert (E : eps <= 1). { unfold eps. assert (H : / 10 ^ 16 <= / 10 ^ 0) by (apply ParamSurfP.pow10_le; lia). cbn [pow] in H. rewrite Rinv_1 in H. exact H. }
  intros A B C. assert (W : forall x, x = 0 \/ 1 <= Rabs x -> x = 0 \/ eps <= Rabs x) by (intros x [K|K]; [left; exact K|right; lra]). apply W in A, B, C. unfold clean3. cbn [x3 y3 z3]. exact (conj A (conj B C)).
Qed.
(** an inclined circle and ellipse, a line of their plane and a line that crosses it *)
Lemma inclined_example : exists c e l p q m p' q' r1 r2, inclined (cf3 c) (/ 10 ^ 6) /\ direct (fb3 (cf3 c)) /\ cr3 c = 2 /\ ef3 e = cf3 c /\ emaj3 e = 2 /\ emin3 e = 1 /\
  l = (frame_point (cf3 c) p, frame_point (cf3 c) q) /\ clean3 p /\ clean3 q /\ p <> q /\ z3 p = 0 /\ z3 q = 0 /\ slanted p q /\ flat_or_steep (p, q) 0 /\
  m = (frame_point (cf3 c) p', frame_point (cf3 c) q') /\ clean3 p' /\ clean3 q' /\ p' <> q' /\ / 10 ^ 6 < Rabs (z3 q' - z3 p') /\ flat_or_steep (p', q') 0 /\
  on_line3 l r1 /\ on_ellipse3 e r1 /\ on_circle3 c r1 /\ on_line3 l r2 /\ on_ellipse3 e r2 /\ on_circle3 c r2 /\ r1 <> r2 /\ on_line3 m r1.
Proof.
  pose proof six_small as S6. pose proof nine_small as S9. set (p := V3 (-4) 0 0). set (q := V3 4 0 0). set (p' := V3 0 0 (-1)). set (q' := V3 4 0 1).
  exists (C3 stand 2), (E3 2 1 stand), (frame_point stand p, frame_point stand q), p, q, (frame_point stand p', frame_point stand q'), p', q', (V3 3 2 3), (V3 (-1) 2 3).
  assert (C0 : 0 = 0 \/ 1 <= Rabs 0) by (left; reflexivity). assert (C4 : 4 = 0 \/ 1 <= Rabs 4) by (right; rewrite Rabs_right; lra). assert (Cm4 : -4 = 0 \/ 1 <= Rabs (-4)) by (right; rewrite Rabs_left; lra).
  assert (C1 : 1 = 0 \/ 1 <= Rabs 1) by (right; rewrite Rabs_right; lra). assert (Cm1 : -1 = 0 \/ 1 <= Rabs (-1)) by (right; rewrite Rabs_left; lra).
  split; [unfold inclined, stand; cbn [cf3 fb3 bw z3]; rewrite Rabs_R0; lra|]. split; [exact stand_direct|]. repeat (split; [reflexivity|]).
  split; [apply clean_int; assumption|]. split; [apply clean_int; assumption|]. split; [intro K; injection K as K; lra|]. split; [reflexivity|]. split; [reflexivity|].
  split; [right; cbn [x3 p q]; rewrite (Rabs_right (4 - -4)), (Rabs_left (-4)), (Rabs_right 4) by lra; lra|]. split; [left; split; reflexivity|]. split; [reflexivity|].
  split; [apply clean_int; assumption|]. split; [apply clean_int; assumption|]. split; [intro K; injection K as K; lra|].
  split; [cbn [z3 p' q']; rewrite Rabs_right by lra; lra|]. split; [right; cbn [fst snd z3 p' q']; rewrite (Rabs_right (1 - -1)), (Rabs_left (-1)), (Rabs_right 1) by lra; lra|].
  assert (L : forall a (_ : R), on_line3 (frame_point stand p, frame_point stand q) (V3 a 2 3) <-> True) by (intros a _; split; [auto|intros _; exists ((a + 3) / 8); unfold frame_point, basis_vector, stand, p, q, add3, mul3, sub3; cbn; f_equal; field]).
  assert (Ci : forall a, (a - 1) * (a - 1) = 2 * 2 -> on_circle3 (C3 stand 2) (V3 a 2 3)).
  { intros a H. split; [unfold point_distance3, norm3, sub3, center3, stand; cbn [cf3 org3 cr3 x3 y3 z3]; replace ((a - 1) * (a - 1) + (2 - 2) * (2 - 2) + (3 - 3) * (3 - 3)) with (2 * 2) by lra; apply sqrt_square; lra|unfold dot3, sub3, center3, stand; cbn; ring]. }
  split; [apply (proj2 (L 3 0) Logic.I)|]. split; [exists 0; unfold ellipse3_point, stand, add3, mul3; rewrite cos_0, sin_0; cbn; f_equal; ring|]. split; [apply Ci; ring|].
  split; [apply (proj2 (L (-1) 0) Logic.I)|]. split; [exists PI; unfold ellipse3_point, stand, add3, mul3; rewrite cos_PI, sin_PI; cbn; f_equal; ring|]. split; [apply Ci; ring|]. split; [intro K; injection K as K; lra|].
  exists (/ 2). unfold frame_point, basis_vector, stand, p', q', add3, mul3, sub3. cbn. f_equal; field.
Qed.
(** a horizontal ellipse and a horizontal line at another height *)
Lemma conic_above e l tol : upright (ef3 e) -> 0 <= tol -> z3 (fst l) = z3 (snd l) -> tol < Rabs (z3 (fst l) - z3 (org3 (ef3 e))) -> ellipse3_line_intersections e l tol = Ok [].
Proof.
  intros U T Z H. unfold ellipse3_line_intersections. cbn [ellipse3_line_loop].
  assert (HZ : horizontal (ef3 e) tol = true).
  { unfold horizontal. replace (Rabs (dot3 (bw (fb3 (ef3 e))) Z3D)) with 1. { unfold isclose. apply Rleb_spec. replace (1 - 1) with 0 by ring. rewrite Rabs_R0. eapply Rle_trans; [exact T|apply Rmax_r]. }
    destruct U as [-> | ->]; unfold dot3, Z3D; cbn [x3 y3 z3]; [replace (0 * 0 + 0 * 0 + 1 * 1) with 1 by ring; now rewrite Rabs_R1|replace (0 * 0 + 0 * 0 + -1 * 1) with (-1) by ring; rewrite Rabs_left by lra; ring]. }
  rewrite HZ. cbn [negb]. rewrite (proj2 (Rleb_false (Rabs (z3 (fst l) - z3 (org3 (ef3 e)))) tol)) by lra. rewrite andb_false_r.
  unfold plane_line_intersections. cbv zeta. replace (dot3 (bw (fb3 (ef3 e))) (sub3 (snd l) (fst l))) with 0.
  - rewrite (proj2 (isclose_0 0 (/ 10 ^ 6) ltac:(left; apply pow10_inv_pos))); [reflexivity|]. rewrite Rabs_R0. left. apply pow10_inv_pos.
  - destruct U as [-> | ->]; unfold dot3, Z3D, sub3; cbn [x3 y3 z3]; rewrite Z; ring.
Qed.
