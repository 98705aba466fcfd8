(** Arc through three points, moved arcs; where the code departs from the description. *)
From Coq Require Import Reals Lra Lia List Bool ZArith.
From Verif.Model Require Import Base RBase Vec Frame BBox Geometry Curves Edges Arcs.
From Verif.Spec Require Import VecSpec FrameSpec AngleSpec CurvesSpec ArcsSpec.
From Verif.Proofs Require Import VecP LineP FrameP GeometryP CurvesP CurvesP3 CurvesP4 CurvesP5 CurvesP6 CurvesP7 EdgesP ArcsP ArcsP2 ArcsP3.
Import ListNotations.
Open Scope R_scope.

(** three points *)
Lemma three_points_aligned p1 p2 p3 : det3p p1 p2 p3 = 0 -> arc2_from_3_points p1 p2 p3 = Err ValueError.
Proof. intros D. unfold arc2_from_3_points. rewrite (proj1 (circle_3_points_err p1 p2 p3 true) D). auto. Qed.
Lemma three_points_circle p1 p2 p3 c : det3p p1 p2 p3 <> 0 -> circle2_from_3_points p1 p2 p3 true = Ok c ->
  circle_ok c /\ on_circle2 c p1 /\ on_circle2 c p2 /\ on_circle2 c p3 /\ p1 <> p3.
Proof.
  intros D E. destruct (circle_3_points_ok p1 p2 p3 true D) as (c' & E' & O1 & O2 & O3 & OB). rewrite E in E'. apply Ok_inj in E'. subst c'.
  assert (N : p1 <> p3) by (intros ->; apply D; unfold det3p, cross2, sub2; cbn [x2 y2]; ring). split; [|auto]. split; auto.
  assert (P : 0 <= cr2 c) by (rewrite <- O1; apply norm2_pos). destruct (Req_dec (cr2 c) 0) as [Z|]; [|lra]. exfalso. apply N. unfold on_circle2 in O1, O3. rewrite Z in O1, O3. apply dist2_zero in O1, O3. congruence.
Qed.
Lemma three_points_ok p1 p2 p3 c : det3p p1 p2 p3 <> 0 -> circle2_from_3_points p1 p2 p3 true = Ok c ->
  regular c p1 -> regular c p3 -> regular (circle2_reverse c) p1 -> regular (circle2_reverse c) p3 ->
  exists a, arc2_from_3_points p1 p2 p3 = Ok a /\ arc_ok a /\ ast a = p1 /\ aen a = p3 /\ center2 (ac a) = center2 c /\ on_circle2 (ac a) p1 /\ on_circle2 (ac a) p2 /\ on_circle2 (ac a) p3 /\
  (arc_has (ac a) (ast a) (aen a) p2 \/ point_distance2 p2 p1 <= / 10 ^ 6 \/ point_distance2 p2 p3 <= / 10 ^ 6).
Proof.
  intros D E R1 R3 R1' R3'. destruct (three_points_circle _ _ _ _ D E) as (C & O1 & O2 & O3 & N). unfold arc2_from_3_points. rewrite E. cbn [bind].
  destruct (arc_new_ok _ _ _ C R1 R3) as (a & -> & A1 & A2 & A3 & A). cbn [bind]. pose proof (pow10_inv_pos 6) as P6.
  assert (O2a : on_circle2 (ac a) p2) by (rewrite A1; auto). destruct (belongs_on_circle a p2 (/ 10 ^ 6) A ltac:(lra) O2a) as (b & -> & B). cbn [bind]. destruct b.
  - exists a. split; auto. split; auto. split; auto. split; auto. rewrite A2, A3 in *. rewrite A1 in *. repeat (split; [auto|]). apply B. auto.
  - pose proof (reverse_ok _ C) as CR. destruct (arc_new_ok _ _ _ CR R1' R3') as (b & -> & B1 & B2 & B3 & BO). exists b. split; auto. split; auto. split; auto. split; auto. rewrite B1. split; auto. split; auto. split; auto. split; auto. left. rewrite B2, B3.
    apply reverse_has; auto. assert (NS : ast a <> aen a) by (rewrite A2, A3; auto). destruct (complementary_arc a A NS) as (a' & _ & _ & X1 & X2 & X3 & _ & CO & _). rewrite X1, X2, X3, A1, A2, A3 in CO.
    destruct (CO p2 O2) as [H|H]; auto. exfalso. rewrite A1, A2, A3 in B. assert (Q : false = true) by (apply B; auto). discriminate.
Qed.
(** translated and rotated arcs *)
Lemma translation_circle_point c o t : circle2_point (circle2_translation c o) t = add2 (circle2_point c t) o.
Proof. unfold circle2_point, circle2_translation, frame2_translation, center2, translation2. cbn [cf2 cr2 org2 fb2]. unfold add2, mul2. apply vec2_ext; cbn [x2 y2]; ring. Qed.
Lemma translation_arc a o : arc_ok a -> exists b, arc2_translation a o = Ok b /\ arc_ok b /\ ast b = add2 (ast a) o /\ aen b = add2 (aen a) o /\ arc2_is_trigo b = arc2_is_trigo a /\ arc2_length b = arc2_length a /\
  forall p, arc_has (ac b) (ast b) (aen b) (add2 p o) <-> arc_has (ac a) (ast a) (aen a) p.
Proof.
  intros A. pose proof A as (C & (t1 & T1 & E1) & (t2 & T2 & E2) & _). set (c := circle2_translation (ac a) o). assert (CC : circle_ok c) by (destruct C; split; auto).
  assert (R1 : regular c (add2 (ast a) o)) by (exists t1; split; auto; unfold c; rewrite translation_circle_point, <- E1; auto).
  assert (R2 : regular c (add2 (aen a) o)) by (exists t2; split; auto; unfold c; rewrite translation_circle_point, <- E2; auto).
  destruct (arc_new_ok _ _ _ CC R1 R2) as (b & E & B1 & B2 & B3 & B). exists b. split; [exact E|]. split; auto. split; auto. split; auto. split; [unfold arc2_is_trigo; rewrite B1; reflexivity|].
  assert (INJ : forall p q, add2 p o = add2 q o <-> p = q). { intros p q. split; [|intros ->; auto]. intros H. pose proof (f_equal x2 H) as X. pose proof (f_equal y2 H) as Y. unfold add2 in X, Y. cbn [x2 y2] in X, Y. apply vec2_ext; lra. }
  split.
  - destruct (angle_ok a A) as [G ->]. destruct (angle_ok b B) as [G' ->]. rewrite B1, B2, B3 in G'. destruct G' as (u & U & V & W). unfold c in U, V. rewrite translation_circle_point in U, V. apply (proj1 (INJ _ _)) in U, V.
    assert (G' : arc_angle (ac a) (ast a) (aen a) (arc2_angle b)) by (exists u; auto). rewrite (arc_angle_unique _ _ _ _ _ C G' G), B1. auto.
  - intros p. rewrite B1, B2, B3. unfold arc_has. split; intros (u & v & t & U & V & W & T & P); exists u, v, t.
    + unfold c in U, V, P. rewrite translation_circle_point in U, V, P. apply (proj1 (INJ _ _)) in U, V, P. tauto.
    + unfold c. rewrite !translation_circle_point, <- U, <- V, <- P. tauto.
Qed.
(** witnesses *)
Definition UC := C2 (F2 O2D (B2 (V2 1 0) (V2 0 1))) 1.
Definition CW := C2 (F2 O2D (B2 (V2 1 0) (V2 0 (-1)))) 1.
Lemma UC_ok : circle_ok UC. Proof. split; cbn; [|lra]. unfold orthonormal2, dot2. cbn. repeat split; ring. Qed.
Lemma CW_ok : circle_ok CW. Proof. split; cbn; [|lra]. unfold orthonormal2, dot2. cbn. repeat split; ring. Qed.
Lemma UC_point t : circle2_point UC t = V2 (cos t) (sin t).
Proof. unfold circle2_point, UC, center2, O2D, add2, mul2. cbn [cf2 cr2 org2 fb2 u2 v2 x2 y2]. apply vec2_ext; cbn [x2 y2]; ring. Qed.
Lemma CW_point t : circle2_point CW t = V2 (cos t) (- sin t).
Proof. unfold circle2_point, CW, center2, O2D, add2, mul2. cbn [cf2 cr2 org2 fb2 u2 v2 x2 y2]. apply vec2_ext; cbn [x2 y2]; ring. Qed.
Lemma pi_regular t : 0 <= t <= 3 / 2 * PI -> 0 <= t < 2 * PI * (1 - / 10 ^ 9).
Proof. intros T. pose proof PI_RGT_0. pose proof (pow10_inv_pos 9). assert (/ 10 ^ 9 < / 5) by (apply Rinv_lt_contravar; lra). split; [lra|]. nra. Qed.
Lemma arc_from_angles c t1 t2 : circle_ok c -> 0 <= t1 <= 3 / 2 * PI -> 0 <= t2 <= 3 / 2 * PI -> t1 < t2 -> arc_ok (A2 c (circle2_point c t1) (circle2_point c t2) t1 t2).
Proof.
  intros C T1 T2 L. apply pi_regular in T1, T2. split; auto. cbn [ac ast aen]. split; [exists t1; auto|]. split; [exists t2; auto|]. unfold arc2_new. rewrite !point_angle_ok by auto. cbn [bind].
  destruct (Rleb t2 t1) eqn:Q; auto. rb. lra.
Qed.
Definition QA := A2 UC (V2 1 0) (V2 0 1) 0 (PI / 2).
Lemma QA_ok : arc_ok QA.
Proof. pose proof PI_RGT_0. pose proof (arc_from_angles UC 0 (PI / 2) UC_ok ltac:(lra) ltac:(lra) ltac:(lra)) as A. rewrite !UC_point, cos_0, sin_0, cos_PI2, sin_PI2 in A. exact A. Qed.
Definition QC := A2 CW (V2 1 0) (V2 0 (-1)) 0 (PI / 2).
Lemma QC_ok : arc_ok QC.
Proof. pose proof PI_RGT_0. pose proof (arc_from_angles CW 0 (PI / 2) CW_ok ltac:(lra) ltac:(lra) ltac:(lra)) as A. rewrite !CW_point, cos_0, sin_0, cos_PI2, sin_PI2, Ropp_0 in A. exact A. Qed.
Definition HA := A2 UC (V2 1 0) (V2 (-1) 0) 0 PI.
Lemma HA_ok : arc_ok HA.
Proof. pose proof PI_RGT_0. pose proof (arc_from_angles UC 0 PI UC_ok ltac:(lra) ltac:(lra) ltac:(lra)) as A. rewrite !UC_point, cos_0, sin_0, cos_PI, sin_PI in A. exact A. Qed.
(** belongs is not a test at the tolerance *)
Lemma belongs_wrong : exists a p, arc_ok a /\ cr2 (ac a) = 1 /\ arc2_point_belongs a p (/ 10 ^ 6) = Ok true /\ forall q, arc_has (ac a) (ast a) (aen a) q -> 4 / 1000 <= point_distance2 p q.
Proof.
  pose proof PI_RGT_0 as PP. pose proof (pow10_inv_pos 6) as P6. exists QA. set (p := add2 (center2 UC) (ray UC (PI / 4) (1004 / 1000))). exists p. split; [apply QA_ok|]. split; [reflexivity|].
  assert (SP : sub2 p (center2 UC) = ray UC (PI / 4) (1004 / 1000)) by (unfold p, sub2, add2; apply vec2_ext; cbn [x2 y2]; ring).
  assert (DP : point_distance2 p (center2 UC) = 1004 / 1000) by (unfold point_distance2; rewrite SP, ray_norm by (try apply UC_ok; lra); cbn; ring). split.
  - destruct (belongs_iff QA p (/ 10 ^ 6) QA_ok ltac:(lra)) as (b & -> & B). f_equal. apply B. cbn [QA ac UC cr2]. fold UC. rewrite DP. split; [rewrite (Rabs_pos_eq (1004 / 1000 - 1)), (Rmax_left (1004 / 1000) 1) by lra; lra|].
    right. right. apply (seen_inside_ray QA (PI / 4) (1004 / 1000)); [cbn; lra|lra|exact SP].
  - intros q H. apply (has_seen QA q QA_ok) in H as [O _]. unfold on_circle2 in O. change (point_distance2 q (center2 UC) = 1) in O. pose proof (dist2_triangle p q (center2 UC)) as T. rewrite DP in T. rewrite O in T. lra.
Qed.
Lemma direction_wrong : exists a d, arc_ok a /\ arc2_direction_vector a 0 = Ok d /\ velocity (arc2_at a) 0 (neg2 d) /\ norm2 d = 1.
Proof.
  destruct (direction_ok QC 0 QC_ok) as (d & E & N & V). exists QC, d. split; [apply QC_ok|]. split; auto. split; [|exact N].
  assert (T : arc2_is_trigo QC = false) by (unfold arc2_is_trigo, circle2_is_trigo, QC, CW, cross2; cbn; apply Rltb_false; lra). rewrite T in V. replace (neg2 d) with (mul2 d (-1 / cr2 (ac QC))); auto. unfold neg2, mul2. cbn [QC CW ac cr2]. apply vec2_ext; cbn [x2 y2]; field.
Qed.
