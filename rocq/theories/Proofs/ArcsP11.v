(** Region between an arc and its chord: the membership test. *)
From Coq Require Import Reals Lra Lia List Bool ZArith.
From Verif.Model Require Import Base RBase Vec Frame BBox Geometry Curves Edges Arcs.
From Verif.Spec Require Import VecSpec FrameSpec AngleSpec BBoxSpec CurvesSpec EdgesSpec ArcsSpec.
From Verif.Proofs Require Import VecP LineP FrameP GeometryP BBoxP CurvesP CurvesP3 CurvesP4 CurvesP5 CurvesP6 CurvesP7 EdgesP EdgesP12 ArcsP ArcsP2 ArcsP3 ArcsP4 ArcsP8 ArcsP9 ArcsP10.
Import ListNotations.
Open Scope R_scope.

(** a point on the other side of the chord is reported inside *)
Lemma straight_belongs_wrong : exists a p, arc_ok a /\ ast a = V2 1 0 /\ aen a = V2 0 1 /\ center2 (ac a) = V2 0 0 /\ x2 p + y2 p < 1 / 2 /\ arc2_straight_line_point_belongs a p = Ok true.
Proof.
  pose proof PI_RGT_0 as PP. pose proof (pow10_inv_pos 6) as P6. pose proof (pow10_inv_pos 9) as P9. assert (S6 : / 10 ^ 6 < 1 / 100) by lra. exists QA, (V2 (1 / 10) (1 / 10)). split; [apply QA_ok|]. split; [reflexivity|]. split; [reflexivity|]. split; [reflexivity|]. split; [cbn [x2 y2]; lra|].
  set (p := V2 (1 / 10) (1 / 10)). set (c := center2 (ac QA)). assert (DP : 0 <= point_distance2 p c <= 2 / 10).
  { split; [apply norm2_pos|]. unfold point_distance2, norm2. replace (2 / 10) with (sqrt ((2 / 10) * (2 / 10))) by (apply sqrt_square; lra). apply sqrt_le_1_alt. unfold p, c, QA, UC, center2, O2D, sub2. cbn [ac cf2 org2 x2 y2]. lra. }
  unfold arc2_straight_line_point_belongs. fold c. destruct (belongs_iff QA p (/ 10 ^ 6) QA_ok ltac:(lra)) as (b & E & B). rewrite E. cbn [bind]. destruct b.
  { exfalso. destruct (proj1 B eq_refl) as [H _]. fold c in H. change (cr2 (ac QA)) with 1 in H. rewrite Rmax_right, Rabs_left1 in H by lra. lra. }
  assert (NE : eqb2 (ast QA) (aen QA) = false) by (unfold eqb2, QA; cbn [ast aen x2 y2]; rewrite (proj2 (Reqb_false 1 0)) by lra; auto). rewrite NE. cbn [andb].
  rewrite segment2_ok by (intros K; apply (f_equal x2) in K; cbn in K; lra). cbn [bind].
  assert (L : fst (c, p) <> snd (c, p)) by (cbn [fst snd]; intros K; apply (f_equal x2) in K; unfold c, p in K; cbn in K; lra).
  assert (DL : dist_to_line2 (c, p) (center2 (ac QA)) 0). { fold c. split; [exists 0|intros t; apply norm2_pos]. apply dist2_zero. unfold at_param2, add2, mul2. cbn [fst snd]. apply vec2_ext; cbn [x2 y2]; ring. }
  destruct (circle_line_through 1 (ac QA) (c, p) (/ 10 ^ 9) 0) as (q1 & q2 & EI & O1 & O2 & _ & _ & _ & ALL); auto; try (change (cr2 (ac QA)) with 1; lra); try lra.
  unfold arc2_line_intersections. rewrite EI. cbn [bind].
  destruct (filterM_total (fun p => arc2_point_belongs QA p (/ 10 ^ 6)) [q1; q2]) as (r & F); [intros; apply belongs_total; [apply QA_ok|lra]|]. rewrite F. cbn [bind].
  set (m := circle2_point UC (PI / 4)). assert (MO : on_circle2 (ac QA) m) by (apply circle2_point_on; [apply UC_ok|cbn; lra]).
  assert (ML : line2_has (c, p) m). { assert (C4 : cos (PI / 4) = sin (PI / 4)) by (rewrite cos_PI4, sin_PI4; auto). exists (10 * cos (PI / 4)). unfold m. rewrite UC_point, <- C4. unfold at_param2, add2, mul2, sub2, c, p, QA, UC, center2, O2D. cbn [fst snd ac cf2 org2 x2 y2]. apply vec2_ext; cbn [x2 y2]; field. }
  assert (MB : arc2_point_belongs QA m (/ 10 ^ 6) = Ok true). { apply belongs_complete; [apply QA_ok|lra|]. apply (arc_has_iff QA _ QA_ok). exists (PI / 4). split; [cbn; lra|reflexivity]. }
  assert (MI : In m r). { apply (filterM_spec _ _ _ F). split; auto. cbn [In]. pose proof (norm2_pos (sub2 m q1)). pose proof (norm2_pos (sub2 m q2)). destruct (ALL m ML MO) as [H'|H']; rewrite Rmult_0_r in H'; unfold point_distance2 in H'; [left|right; left]; symmetry; apply dist2_zero; unfold point_distance2; lra. }
  destruct r as [|q r]; [destruct MI|]. assert (QO : on_circle2 (ac QA) q). { pose proof (proj1 (filterM_spec _ _ _ F q) (or_introl eq_refl)) as [I _]. cbn [In] in I. destruct I as [<-|[<-|[]]]; auto. }
  rewrite (proj2 (Rltb_spec _ _)); auto. unfold on_circle2 in QO. rewrite (dist2_sym c q), (dist2_sym c p). fold c in QO. rewrite QO. change (cr2 (ac QA)) with 1. lra.
Qed.
