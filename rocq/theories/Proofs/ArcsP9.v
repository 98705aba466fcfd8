(** Bounding rectangle and intersections of arcs. *)
From Coq Require Import Reals Lra Lia List Bool ZArith.
From Verif.Model Require Import Base RBase Vec Frame BBox Geometry Curves Edges Arcs.
From Verif.Spec Require Import VecSpec FrameSpec AngleSpec CurvesSpec ArcsSpec.
From Verif.Proofs Require Import VecP LineP FrameP GeometryP BBoxP CurvesP CurvesP3 CurvesP4 CurvesP5 CurvesP6 CurvesP7 EdgesP ArcsP ArcsP2 ArcsP3 ArcsP4 ArcsP8.
Import ListNotations.
Open Scope R_scope.

Lemma fold_min_map (f : vec2 -> R) p l : (forall q, In q (p :: l) -> fold_left Rmin (map f l) (f p) <= f q) /\ exists q, In q (p :: l) /\ fold_left Rmin (map f l) (f p) = f q.
Proof.
  destruct (fold_min_le (map f l) (f p)) as [A B]. split.
  - intros q [<-|I]; auto. apply B, in_map; auto.
  - destruct (fold_min_in (map f l) (f p)) as [E|E]; [exists p; split; [left|]; auto|]. apply in_map_iff in E as (q & Q & I). exists q. split; [right; auto|auto].
Qed.
Lemma fold_max_map (f : vec2 -> R) p l : (forall q, In q (p :: l) -> f q <= fold_left Rmax (map f l) (f p)) /\ exists q, In q (p :: l) /\ fold_left Rmax (map f l) (f p) = f q.
Proof.
  destruct (fold_max_le (map f l) (f p)) as [A B]. split.
  - intros q [<-|I]; auto. apply B, in_map; auto.
  - destruct (fold_max_in (map f l) (f p)) as [E|E]; [exists p; split; [left|]; auto|]. apply in_map_iff in E as (q & Q & I). exists q. split; [right; auto|auto].
Qed.
Lemma rectangle_samples a : arc_ok a -> exists l r, arc2_discretization a (Some 20%Z) (Some 20%Z) = Ok l /\ arc2_bounding_rectangle a = Ok r /\
  (forall q, In q l -> rxmin r <= x2 q <= rxmax r /\ rymin r <= y2 q <= rymax r) /\
  (exists q, In q l /\ rxmin r = x2 q) /\ (exists q, In q l /\ rxmax r = x2 q) /\ (exists q, In q l /\ rymin r = y2 q) /\ (exists q, In q l /\ rymax r = y2 q).
Proof.
  intros A. destruct (discretization_spec a (Some 20%Z) (Some 20%Z) A) as (l & E & L & _); [rewrite number_points_given; lia|]. exists l. unfold arc2_bounding_rectangle. rewrite E. cbn [bind]. rewrite number_points_given in L by lia. destruct l as [|p l]; [cbn in L; lia|]. eexists. split; [reflexivity|]. split; [reflexivity|]. cbn [rxmin rxmax rymin rymax].
  destruct (fold_min_map x2 p l) as [A1 B1]. destruct (fold_max_map x2 p l) as [A2 B2]. destruct (fold_min_map y2 p l) as [A3 B3]. destruct (fold_max_map y2 p l) as [A4 B4]. split; [intros q I; split; split; auto|]. auto.
Qed.
(** the rectangle contains both ends and is inside the rectangle of the circle, each side being reached by the arc *)
Lemma rectangle_ok a : arc_ok a -> exists r, arc2_bounding_rectangle a = Ok r /\
  (rxmin r <= x2 (ast a) <= rxmax r /\ rymin r <= y2 (ast a) <= rymax r) /\ (rxmin r <= x2 (aen a) <= rxmax r /\ rymin r <= y2 (aen a) <= rymax r) /\
  (exists q, arc_has (ac a) (ast a) (aen a) q /\ rxmin r = x2 q) /\ (exists q, arc_has (ac a) (ast a) (aen a) q /\ rxmax r = x2 q) /\
  (exists q, arc_has (ac a) (ast a) (aen a) q /\ rymin r = y2 q) /\ (exists q, arc_has (ac a) (ast a) (aen a) q /\ rymax r = y2 q).
Proof.
  intros A. destruct (rectangle_samples a A) as (l & r & E & RR & IN & X1 & X2 & Y1 & Y2). exists r. split; auto. destruct (discretization_spec a (Some 20%Z) (Some 20%Z) A) as (l' & E' & L & _ & LA & HD & ON & _); [rewrite number_points_given; lia|]. rewrite E in E'. apply Ok_inj in E'. subst l'. rewrite number_points_given in L by lia.
  assert (NE : l <> []) by (intros ->; cbn in L; lia). split; [apply IN; destruct l; [tauto|]; cbn in HD; injection HD as ->; left; auto|]. split; [apply IN; rewrite <- LA; apply app_removelast_last with (d := aen a) in NE; rewrite NE at 2; apply in_or_app; right; left; auto|].
  repeat split; [destruct X1 as (q & I & Q)|destruct X2 as (q & I & Q)|destruct Y1 as (q & I & Q)|destruct Y2 as (q & I & Q)]; exists q; auto.
Qed.
(** a half circle: the samples miss the top *)
Lemma pi_low : 3 < PI. Proof. pose proof PI2_3_2. lra. Qed.
Lemma HA_samples q l : arc2_discretization HA (Some 20%Z) (Some 20%Z) = Ok l -> In q l -> y2 q <= 998 / 1000.
Proof.
  intros E I. destruct (discretization_ok HA (Some 20%Z) (Some 20%Z) HA_ok) as (l' & E' & L & G); [rewrite number_points_given; lia|]. rewrite E in E'. apply Ok_inj in E'. subst l'. rewrite number_points_given in L by lia. assert (LL : length l = 20%nat) by lia.
  apply In_nth with (d := q) in I as (i & I & <-). rewrite G by auto. rewrite LL in *. change (ac HA) with UC. rewrite UC_point. cbn [y2]. unfold arc2_angle. change (ang1 HA) with 0. change (ang2 HA) with PI. replace (0 + INR i / (INR 20 - 1) * (PI - 0)) with (INR i * PI / 19) by (cbn [INR]; field). pose proof PI_RGT_0 as PP.
  assert (B : sin (INR i * PI / 19) <= cos (PI / 38)).
  { rewrite <- sin_shift. assert (C : (i <= 9 \/ 10 <= i)%nat) by lia. assert (I2 : 0 <= INR i) by apply pos_INR. assert (I3 : INR i <= 19) by (replace 19 with (INR 19) by (cbn; ring); apply le_INR; lia). destruct C as [C|C]; apply le_INR in C; cbn [INR] in C.
    - assert (0 <= INR i * PI <= 9 * PI) by (split; [apply Rmult_le_pos; lra|apply Rmult_le_compat_r; lra]). apply sin_incr_1; lra.
    - assert (10 * PI <= INR i * PI <= 19 * PI) by (split; apply Rmult_le_compat_r; lra). replace (INR i * PI / 19) with (PI - (PI - INR i * PI / 19)) by ring. replace (sin (PI - (PI - INR i * PI / 19))) with (sin (PI - INR i * PI / 19)); [apply sin_incr_1; lra|]. symmetry. apply sin_PI_x. }
  eapply Rle_trans; [exact B|]. clear B. pose proof pi_low as PL. pose proof PI_4 as PH. assert (X : 3 / 38 <= PI / 38 <= 4 / 38) by lra. set (x := PI / 38) in *. clearbody x. destruct (cos_bound x 0) as [_ U]; [lra|lra|]. assert (U' : cos x <= 1 - x * x / 2 + x * x * (x * x) / 24).
  { eapply Rle_trans; [exact U|]. unfold cos_approx, cos_term. cbn [sum_f_R0 Nat.mul Nat.add fact pow]. cbn [INR]. apply Req_le. field. }
  assert (W : 9 / 1444 <= x * x <= 16 / 1444) by nra. set (w := x * x) in *. clearbody w. nra.
Qed.
