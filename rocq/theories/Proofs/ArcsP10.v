(** Intersections of arcs: what is returned and what is missed. *)
From Coq Require Import Reals Lra Lia List Bool ZArith.
From Verif.Model Require Import Base RBase Vec Frame BBox Geometry Curves Edges Arcs.
From Verif.Spec Require Import VecSpec FrameSpec AngleSpec BBoxSpec CurvesSpec EdgesSpec ArcsSpec.
From Verif.Proofs Require Import VecP LineP FrameP GeometryP BBoxP CurvesP CurvesP3 CurvesP4 CurvesP5 CurvesP6 CurvesP7 EdgesP EdgesP12 ArcsP ArcsP2 ArcsP3 ArcsP4 ArcsP8 ArcsP9.
Import ListNotations.
Open Scope R_scope.

Lemma top_on : arc_has (ac HA) (ast HA) (aen HA) (V2 0 1).
Proof. pose proof PI_RGT_0. apply (arc_has_iff HA _ HA_ok). exists (PI / 2). cbn [ang1 ang2 HA]. split; [lra|]. change (ac HA) with UC. rewrite UC_point, cos_PI2, sin_PI2. auto. Qed.
Lemma rectangle_wrong : exists a p r, arc_ok a /\ arc_has (ac a) (ast a) (aen a) p /\ arc2_bounding_rectangle a = Ok r /\ rymax r + 2 / 1000 <= y2 p.
Proof.
  destruct (rectangle_samples HA HA_ok) as (l & r & E & RR & IN & _ & _ & _ & (q & I & Q)). exists HA, (V2 0 1), r. split; [apply HA_ok|]. split; [apply top_on|]. split; auto. rewrite Q. cbn [y2]. pose proof (HA_samples q l E I). lra.
Qed.
Lemma linesegment_missed : exists a s p, arc_ok a /\ arc_has (ac a) (ast a) (aen a) p /\ on_segment2 s p /\ arc2_linesegment_intersections a s (/ 10 ^ 6) = Ok [].
Proof.
  destruct (rectangle_samples HA HA_ok) as (l & r & E & RR & IN & (q0 & I0 & Q0) & (q1 & I1 & Q1) & (q2 & I2 & Q2) & (q & I & Q)). exists HA, (V2 0 (999 / 1000), V2 0 2), (V2 0 1). split; [apply HA_ok|]. split; [apply top_on|].
  split; [exists (/ 1001); split; [lra|]; unfold at_param2, add2, mul2, sub2; cbn [fst snd x2 y2]; apply vec2_ext; cbn [x2 y2]; field|].
  unfold arc2_linesegment_intersections. rewrite RR. cbn [bind]. pose proof (HA_samples q l E I) as H. rewrite <- Q in H. assert (P6 : / 10 ^ 6 < / 1000) by (apply Rinv_lt_contravar; lra).
  assert (VR : valid_rect r) by (destruct (IN _ I0); split; lra). assert (VS : valid_rect (sg2_rectangle (V2 0 (999 / 1000), V2 0 2))) by (unfold sg2_rectangle; split; cbn [rxmin rxmax rymin rymax fst snd x2 y2]; [rewrite Rmin_left, Rmax_left by lra|rewrite Rmin_left, Rmax_right by lra]; lra).
  destruct (rect_distance_min r _ VR VS) as [(a & b & A & B & D) _]. assert (L : / 1000 <= rect_distance r (sg2_rectangle (V2 0 (999 / 1000), V2 0 2))).
  { rewrite <- D. destruct A as [_ A]. destruct B as [_ B]. unfold sg2_rectangle in B. cbn [rymin rymax fst snd x2 y2] in B. rewrite Rmin_left, Rmax_right in B by lra. eapply Rle_trans; [|apply (proj2 (coord_dist a b))]. rewrite Rabs_left1 by lra. lra. }
  rewrite (proj2 (Rltb_spec _ _)) by lra. auto.
Qed.
(** filters *)
Lemma filterM_spec {A} (f : A -> res bool) l r : filterM f l = Ok r -> forall p, In p r <-> In p l /\ f p = Ok true.
Proof.
  revert r. induction l as [|a l IH]; cbn [filterM]; intros r E p; [apply Ok_inj in E; subst; cbn; tauto|]. destruct (f a) as [b|e] eqn:F; cbn [bind] in E; [|discriminate]. destruct (filterM f l) as [r'|e]; cbn [bind] in E; [|discriminate]. apply Ok_inj in E. specialize (IH r' eq_refl p). destruct b; subst r; cbn [In]; rewrite IH; split.
  - intros [<-|H]; tauto.
  - intros [[<-|H] G]; tauto.
  - tauto.
  - intros [[<-|H] G]; [congruence|tauto].
Qed.
Lemma filterM_total {A} (f : A -> res bool) l : (forall a, In a l -> exists b, f a = Ok b) -> exists r, filterM f l = Ok r.
Proof. induction l as [|a l IH]; intros H; cbn [filterM]; [eauto|]. destruct (H a) as [b ->]; [left; auto|]. destruct IH as [r ->]; [intros; apply H; right; auto|]. cbn [bind]. eauto. Qed.
Lemma belongs_total a p tol : arc_ok a -> 0 <= tol -> exists b, arc2_point_belongs a p tol = Ok b.
Proof. intros A T. destruct (belongs_iff a p tol A T) as (b & E & _). eauto. Qed.
(** what the tolerance adds for a point of the circle *)
Definition near_end (a : arc2) (tol : R) (p : vec2) : Prop := point_distance2 p (ast a) <= tol \/ point_distance2 p (aen a) <= tol.
Lemma line_secant a l d : arc_ok a -> fst l <> snd l -> center2 (ac a) = O2D \/ / 10 ^ 6 < point_distance2 (center2 (ac a)) O2D ->
  dist_to_line2 l (center2 (ac a)) d -> / 10 ^ 6 < d -> d * d + / 10 ^ 6 < cr2 (ac a) * cr2 (ac a) ->
  exists r, arc2_line_intersections a l = Ok r /\ forall p, In p r <-> line2_has l p /\ on_circle2 (ac a) p /\ (arc_has (ac a) (ast a) (aen a) p \/ point_distance2 p (ast a) <= / 10 ^ 6 \/ point_distance2 p (aen a) <= / 10 ^ 6).
Proof.
  intros A L CO D D1 D2. pose proof A as ([O R] & _). pose proof (pow10_inv_pos 6) as P6. pose proof (pow10_inv_pos 9) as P9. destruct (circle_line_secant (ac a) l (/ 10 ^ 9) d O ltac:(lra) ltac:(lra) L CO D D1 D2) as (p & q & E & _ & H). unfold arc2_line_intersections. rewrite E. cbn [bind].
  destruct (filterM_total (fun p => arc2_point_belongs a p (/ 10 ^ 6)) [p; q]) as (r & F); [intros; apply belongs_total; auto; lra|]. exists r. split; auto. intros x. rewrite (filterM_spec _ _ _ F). assert (I : In x [p; q] <-> line2_has l x /\ on_circle2 (ac a) x) by (rewrite <- H; cbn [In]; intuition auto).
  rewrite I. split.
  - intros [[X1 X2] X3]. split; auto. split; auto. destruct (belongs_on_circle a x (/ 10 ^ 6) A ltac:(lra) X2) as (b & B1 & B2). rewrite X3 in B1. apply Ok_inj in B1. apply B2. auto.
  - intros (X1 & X2 & X3). split; auto. destruct (belongs_on_circle a x (/ 10 ^ 6) A ltac:(lra) X2) as (b & B1 & B2). rewrite B1. f_equal. apply B2. auto.
Qed.
Lemma line_far a l d : fst l <> snd l -> dist_to_line2 l (center2 (ac a)) d -> cr2 (ac a) + / 10 ^ 9 < d -> arc2_line_intersections a l = Ok [].
Proof. intros L D F. unfold arc2_line_intersections. rewrite (circle_line_far 1 (ac a) l (/ 10 ^ 9) d L D F). auto. Qed.
Lemma linesegment_sound a s tol r : arc_ok a -> 0 <= tol -> arc2_linesegment_intersections a s tol = Ok r -> forall p, In p r ->
  (exists q, arc_has (ac a) (ast a) (aen a) q /\ point_distance2 p q <= Rmax tol (6 / 1000 * cr2 (ac a))) /\ sg2_point_belongs s p (/ 10 ^ 6) = Ok true.
Proof.
  intros A T E p I. unfold arc2_linesegment_intersections in E. destruct (arc2_bounding_rectangle a) as [b|e]; cbn [bind] in E; [|discriminate]. destruct (Rltb _ _); [apply Ok_inj in E; subst r; destruct I|].
  destruct (circle2_linesegment_intersections (ac a) s tol) as [i|e] eqn:CI; cbn [bind] in E; [|discriminate]. pose proof (proj1 (filterM_spec _ _ _ E p) I) as [I1 I2]. split; [apply (belongs_sound a p tol); auto|].
  unfold circle2_linesegment_intersections in CI. destruct (Rltb _ _); [apply Ok_inj in CI; subst i; destruct I1|]. destruct (circle2_line_intersections 1 (ac a) s tol) as [j|e]; cbn [bind] in CI; [|discriminate]. apply (filterM_spec _ _ _ CI) in I1. apply I1.
Qed.
(** two arcs: the first arc and the circle of the second *)
Lemma arcs_secant a b tol : arc_ok a -> circle_ok (ac b) -> 0 <= tol -> / 10 ^ 6 < point_distance2 (center2 (ac a)) (center2 (ac b)) ->
  Rabs (cr2 (ac a) - cr2 (ac b)) <= point_distance2 (center2 (ac a)) (center2 (ac b)) <= cr2 (ac a) + cr2 (ac b) ->
  / 10 ^ 6 <= Rabs (cr2 (ac a) - (cr2 (ac a) * cr2 (ac a) - cr2 (ac b) * cr2 (ac b) + point_distance2 (center2 (ac a)) (center2 (ac b)) * point_distance2 (center2 (ac a)) (center2 (ac b))) / (2 * point_distance2 (center2 (ac a)) (center2 (ac b)))) ->
  exists r, arc2_arc_intersections a b tol = Ok r /\ forall p, In p r <-> on_circle2 (ac b) p /\ on_circle2 (ac a) p /\ (arc_has (ac a) (ast a) (aen a) p \/ point_distance2 p (ast a) <= tol \/ point_distance2 p (aen a) <= tol).
Proof.
  intros A [OB RB] T D1 D2 D3. pose proof A as ([O R] & _). destruct (circles_secant (ac a) (ac b) ltac:(lra) ltac:(lra) D1 D2 D3) as (p & q & E & H). unfold arc2_arc_intersections. rewrite E. cbn [bind].
  destruct (filterM_total (fun p => arc2_point_belongs a p tol) [p; q]) as (r & F); [intros; apply belongs_total; auto; lra|]. exists r. split; auto. intros x. rewrite (filterM_spec _ _ _ F). assert (I : In x [p; q] <-> on_circle2 (ac a) x /\ on_circle2 (ac b) x) by (rewrite <- H; cbn [In]; intuition auto).
  rewrite I. split.
  - intros [[X1 X2] X3]. split; auto. split; auto. destruct (belongs_on_circle a x tol A T X1) as (c & B1 & B2). rewrite X3 in B1. apply Ok_inj in B1. apply B2. auto.
  - intros (X1 & X2 & X3). split; auto. destruct (belongs_on_circle a x tol A T X2) as (c & B1 & B2). rewrite B1. f_equal. apply B2. auto.
Qed.
(** circle and arc *)
Lemma circle_arc_secant c a tol : circle_ok c -> arc_ok a -> 0 <= tol -> / 10 ^ 6 < point_distance2 (center2 c) (center2 (ac a)) ->
  Rabs (cr2 c - cr2 (ac a)) <= point_distance2 (center2 c) (center2 (ac a)) <= cr2 c + cr2 (ac a) ->
  / 10 ^ 6 <= Rabs (cr2 c - (cr2 c * cr2 c - cr2 (ac a) * cr2 (ac a) + point_distance2 (center2 c) (center2 (ac a)) * point_distance2 (center2 c) (center2 (ac a))) / (2 * point_distance2 (center2 c) (center2 (ac a)))) ->
  exists r, circle2_arc_intersections c a tol = Ok r /\
  (forall p, In p r -> on_circle2 c p /\ on_circle2 (ac a) p /\ (arc_has (ac a) (ast a) (aen a) p \/ point_distance2 p (ast a) <= tol \/ point_distance2 p (aen a) <= tol)) /\
  (forall p, on_circle2 c p -> arc_has (ac a) (ast a) (aen a) p -> In p r \/ exists q, on_circle2 c q /\ on_circle2 (ac a) q /\ point_distance2 p q <= / 10 ^ 6).
Proof.
  intros [OC RC] A T D1 D2 D3. pose proof A as ([O R] & _). destruct (circles_secant c (ac a) ltac:(lra) ltac:(lra) D1 D2 D3) as (p & q & E & H). pose proof (circle_inters_dedup _ _ _ _ E) as DD. unfold circle2_arc_intersections. rewrite DD. cbn [bind].
  set (l := if Rleb (point_distance2 q p) (/ 10 ^ 6) then [p] else [p; q]) in *. destruct (filterM_total (fun p => arc2_point_belongs a p tol) l) as (r & F); [intros; apply belongs_total; auto; lra|]. exists r. split; auto. split.
  - intros x I. apply (filterM_spec _ _ _ F) in I as [I B]. assert (X : on_circle2 c x /\ on_circle2 (ac a) x). { apply H. unfold l in I. destruct (Rleb _ _); cbn [In] in I; intuition auto. } destruct X as [X1 X2]. split; auto. split; auto. destruct (belongs_on_circle a x tol A T X2) as (b & B1 & B2). rewrite B in B1. apply Ok_inj in B1. apply B2. auto.
  - intros x X1 X2. pose proof (has_seen a x A X2) as [X3 _]. assert (X : x = p \/ x = q) by (apply H; auto). assert (BT : arc2_point_belongs a x tol = Ok true) by (apply belongs_complete; auto).
    unfold l in *. destruct (Rleb (point_distance2 q p) (/ 10 ^ 6)) eqn:Q; rb.
    + destruct X as [-> | ->]; [left; apply (filterM_spec _ _ _ F); split; [left|]; auto|]. right. exists p. destruct (proj1 (H p) (or_introl eq_refl)). auto.
    + left. apply (filterM_spec _ _ _ F). split; auto. cbn [In]. destruct X; auto.
Qed.
(** witness: the second arc is ignored *)
Definition UC1 := C2 (F2 (V2 1 0) (B2 (V2 1 0) (V2 0 1))) 1.
Lemma UC1_ok : circle_ok UC1. Proof. split; cbn; [|lra]. unfold orthonormal2, dot2. cbn. repeat split; ring. Qed.
Lemma UC1_point t : circle2_point UC1 t = V2 (1 + cos t) (sin t).
Proof. unfold circle2_point, UC1, center2, O2D, add2, mul2. cbn [cf2 cr2 org2 fb2 u2 v2 x2 y2]. apply vec2_ext; cbn [x2 y2]; ring. Qed.
Definition QB := A2 UC1 (V2 2 0) (V2 1 1) 0 (PI / 2).
Lemma QB_ok : arc_ok QB.
Proof. pose proof PI_RGT_0. pose proof (arc_from_angles UC1 0 (PI / 2) UC1_ok ltac:(lra) ltac:(lra) ltac:(lra)) as A. rewrite !UC1_point, cos_0, sin_0, cos_PI2, sin_PI2 in A. replace (1 + 1) with 2 in A by ring. replace (1 + 0) with 1 in A by ring. exact A. Qed.
Lemma arcs_wrong : exists a b r p, arc_ok a /\ arc_ok b /\ arc2_arc_intersections a b (/ 10 ^ 6) = Ok r /\ In p r /\ forall q, arc_has (ac b) (ast b) (aen b) q -> 1 / 2 <= point_distance2 p q.
Proof.
  pose proof PI_RGT_0 as PP. pose proof (pow10_inv_pos 6) as P6. assert (S6 : / 10 ^ 6 < 1 / 2) by lra. assert (DC : point_distance2 (center2 (ac QA)) (center2 (ac QB)) = 1) by (unfold point_distance2, norm2; apply GeometryP.sqrt_of_sq; [lra|]; unfold QA, QB, UC, UC1, center2, O2D, sub2; cbn [ac cf2 org2 x2 y2]; ring).
  assert (R1 : cr2 (ac QA) = 1) by reflexivity. assert (R2 : cr2 (ac QB) = 1) by reflexivity.
  destruct (arcs_secant QA QB (/ 10 ^ 6) QA_ok UC1_ok ltac:(lra)) as (r & E & H); rewrite ?DC, ?R1, ?R2; [lra|rewrite Rminus_diag_eq, Rabs_R0 by auto; lra|rewrite Rabs_pos_eq; lra|].
  exists QA, QB, r, (V2 (1 / 2) (sqrt 3 / 2)). split; [apply QA_ok|]. split; [apply QB_ok|]. split; auto. assert (PT : circle2_point UC (PI / 3) = V2 (1 / 2) (sqrt 3 / 2)) by (rewrite UC_point, cos_PI3, sin_PI3; auto). split.
  - apply H. split; [|split].
    + unfold on_circle2, point_distance2, norm2. rewrite R2. apply GeometryP.sqrt_of_sq; [lra|]. unfold QB, UC1, center2, sub2. cbn [ac cf2 org2 x2 y2]. pose proof (sqrt_sqrt 3). lra.
    + rewrite <- PT. apply circle2_point_on; [apply UC_ok|cbn; lra].
    + left. apply (arc_has_iff QA _ QA_ok). exists (PI / 3). split; [cbn; lra|]. symmetry. exact PT.
  - intros q Q. apply (arc_has_iff QB _ QB_ok) in Q as (t & T & ->). cbn [QB ang1 ang2] in T. change (ac QB) with UC1. rewrite UC1_point. assert (0 <= cos t) by (apply cos_ge_0; lra). eapply Rle_trans; [|apply (proj1 (coord_dist _ (V2 (1 + cos t) (sin t))))]. cbn [x2]. rewrite Rabs_left1 by lra. lra.
Qed.
