(** Rotated, mirrored and offset arcs. *)
From Coq Require Import Reals Lra Lia List Bool ZArith.
From Verif.Model Require Import Base RBase Vec Frame BBox Geometry Curves Edges Arcs.
From Verif.Spec Require Import VecSpec FrameSpec AngleSpec CurvesSpec ArcsSpec.
From Verif.Proofs Require Import VecP LineP FrameP GeometryP CurvesP CurvesP3 CurvesP4 CurvesP5 CurvesP6 CurvesP7 EdgesP ArcsP ArcsP2 ArcsP3 ArcsP4.
Import ListNotations.
Open Scope R_scope.

Lemma shift_has c c' f w s e q : circle_ok c -> circle_ok c' -> (forall t, f (circle2_point c t) = circle2_point c' (t + w)) -> (exists t, s = circle2_point c t) -> (exists t, e = circle2_point c t) ->
  arc_has c' (f s) (f e) q <-> exists p, arc_has c s e p /\ q = f p.
Proof.
  intros C C' F (t1 & S) (t2 & E). split.
  - intros (u & v & t & U & V & W & T & P). rewrite S, F in U. rewrite E, F in V. apply point_inj in U, V; auto. exists (circle2_point c (t - w)). split; [|rewrite F; rewrite P; f_equal; ring].
    assert (Q : forall a b, same_angle (a + w) b -> same_angle a (b - w)) by (intros a b (k & K); exists k; lra).
    exists (u - w), (v - w), (t - w). rewrite S, E. repeat split; try lra; apply point_same; auto.
  - intros (p & (u & v & t & U & V & W & T & P) & ->). exists (u + w), (v + w), (t + w). rewrite U, V, P, !F. repeat split; lra.
Qed.
Lemma shift_angle c c' f w s e d : (forall t, f (circle2_point c t) = circle2_point c' (t + w)) -> arc_angle c s e d -> arc_angle c' (f s) (f e) d.
Proof. intros F (a & A & B & D). exists (a + w). rewrite A, B, !F. split; auto. split; auto. f_equal. ring. Qed.
Lemma rotation_shift c o th : circle_ok c -> point_distance2 o (center2 c) = 0 \/ / 10 ^ 6 < point_distance2 o (center2 c) ->
  exists w, circle_ok (circle2_rotation c o th) /\ circle2_is_trigo (circle2_rotation c o th) = circle2_is_trigo c /\ forall t, rotation2 (circle2_point c t) o th = circle2_point (circle2_rotation c o th) (t + w).
Proof.
  intros C D. pose proof C as [O R]. pose proof (pow10_inv_pos 6) as P6. pose proof (sc1 th) as S1. unfold circle2_rotation, frame2_rotation. fold (center2 c).
  assert (E : (if is_close2 o (center2 c) (/ 10 ^ 6) then center2 c else rotation2 (center2 c) o th) = rotation2 (center2 c) o th).
  { destruct (is_close2 o (center2 c) (/ 10 ^ 6)) eqn:Q; auto. apply is_close2_spec in Q; [|lra]. destruct D as [D|D]; [|lra]. apply dist2_zero in D. rewrite D, rotation2_center. auto. }
  rewrite E. destruct (is_close2 o (center2 c) (/ 10 ^ 6)).
  - exists 0. unfold circle_ok, circle2_is_trigo, circle2_point, center2. cbn [cf2 cr2 org2 fb2]. unfold basis2_rotation. cbn [u2 v2]. fold (center2 c). set (o' := center2 c). set (u := u2 (fb2 (cf2 c))) in *. set (v := v2 (fb2 (cf2 c))) in *. destruct O as (O1 & O2 & O3). fold u v in O1, O2, O3.
    clearbody u v o'. set (r := cr2 c) in *. unfold orthonormal2. cbn [u2 v2]. unfold rotation2, O2D, dot2, cross2, add2, mul2, sub2 in *. cbn [x2 y2] in *. set (co := cos th) in *. set (si := sin th) in *. clearbody co si.
    split; [split; [|auto]; repeat split|].
    + transitivity ((x2 u * x2 u + y2 u * y2 u) * (si * si + co * co)); [ring|rewrite O1, S1; ring].
    + transitivity ((x2 v * x2 v + y2 v * y2 v) * (si * si + co * co)); [ring|rewrite O2, S1; ring].
    + transitivity ((x2 u * x2 v + y2 u * y2 v) * (si * si + co * co)); [ring|rewrite O3, S1; ring].
    + split.
      * match goal with |- Rltb 0 ?x = Rltb 0 ?y => replace x with y; auto end. transitivity ((x2 u * y2 v - y2 u * x2 v) * (si * si + co * co)); [rewrite S1; ring|ring].
      * intros t. replace (t + 0) with t by ring. apply vec2_ext; cbn [x2 y2]; ring.
  - exists (if circle2_is_trigo c then th else - th). split; [split; auto|]. split; [reflexivity|]. intros t.
    pose proof (rotate_point c t (if circle2_is_trigo c then th else - th) C) as RP. assert (Z : (if circle2_is_trigo c then (if circle2_is_trigo c then th else - th) else - (if circle2_is_trigo c then th else - th)) = th) by (destruct (circle2_is_trigo c); ring).
    rewrite Z in RP. clear Z. set (w := if circle2_is_trigo c then th else - th) in *. clearbody w. unfold circle2_point, center2 in *. cbn [cf2 cr2 org2 fb2] in *. set (o' := org2 (cf2 c)) in *. set (u := u2 (fb2 (cf2 c))) in *. set (v := v2 (fb2 (cf2 c))) in *. clearbody o' u v. set (r := cr2 c) in *.
    pose proof (f_equal x2 RP) as X. pose proof (f_equal y2 RP) as Y. unfold rotation2, add2, mul2, sub2 in *. cbn [x2 y2] in *. apply vec2_ext; cbn [x2 y2]; lra.
Qed.
Lemma rotation_arc a o th c : arc_ok a -> point_distance2 o (center2 (ac a)) = 0 \/ / 10 ^ 6 < point_distance2 o (center2 (ac a)) -> c = circle2_rotation (ac a) o th ->
  regular c (rotation2 (ast a) o th) -> regular c (rotation2 (aen a) o th) ->
  exists b, arc2_rotation a o th = Ok b /\ arc_ok b /\ ast b = rotation2 (ast a) o th /\ aen b = rotation2 (aen a) o th /\ arc2_is_trigo b = arc2_is_trigo a /\ arc2_length b = arc2_length a /\
  forall q, arc_has (ac b) (ast b) (aen b) q <-> exists p, arc_has (ac a) (ast a) (aen a) p /\ q = rotation2 p o th.
Proof.
  intros A D -> R1 R2. pose proof A as (C & (t1 & T1 & E1) & (t2 & T2 & E2) & _). destruct (rotation_shift _ o th C D) as (w & CC & TR & F). destruct (arc_new_ok _ _ _ CC R1 R2) as (b & E & B1 & B2 & B3 & B).
  exists b. split; [exact E|]. split; auto. split; auto. split; auto. split; [unfold arc2_is_trigo; rewrite B1; auto|]. split.
  - destruct (angle_ok a A) as [G ->]. destruct (angle_ok b B) as [G' ->]. rewrite B1, B2, B3 in G'. apply (shift_angle _ _ (fun p => rotation2 p o th) w _ _ _ F) in G. rewrite (arc_angle_unique _ _ _ _ _ CC G' G), B1. auto.
  - intros q. rewrite B1, B2, B3. apply (shift_has _ _ (fun p => rotation2 p o th) w); auto; eauto.
Qed.
(** mirror: the circle is not mirrored *)
Lemma mirror_wrong : exists a l b, arc_ok a /\ fst l <> snd l /\ arc2_axial_symmetry a l = Ok b /\ ~ on_circle2 (ac b) (ast b).
Proof.
  exists QA, (V2 5 0, V2 5 1). assert (S : forall p, axial_symmetry2 p (V2 5 0, V2 5 1) = Ok (V2 (10 - x2 p) (y2 p))).
  { intros [x y]. unfold axial_symmetry2, point_projection2, dir2. cbn [fst snd]. assert (N : norm2 (sub2 (V2 5 1) (V2 5 0)) = 1) by (unfold norm2; apply GeometryP.sqrt_of_sq; unfold dot2, sub2; cbn [x2 y2]; lra). rewrite N. rewrite (proj2 (Reqb_false _ _)) by lra. cbn [bind]. f_equal. vec. v_eq; field. }
  unfold arc2_axial_symmetry. rewrite !S. cbn [bind]. destruct (new_total UC (V2 (10 - x2 (ast QA)) (y2 (ast QA))) (V2 (10 - x2 (aen QA)) (y2 (aen QA))) UC_ok) as (b & E & B1 & B2 & B3). exists b. split; [apply QA_ok|].
  split; [intros Q; apply (f_equal y2) in Q; cbn in Q; lra|]. split; [exact E|]. rewrite B1, B2. unfold on_circle2, QA, UC, center2. cbn [cf2 cr2 org2 ast x2 y2]. intros Q. assert (H : point_distance2 (V2 (10 - 1) 0) O2D = 9); [|lra].
  unfold point_distance2, norm2. apply GeometryP.sqrt_of_sq; unfold dot2, sub2, O2D; cbn [x2 y2]; lra.
Qed.
(** offset arcs *)
Definition scaled (c : circle2) (k : R) (p : vec2) : vec2 := add2 (center2 c) (mul2 (sub2 p (center2 c)) k).
Lemma scaled_point c r t : circle_ok c -> scaled c (r / cr2 c) (circle2_point c t) = circle2_point (C2 (cf2 c) r) t.
Proof. intros [O R]. unfold scaled, circle2_point, center2, add2, mul2, sub2. cbn [cf2 cr2 x2 y2]. apply vec2_ext; cbn [x2 y2]; field; lra. Qed.
Lemma unit_ray c t k : circle_ok c -> add2 (center2 c) (mul2 (mul2 (sub2 (circle2_point c t) (center2 c)) (/ cr2 c)) k) = circle2_point (C2 (cf2 c) k) t.
Proof. intros [O R]. unfold circle2_point, center2, add2, mul2, sub2. cbn [cf2 cr2 x2 y2]. apply vec2_ext; cbn [x2 y2]; field; lra. Qed.
Lemma offset_arc a offset r : arc_ok a -> r = (if arc2_is_trigo a then cr2 (ac a) + offset else cr2 (ac a) - offset) -> 0 < r ->
  exists b, arc2_infinite_primitive a offset = Ok (Some b) /\ arc_ok b /\ arc2_is_trigo b = arc2_is_trigo a /\ center2 (ac b) = center2 (ac a) /\ cr2 (ac b) = r /\ arc2_angle b = arc2_angle a /\
  (forall p, arc_has (ac a) (ast a) (aen a) p -> exists q, arc_has (ac b) (ast b) (aen b) q /\ point_distance2 p q = Rabs offset) /\
  (forall q, arc_has (ac b) (ast b) (aen b) q -> exists p, arc_has (ac a) (ast a) (aen a) p /\ point_distance2 p q = Rabs offset /\ forall p', arc_has (ac a) (ast a) (aen a) p' -> Rabs offset <= point_distance2 p' q).
Proof.
  intros A RR RP. pose proof A as (C & (t1 & T1 & E1) & (t2 & T2 & E2) & _). pose proof C as [O R]. unfold arc2_infinite_primitive. rewrite <- RR.
  assert (U : forall t, unit_vector2 (sub2 (circle2_point (ac a) t) (center2 (ac a))) = Ok (mul2 (sub2 (circle2_point (ac a) t) (center2 (ac a))) (/ cr2 (ac a)))).
  { intros t. unfold unit_vector2. rewrite point_norm by auto. cbv zeta. rewrite (proj2 (Reqb_false _ _)) by lra. reflexivity. }
  rewrite E1, E2, !U. cbn [bind]. assert (NB : (negb (arc2_is_trigo a) && Rltb r 0)%bool = false) by (rewrite (proj2 (Rltb_false _ _)) by lra; destruct (negb _); auto). rewrite NB. rewrite !unit_ray by auto.
  set (c := C2 (cf2 (ac a)) r). assert (CC : circle_ok c) by (split; auto). assert (R1 : regular c (circle2_point c t1)) by (exists t1; auto). assert (R2 : regular c (circle2_point c t2)) by (exists t2; auto).
  destruct (arc_new_ok _ _ _ CC R1 R2) as (b & -> & B1 & B2 & B3 & B). cbn [bind]. exists b. split; auto. split; auto. split; [unfold arc2_is_trigo; rewrite B1; reflexivity|]. split; [rewrite B1; reflexivity|]. split; [rewrite B1; reflexivity|].
  set (f := scaled (ac a) (r / cr2 (ac a))). assert (F : forall t, f (circle2_point (ac a) t) = circle2_point c (t + 0)) by (intros t; unfold f; rewrite scaled_point, Rplus_0_r by auto; reflexivity).
  assert (S1 : circle2_point c t1 = f (ast a)) by (rewrite E1, F, Rplus_0_r; auto). assert (S2 : circle2_point c t2 = f (aen a)) by (rewrite E2, F, Rplus_0_r; auto).
  split.
  { destruct (angle_ok a A) as [G _]. destruct (angle_ok b B) as [G' _]. rewrite B1, B2, B3, S1, S2 in G'. apply (shift_angle _ _ f 0 _ _ _ F) in G. apply (arc_angle_unique _ _ _ _ _ CC G' G). }
  assert (H : forall q, arc_has (ac b) (ast b) (aen b) q <-> exists p, arc_has (ac a) (ast a) (aen a) p /\ q = f p). { intros q. rewrite B1, B2, B3, S1, S2. apply (shift_has _ _ f 0); auto; eauto. }
  assert (OF : Rabs (r - cr2 (ac a)) = Rabs offset). { rewrite RR. destruct (arc2_is_trigo a); [f_equal; ring|]. rewrite <- Rabs_Ropp. f_equal. ring. }
  assert (DF : forall p, on_circle2 (ac a) p -> point_distance2 p (f p) = Rabs offset).
  { intros p P. unfold on_circle2 in P. rewrite <- OF. assert (Q : sub2 p (f p) = mul2 (sub2 p (center2 (ac a))) (1 - r / cr2 (ac a))) by (unfold f, scaled, sub2, add2, mul2; apply vec2_ext; cbn [x2 y2]; ring).
    unfold point_distance2 in *. rewrite Q, norm2_scale, P. replace (r - cr2 (ac a)) with (- ((1 - r / cr2 (ac a)) * cr2 (ac a))) by (field; lra). rewrite Rabs_Ropp, Rabs_mult, (Rabs_pos_eq (cr2 (ac a))) by lra. auto. }
  assert (ON : forall p, arc_has (ac a) (ast a) (aen a) p -> on_circle2 (ac a) p) by (intros p P; apply has_seen in P as [P _]; auto).
  rewrite <- E1, <- E2. split.
  - intros p P. exists (f p). split; [apply H; exists p; auto|]. apply DF, ON, P.
  - intros q Q. apply H in Q as (p & P & ->). exists p. split; auto. split; [apply DF, ON, P|]. intros p' P'. rewrite <- OF.
    assert (OQ : point_distance2 (f p) (center2 (ac a)) = r). { assert (Q : sub2 (f p) (center2 (ac a)) = mul2 (sub2 p (center2 (ac a))) (r / cr2 (ac a))) by (unfold f, scaled, sub2, add2, mul2; apply vec2_ext; cbn [x2 y2]; ring).
      apply ON in P. unfold on_circle2, point_distance2 in *. rewrite Q, norm2_scale, P, Rabs_pos_eq by (left; apply Rdiv_lt_0_compat; lra). field. lra. }
    apply ON in P'. unfold on_circle2 in P'. pose proof (dist2_triangle (f p) p' (center2 (ac a))) as X. pose proof (dist2_triangle p' (f p) (center2 (ac a))) as Y. rewrite OQ, P' in X, Y. rewrite (dist2_sym (f p) p') in X. apply Rabs_le. lra.
Qed.
Lemma offset_none a offset : arc_ok a -> arc2_is_trigo a = false -> cr2 (ac a) < offset -> arc2_infinite_primitive a offset = Ok None.
Proof.
  intros A T L. pose proof A as (C & (t1 & T1 & E1) & (t2 & T2 & E2) & _). pose proof C as [O R]. unfold arc2_infinite_primitive. rewrite E1, E2. unfold unit_vector2. rewrite !point_norm by auto. cbv zeta. rewrite (proj2 (Reqb_false _ _)) by lra. cbn [bind]. rewrite T. cbn [negb]. rewrite (proj2 (Rltb_spec _ _)) by lra. auto.
Qed.
