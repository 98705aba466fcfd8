(** Center of mass and second moments of the region between an arc and its chord. *)
From Coq Require Import Reals Lra Lia List Bool ZArith.
From Verif.Model Require Import Base RBase Vec Frame BBox Geometry Curves Edges Arcs.
From Verif.Spec Require Import VecSpec FrameSpec AngleSpec CurvesSpec ArcsSpec ArcAreaSpec.
From Verif.Proofs Require Import VecP LineP FrameP GeometryP CurvesP CurvesP3 CurvesP4 CurvesP5 CurvesP6 CurvesP7 EdgesP ArcsP ArcsP2 ArcsP3 ArcsP4 ArcsP6 ArcsP7.
Import ListNotations.
Open Scope R_scope.

Lemma tri_centroid a : arc_ok a -> add2 (add2 (center2 (ac a)) (ast a)) (aen a) = mul2 (polar_point (ac a) (2 / 3 * (cr2 (ac a) * cos (half a))) (middle_angle a)) 3.
Proof. intros A. destruct (ends_local a A) as [-> ->]. unfold polar_point, add2, mul2. cbn [x2 y2]. apply vec2_ext; cbn [x2 y2]; field. Qed.
Lemma straight_com_ok a : arc_ok a -> / 10 ^ 15 < point_distance2 (ast a) (aen a) -> exists h, arc2_straight_line_center_of_mass a = Ok h /\
  segment_integral a x2 (Rabs (arc2_straight_line_area a) * x2 h) /\ segment_integral a y2 (Rabs (arc2_straight_line_area a) * y2 h).
Proof.
  intros A CH. destruct (center_of_mass_ok a A) as (g & G & GX & GY). pose proof (tri_centroid a A) as TC. pose proof (tri_signed a A) as TS. pose proof (straight_abs a A) as SA. set (w := polar_point (ac a) _ _) in *. set (t := cr2 (ac a) ^ 2 * sin (half a) * cos (half a)) in *.
  assert (K : exists h, arc2_straight_line_center_of_mass a = Ok h /\ mul2 h (Rabs (arc2_straight_line_area a)) = sub2 (mul2 g (arc2_area a)) (mul2 w t)).
  { destruct (Req_dec (arc2_angle a) PI) as [P|P].
    - exists g. unfold arc2_straight_line_center_of_mass. rewrite (proj2 (Reqb_spec _ _) P). split; auto. assert (Z : t = 0) by (unfold t, half; replace (arc2_angle a * (1 / 2)) with (PI / 2) by lra; rewrite cos_PI2; ring). rewrite SA, Z. unfold mul2, sub2. apply vec2_ext; cbn [x2 y2]; ring.
    - destruct (straight_com_value a A CH P) as (g' & h & G' & H & E). rewrite G in G'. apply Ok_inj in G'. subst g'. exists h. auto. }
  destruct K as (h & H & E). exists h. split; auto. pose proof (f_equal x2 E) as EX. pose proof (f_equal y2 E) as EY. pose proof (f_equal x2 TC) as TX. pose proof (f_equal y2 TC) as TY. unfold mul2, sub2, add2 in EX, EY, TX, TY. cbn [x2 y2] in EX, EY, TX, TY. split.
  - exists (arc2_area a * x2 g). split; auto. fold (sgn a). unfold tri_integral, mid, add2, mul2. cbn [x2]. transitivity (arc2_area a * x2 g - (sgn a * tri_area (center2 (ac a)) (ast a) (aen a)) * ((x2 (center2 (ac a)) + x2 (ast a) + x2 (aen a)) / 3)); [rewrite TX, TS; lra|field].
  - exists (arc2_area a * y2 g). split; auto. fold (sgn a). unfold tri_integral, mid, add2, mul2. cbn [y2]. transitivity (arc2_area a * y2 g - (sgn a * tri_area (center2 (ac a)) (ast a) (aen a)) * ((y2 (center2 (ac a)) + y2 (ast a) + y2 (aen a)) / 3)); [rewrite TY, TS; lra|field].
Qed.
Lemma quad_pos a b : 0 <= a ^ 2 + a * b + b ^ 2.
Proof. pose proof (Rle_0_sqr (a + b)) as X. pose proof (Rle_0_sqr a) as Y. pose proof (Rle_0_sqr b) as Z. unfold Rsqr in *. lra. Qed.
Lemma quad_zero a b : a ^ 2 + a * b + b ^ 2 = 0 -> a = 0 /\ b = 0.
Proof. pose proof (Rle_0_sqr (a + b)) as X. pose proof (Rle_0_sqr a) as Y. pose proof (Rle_0_sqr b) as Z. unfold Rsqr in *. intros E. split; apply Rsqr_0_uniq; unfold Rsqr; lra. Qed.
Lemma sin_sign a : arc_ok a -> (arc2_angle a < PI -> 0 < sin (half a) * cos (half a)) /\ (PI <= arc2_angle a -> sin (half a) * cos (half a) <= 0).
Proof.
  intros A. pose proof (half_range a A) as H. split; intros L.
  - apply Rmult_lt_0_compat; [apply sin_gt_0|apply cos_gt_0]; unfold half in *; lra.
  - assert (0 <= sin (half a)) by (apply sin_ge_0; lra). assert (cos (half a) <= 0) by (apply cos_le_0; unfold half in *; lra). nra.
Qed.
(** about the center, for a counterclockwise circle with the axes of the plane *)
Lemma straight_moments_ok a : arc_ok a -> u2 (fb2 (cf2 (ac a))) = V2 1 0 -> v2 (fb2 (cf2 (ac a))) = V2 0 1 ->
  exists ix iy ixy, arc2_straight_line_second_moment_area a (center2 (ac a)) = (ix, iy, ixy) /\
  segment_integral a (fun p => (y2 p - y2 (center2 (ac a))) ^ 2) ix /\ segment_integral a (fun p => (x2 p - x2 (center2 (ac a))) ^ 2) iy /\
  segment_integral a (fun p => (x2 p - x2 (center2 (ac a))) * (y2 p - y2 (center2 (ac a)))) ixy.
Proof.
  intros A U V. pose proof A as (C & _). pose proof C as [O R]. assert (T : arc2_is_trigo a = true) by (unfold arc2_is_trigo, circle2_is_trigo; rewrite U, V; unfold cross2; cbn [x2 y2]; apply Rltb_spec; lra).
  destruct (second_moment_ok a A) as (ix & iy & ixy & E & IX & IY & IXY). unfold arc2_second_moment_area in E. unfold arc2_straight_line_second_moment_area. destruct (arc2_sector_moments a) as [[sx sy] sxy]. unfold huygens2d in *.
  assert (S : sub2 (center2 (ac a)) (center2 (ac a)) = V2 0 0) by (unfold sub2; apply vec2_ext; cbn [x2 y2]; ring). rewrite S in *. cbn [x2 y2] in *. apply pair_equal_spec in E as [E E3]. apply pair_equal_spec in E as [E1 E2]. rewrite V in IX. rewrite U in IY. rewrite U, V in IXY. rewrite T.
  pose proof (tri_signed a A) as TS. unfold sgn in TS. rewrite T in TS. destruct (sin_sign a A) as [SG1 SG2].
  set (o := center2 (ac a)) in *. set (D := cross2 (sub2 (ast a) o) (sub2 (aen a) o)). assert (DD : D = 2 * (cr2 (ac a) ^ 2 * sin (half a) * cos (half a))) by (rewrite <- TS; unfold tri_area, D; field).
  assert (R2 : 0 < cr2 (ac a) ^ 2) by (apply pow_lt; auto).
  assert (DS : (arc2_angle a < PI -> 0 < D) /\ (PI <= arc2_angle a -> D <= 0)) by (rewrite DD; rewrite !(Rmult_assoc (cr2 (ac a) ^ 2)); set (z := sin (half a) * cos (half a)) in *; split; intros L; [specialize (SG1 L)|specialize (SG2 L)]; nra). clear SG1 SG2 DD TS.
  unfold arc2_triangle_moments. fold o. set (i := sub2 (ast a) o). set (j := sub2 (aen a) o).
  set (Q1 := (y2 i ^ 2 + y2 i * y2 j + y2 j ^ 2)). set (Q2 := (x2 i ^ 2 + x2 i * x2 j + x2 j ^ 2)). set (Q3 := (x2 i * y2 j + 2 * x2 i * y2 i + 2 * x2 j * y2 j + x2 j * y2 i)). change (x2 i * y2 j - x2 j * y2 i) with (x2 i * y2 j - x2 j * y2 i).
  assert (DE : x2 i * y2 j - x2 j * y2 i = D) by (unfold D, cross2; fold i j; ring). rewrite DE.
  assert (NEG : Rltb (Q1 * D / 12) 0 = true -> D < 0). { intros L. rb. assert (0 <= Q1) by (apply quad_pos). destruct (Rlt_dec D 0); auto. exfalso. assert (0 <= Q1 * D) by (apply Rmult_le_pos; lra). lra. }
  assert (POS : Rltb (Q1 * D / 12) 0 = false -> 0 <= D). { intros L. rb. destruct (Rle_dec 0 D); auto. exfalso. assert (Q0 : Q1 = 0) by (assert (0 <= Q1) by (apply quad_pos); nra). assert (Y : y2 i = 0 /\ y2 j = 0) by (apply quad_zero; exact Q0). destruct Y as [Y1 Y2]. rewrite Y1, Y2 in DE. lra. }
  assert (TI : forall f k, (forall q, f q = f q) -> k = tri_integral o (ast a) (aen a) f -> forall s v, sector_integral (ac a) (ang1 a) (ang2 a) f s -> v = s - k -> segment_integral a f v).
  { intros f k _ KE s v SI VE. exists s. split; auto. rewrite T, VE, KE. fold o. ring. }
  assert (T1 : Q1 * D / 12 = tri_integral o (ast a) (aen a) (fun p => (y2 p - y2 o) ^ 2)) by (unfold tri_integral, tri_area; fold D; unfold Q1, mid, add2, mul2, i, j, sub2; cbn [x2 y2]; field).
  assert (T2 : Q2 * D / 12 = tri_integral o (ast a) (aen a) (fun p => (x2 p - x2 o) ^ 2)) by (unfold tri_integral, tri_area; fold D; unfold Q2, mid, add2, mul2, i, j, sub2; cbn [x2 y2]; field).
  assert (T3 : Q3 * D / 24 = tri_integral o (ast a) (aen a) (fun p => (x2 p - x2 o) * (y2 p - y2 o))) by (unfold tri_integral, tri_area; fold D; unfold Q3, mid, add2, mul2, i, j, sub2; cbn [x2 y2]; field).
  assert (J1 : sector_integral (ac a) (ang1 a) (ang2 a) (fun p => (y2 p - y2 o) ^ 2) ix) by (eapply sector_ext; [|reflexivity|exact IX]; intros p; cbv beta; unfold dot2, sub2; cbn [x2 y2]; ring).
  assert (J2 : sector_integral (ac a) (ang1 a) (ang2 a) (fun p => (x2 p - x2 o) ^ 2) iy) by (eapply sector_ext; [|reflexivity|exact IY]; intros p; cbv beta; unfold dot2, sub2; cbn [x2 y2]; ring).
  assert (J3 : sector_integral (ac a) (ang1 a) (ang2 a) (fun p => (x2 p - x2 o) * (y2 p - y2 o)) ixy) by (eapply sector_ext; [|reflexivity|exact IXY]; intros p; cbv beta; unfold dot2, sub2; cbn [x2 y2]; ring).
  assert (KEY : exists mx my mxy, (mx, my, mxy) = (let '(x2, y2, xy2) := (if Rltb (Q1 * D / 12) 0 then (- (Q1 * D / 12), - (Q2 * D / 12), - (Q3 * D / 24)) else (Q1 * D / 12, Q2 * D / 12, Q3 * D / 24)) in
      if Rltb (arc2_angle a) PI then (sx - x2, sy - y2, sxy - xy2) else (sx + x2, sy + y2, sxy + xy2)) /\ mx = ix - Q1 * D / 12 /\ my = iy - Q2 * D / 12 /\ mxy = ixy - Q3 * D / 24).
  { destruct (Rltb (arc2_angle a) PI) eqn:L; rb.
    - destruct DS as [DS _]. specialize (DS L). destruct (Rltb (Q1 * D / 12) 0) eqn:N; [specialize (NEG eq_refl); lra|]. do 3 eexists. split; [reflexivity|]. repeat split; lra.
    - destruct DS as [_ DS]. specialize (DS L). destruct (Rltb (Q1 * D / 12) 0) eqn:N.
      + do 3 eexists. split; [reflexivity|]. repeat split; lra.
      + specialize (POS eq_refl). assert (Z : D = 0) by lra. rewrite Z. do 3 eexists. split; [reflexivity|]. repeat split; lra. }
  destruct KEY as (mx & my & mxy & KE & K1 & K2 & K3). exists mx, my, mxy. split.
  - destruct (Rltb (Q1 * D / 12) 0); destruct (Rltb (arc2_angle a) PI); apply pair_equal_spec in KE as [KE KE3]; apply pair_equal_spec in KE as [KE1 KE2]; rewrite KE1, KE2, KE3; f_equal; [f_equal| |f_equal| |f_equal| |f_equal|]; ring.
  - split; [apply (TI _ _ ltac:(auto) T1 _ _ J1); auto|]. split; [apply (TI _ _ ltac:(auto) T2 _ _ J2); auto|apply (TI _ _ ltac:(auto) T3 _ _ J3); auto].
Qed.
(** bounding rectangle *)
Lemma fold_min_le l : forall x, fold_left Rmin l x <= x /\ forall y, In y l -> fold_left Rmin l x <= y.
Proof. induction l as [|z l IH]; intros x; cbn [fold_left]; [split; [lra|intros y []]|]. destruct (IH (Rmin x z)) as [A B]. pose proof (Rmin_l x z). pose proof (Rmin_r x z). split; [lra|]. intros y [<-|I]; [lra|apply B; auto]. Qed.
Lemma fold_min_in l : forall x, fold_left Rmin l x = x \/ In (fold_left Rmin l x) l.
Proof. induction l as [|z l IH]; intros x; cbn [fold_left]; auto. destruct (IH (Rmin x z)) as [E|E]; [|right; right; auto]. rewrite E. unfold Rmin. destruct (Rle_dec x z); [left; auto|right; left; auto]. Qed.
Lemma fold_max_le l : forall x, x <= fold_left Rmax l x /\ forall y, In y l -> y <= fold_left Rmax l x.
Proof. induction l as [|z l IH]; intros x; cbn [fold_left]; [split; [lra|intros y []]|]. destruct (IH (Rmax x z)) as [A B]. pose proof (Rmax_l x z). pose proof (Rmax_r x z). split; [lra|]. intros y [<-|I]; [lra|apply B; auto]. Qed.
Lemma fold_max_in l : forall x, fold_left Rmax l x = x \/ In (fold_left Rmax l x) l.
Proof. induction l as [|z l IH]; intros x; cbn [fold_left]; auto. destruct (IH (Rmax x z)) as [E|E]; [|right; right; auto]. rewrite E. unfold Rmax. destruct (Rle_dec x z); [right; left; auto|left; auto]. Qed.
