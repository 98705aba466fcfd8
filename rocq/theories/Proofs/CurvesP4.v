(** Circle / line intersections in 2D. *)
From Coq Require Import Reals Lra Lia List Bool ZArith.
From Verif.Model Require Import Base RBase Vec Frame BBox Geometry Curves.
From Verif.Spec Require Import VecSpec FrameSpec BBoxSpec PlaneSpec CurvesSpec.
From Verif.Proofs Require Import VecP LineP FrameP GeometryP PlaneP CurvesP CurvesP3.
Import ListNotations.
Open Scope R_scope.

(** ** orthonormal frames of the plane *)
Definition loc2 (f : frame2) (p : vec2) : vec2 := V2 (dot2 (sub2 p (org2 f)) (u2 (fb2 f))) (dot2 (sub2 p (org2 f)) (v2 (fb2 f))).
Lemma ortho_det b : orthonormal2 b -> cross2 (u2 b) (v2 b) * cross2 (u2 b) (v2 b) = 1.
Proof. intros (U & V & W). rewrite VecP.lagrange2, U, V, W. ring. Qed.
Lemma ortho_rel b : orthonormal2 b -> let e := cross2 (u2 b) (v2 b) in x2 (u2 b) = e * y2 (v2 b) /\ y2 (u2 b) = - e * x2 (v2 b) /\ x2 (v2 b) = - e * y2 (u2 b) /\ y2 (v2 b) = e * x2 (u2 b).
Proof.
  intros (U & V & W). cbv zeta. unfold dot2, cross2 in *. destruct b as [[a b] [c d]]. cbn [u2 v2 x2 y2] in *. split; [|split; [|split]].
  - transitivity (a * (c * c + d * d)); [rewrite V; ring|]. transitivity (c * (a * c + b * d) + d * (a * d - b * c)); [ring|rewrite W; ring].
  - transitivity (b * (c * c + d * d)); [rewrite V; ring|]. transitivity (d * (a * c + b * d) - c * (a * d - b * c)); [ring|rewrite W; ring].
  - transitivity (c * (a * a + b * b)); [rewrite U; ring|]. transitivity (a * (a * c + b * d) - b * (a * d - b * c)); [ring|rewrite W; ring].
  - transitivity (d * (a * a + b * b)); [rewrite U; ring|]. transitivity (b * (a * c + b * d) + a * (a * d - b * c)); [ring|rewrite W; ring].
Qed.
Lemma basis2_g2l_ok b v : orthonormal2 b -> basis2_g2l b v = Ok (V2 (dot2 v (u2 b)) (dot2 v (v2 b))).
Proof.
  intros O. pose proof (ortho_det b O) as D. pose proof (ortho_rel b O) as (R1 & R2 & R3 & R4). set (e := cross2 (u2 b) (v2 b)) in *.
  unfold basis2_g2l, inverse22. cbv zeta. assert (E : det22 (transfer_matrix2 b) = e) by (unfold det22, transfer_matrix2, e, cross2; cbn [a11 a12 a21 a22]; ring). rewrite E.
  assert (A : Rabs e = 1). { assert (Q : Rabs e * Rabs e = 1) by (rewrite <- Rabs_mult, D; apply Rabs_R1). pose proof (Rabs_pos e). nra. }
  rewrite (proj2 (isclose_0_false e (/ 10 ^ 10) ltac:(left; apply pow10_inv_pos))) by (rewrite A; lra). cbn [negb bind]. f_equal.
  assert (I : 1 / e = e) by (assert (e <> 0) by (intros Z; rewrite Z, Rabs_R0 in A; lra); apply Rmult_eq_reg_r with e; auto; unfold Rdiv; rewrite Rmult_assoc, Rinv_l by auto; lra). rewrite I.
  unfold mvec22, transfer_matrix2, dot2. cbn [a11 a12 a21 a22]. rewrite R1, R2. f_equal; [ring|]. transitivity (x2 v * (e * e * x2 (v2 b)) + y2 v * (e * e * y2 (v2 b))); [ring|rewrite D; ring].
Qed.
Lemma frame2_g2l_ok f p : orthonormal2 (fb2 f) -> frame2_g2l f p = Ok (loc2 f p).
Proof. intros O. unfold frame2_g2l. rewrite basis2_g2l_ok; auto. Qed.
Lemma frame2_l2g_eq f q : frame2_l2g f q = add2 (add2 (mul2 (u2 (fb2 f)) (x2 q)) (mul2 (v2 (fb2 f)) (y2 q))) (org2 f).
Proof. unfold frame2_l2g, basis2_l2g, mvec22, transfer_matrix2. cbn [a11 a12 a21 a22]. destruct f as [o [u v]]. cbn [fb2 org2 u2 v2]. vec; v_eq; ring. Qed.
Lemma loc_l2g f q : orthonormal2 (fb2 f) -> loc2 f (frame2_l2g f q) = q.
Proof.
  intros (U & V & W). rewrite frame2_l2g_eq. unfold loc2. destruct f as [o [u v]]. cbn [fb2 org2 u2 v2] in *. destruct q as [a b]. cbn [x2 y2].
  assert (E1 : dot2 (sub2 (add2 (add2 (mul2 u a) (mul2 v b)) o) o) u = a * dot2 u u + b * dot2 u v) by (vec; ring). assert (E2 : dot2 (sub2 (add2 (add2 (mul2 u a) (mul2 v b)) o) o) v = a * dot2 u v + b * dot2 v v) by (vec; ring). rewrite E1, E2, U, V, W. f_equal; ring.
Qed.
Lemma l2g_loc f p : orthonormal2 (fb2 f) -> frame2_l2g f (loc2 f p) = p.
Proof.
  intros O. pose proof (ortho_det _ O) as D. pose proof (ortho_rel _ O) as (R1 & R2 & R3 & R4). destruct O as (U & V & W). rewrite frame2_l2g_eq. unfold loc2. destruct f as [o [[a b] [c d]]]. cbn [fb2 org2 u2 v2 x2 y2] in *.
  set (e := cross2 (V2 a b) (V2 c d)) in *. destruct p as [p q], o as [m n]. unfold dot2, sub2, add2, mul2 in *. cbn [x2 y2] in *.
  assert (A1 : a * a + c * c = 1). { rewrite R3. transitivity (a * a + e * e * (b * b)); [ring|rewrite D; lra]. } assert (A2 : b * b + d * d = 1). { rewrite R4. transitivity (b * b + e * e * (a * a)); [ring|rewrite D; lra]. }
  assert (A3 : a * b + c * d = 0). { rewrite R3, R4. transitivity (a * b * (1 - e * e)); [ring|rewrite D; ring]. }
  f_equal.
  - transitivity ((p - m) * (a * a + c * c) + (q - n) * (a * b + c * d) + m); [ring|rewrite A1, A3; ring].
  - transitivity ((p - m) * (a * b + c * d) + (q - n) * (b * b + d * d) + n); [ring|rewrite A2, A3; ring].
Qed.
Lemma l2g_dist f p q : orthonormal2 (fb2 f) -> point_distance2 (frame2_l2g f p) (frame2_l2g f q) = point_distance2 p q.
Proof.
  intros (U & V & W). unfold point_distance2. rewrite !norm2_dot. f_equal. rewrite !frame2_l2g_eq. destruct f as [o [u v]]. cbn [fb2 org2 u2 v2] in *. destruct p as [a b], q as [c d]. cbn [x2 y2].
  transitivity ((a - c) * (a - c) * dot2 u u + (b - d) * (b - d) * dot2 v v + 2 * (a - c) * (b - d) * dot2 u v); [clear; vec; ring|]. rewrite U, V, W. unfold dot2, sub2. cbn [x2 y2]. ring.
Qed.
Lemma loc_dist f p q : orthonormal2 (fb2 f) -> point_distance2 (loc2 f p) (loc2 f q) = point_distance2 p q.
Proof. intros O. rewrite <- (l2g_dist f _ _ O), !l2g_loc; auto. Qed.
Definition loc_line (f : frame2) (l : vec2 * vec2) := (loc2 f (fst l), loc2 f (snd l)).
Lemma loc_param f l t : loc2 f (at_param2 l t) = at_param2 (loc_line f l) t.
Proof. unfold at_param2, loc_line, loc2. destruct l as [a b]. cbn [fst snd]. destruct f as [o [u v]]. cbn [fb2 org2 u2 v2]. vec; v_eq; ring. Qed.
Lemma loc_org f : loc2 f (org2 f) = O2D.
Proof. unfold loc2, O2D. destruct f as [o [u v]]. cbn [fb2 org2 u2 v2]. vec; v_eq; ring. Qed.

(** ** the helper, for a circle centred at the origin *)
Definition line_height2 (l : vec2 * vec2) (d : R) : Prop := 0 <= d /\ d * d * dot2 (dir2 l) (dir2 l) = cross2 (fst l) (dir2 l) * cross2 (fst l) (dir2 l).
Lemma height_of_distance l d : line2_point_distance l O2D = Ok d -> line_height2 l d.
Proof.
  unfold line2_point_distance. cbv zeta. rewrite normal_norm. destruct (Reqb (norm2 (dir2 l)) 0) eqn:Z; [discriminate|]. rb. intros E. apply Ok_inj in E. subst d.
  assert (P : 0 < norm2 (dir2 l)) by (pose proof (norm2_pos (dir2 l)); lra). split; [apply Rmult_le_pos; [apply Rabs_pos|left; apply Rinv_0_lt_compat; auto]|].
  rewrite <- norm2_sq. set (k := norm2 (dir2 l)) in *. replace (dot2 (normal_vector2 (dir2 l)) (sub2 (fst l) O2D)) with (cross2 (dir2 l) (fst l)) by (unfold O2D, normal_vector2; destruct l as [a b]; unfold dir2; cbn [fst snd]; vec; ring).
  replace (Rabs (cross2 (dir2 l) (fst l)) / k * (Rabs (cross2 (dir2 l) (fst l)) / k) * (k * k)) with (Rabs (cross2 (dir2 l) (fst l)) * Rabs (cross2 (dir2 l) (fst l))) by (field; lra).
  rewrite <- Rabs_mult, Rabs_pos_eq by apply Rle_0_sqr. unfold cross2. ring.
Qed.
Lemma norm_r v r : 0 <= r -> (norm2 v = r <-> x2 v * x2 v + y2 v * y2 v = r * r).
Proof.
  intros Hr. split.
  - intros <-. symmetry. apply norm2_sq.
  - intros E. unfold norm2. rewrite E. apply sqrt_square. auto.
Qed.
Lemma vertical_param l t : x2 (fst l) = x2 (snd l) -> x2 (at_param2 l t) = x2 (fst l).
Proof. intros E. unfold at_param2, add2, mul2, sub2. cbn [x2]. rewrite E. ring. Qed.
Lemma helper_ok r l d : 0 <= r -> fst l <> snd l -> line_height2 l d -> d * d + / 10 ^ 6 < r * r ->
  exists p q, circle2_helper r l = Ok [p; q] /\ norm2 p = r /\ norm2 q = r /\ (exists t, p = at_param2 l t) /\ (exists t, q = at_param2 l t) /\ p <> q /\
  forall t, norm2 (at_param2 l t) = r -> at_param2 l t = p \/ at_param2 l t = q.
Proof.
  intros Hr Hl [Hd HD] L. pose proof (pow10_inv_pos 6) as P6. pose proof (dir2_ne _ Hl) as NZ.
  unfold circle2_helper, get_y_intersection, get_slope. destruct (Reqb (x2 (fst l)) (x2 (snd l))) eqn:V; rb.
  - (* vertical *)
    cbv zeta. assert (VX : x2 (dir2 l) = 0) by (unfold dir2, sub2; cbn [x2]; lra). assert (VY : y2 (dir2 l) <> 0) by (intros Z; apply NZ; apply vec2_ext; auto).
    unfold dot2, cross2 in HD. rewrite VX in HD. assert (DX : d * d = x2 (fst l) * x2 (fst l)). { apply Rmult_eq_reg_r with (y2 (dir2 l) * y2 (dir2 l)); [|apply Rmult_integral_contrapositive; auto]. lra. }
    set (x := x2 (fst l)) in *. assert (PS : 0 < r ^ 2 - x ^ 2) by (cbn [pow]; lra). unfold sqrt_py. rewrite (proj2 (Rltb_false _ _)) by lra. cbn [bind]. set (s := sqrt (r ^ 2 - x ^ 2)). assert (SP : 0 < s) by (apply sqrt_lt_R0; auto).
    assert (SS : s * s = r * r - x * x) by (unfold s; rewrite sqrt_sqrt by lra; ring). exists (V2 x (- s)), (V2 x s). split; auto.
    assert (T : forall y, exists t, V2 x y = at_param2 l t). { intros y. exists ((y - y2 (fst l)) / y2 (dir2 l)). apply vec2_ext; [rewrite vertical_param; auto|]. unfold at_param2, add2, mul2. change (sub2 (snd l) (fst l)) with (dir2 l). cbn [y2]. field. auto. }
    split; [apply norm_r; cbn [x2 y2]; lra|]. split; [apply norm_r; cbn [x2 y2]; lra|]. split; [apply T|]. split; [apply T|]. split; [intros K; pose proof (f_equal y2 K) as K2; cbn [y2] in K2; lra|].
    intros t N. apply norm_r in N; auto. pose proof (vertical_param l t V) as X. fold x in X. rewrite X in N. set (y := y2 (at_param2 l t)) in *. assert (F : (y + s) * (y - s) = 0) by lra. apply Rmult_integral in F as [F|F]; [left|right]; apply vec2_ext; cbn [x2 y2]; auto; fold y; lra.
  - set (m := (y2 (snd l) - y2 (fst l)) / (x2 (snd l) - x2 (fst l))). set (c := y2 (fst l) - m * x2 (fst l)). cbv zeta.
    assert (VX : x2 (dir2 l) <> 0) by (unfold dir2, sub2; cbn [x2]; lra). assert (MV : y2 (dir2 l) = m * x2 (dir2 l)) by (unfold m, dir2, sub2; cbn [x2 y2]; field; lra).
    assert (CE : d * d * (1 + m * m) = c * c).
    { unfold dot2, cross2 in HD. rewrite MV in HD. apply Rmult_eq_reg_r with (x2 (dir2 l) * x2 (dir2 l)); [|apply Rmult_integral_contrapositive; auto]. unfold c. lra. }
    set (delta := (2 * m * c) ^ 2 - 4 * (1 + m ^ 2) * (c ^ 2 - r ^ 2)). assert (M1 : 0 <= m * m) by apply Rle_0_sqr.
    assert (DE : delta = 4 * (1 + m * m) * (r * r - d * d)). { transitivity (4 * ((1 + m * m) * (r * r) - c * c)); [unfold delta; ring|]. rewrite <- CE. ring. }
    assert (DP : / 10 ^ 6 < delta) by (rewrite DE; nra).
    rewrite (proj2 (Rltb_false delta 0)), (proj2 (Reqb_false (1 + m ^ 2) 0)) by (cbn [pow]; lra). cbn [orb]. rewrite (proj2 (isclose_0_false delta (/ 10 ^ 6) ltac:(lra))) by (rewrite Rabs_pos_eq; lra).
    set (s := sqrt delta). assert (SP : 0 < s) by (apply sqrt_lt_R0; lra). assert (SS : s * s = delta) by (unfold s; apply sqrt_sqrt; lra). clearbody s.
    set (a := 1 + m ^ 2). assert (AP : 0 < a) by (unfold a; cbn [pow]; lra). set (xa := (- (2 * m * c) + s) / (2 * a)). set (xb := (- (2 * m * c) - s) / (2 * a)).
    assert (XA : a * (xa * xa) + 2 * m * c * xa + (c * c - r * r) = 0). { unfold xa. transitivity ((s * s - ((2 * m * c) ^ 2 - 4 * a * (c ^ 2 - r ^ 2))) / (4 * a)); [field; lra|]. rewrite SS. unfold delta. fold a. field. lra. }
    assert (XB : a * (xb * xb) + 2 * m * c * xb + (c * c - r * r) = 0). { unfold xb. transitivity ((s * s - ((2 * m * c) ^ 2 - 4 * a * (c ^ 2 - r ^ 2))) / (4 * a)); [field; lra|]. rewrite SS. unfold delta. fold a. field. lra. }
    assert (XS : a * (xa + xb) = - (2 * m * c)) by (unfold xa, xb; field; lra). assert (XN : xa - xb = s / a) by (unfold xa, xb; field; lra). assert (XP : 0 < s / a) by (apply Rdiv_lt_0_compat; auto).
    assert (T : forall x, exists t, V2 x (m * x + c) = at_param2 l t).
    { intros x. exists ((x - x2 (fst l)) / x2 (dir2 l)). unfold at_param2, add2, mul2. change (sub2 (snd l) (fst l)) with (dir2 l). apply vec2_ext; cbn [x2 y2]; [field; auto|]. rewrite MV. unfold c. field. auto. }
    exists (V2 xa (m * xa + c)), (V2 xb (m * xb + c)). split; auto. unfold a in XA, XB. cbn [pow] in XA, XB.
    split; [apply norm_r; cbn [x2 y2]; lra|]. split; [apply norm_r; cbn [x2 y2]; lra|]. split; [apply T|]. split; [apply T|]. split; [intros K; pose proof (f_equal x2 K) as K2; cbn [x2] in K2; lra|].
    intros t N. apply norm_r in N; auto. set (x := x2 (at_param2 l t)) in *. assert (Y : y2 (at_param2 l t) = m * x + c). { unfold x, at_param2, add2, mul2. change (sub2 (snd l) (fst l)) with (dir2 l). cbn [x2 y2]. rewrite MV. unfold c. ring. }
    rewrite Y in N. assert (F : a * ((x - xa) * (x - xb)) = 0).
    { transitivity (a * (x * x) - x * (a * (xa + xb)) + a * xa * xb); [ring|]. rewrite XS. assert (XX : a * xa * xb = c * c - r * r). { transitivity (xa * (a * (xa + xb)) - a * (xa * xa)); [ring|]. rewrite XS. unfold a. cbn [pow]. lra. } rewrite XX. unfold a. cbn [pow]. lra. }
    apply Rmult_integral in F as [F|F]; [lra|]. apply Rmult_integral in F as [F|F]; [left|right]; apply vec2_ext; cbn [x2 y2]; try (fold x; lra); rewrite Y; fold x; f_equal; f_equal; lra.
Qed.
(** the helper for lines outside the circle: nothing, or the ValueError of math.sqrt on vertical lines *)
Lemma helper_outside r l d : 0 <= r -> fst l <> snd l -> line_height2 l d -> r < d -> circle2_helper r l = if Reqb (x2 (fst l)) (x2 (snd l)) then Err ValueError else Ok [].
Proof.
  intros Hr Hl [Hd HD] L. pose proof (dir2_ne _ Hl) as NZ.
  unfold circle2_helper, get_y_intersection, get_slope. destruct (Reqb (x2 (fst l)) (x2 (snd l))) eqn:V; rb.
  - cbv zeta. assert (VX : x2 (dir2 l) = 0) by (unfold dir2, sub2; cbn [x2]; lra). assert (VY : y2 (dir2 l) <> 0) by (intros Z; apply NZ; apply vec2_ext; auto).
    unfold dot2, cross2 in HD. rewrite VX in HD. assert (DX : d * d = x2 (fst l) * x2 (fst l)). { apply Rmult_eq_reg_r with (y2 (dir2 l) * y2 (dir2 l)); [|apply Rmult_integral_contrapositive; auto]. lra. }
    unfold sqrt_py. rewrite (proj2 (Rltb_spec _ _)); [reflexivity|]. cbn [pow]. nra.
  - set (m := (y2 (snd l) - y2 (fst l)) / (x2 (snd l) - x2 (fst l))). set (c := y2 (fst l) - m * x2 (fst l)). cbv zeta.
    assert (VX : x2 (dir2 l) <> 0) by (unfold dir2, sub2; cbn [x2]; lra). assert (MV : y2 (dir2 l) = m * x2 (dir2 l)) by (unfold m, dir2, sub2; cbn [x2 y2]; field; lra).
    assert (CE : d * d * (1 + m * m) = c * c).
    { unfold dot2, cross2 in HD. rewrite MV in HD. apply Rmult_eq_reg_r with (x2 (dir2 l) * x2 (dir2 l)); [|apply Rmult_integral_contrapositive; auto]. unfold c. lra. }
    set (delta := (2 * m * c) ^ 2 - 4 * (1 + m ^ 2) * (c ^ 2 - r ^ 2)). assert (M1 : 0 <= m * m) by apply Rle_0_sqr.
    assert (DE : delta = 4 * (1 + m * m) * (r * r - d * d)). { transitivity (4 * ((1 + m * m) * (r * r) - c * c)); [unfold delta; ring|]. rewrite <- CE. ring. }
    rewrite (proj2 (Rltb_spec delta 0)); [reflexivity|]. rewrite DE. assert (r * r - d * d < 0) by nra. nra.
Qed.
