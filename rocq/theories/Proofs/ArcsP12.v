(** Distance of a point to an arc. *)
From Coq Require Import Reals Lra Lia List Bool ZArith.
From Verif.Model Require Import Base RBase Vec Frame BBox Geometry Curves Edges Arcs.
From Verif.Spec Require Import VecSpec FrameSpec AngleSpec BBoxSpec CurvesSpec EdgesSpec ArcsSpec.
From Verif.Proofs Require Import VecP LineP FrameP GeometryP BBoxP CurvesP CurvesP3 CurvesP4 CurvesP5 CurvesP6 CurvesP7 EdgesP EdgesP4 EdgesP12 ArcsP ArcsP2 ArcsP3 ArcsP4 ArcsP8 ArcsP9 ArcsP10.
Import ListNotations.
Open Scope R_scope.

Lemma cos_quasi a x b : 0 <= a <= x -> x <= b <= 2 * PI -> cos x <= cos a \/ cos x <= cos b.
Proof. intros A B. destruct (Rle_dec x PI) as [L|L]; [left; apply cos_decr_1; lra|right; apply cos_incr_1; lra]. Qed.
(** squared distance from a point of a ray *)
Lemma ray_dist c t k p s : circle_ok c -> 0 < k -> sub2 p (center2 c) = ray c t k ->
  point_distance2 p (circle2_point c s) * point_distance2 p (circle2_point c s) = cr2 c * cr2 c * (k * k + 1 - 2 * k * cos (t - s)).
Proof.
  intros [(O1 & O2 & O3) R] K P. unfold point_distance2. rewrite norm2_sq. replace (sub2 p (circle2_point c s)) with (sub2 (ray c t k) (sub2 (circle2_point c s) (center2 c))) by (rewrite <- P; unfold sub2; apply vec2_ext; cbn [x2 y2]; ring).
  rewrite cos_minus. pose proof (sc1 t) as S1. pose proof (sc1 s) as S2. unfold ray, circle2_point. set (u := u2 (fb2 (cf2 c))) in *. set (v := v2 (fb2 (cf2 c))) in *. set (o := center2 c). set (r := cr2 c) in *. clearbody u v o r. set (ct := cos t) in *. set (st := sin t) in *. set (cs := cos s) in *. set (ss := sin s) in *. clearbody ct st cs ss. clear P. unfold dot2, sub2, add2, mul2 in *. cbn [x2 y2] in *.
  transitivity (r * r * ((k * ct - cs) * (k * ct - cs) * (x2 u * x2 u + y2 u * y2 u) + (k * st - ss) * (k * st - ss) * (x2 v * x2 v + y2 v * y2 v) + 2 * (k * ct - cs) * (k * st - ss) * (x2 u * x2 v + y2 u * y2 v))); [ring|]. rewrite O1, O2, O3.
  transitivity (r * r * (k * k * (st * st + ct * ct) + (ss * ss + cs * cs) - 2 * k * (ct * cs + st * ss))); [ring|rewrite S1, S2; ring].
Qed.
Lemma ends_nearest a p t k : arc_ok a -> 0 < k -> sub2 p (center2 (ac a)) = ray (ac a) t k -> ang2 a <= t <= ang1 a + 2 * PI -> forall q, arc_has (ac a) (ast a) (aen a) q ->
  Rmin (point_distance2 p (ast a)) (point_distance2 p (aen a)) <= point_distance2 p q.
Proof.
  intros A K P T q Q. pose proof A as (C & _). pose proof C as [O R]. pose proof (arc_angles a A) as (E1 & E2 & R1 & R2). apply (arc_has_iff a q A) in Q as (s & S & ->). pose proof (ray_dist _ _ _ _ s C K P) as D. pose proof (ray_dist _ _ _ _ (ang1 a) C K P) as D1. pose proof (ray_dist _ _ _ _ (ang2 a) C K P) as D2. rewrite <- E1 in D1. rewrite <- E2 in D2.
  pose proof (norm2_pos (sub2 p (ast a))) as N1. pose proof (norm2_pos (sub2 p (aen a))) as N2. pose proof (norm2_pos (sub2 p (circle2_point (ac a) s))) as N. fold (point_distance2 p (ast a)) in N1. fold (point_distance2 p (aen a)) in N2. fold (point_distance2 p (circle2_point (ac a) s)) in N.
  assert (RR : 0 < cr2 (ac a) * cr2 (ac a) * k) by (apply Rmult_lt_0_compat; auto; apply Rmult_lt_0_compat; auto).
  destruct (cos_quasi (t - ang2 a) (t - s) (t - ang1 a)) as [H|H]; try lra; [eapply Rle_trans; [apply Rmin_r|]|eapply Rle_trans; [apply Rmin_l|]]; apply Rsqr_incr_0; auto; unfold Rsqr; rewrite D; [rewrite D2|rewrite D1]; nra.
Qed.
Lemma circle_nearest c p q : on_circle2 c q -> Rabs (point_distance2 p (center2 c) - cr2 c) <= point_distance2 p q.
Proof. intros O. unfold on_circle2 in O. pose proof (dist2_triangle p q (center2 c)) as X. pose proof (dist2_triangle q p (center2 c)) as Y. rewrite O in X, Y. rewrite (dist2_sym q p) in Y. apply Rabs_le. lra. Qed.
(** the ray of a point of the arc crosses the rectangle of the samples *)
Lemma ray_meets_rectangle a t r : arc_ok a -> ang1 a <= t <= ang2 a -> arc2_bounding_rectangle a = Ok r -> exists k, 0 <= k <= 1 /\ in_rect r (add2 (center2 (ac a)) (ray (ac a) t k)).
Proof.
  intros A T E. pose proof A as (C & _). pose proof C as [O R]. pose proof (arc_angles a A) as (E1 & E2 & R1 & R2). pose proof PI_RGT_0 as PP. destruct (rectangle_samples a A) as (l & r' & DI & RR & IN & _). rewrite E in RR. apply Ok_inj in RR. subst r'.
  destruct (discretization_ok a (Some 20%Z) (Some 20%Z) A) as (l' & DI' & L & G); [rewrite number_points_given; lia|]. rewrite DI in DI'. apply Ok_inj in DI'. subst l'. rewrite number_points_given in L by lia. assert (LL : length l = 20%nat) by lia. rewrite LL in G.
  set (b := arc2_angle a / 19). assert (B : 0 < b <= 2 * PI / 19) by (unfold b, arc2_angle; lra).
  assert (SI : exists i : nat, (i < 19)%nat /\ INR i * b <= t - ang1 a <= INR i * b + b).
  { pose proof (floor_spec ((t - ang1 a) / b)) as F. set (n := rfloor _) in *. set (x := (t - ang1 a) / b) in *. assert (XB : x * b = t - ang1 a) by (unfold x; field; lra). assert (X0 : 0 <= x) by (unfold x; apply Rmult_le_pos; [lra|apply Rlt_le, Rinv_0_lt_compat; lra]).
    assert (X19 : x <= 19). { apply Rmult_le_reg_r with b; [lra|]. rewrite XB. unfold b, arc2_angle. lra. } clearbody x. assert (N0 : (-1 < n)%Z) by (apply lt_IZR; lra). assert (N1 : (n <= 19)%Z) by (apply le_IZR; lra).
    destruct (Z.eq_dec n 19) as [Z|Z].
    - exists 18%nat. split; [lia|]. rewrite Z in F. assert (x = 19) by lra. subst x. cbn [INR]. lra.
    - exists (Z.to_nat n). split; [lia|]. rewrite INR_IZR_INZ, Z2Nat.id by lia. split; nra. }
  destruct SI as (i & I & SX). set (y := t - ang1 a - INR i * b). assert (Y : 0 <= y <= b) by (unfold y; lra).
  assert (SB : 0 < sin b) by (apply sin_gt_0; lra). assert (SY : 0 <= sin y) by (apply sin_ge_0; lra). assert (SY' : 0 <= sin (b - y)) by (apply sin_ge_0; lra).
  assert (SUM : sin b <= sin y + sin (b - y)).
  { replace (sin b) with (sin (y + (b - y))) by (f_equal; ring). rewrite sin_plus. pose proof (COS_bound y). pose proof (COS_bound (b - y)). nra. }
  set (W := sin y + sin (b - y)) in *. assert (W0 : 0 < W) by lra. exists (sin b / W). split; [split; [apply Rlt_le, Rdiv_lt_0_compat; lra|apply Rmult_le_reg_r with W; auto; unfold Rdiv; rewrite Rmult_assoc, Rinv_l by lra; lra]|].
  set (P := circle2_point (ac a) (ang1 a + INR i / (INR 20 - 1) * arc2_angle a)). set (Q := circle2_point (ac a) (ang1 a + INR (S i) / (INR 20 - 1) * arc2_angle a)).
  assert (IP : In P l) by (unfold P; rewrite <- (G i P) by lia; apply nth_In; lia). assert (IQ : In Q l) by (unfold Q; rewrite <- (G (S i) P) by lia; apply nth_In; lia). apply IN in IP, IQ.
  assert (KEY : add2 (center2 (ac a)) (ray (ac a) t (sin b / W)) = add2 (mul2 P (sin (b - y) / W)) (mul2 Q (sin y / W))).
  { unfold P, Q, ray, circle2_point. rewrite (S_INR i). replace (ang1 a + INR i / (INR 20 - 1) * arc2_angle a) with (t - y) by (unfold y, b; cbn [INR]; field). replace (ang1 a + (INR i + 1) / (INR 20 - 1) * arc2_angle a) with (t + (b - y)) by (unfold y, b; cbn [INR]; field).
    assert (CB : sin b = sin y * cos (b - y) + cos y * sin (b - y)) by (rewrite <- sin_plus; f_equal; ring). rewrite CB. clear - W0. unfold W in *. clear W. set (z := b - y) in *. clearbody z y. rewrite sin_minus, cos_minus, sin_plus, cos_plus. unfold add2, sub2, mul2. cbn [x2 y2]. apply vec2_ext; cbn [x2 y2]; field; lra. }
  rewrite KEY. assert (L1 : 0 <= sin (b - y) / W) by (apply Rmult_le_pos; [lra|apply Rlt_le, Rinv_0_lt_compat; lra]). assert (L2 : 0 <= sin y / W) by (apply Rmult_le_pos; [lra|apply Rlt_le, Rinv_0_lt_compat; lra]). assert (L3 : sin (b - y) / W + sin y / W = 1) by (unfold W; field; unfold W in W0; lra).
  set (l1 := sin (b - y) / W) in *. set (l2 := sin y / W) in *. clearbody l1 l2 P Q. unfold in_rect, add2, mul2. cbn [x2 y2]. destruct IP as [[X1 X2] [X3 X4]]. destruct IQ as [[Y1 Y2] [Y3 Y4]].
  assert (CV : forall m M a b, m <= a <= M -> m <= b <= M -> m <= a * l1 + b * l2 <= M). { intros m M x z HX HZ. replace l2 with (1 - l1) by lra. assert (0 <= 1 - l1) by lra. split; nra. }
  split; apply CV; lra.
Qed.
Lemma foot_eq a p t k : circle_ok (ac a) -> 0 < k -> sub2 p (center2 (ac a)) = ray (ac a) t k -> circle2_point (ac a) t = at_param2 (center2 (ac a), p) (/ k).
Proof. intros [O R] K P. unfold at_param2. cbn [fst snd]. rewrite P. unfold ray, add2, sub2, mul2. apply vec2_ext; cbn [x2 y2]; field; lra. Qed.
Lemma foot_segment a p t k : arc_ok a -> 1 < k -> / 10 ^ 6 < cr2 (ac a) -> sub2 p (center2 (ac a)) = ray (ac a) t k ->
  exists l, arc2_linesegment_intersections a (center2 (ac a), p) (/ 10 ^ 6) = Ok l /\
  (l <> [] -> arc2_point_belongs a (circle2_point (ac a) t) (/ 10 ^ 6) = Ok true) /\ (ang1 a <= t <= ang2 a -> l <> []).
Proof.
  intros A K R6 P. pose proof A as (C & _). pose proof C as [O R]. pose proof (pow10_inv_pos 6) as P6. set (c := center2 (ac a)) in *. set (m := circle2_point (ac a) t). assert (FM : m = at_param2 (c, p) (/ k)) by (apply foot_eq; auto; lra).
  assert (IK : 0 < / k < 1) by (split; [apply Rinv_0_lt_compat; lra|rewrite <- Rinv_1; apply Rinv_lt_contravar; lra]).
  assert (MO : on_circle2 (ac a) m) by (apply circle2_point_on; auto; lra). assert (NP : norm2 (sub2 p c) = k * cr2 (ac a)) by (rewrite P; apply ray_norm; auto; lra).
  assert (PN : fst (c, p) <> snd (c, p)). { cbn [fst snd]. intros Q. assert (Z : norm2 (sub2 p c) = 0) by (apply (proj2 (dist2_zero p c)); auto). rewrite NP in Z. nra. }
  destruct (rectangle_ok a A) as (r & RR & (RA & RB) & _). unfold arc2_linesegment_intersections. rewrite RR. cbn [bind].
  assert (VR : valid_rect r) by (split; lra). assert (VS : forall s, valid_rect (sg2_rectangle s)) by (intros s; split; cbn [sg2_rectangle rxmin rxmax rymin rymax]; (eapply Rle_trans; [apply Rmin_l|apply Rmax_l])).
  assert (SEG : forall w, 0 <= w <= 1 -> in_rect (sg2_rectangle (c, p)) (at_param2 (c, p) w)).
  { intros w W. unfold in_rect, sg2_rectangle, at_param2, add2, mul2, sub2. cbn [rxmin rxmax rymin rymax fst snd x2 y2]. assert (H : forall a b, Rmin a b <= a + (b - a) * w <= Rmax a b) by (intros x y; unfold Rmin, Rmax; destruct (Rle_dec x y); split; nra). split; apply H. }
  assert (RD : forall r s q, valid_rect r -> valid_rect s -> in_rect r q -> in_rect s q -> Rltb (/ 10 ^ 6) (rect_distance r s) = false).
  { intros r0 s0 q V0 V1 I0 I1. apply Rltb_false. destruct (rect_distance_min r0 s0 V0 V1) as [_ H]. specialize (H q q I0 I1). rewrite (proj2 (dist2_zero q q) eq_refl) in H. lra. }
  assert (CI : exists j, circle2_linesegment_intersections (ac a) (c, p) (/ 10 ^ 6) = Ok j /\ In m j /\ forall x, In x j -> x = m).
  { unfold circle2_linesegment_intersections. rewrite (RD _ _ c); auto; [| | |].
    2: { unfold circle2_rectangle. split; cbn [rxmin rxmax rymin rymax]; lra. } 2: { unfold circle2_rectangle, in_rect, c. cbn [rxmin rxmax rymin rymax]. lra. } 2: { replace c with (at_param2 (c, p) 0) at 2 by (unfold at_param2, add2, mul2; cbn [fst snd]; apply vec2_ext; cbn [x2 y2]; ring). apply SEG. lra. }
    assert (DL : dist_to_line2 (c, p) (center2 (ac a)) 0). { fold c. split; [exists 0|intros w; apply norm2_pos]. apply dist2_zero. unfold at_param2, add2, mul2. cbn [fst snd]. apply vec2_ext; cbn [x2 y2]; ring. }
    destruct (circle_line_through 1 (ac a) (c, p) (/ 10 ^ 6) 0) as (q1 & q2 & EI & O1 & O2 & _ & L1 & L2 & ALL); auto; try lra. rewrite EI. cbn [bind].
    assert (TOT : forall x, exists b, sg2_point_belongs (c, p) x (/ 10 ^ 6) = Ok b /\ (b = true <-> near_segment2 (c, p) x (/ 10 ^ 6))) by (intros x; apply sg2_belongs_spec; [exact PN|lra]).
    destruct (filterM_total (fun x => sg2_point_belongs (c, p) x (/ 10 ^ 6)) [q1; q2]) as (j & F); [intros x _; destruct (TOT x) as (b & E & _); eauto|]. exists j. split; auto.
    assert (ML : line2_has (c, p) m) by (exists (/ k); auto). split.
    - apply (filterM_spec _ _ _ F). split.
      + cbn [In]. pose proof (norm2_pos (sub2 m q1)). pose proof (norm2_pos (sub2 m q2)). destruct (ALL m ML MO) as [H'|H']; rewrite Rmult_0_r in H'; unfold point_distance2 in H'; [left|right; left]; symmetry; apply dist2_zero; unfold point_distance2; lra.
      + apply sg2_belongs_yes; [exact PN|lra|]. exists m. split; [exists (/ k); split; [lra|auto]|]. rewrite (proj2 (dist2_zero m m) eq_refl). lra.
    - intros x I. apply (filterM_spec _ _ _ F) in I as [I B]. assert (X : on_circle2 (ac a) x /\ exists w, x = at_param2 (c, p) w).
      { cbn [In] in I. destruct I as [<-|[<-|[]]]; split; auto; [destruct L1 as [[w W] _]|destruct L2 as [[w W] _]]; exists w; apply dist2_zero in W; auto. }
      destruct X as [XO (w & XW)]. assert (WN : Rabs w * (k * cr2 (ac a)) = cr2 (ac a)). { unfold on_circle2 in XO. fold c in XO. rewrite <- NP. transitivity (point_distance2 x c); [|exact XO]. rewrite XW. unfold at_param2, point_distance2. cbn [fst snd]. rewrite <- norm2_scale. f_equal. unfold add2, sub2, mul2. apply vec2_ext; cbn [x2 y2]; ring. }
      assert (WK : Rabs w = / k). { apply Rmult_eq_reg_r with (k * cr2 (ac a)); [|apply Rgt_not_eq; nra]. rewrite WN. field. lra. }
      destruct (TOT x) as (b & E & Q). rewrite B in E. apply Ok_inj in E. destruct (proj1 Q (eq_sym E)) as (z & (v & V & ZV) & D).
      destruct (Rle_dec 0 w) as [W0|W0]; [rewrite Rabs_pos_eq in WK by auto; rewrite XW, WK; auto|]. exfalso. rewrite Rabs_left in WK by lra.
      assert (DZ : point_distance2 x z = Rabs (w - v) * (k * cr2 (ac a))). { rewrite XW, ZV, <- NP. unfold at_param2, point_distance2. cbn [fst snd]. rewrite <- norm2_scale. f_equal. unfold add2, sub2, mul2. apply vec2_ext; cbn [x2 y2]; ring. }
      rewrite DZ, Rabs_left in D by lra. assert (cr2 (ac a) <= - (w - v) * (k * cr2 (ac a))). { replace (- (w - v)) with (/ k + v) by lra. rewrite Rmult_plus_distr_r. replace (/ k * (k * cr2 (ac a))) with (cr2 (ac a)) by (field; lra). assert (0 <= v * (k * cr2 (ac a))) by (apply Rmult_le_pos; [lra|]; apply Rmult_le_pos; lra). lra. } lra. }
  destruct CI as (j & CJ & MJ & UJ). rewrite CJ. cbn [bind]. destruct (filterM_total (fun x => arc2_point_belongs a x (/ 10 ^ 6)) j) as (l & F); [intros; apply belongs_total; auto; lra|].
  destruct (Rltb (/ 10 ^ 6) (rect_distance r (sg2_rectangle (c, p)))) eqn:Q.
  - exists []. split; auto. split; [tauto|]. intros T. exfalso. destruct (ray_meets_rectangle a t r A T RR) as (k' & KK & IR). fold c in IR. rewrite (RD r _ (add2 c (ray (ac a) t k'))) in Q; [discriminate|auto|auto|auto|].
    replace (add2 c (ray (ac a) t k')) with (at_param2 (c, p) (k' * / k)); [apply SEG; split; [apply Rmult_le_pos; lra|rewrite <- (Rmult_1_r 1); apply Rmult_le_compat; lra]|]. unfold at_param2. cbn [fst snd]. rewrite P. unfold ray, add2, mul2. apply vec2_ext; cbn [x2 y2]; field; lra.
  - rewrite F. exists l. split; auto. split.
    + intros NE. destruct l as [|x l]; [tauto|]. pose proof (proj1 (filterM_spec _ _ _ F x) (or_introl eq_refl)) as [I B]. rewrite (UJ x I) in B. auto.
    + intros T. assert (IM : In m l). { apply (filterM_spec _ _ _ F). split; auto. apply belongs_complete; auto; [lra|]. apply arc_has_iff; auto. exists t. auto. } intros ->. destruct IM.
Qed.
Lemma point_distance_ok a p : arc_ok a -> / 10 ^ 6 < cr2 (ac a) -> exists d, arc2_point_distance a p = Ok d /\
  (exists q, arc_has (ac a) (ast a) (aen a) q /\ point_distance2 p q <= d + Rmax (/ 10 ^ 6) (6 / 1000 * cr2 (ac a))) /\
  (forall q, arc_has (ac a) (ast a) (aen a) q -> d - Rmax (/ 10 ^ 6) (6 / 1000 * cr2 (ac a)) <= point_distance2 p q).
Proof.
  intros A R6. pose proof A as (C & _). pose proof C as [O R]. pose proof (pow10_inv_pos 6) as P6. pose proof (arc_angles a A) as (E1 & E2 & R1 & R2). pose proof PI_RGT_0 as PP.
  set (T := Rmax (/ 10 ^ 6) (6 / 1000 * cr2 (ac a))). assert (T6 : / 10 ^ 6 <= T) by apply Rmax_l.
  assert (HS : arc_has (ac a) (ast a) (aen a) (ast a)) by (apply arc_has_iff; auto; exists (ang1 a); split; auto; lra). assert (HE : arc_has (ac a) (ast a) (aen a) (aen a)) by (apply arc_has_iff; auto; exists (ang2 a); split; auto; lra).
  assert (ON : forall q, arc_has (ac a) (ast a) (aen a) q -> on_circle2 (ac a) q) by (intros q Q; apply (arc_has_iff a q A) in Q as (s & _ & ->); apply circle2_point_on; auto; lra).
  set (c := center2 (ac a)) in *. set (r := cr2 (ac a)) in *. unfold arc2_point_distance. fold c. fold r.
  destruct (belongs_total a p (/ 10 ^ 6) A) as (b & B); [lra|]. rewrite B. cbn [bind]. destruct b.
  { exists 0. split; auto. destruct (belongs_sound a p (/ 10 ^ 6) A ltac:(lra) B) as (q & Q & D). split; [exists q; split; auto; fold r in D; fold T in D; lra|]. intros q' _. pose proof (norm2_pos (sub2 p q')) as N. unfold point_distance2. lra. }
  clear B. destruct (is_close2 c p (/ 10 ^ 6)) eqn:CL.
  { exists r. split; auto. apply (proj1 (is_close2_spec c p _ (Rlt_le _ _ P6))) in CL. rewrite (dist2_sym c p) in CL. split.
    - exists (ast a). split; auto. pose proof (dist2_triangle p c (ast a)) as X. pose proof (ON _ HS) as Y. unfold on_circle2 in Y. fold c in Y. fold r in Y. rewrite dist2_sym in Y. lra.
    - intros q Q. pose proof (circle_nearest (ac a) p q (ON q Q)) as X. fold c in X. fold r in X. pose proof (Rle_abs (- (point_distance2 p c - r))) as Y. rewrite Rabs_Ropp in Y. lra. }
  assert (NE : p <> c). { intros ->. apply Bool.not_true_iff_false in CL. apply CL. apply is_close2_spec; [lra|]. rewrite (proj2 (dist2_zero c c) eq_refl). lra. }
  assert (D0 : 0 < point_distance2 p c). { pose proof (norm2_pos (sub2 p c)) as N. fold (point_distance2 p c) in N. assert (point_distance2 p c <> 0) by (intros Z; apply NE; apply dist2_zero; auto). lra. }
  destruct (dir_exists (ac a) p (ang1 a) C D0) as (t & k & TT & K & P). fold c in P. assert (PK : point_distance2 p c = k * r) by (unfold point_distance2; rewrite P; apply ray_norm; auto).
  rewrite (segment2_ok c p) by (intros Q; apply NE; auto). cbn [bind]. assert (LN : sg2_length (c, p) = k * r) by (unfold sg2_length; cbn [fst snd]; rewrite <- PK; reflexivity). rewrite LN.
  set (m := circle2_point (ac a) t). assert (MO : on_circle2 (ac a) m) by (apply circle2_point_on; auto; apply Rlt_le; exact R).
  assert (PM : point_distance2 p m = Rabs (k - 1) * r). { unfold point_distance2. rewrite (Rmult_comm _ r), <- (Rabs_pos_eq r) at 1 by lra. rewrite <- Rabs_mult. pose proof (norm2_pos (sub2 p m)) as N. rewrite <- (Rabs_pos_eq (norm2 (sub2 p m))) by auto. apply Rsqr_eq_abs_0. unfold Rsqr. fold (point_distance2 p m). unfold m. rewrite (ray_dist _ t k p t C K P). fold r. replace (t - t) with 0 by ring. rewrite cos_0. ring. }
  assert (ENDS : ~ (ang1 a <= t <= ang2 a) -> let d := Rmin (point_distance2 (ast a) p) (point_distance2 (aen a) p) in (exists q, arc_has (ac a) (ast a) (aen a) q /\ point_distance2 p q <= d + T) /\ (forall q, arc_has (ac a) (ast a) (aen a) q -> d - T <= point_distance2 p q)).
  { intros NT d. unfold d. rewrite (dist2_sym (ast a) p), (dist2_sym (aen a) p). split.
    - apply Rmin_case; [exists (ast a)|exists (aen a)]; split; auto; lra.
    - intros q Q. pose proof (ends_nearest a p t k A K P ltac:(lra) q Q). lra. }
  assert (FOOT : arc2_point_belongs a m (/ 10 ^ 6) = Ok true -> let d := Rabs (k - 1) * r in (exists q, arc_has (ac a) (ast a) (aen a) q /\ point_distance2 p q <= d + T) /\ (forall q, arc_has (ac a) (ast a) (aen a) q -> d - T <= point_distance2 p q)).
  { intros B d. unfold d. rewrite <- PM. split.
    - destruct (belongs_on_circle a m (/ 10 ^ 6) A ltac:(lra) MO) as (b & B' & I). rewrite B in B'. apply Ok_inj in B'. destruct (proj1 I (eq_sym B')) as [H|[H|H]].
      + exists m. split; auto. lra.
      + exists (ast a). split; auto. pose proof (dist2_triangle p m (ast a)). lra.
      + exists (aen a). split; auto. pose proof (dist2_triangle p m (aen a)). lra.
    - intros q Q. pose proof (circle_nearest (ac a) p q (ON q Q)) as X. fold c in X. fold r in X. rewrite PK in X. replace (k * r - r) with ((k - 1) * r) in X by ring. rewrite Rabs_mult, (Rabs_pos_eq r) in X by lra. rewrite PM. lra. }
  destruct (Rltb r (k * r)) eqn:KR; rb.
  - assert (K1 : 1 < k) by nra. destruct (foot_segment a p t k A K1 R6 P) as (l & L & L1 & L2). fold c in L. rewrite L. cbn [bind]. destruct l as [|x l].
    + eexists. split; [reflexivity|]. apply ENDS. intros H. apply L2 in H. tauto.
    + exists (k * r - r). split; auto. replace (k * r - r) with (Rabs (k - 1) * r) by (rewrite Rabs_pos_eq by lra; ring). apply FOOT. apply L1. discriminate.
  - assert (K1 : k <= 1) by nra. assert (U : unit_vector2 (sub2 p c) = Ok (mul2 (sub2 p c) (/ (k * r)))).
    { apply unit2_ok. rewrite <- PK. split; [|reflexivity]. intros Z. apply norm2_zero in Z. fold (point_distance2 p c) in Z. lra. }
    rewrite U. cbn [bind]. replace (add2 c (mul2 (mul2 (sub2 p c) (/ (k * r))) r)) with m.
    2: { rewrite P. unfold m, ray, add2, sub2, mul2. fold c. fold r. apply vec2_ext; cbn [x2 y2]; field; lra. }
    destruct (belongs_total a m (/ 10 ^ 6) A) as (b & B); [lra|]. rewrite B. cbn [bind]. destruct b.
    + exists (r - k * r). split; auto. replace (r - k * r) with (Rabs (k - 1) * r) by (rewrite Rabs_left1 by lra; ring). apply FOOT. auto.
    + eexists. split; [reflexivity|]. apply ENDS. intros H. rewrite belongs_complete in B; [discriminate|auto|lra|]. apply arc_has_iff; auto. exists t. auto.
Qed.
