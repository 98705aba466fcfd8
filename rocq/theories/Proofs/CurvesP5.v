(** Circle / line intersections in 2D: the whole function. *)
From Coq Require Import Reals Lra Lia List Bool ZArith.
From Verif.Model Require Import Base RBase Vec Frame BBox Geometry Curves.
From Verif.Spec Require Import VecSpec FrameSpec BBoxSpec PlaneSpec CurvesSpec.
From Verif.Proofs Require Import VecP LineP FrameP GeometryP PlaneP CurvesP CurvesP3 CurvesP4.
Import ListNotations.
Open Scope R_scope.

Lemma dist_line2_unique l p d d' : dist_to_line2 l p d -> dist_to_line2 l p d' -> d = d'.
Proof. intros [[t T] M] [[s S] N]. apply Rle_antisym; [rewrite <- S; apply M|rewrite <- T; apply N]. Qed.
Lemma line2_distance_is l p d : fst l <> snd l -> dist_to_line2 l p d -> line2_point_distance l p = Ok d.
Proof. intros L D. destruct (line2_distance_ok l p L) as (d' & E & D'). rewrite (dist_line2_unique _ _ _ _ D D'). auto. Qed.
Lemma line2_belongs_is l p d tol : 0 <= tol -> fst l <> snd l -> dist_to_line2 l p d -> line2_point_belongs l p tol = Ok (Rleb d tol).
Proof.
  intros T L D. destruct (line2_belongs_ok l p tol T L) as (b & E & B). rewrite E. f_equal. destruct D as [[t Ht] M].
  destruct (Rleb d tol) eqn:C; rb.
  - apply B. exists t. lra.
  - destruct b; auto. destruct (proj1 B eq_refl) as [s S]. specialize (M s). lra.
Qed.
Lemma loc_line_ne f l : orthonormal2 (fb2 f) -> fst l <> snd l -> fst (loc_line f l) <> snd (loc_line f l).
Proof. intros O L K. apply L. unfold loc_line in K. cbn [fst snd] in K. rewrite <- (l2g_loc f (fst l) O), <- (l2g_loc f (snd l) O), K. auto. Qed.
Lemma loc_dist_line f l p d : orthonormal2 (fb2 f) -> dist_to_line2 l p d -> dist_to_line2 (loc_line f l) (loc2 f p) d.
Proof.
  intros O [[t T] M]. split.
  - exists t. rewrite <- loc_param, loc_dist; auto.
  - intros s. rewrite <- loc_param, loc_dist; auto.
Qed.
Lemma mapping_center f g : orthonormal2 (fb2 f) -> frame2_mapping_new f f = Ok g -> org2 g = O2D.
Proof. intros O. unfold frame2_mapping_new. rewrite frame2_g2l_ok, !basis2_g2l_ok by auto. cbn [bind]. intros E. apply Ok_inj in E. rewrite <- E. cbn [org2]. apply loc_org. Qed.
Lemma mapping_some f : orthonormal2 (fb2 f) -> exists g, frame2_mapping_new f f = Ok g.
Proof. intros O. unfold frame2_mapping_new. rewrite frame2_g2l_ok, !basis2_g2l_ok by auto. cbn [bind]. eauto. Qed.
Lemma dist_O v : point_distance2 v O2D = norm2 v. Proof. unfold point_distance2. f_equal. unfold O2D. vec; v_eq; ring. Qed.

(** far lines *)
Lemma circle_line_far fuel c l tol d : fst l <> snd l -> dist_to_line2 l (center2 c) d -> cr2 c + tol < d -> circle2_line_intersections fuel c l tol = Ok [].
Proof. intros L D F. destruct fuel; cbn [circle2_line_intersections]; rewrite (line2_distance_is _ _ _ L D); cbn [bind]; rewrite (proj2 (Rltb_spec _ _) F); auto. Qed.
Lemma circle_line_far_true c l tol d : 0 <= tol -> dist_to_line2 l (center2 c) d -> cr2 c + tol < d -> forall p, line2_has l p -> ~ on_circle2 c p.
Proof. intros T [_ M] F p [t ->] O. unfold on_circle2 in O. specialize (M t). rewrite dist2_sym in M. lra. Qed.

(** secant lines *)
Lemma circle_line_secant c l tol d : orthonormal2 (fb2 (cf2 c)) -> 0 <= cr2 c -> 0 <= tol -> fst l <> snd l ->
  center2 c = O2D \/ / 10 ^ 6 < point_distance2 (center2 c) O2D ->
  dist_to_line2 l (center2 c) d -> / 10 ^ 6 < d -> d * d + / 10 ^ 6 < cr2 c * cr2 c ->
  exists p q, circle2_line_intersections 1 c l tol = Ok [p; q] /\ p <> q /\ forall r, (r = p \/ r = q) <-> (line2_has l r /\ on_circle2 c r).
Proof.
  intros O R T L C D D0 S. pose proof (pow10_inv_pos 6) as P6. pose proof (pow10_inv_pos 9) as P9. assert (DR : d < cr2 c) by nra.
  cbn [circle2_line_intersections]. rewrite (line2_distance_is _ _ _ L D), (line2_belongs_is _ _ _ (/ 10 ^ 6) ltac:(lra) L D). cbn [bind].
  rewrite (proj2 (Rltb_false _ _)), (proj2 (Rleb_false _ _)) by lra.
  destruct C as [C|C].
  - rewrite (proj2 (is_close2_spec _ _ (/ 10 ^ 6) ltac:(lra))) by (rewrite C, dist_O; unfold O2D; rewrite (proj2 (norm2_zero (V2 0 0)) eq_refl); lra). cbn [negb].
    assert (H : line_height2 l d) by (apply height_of_distance; rewrite <- C; apply line2_distance_is; auto).
    destruct (helper_ok _ _ _ R L H S) as (p & q & E & Np & Nq & [tp Tp] & [tq Tq] & N & M). exists p, q. split; auto. split; auto. intros r. unfold line2_has, on_circle2. rewrite C. split.
    + intros [-> | ->]; rewrite dist_O; split; eauto.
    + intros [[t ->] Q]. rewrite dist_O in Q. apply M. auto.
  - assert (F : is_close2 (center2 c) O2D (/ 10 ^ 6) = false) by (destruct (is_close2 (center2 c) O2D (/ 10 ^ 6)) eqn:F; auto; apply is_close2_spec in F; lra). rewrite F. cbn [negb].
    rewrite !frame2_g2l_ok by auto. destruct (mapping_some _ O) as [g G]. rewrite G. cbn [bind]. pose proof (mapping_center _ _ O G) as GO.
    pose proof (loc_dist_line _ _ _ _ O D) as D'. change (center2 c) with (org2 (cf2 c)) in D'. rewrite loc_org in D'. pose proof (loc_line_ne _ _ O L) as L'.
    change (loc2 (cf2 c) (fst l), loc2 (cf2 c) (snd l)) with (loc_line (cf2 c) l). change (center2 (C2 g (cr2 c))) with (org2 g). cbn [cr2]. rewrite GO, (line2_distance_is _ _ _ L' D'), (line2_belongs_is _ _ _ (/ 10 ^ 6) ltac:(lra) L' D'). cbn [bind].
    rewrite (proj2 (Rltb_false _ _)), (proj2 (Rleb_false _ _)) by lra.
    rewrite (proj2 (is_close2_spec _ _ (/ 10 ^ 6) ltac:(lra))) by (rewrite dist_O; unfold O2D; rewrite (proj2 (norm2_zero (V2 0 0)) eq_refl); lra). cbn [negb].
    assert (H : line_height2 (loc_line (cf2 c) l) d) by (apply height_of_distance; apply line2_distance_is; auto).
    destruct (helper_ok _ _ _ R L' H S) as (p & q & E & Np & Nq & [tp Tp] & [tq Tq] & N & M). rewrite E. cbn [bind map].
    exists (frame2_l2g (cf2 c) p), (frame2_l2g (cf2 c) q). split; auto. split; [intros K; apply N; rewrite <- (loc_l2g _ p O), <- (loc_l2g _ q O), K; auto|].
    assert (A : forall r, norm2 r = cr2 c -> (exists t, r = at_param2 (loc_line (cf2 c) l) t) -> line2_has l (frame2_l2g (cf2 c) r) /\ on_circle2 c (frame2_l2g (cf2 c) r)).
    { intros r Nr [t ->]. split.
      - exists t. rewrite <- loc_param, l2g_loc; auto.
      - unfold on_circle2. rewrite <- Nr. rewrite <- dist_O, <- (loc_org (cf2 c)). change (center2 c) with (org2 (cf2 c)). rewrite <- (l2g_dist (cf2 c) _ (loc2 (cf2 c) (org2 (cf2 c))) O), l2g_loc; auto. }
    intros r. split.
    + intros [-> | ->]; apply A; eauto.
    + intros [[t ->] Q]. unfold on_circle2 in Q. assert (W : norm2 (at_param2 (loc_line (cf2 c) l) t) = cr2 c).
      { rewrite <- loc_param, <- dist_O, <- (loc_org (cf2 c)), loc_dist; auto. }
      destruct (M t W) as [Z|Z]; [left|right]; rewrite <- Z, <- loc_param, l2g_loc; auto.
Qed.
(** lines through the centre (within 1e-6) *)
Lemma dist_cross l p d : fst l <> snd l -> dist_to_line2 l p d -> forall t, Rabs (cross2 (sub2 (at_param2 l t) p) (dir2 l)) = d * norm2 (dir2 l).
Proof.
  intros L D t. pose proof (line2_distance_is _ _ _ L D) as E. unfold line2_point_distance in E. cbv zeta in E. rewrite normal_norm in E. destruct (Reqb (norm2 (dir2 l)) 0) eqn:Z; [discriminate|]. rb. apply Ok_inj in E. rewrite <- E.
  replace (cross2 (sub2 (at_param2 l t) p) (dir2 l)) with (- dot2 (normal_vector2 (dir2 l)) (sub2 (fst l) p)) by (unfold at_param2, dir2, normal_vector2; destruct l as [a b]; cbn [fst snd]; vec; ring). rewrite Rabs_Ropp. field. auto.
Qed.
Lemma circle_line_through fuel c l tol d : 0 <= cr2 c -> 0 <= tol -> / 10 ^ 6 <= cr2 c -> fst l <> snd l -> dist_to_line2 l (center2 c) d -> d <= / 10 ^ 6 ->
  exists p q, circle2_line_intersections fuel c l tol = Ok [p; q] /\ on_circle2 c p /\ on_circle2 c q /\ point_distance2 p q = 2 * cr2 c /\
  dist_to_line2 l p d /\ dist_to_line2 l q d /\
  forall r, line2_has l r -> on_circle2 c r -> point_distance2 r p <= 2 * d \/ point_distance2 r q <= 2 * d.
Proof.
  intros R T RR L D D0. pose proof (pow10_inv_pos 6) as P6. pose proof (dir2_ne _ L) as NZ. assert (NP : 0 < norm2 (dir2 l)) by (pose proof (norm2_pos (dir2 l)); assert (norm2 (dir2 l) <> 0) by (intros Z; apply norm2_zero in Z; auto); lra).
  set (u := mul2 (dir2 l) (/ norm2 (dir2 l))).
  assert (U : unit_vector2 (dir2 l) = Ok u) by (apply unit2_ok; auto).
  assert (E : circle2_line_intersections fuel c l tol = Ok [add2 (center2 c) (mul2 u (cr2 c)); sub2 (center2 c) (mul2 u (cr2 c))]).
  { destruct fuel; cbn [circle2_line_intersections]; rewrite (line2_distance_is _ _ _ L D), (line2_belongs_is _ _ _ (/ 10 ^ 6) ltac:(lra) L D); cbn [bind]; rewrite (proj2 (Rltb_false _ _)), (proj2 (Rleb_spec _ _)) by lra; rewrite U; auto. }
  assert (UU : dot2 u u = 1). { unfold u. set (k := norm2 (dir2 l)) in *. transitivity (dot2 (dir2 l) (dir2 l) / (k * k)); [unfold dot2, mul2; cbn [x2 y2]; field; lra|]. rewrite <- norm2_sq. fold k. field. lra. }
  assert (N1 : norm2 u = 1) by (rewrite norm2_dot, UU; apply sqrt_1).
  assert (SM : forall s, norm2 (mul2 u s) = Rabs s). { intros s. rewrite norm2_dot. replace (dot2 (mul2 u s) (mul2 u s)) with (Rsqr s * dot2 u u) by (unfold Rsqr; vec; ring). rewrite UU, Rmult_1_r. apply sqrt_Rsqr_abs. }
  assert (SH : forall s, dist_to_line2 l (add2 (center2 c) (mul2 u s)) d).
  { intros s. destruct D as [[t H] M]. assert (W : forall t, sub2 (add2 (center2 c) (mul2 u s)) (at_param2 l t) = sub2 (center2 c) (at_param2 l (t - s / norm2 (dir2 l)))).
    { intros t'. unfold u. set (k := norm2 (dir2 l)) in *. unfold at_param2. change (sub2 (snd l) (fst l)) with (dir2 l). clearbody k. generalize (dir2 l) (fst l) (center2 c). intros [v1 v2] [f1 f2] [c1 c2]. unfold sub2, add2, mul2. cbn [x2 y2]. f_equal; field; lra. }
    split.
    - exists (t + s / norm2 (dir2 l)). unfold point_distance2. rewrite W. rewrite <- H. unfold point_distance2. do 3 f_equal. lra.
    - intros t'. unfold point_distance2. rewrite W. apply M. }
  exists (add2 (center2 c) (mul2 u (cr2 c))), (sub2 (center2 c) (mul2 u (cr2 c))).
  assert (SN : sub2 (center2 c) (mul2 u (cr2 c)) = add2 (center2 c) (mul2 u (- cr2 c))) by (generalize (center2 c); intros; vec; v_eq; ring).
  split; auto. rewrite SN. split; [|split; [|split; [|split; [apply SH|split; [apply SH|]]]]].
  - unfold on_circle2, point_distance2. replace (sub2 (add2 (center2 c) (mul2 u (cr2 c))) (center2 c)) with (mul2 u (cr2 c)) by (generalize (center2 c); intros; vec; v_eq; ring). rewrite SM. apply Rabs_pos_eq. auto.
  - unfold on_circle2, point_distance2. replace (sub2 (add2 (center2 c) (mul2 u (- cr2 c))) (center2 c)) with (mul2 u (- cr2 c)) by (generalize (center2 c); intros; vec; v_eq; ring). rewrite SM, Rabs_Ropp. apply Rabs_pos_eq. auto.
  - unfold point_distance2. replace (sub2 (add2 (center2 c) (mul2 u (cr2 c))) (add2 (center2 c) (mul2 u (- cr2 c)))) with (mul2 u (2 * cr2 c)) by (generalize (center2 c); intros; vec; v_eq; ring). rewrite SM. apply Rabs_pos_eq. lra.
  - intros r [t Hr] Q. unfold on_circle2 in Q. set (w := sub2 r (center2 c)). assert (WW : dot2 w w = cr2 c * cr2 c) by (rewrite <- norm2_sq; unfold point_distance2 in Q; fold w in Q; rewrite Q; auto).
    pose proof (dist_cross l _ d L D t) as X. rewrite <- Hr in X. fold w in X. assert (CX : Rabs (cross2 w u) = d).
    { unfold u. set (k := norm2 (dir2 l)) in *. replace (cross2 w (mul2 (dir2 l) (/ k))) with (cross2 w (dir2 l) * / k) by (unfold cross2, mul2; cbn [x2 y2]; field; lra). rewrite Rabs_mult, X, (Rabs_pos_eq (/ k)) by (left; apply Rinv_0_lt_compat; auto). field. lra. }
    assert (CS : cross2 w u * cross2 w u = d * d) by (rewrite <- CX, <- Rabs_mult; rewrite Rabs_pos_eq; auto; apply Rle_0_sqr).
    rewrite VecP.lagrange2, UU, WW in CS. set (s := dot2 w u) in *. assert (DP : 0 <= d) by (rewrite <- CX; apply Rabs_pos).
    assert (G : forall e, e * e = 1 -> 0 <= e * s -> point_distance2 r (add2 (center2 c) (mul2 u (e * cr2 c))) <= 2 * d).
    { intros e EE ES. unfold point_distance2. replace (sub2 r (add2 (center2 c) (mul2 u (e * cr2 c)))) with (sub2 w (mul2 u (e * cr2 c))) by (unfold w; generalize (center2 c); intros; vec; v_eq; ring).
      apply Rsqr_incr_0_var; [|lra]. unfold Rsqr. rewrite norm2_sq.
      replace (dot2 (sub2 w (mul2 u (e * cr2 c))) (sub2 w (mul2 u (e * cr2 c)))) with (dot2 w w + (e * e) * (cr2 c * cr2 c) * dot2 u u - 2 * cr2 c * (e * s)) by (unfold s; clearbody w u; vec; ring). rewrite WW, UU, EE.
      set (z := e * s) in *. assert (ZZ : z * z = s * s) by (unfold z; transitivity (e * e * (s * s)); [ring|rewrite EE; ring]). clearbody z. assert (ZR : z <= cr2 c) by nra.
      assert (KK : (cr2 c - z) * (cr2 c + z) = d * d) by (transitivity (cr2 c * cr2 c - z * z); [ring|rewrite ZZ; rewrite <- CS; ring]). assert (cr2 c * (cr2 c - z) <= d * d) by nra. nra. }
    destruct (Rle_dec 0 s) as [S|S].
    + left. replace (cr2 c) with (1 * cr2 c) by ring. apply G; lra.
    + right. replace (- cr2 c) with (-1 * cr2 c) by ring. apply G; lra.
Qed.
(** the tangent line of the circle of radius 4 at the origin, through (0, 5) and (4, 8): the returned point is not on the circle *)
Lemma circle_line_tangent_wrong : exists c l p, cr2 c = 4 /\ dist_to_line2 l (center2 c) 4 /\ orthonormal2 (fb2 (cf2 c)) /\ circle2_line_intersections 1 c l (/ 10 ^ 9) = Ok [p] /\ ~ on_circle2 c p /\
  exists q, line2_has l q /\ on_circle2 c q.
Proof.
  set (c := C2 (F2 O2D (B2 (V2 1 0) (V2 0 1))) 4). set (l := (V2 0 5, V2 4 8)). pose proof (pow10_inv_pos 6) as P6. pose proof (pow10_inv_pos 9) as P9. assert (S6 : / 10 ^ 6 < 1) by lra.
  assert (ND : norm2 (dir2 l) = 5) by (apply norm_r; [lra|unfold dir2, l, sub2; cbn [fst snd x2 y2]; lra]).
  assert (DD : line2_point_distance l O2D = Ok 4). { unfold line2_point_distance. cbv zeta. rewrite normal_norm, ND, (proj2 (Reqb_false _ _)) by lra. f_equal. unfold normal_vector2, dir2, l, O2D, dot2, sub2. cbn [fst snd x2 y2]. rewrite Rabs_pos_eq by lra. field. }
  assert (L : fst l <> snd l) by (unfold l; cbn [fst snd]; intros K; pose proof (f_equal x2 K) as K2; cbn [x2] in K2; lra).
  assert (D : dist_to_line2 l O2D 4) by (destruct (line2_distance_ok l O2D L) as (d & E & D); rewrite DD in E; apply Ok_inj in E; rewrite E; auto).
  exists c, l, (V2 (- 375 / 64) (155 / 256)). split; auto. split; auto. split; [unfold orthonormal2, c, dot2; cbn [fb2 cf2 u2 v2 x2 y2]; repeat split; lra|].
  split.
  - cbn [circle2_line_intersections]. change (center2 c) with O2D. change (cr2 c) with 4. rewrite DD, (line2_belongs_is _ _ _ (/ 10 ^ 6) ltac:(lra) L D). cbn [bind]. rewrite (proj2 (Rltb_false _ _)), (proj2 (Rleb_false _ _)) by lra.
    rewrite (proj2 (is_close2_spec _ _ (/ 10 ^ 6) ltac:(lra))) by (rewrite dist_O; unfold O2D; rewrite (proj2 (norm2_zero (V2 0 0)) eq_refl); lra). cbn [negb].
    unfold circle2_helper, get_y_intersection, get_slope, l. cbn [fst snd x2 y2]. rewrite (proj2 (Reqb_false 0 4)) by lra. cbv zeta. replace ((8 - 5) / (4 - 0)) with (3 / 4) by field.
    set (dl := (2 * (3 / 4) * (5 - 3 / 4 * 0)) ^ 2 - 4 * (1 + (3 / 4) ^ 2) * ((5 - 3 / 4 * 0) ^ 2 - 4 ^ 2)). assert (Z : dl = 0) by (unfold dl; field). rewrite Z, (proj2 (Rltb_false 0 0)), (proj2 (Reqb_false (1 + (3 / 4) ^ 2) 0)) by lra. cbn [orb].
    rewrite (proj2 (isclose_0 0 (/ 10 ^ 6) ltac:(lra))) by (rewrite Rabs_R0; lra). f_equal. f_equal. apply vec2_ext; cbn [x2 y2]; field.
  - split.
    + unfold on_circle2, point_distance2. intros K. apply norm_r in K; [|unfold c; cbn [cr2]; lra]. unfold c, center2, O2D, sub2 in K. cbn [cf2 org2 x2 y2 cr2] in K. lra.
    + exists (V2 (- 12 / 5) (16 / 5)). split.
      * exists (- 3 / 5). unfold at_param2, l, add2, mul2, sub2. cbn [fst snd x2 y2]. apply vec2_ext; cbn [x2 y2]; field.
      * unfold on_circle2, point_distance2. apply norm_r; unfold c, center2, O2D, sub2; cbn [cf2 org2 x2 y2 cr2]; lra.
Qed.
(** the vertical line x = 1 + 5e-10 next to the unit circle: not an empty list but math.sqrt's ValueError *)
Lemma circle_line_vertical_wrong : exists c l, cr2 c = 1 /\ orthonormal2 (fb2 (cf2 c)) /\ fst l <> snd l /\ circle2_line_intersections 1 c l (/ 10 ^ 9) = Err ValueError.
Proof.
  set (c := C2 (F2 O2D (B2 (V2 1 0) (V2 0 1))) 1). set (x := 1 + / 2 * / 10 ^ 9). set (l := (V2 x 0, V2 x 1)). pose proof (pow10_inv_pos 6) as P6. pose proof (pow10_inv_pos 9) as P9. assert (S6 : / 10 ^ 6 < 1) by lra. assert (S9 : / 10 ^ 9 < 1) by lra.
  assert (ND : norm2 (dir2 l) = 1) by (apply norm_r; [lra|unfold dir2, l, sub2; cbn [fst snd x2 y2]; lra]).
  assert (DD : line2_point_distance l O2D = Ok x). { unfold line2_point_distance. cbv zeta. rewrite normal_norm, ND, (proj2 (Reqb_false _ _)) by lra. f_equal. unfold normal_vector2, dir2, l, O2D, dot2, sub2. cbn [fst snd x2 y2]. rewrite Rabs_left1 by (unfold x; lra). field. }
  assert (L : fst l <> snd l) by (unfold l; cbn [fst snd]; intros K; pose proof (f_equal y2 K) as K2; cbn [y2] in K2; lra).
  assert (D : dist_to_line2 l O2D x) by (destruct (line2_distance_ok l O2D L) as (d & E & D); rewrite DD in E; apply Ok_inj in E; rewrite E; auto).
  exists c, l. split; auto. split; [unfold orthonormal2, c, dot2; cbn [fb2 cf2 u2 v2 x2 y2]; repeat split; lra|]. split; auto.
  cbn [circle2_line_intersections]. change (center2 c) with O2D. change (cr2 c) with 1. rewrite DD, (line2_belongs_is _ _ _ (/ 10 ^ 6) ltac:(lra) L D). cbn [bind]. rewrite (proj2 (Rltb_false _ _)), (proj2 (Rleb_false _ _)) by (unfold x; lra).
  rewrite (proj2 (is_close2_spec _ _ (/ 10 ^ 6) ltac:(lra))) by (rewrite dist_O; unfold O2D; rewrite (proj2 (norm2_zero (V2 0 0)) eq_refl); lra). cbn [negb].
  rewrite (helper_outside 1 l x); [|lra|auto|apply height_of_distance; auto|unfold x; lra]. unfold l. cbn [fst snd x2]. rewrite Reqb_refl. auto.
Qed.
