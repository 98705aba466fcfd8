(** Membership and abscissa of a point of an arc. *)
From Coq Require Import Reals Lra Lia List Bool ZArith.
From Verif.Model Require Import Base RBase Vec Frame BBox Geometry Curves Edges Arcs.
From Verif.Spec Require Import VecSpec FrameSpec AngleSpec CurvesSpec ArcsSpec.
From Verif.Proofs Require Import VecP LineP FrameP GeometryP CurvesP CurvesP3 CurvesP4 CurvesP5 CurvesP6 CurvesP7 ArcsP.
Import ListNotations.
Open Scope R_scope.

Lemma new_total c s e : circle_ok c -> exists a, arc2_new c s e = Ok a /\ ac a = c /\ ast a = s /\ aen a = e.
Proof.
  intros [O R]. unfold arc2_new, arc_point_angle. rewrite !frame2_g2l_ok by auto. cbn [bind]. rewrite (proj2 (Reqb_false _ _)) by lra. cbn [bind]. eexists. split; [reflexivity|]. auto.
Qed.
Lemma reverse_ok c : circle_ok c -> circle_ok (circle2_reverse c).
Proof. intros [(A & B & C) R]. split; [|exact R]. unfold circle2_reverse. cbn [cf2 fb2]. unfold orthonormal2, dot2, neg2 in *. cbn [u2 v2 x2 y2]. repeat split; lra. Qed.
Lemma reverse_point c t : circle2_point (circle2_reverse c) t = circle2_point c (- t).
Proof. unfold circle2_point, circle2_reverse, center2. rewrite cos_neg, sin_neg. cbn [cf2 cr2 fb2 org2 u2 v2]. unfold add2, mul2, neg2. cbn [x2 y2]. f_equal; ring. Qed.
Lemma reverse_trigo c : circle_ok c -> circle2_is_trigo (circle2_reverse c) = negb (circle2_is_trigo c).
Proof.
  intros [O R]. pose proof (ortho_det _ O) as D. unfold circle2_is_trigo, circle2_reverse. cbn [cf2 fb2 u2 v2]. set (u := u2 (fb2 (cf2 c))) in *. set (v := v2 (fb2 (cf2 c))) in *.
  replace (cross2 u (neg2 v)) with (- cross2 u v) by (unfold cross2, neg2; cbn [x2 y2]; ring). set (e := cross2 u v) in *. destruct (Rltb 0 e) eqn:L; rb; cbn [negb]; [apply Rltb_false|apply Rltb_spec]; nra.
Qed.
Lemma trigo_clockwise c : circle_ok c -> circle2_is_trigo c = false -> forall t s, rotation2 (circle2_point c t) (center2 c) (- s) = circle2_point c (t + s).
Proof. intros C T t s. rewrite <- rotate_point by auto. rewrite T. auto. Qed.
Definition ray (c : circle2) (t k : R) : vec2 := mul2 (sub2 (circle2_point c t) (center2 c)) k.
Lemma point_norm c t : circle_ok c -> norm2 (sub2 (circle2_point c t) (center2 c)) = cr2 c.
Proof. intros [O R]. apply (circle2_point_on c t O). lra. Qed.
Lemma ray_norm c t k : circle_ok c -> 0 < k -> norm2 (ray c t k) = k * cr2 c.
Proof.
  intros C K. unfold ray. rewrite norm2_scale, point_norm, Rabs_pos_eq by (auto; lra). auto.
Qed.
Lemma ray_nz c t k : circle_ok c -> 0 < k -> ray c t k <> V2 0 0.
Proof. intros C K E. pose proof (ray_norm c t k C K) as N. rewrite E, (proj2 (norm2_zero (V2 0 0)) eq_refl) in N. destruct C as [O R]. nra. Qed.
Lemma ray_turn c t k s : circle_ok c -> circle2_is_trigo c = false -> rotate_clockwise (ray c t k) s = ray c (t + s) k.
Proof.
  intros C T. unfold ray. rewrite <- (trigo_clockwise c C T). set (p := circle2_point c t). set (o := center2 c). clearbody p o. destruct p as [a b], o as [u v]. unfold rotate_clockwise, rotation2, mul2, sub2. cbv zeta. cbn [x2 y2]. rewrite cos_neg, sin_neg. f_equal; ring.
Qed.
Lemma cw_rays c a b k1 k2 d : circle_ok c -> circle2_is_trigo c = false -> 0 < k1 -> 0 < k2 -> 0 < d <= 2 * PI -> same_angle (a + d) b ->
  clockwise_angle (ray c a k1) (ray c b k2) = d.
Proof.
  intros C T K1 K2 D S. destruct (clockwise_angle_spec _ _ (ray_nz c a k1 C K1) (ray_nz c b k2 C K2)) as [E (m & M & X & Y)]. set (e := clockwise_angle _ _) in *. clearbody e.
  rewrite ray_turn in X, Y by auto. apply (same_range' _ _ 0); try lra. assert (Q : ray c b k2 = mul2 (ray c (a + e) k1) m) by (apply vec2_ext; unfold mul2; cbn [x2 y2]; lra).
  assert (Q2 : ray c b k2 = ray c (a + e) (k1 * m)) by (rewrite Q; unfold ray, mul2; cbn [x2 y2]; f_equal; ring).
  assert (N : k2 = k1 * m). { pose proof (f_equal norm2 Q2) as N. rewrite !ray_norm in N by (auto; nra). destruct C as [O R]. apply Rmult_eq_reg_r in N; lra. }
  rewrite <- N in Q2. assert (P : circle2_point c b = circle2_point c (a + e)).
  { pose proof (f_equal x2 Q2) as GX. pose proof (f_equal y2 Q2) as GY. unfold ray, mul2, sub2 in GX, GY. cbn [x2 y2] in GX, GY. apply Rmult_eq_reg_r in GX; [|lra]. apply Rmult_eq_reg_r in GY; [|lra]. apply vec2_ext; lra. }
  apply point_inj in P; auto. replace e with (a + e + - a) by ring. replace d with (a + d + - a) by ring. apply same_add; [|apply same_refl]. apply same_trans with b; auto using same_sym.
Qed.
(** the three angles compared by the code *)
Lemma cw_sum c al be t k : circle_ok c -> circle2_is_trigo c = false -> al < be <= al + 2 * PI -> al <= t < al + 2 * PI -> 0 < k ->
  clockwise_angle (ray c al 1) (ray c be 1) = be - al /\
  (al < t < be -> clockwise_angle (ray c al 1) (ray c t k) = t - al /\ clockwise_angle (ray c t k) (ray c be 1) = be - t) /\
  (~ al < t < be -> clockwise_angle (ray c al 1) (ray c t k) + clockwise_angle (ray c t k) (ray c be 1) = be - al + 2 * PI).
Proof.
  intros C T AB TR K. split; [apply cw_rays; auto; try lra; replace (al + (be - al)) with be by ring; apply same_refl|]. split.
  - intros I. split; apply cw_rays; auto; try lra; [replace (al + (t - al)) with t by ring|replace (t + (be - t)) with be by ring]; apply same_refl.
  - intros I. destruct (Req_dec t al) as [-> |N].
    + rewrite (cw_rays c al al 1 k (2 * PI)), (cw_rays c al be k 1 (be - al)); auto; try lra; try apply same_turn. replace (al + (be - al)) with be by ring. apply same_refl.
    + assert (be <= t) by (destruct (Rlt_le_dec t be); auto; exfalso; apply I; lra).
      rewrite (cw_rays c al t 1 k (t - al)), (cw_rays c t be k 1 (be - t + 2 * PI)); auto; try lra.
      * replace (t + (be - t + 2 * PI)) with (be + 2 * PI) by ring. apply same_turn.
      * replace (al + (t - al)) with t by ring. apply same_refl.
Qed.
Lemma normalize t m : exists t', m <= t' < m + 2 * PI /\ same_angle t' t.
Proof.
  pose proof PI_RGT_0. pose proof (floor_spec ((t - m) / (2 * PI))) as F. set (n := rfloor _) in *. exists (t - IZR n * (2 * PI)). split; [|exists (- n)%Z; rewrite opp_IZR; ring].
  assert (E : t - m = (t - m) / (2 * PI) * (2 * PI)) by (field; lra). set (q := (t - m) / (2 * PI)) in *. clearbody q. split; nra.
Qed.
Lemma dir_exists c p m : circle_ok c -> 0 < point_distance2 p (center2 c) -> exists t k, m <= t < m + 2 * PI /\ 0 < k /\ sub2 p (center2 c) = ray c t k.
Proof.
  intros C D. pose proof C as [O R]. set (d := point_distance2 p (center2 c)) in *. set (q := add2 (center2 c) (mul2 (sub2 p (center2 c)) (cr2 c / d))).
  assert (KP : 0 < cr2 c / d) by (apply Rmult_lt_0_compat; auto; apply Rinv_0_lt_compat; auto).
  assert (Q : on_circle2 c q).
  { unfold on_circle2, q. assert (E : sub2 (add2 (center2 c) (mul2 (sub2 p (center2 c)) (cr2 c / d))) (center2 c) = mul2 (sub2 p (center2 c)) (cr2 c / d)) by (unfold sub2, add2, mul2; cbn [x2 y2]; f_equal; ring).
    unfold point_distance2. rewrite E, norm2_scale, Rabs_pos_eq by lra. fold (point_distance2 p (center2 c)). fold d. field. lra. }
  destruct (circle2_point_all c q O R Q) as (t & _ & E & _). destruct (normalize t m) as (t' & T' & S). exists t', (d / cr2 c). split; auto. split; [apply Rmult_lt_0_compat; auto; apply Rinv_0_lt_compat; auto|].
  unfold ray. rewrite (point_same c t' t S), <- E. unfold q, sub2, add2, mul2. cbn [x2 y2]. f_equal; field; lra.
Qed.
(** angles of the clockwise version of an arc *)
Lemma clockwise_ok a : arc_ok a -> exists b al be, arc2_clockwise a = Ok b /\ circle_ok (ac b) /\ circle2_is_trigo (ac b) = false /\ center2 (ac b) = center2 (ac a) /\ cr2 (ac b) = cr2 (ac a) /\
  al < be <= al + 2 * PI /\ sub2 (ast b) (center2 (ac b)) = ray (ac b) al 1 /\ sub2 (aen b) (center2 (ac b)) = ray (ac b) be 1 /\ be - al = arc2_angle a /\
  (forall t, circle2_point (ac b) t = circle2_point (ac a) (if arc2_is_trigo a then - t else t)) /\
  (if arc2_is_trigo a then al = - ang2 a /\ be = - ang1 a else al = ang1 a /\ be = ang2 a).
Proof.
  intros A. pose proof (arc_angles a A) as (E1 & E2 & R1 & R2). pose proof A as (C & _). unfold arc2_clockwise.
  assert (RY : forall c t, ray c t 1 = sub2 (circle2_point c t) (center2 c)) by (intros; unfold ray, mul2; apply vec2_ext; cbn [x2 y2]; ring).
  destruct (arc2_is_trigo a) eqn:T.
  - unfold arc2_reverse. destruct (new_total (circle2_reverse (ac a)) (aen a) (ast a) (reverse_ok _ C)) as (b & N & B1 & B2 & B3). exists b, (- ang2 a), (- ang1 a). rewrite N, B1, B2, B3.
    split; auto. split; [apply reverse_ok; auto|]. unfold arc2_is_trigo in T. split; [rewrite reverse_trigo, T by auto; auto|]. split; [reflexivity|]. split; [reflexivity|]. split; [lra|]. rewrite !RY, !reverse_point, !Ropp_involutive, <- E1, <- E2.
    split; [reflexivity|]. split; [reflexivity|]. split; [unfold arc2_angle; ring|]. split; [intros; apply reverse_point|auto].
  - exists a, (ang1 a), (ang2 a). split; auto. split; auto. split; auto. split; auto. split; auto. split; [lra|]. rewrite !RY, <- E1, <- E2. repeat split; auto.
Qed.
Lemma isclose_rel_refl x t : 0 <= t -> isclose_rel x x t = true.
Proof. intros T. unfold isclose_rel. apply Rleb_spec. replace (x - x) with 0 by ring. rewrite Rabs_R0. apply Rmult_le_pos; auto. eapply Rle_trans; [apply (Rabs_pos x)|apply Rmax_l]. Qed.
Lemma isclose_rel_turn x : 0 < x <= 2 * PI -> isclose_rel x (x + 2 * PI) (1 / 100) = false.
Proof. intros X. pose proof PI_RGT_0. unfold isclose_rel. apply Rleb_false. rewrite (Rabs_left (x - (x + 2 * PI))) by lra. rewrite !Rabs_pos_eq by lra. rewrite Rmax_right by lra. lra. Qed.
Lemma seen_inside_ray a t k : ang1 a < t < ang2 a -> 0 < k -> forall p, sub2 p (center2 (ac a)) = ray (ac a) t k -> seen_inside a p.
Proof. intros T K p E. exists t, k. auto. Qed.
Lemma ray_inj c t k t' k' : circle_ok c -> 0 < k -> 0 < k' -> ray c t k = ray c t' k' -> k = k' /\ same_angle t t'.
Proof.
  intros C K K' E. assert (N : k = k') by (pose proof (f_equal norm2 E) as N; rewrite !ray_norm in N by auto; destruct C as [O R]; apply Rmult_eq_reg_r in N; lra). subst k'. split; auto.
  apply point_inj with c; auto. pose proof (f_equal x2 E) as X. pose proof (f_equal y2 E) as Y. unfold ray, mul2, sub2 in X, Y. cbn [x2 y2] in X, Y. apply Rmult_eq_reg_r in X; [|lra]. apply Rmult_eq_reg_r in Y; [|lra]. apply vec2_ext; lra.
Qed.
(** the answer of the angle comparison *)
Lemma angle_test a p : arc_ok a -> 0 < point_distance2 p (center2 (ac a)) -> exists b arc s e, arc2_clockwise a = Ok b /\
  clockwise_angle (sub2 (ast b) (center2 (ac b))) (sub2 (aen b) (center2 (ac b))) = arc /\ 0 < arc <= 2 * PI /\ arc = arc2_angle a /\
  clockwise_angle (sub2 (ast b) (center2 (ac b))) (sub2 p (center2 (ac b))) = s /\ clockwise_angle (sub2 p (center2 (ac b))) (sub2 (aen b) (center2 (ac b))) = e /\
  ((exists t k, ang1 a < t < ang2 a /\ 0 < k /\ sub2 p (center2 (ac a)) = ray (ac a) t k /\ s + e = arc /\ (if arc2_is_trigo a then s = ang2 a - t else s = t - ang1 a)) \/ (~ seen_inside a p /\ s + e = arc + 2 * PI)).
Proof.
  intros A D. destruct (clockwise_ok a A) as (b & al & be & E & CB & TB & CC & RR & AB & S & Q & AN & PT & W). destruct (arc_angles a A) as (_ & _ & _ & R2). pose proof A as (C & _).
  rewrite <- CC in D. destruct (dir_exists (ac b) p al CB D) as (t & k & T & K & P). destruct (cw_sum (ac b) al be t k CB TB AB T K) as (G1 & G2 & G3).
  exists b. do 3 eexists. split; [exact E|]. split; [reflexivity|]. rewrite S, Q, P. split; [rewrite G1; lra|]. split; [rewrite G1; lra|]. split; [reflexivity|]. split; [reflexivity|].
  assert (RAY : forall x, ray (ac b) x k = ray (ac a) (if arc2_is_trigo a then - x else x) k) by (intros; unfold ray; rewrite PT, CC; auto).
  destruct (Rlt_dec al t) as [L1|L1]; [destruct (Rlt_dec t be) as [L2|L2]|].
  - left. destruct (G2 ltac:(lra)) as [H1 H2]. rewrite H1, H2, G1. rewrite RAY, CC in P. exists (if arc2_is_trigo a then - t else t), k. rewrite P. clear P. destruct (arc2_is_trigo a); destruct W as [-> ->]; repeat split; auto; lra.
  - right. rewrite (G3 ltac:(lra)), G1. split; [|lra]. intros (t' & k' & T' & K' & Q'). fold (ray (ac a) t' k') in Q'. rewrite <- CC, P, RAY in Q'. apply ray_inj in Q' as [_ SA]; auto. apply L2. destruct (arc2_is_trigo a); destruct W as [-> ->].
    + assert (t = - t'); [|lra]. apply (same_range _ _ (- ang2 a)); [|lra|lra]. apply same_opp in SA. rewrite Ropp_involutive in SA. auto.
    + assert (t = t'); [|lra]. apply (same_range _ _ (ang1 a)); auto; lra.
  - right. rewrite (G3 ltac:(lra)), G1. split; [|lra]. intros (t' & k' & T' & K' & Q'). fold (ray (ac a) t' k') in Q'. rewrite <- CC, P, RAY in Q'. apply ray_inj in Q' as [_ SA]; auto. apply L1. destruct (arc2_is_trigo a); destruct W as [-> ->].
    + assert (t = - t'); [|lra]. apply (same_range _ _ (- ang2 a)); [|lra|lra]. apply same_opp in SA. rewrite Ropp_involutive in SA. auto.
    + assert (t = t'); [|lra]. apply (same_range _ _ (ang1 a)); auto; lra.
Qed.

Lemma belongs_iff a p tol : arc_ok a -> 0 <= tol -> exists b, arc2_point_belongs a p tol = Ok b /\
  (b = true <-> Rabs (point_distance2 p (center2 (ac a)) - cr2 (ac a)) <= 5 / 1000 * Rmax (point_distance2 p (center2 (ac a))) (cr2 (ac a)) /\
     (point_distance2 p (ast a) <= tol \/ point_distance2 p (aen a) <= tol \/ seen_inside a p)).
Proof.
  intros A T. pose proof A as ([O R] & _). unfold arc2_point_belongs. unfold isclose_rel at 1. assert (DP : 0 <= point_distance2 p (center2 (ac a))) by apply norm2_pos. rewrite (Rabs_pos_eq _ DP), (Rabs_pos_eq (cr2 (ac a))) by lra.
  set (d := point_distance2 p (center2 (ac a))) in *. destruct (Rleb _ _) eqn:L; rb; cbn [negb].
  2:{ exists false. split; auto. split; [discriminate|]. intros [H _]. lra. }
  destruct (is_close2 p (ast a) tol) eqn:E1; [apply is_close2_spec in E1; auto; exists true; cbn [orb]; split; auto; split; auto|].
  destruct (is_close2 p (aen a) tol) eqn:E2; [apply is_close2_spec in E2; auto; exists true; cbn [orb]; split; auto; split; auto|]. cbn [orb].
  assert (D : 0 < d). { destruct (Req_dec d 0) as [Z|]; [|lra]. exfalso. rewrite Z, Rmax_right in L by lra. replace (0 - cr2 (ac a)) with (- cr2 (ac a)) in L by ring. rewrite Rabs_Ropp, Rabs_pos_eq in L by lra. lra. }
  assert (N1 : ~ point_distance2 p (ast a) <= tol) by (rewrite <- is_close2_spec by auto; congruence). assert (N2 : ~ point_distance2 p (aen a) <= tol) by (rewrite <- is_close2_spec by auto; congruence).
  destruct (angle_test a p A D) as (b & arc & s & e & -> & G1 & G2 & _ & G3 & G4 & G5). cbn [bind]. rewrite G1, G3, G4. destruct G5 as [(t & k & I & K & P & S & _)|[I S]]; rewrite S.
  - rewrite isclose_rel_refl by lra. exists true. split; auto. split; auto. intros _. split; auto. right. right. apply (seen_inside_ray a t k); auto.
  - rewrite isclose_rel_turn by auto. exists false. split; auto. split; [discriminate|]. intros [_ [H|[H|H]]]; contradiction.
Qed.
Lemma has_seen a p : arc_ok a -> arc_has (ac a) (ast a) (aen a) p -> on_circle2 (ac a) p /\ (p = ast a \/ p = aen a \/ seen_inside a p).
Proof.
  intros A H. pose proof (arc_angles a A) as (E1 & E2 & R1 & R2). pose proof A as ([O R] & _). apply arc_has_iff in H as (t & T & ->); auto. split; [apply circle2_point_on; auto; lra|].
  destruct (Req_dec t (ang1 a)) as [-> |N1]; auto. destruct (Req_dec t (ang2 a)) as [-> |N2]; auto. right. right. exists t, 1. split; [lra|]. split; [lra|]. unfold mul2. apply vec2_ext; cbn [x2 y2]; ring.
Qed.
Lemma seen_has a p : arc_ok a -> on_circle2 (ac a) p -> seen_inside a p -> arc_has (ac a) (ast a) (aen a) p.
Proof.
  intros A Q (t & k & T & K & P). pose proof A as (C & _). apply arc_has_iff; auto. exists t. split; [lra|]. fold (ray (ac a) t k) in P. unfold on_circle2, point_distance2 in Q. rewrite P, ray_norm in Q by auto. destruct C as [O R].
  assert (k = 1) by nra. subst k. unfold ray, mul2, sub2 in P. pose proof (f_equal x2 P) as X. pose proof (f_equal y2 P) as Y. cbn [x2 y2] in X, Y. apply vec2_ext; lra.
Qed.
Lemma rel_ok r : 0 < r -> Rabs (r - r) <= 5 / 1000 * Rmax r r.
Proof. intros R. replace (r - r) with 0 by ring. rewrite Rabs_R0. rewrite Rmax_left by lra. lra. Qed.
(** every point of the arc belongs to it *)
Lemma belongs_complete a p tol : arc_ok a -> 0 <= tol -> arc_has (ac a) (ast a) (aen a) p -> arc2_point_belongs a p tol = Ok true.
Proof.
  intros A T H. destruct (belongs_iff a p tol A T) as (b & -> & B). f_equal. apply B. apply has_seen in H as [Q H]; auto. pose proof A as ([O R] & _). unfold on_circle2 in Q. rewrite Q. split; [apply rel_ok; auto|].
  destruct H as [-> |[-> |H]]; auto; [left|right; left]; rewrite (proj2 (dist2_zero _ _)); auto.
Qed.
(** for a point of the circle: exactly the points of the arc and those within the tolerance of an end *)
Lemma belongs_on_circle a p tol : arc_ok a -> 0 <= tol -> on_circle2 (ac a) p ->
  exists b, arc2_point_belongs a p tol = Ok b /\ (b = true <-> arc_has (ac a) (ast a) (aen a) p \/ point_distance2 p (ast a) <= tol \/ point_distance2 p (aen a) <= tol).
Proof.
  intros A T Q. destruct (belongs_iff a p tol A T) as (b & E & B). exists b. split; auto. rewrite B. pose proof A as ([O R] & _). split.
  - intros [_ [H|[H|H]]]; auto. left. apply seen_has; auto.
  - intros H. split; [unfold on_circle2 in Q; rewrite Q; apply rel_ok; auto|]. destruct H as [H|H]; [|tauto]. apply has_seen in H as [_ [-> |[-> |H]]]; auto; [left|right; left]; rewrite (proj2 (dist2_zero _ _)); auto.
Qed.
(** what a positive answer means in general: within 0.6 percent of the radius of the circle, in a direction of the arc *)
Lemma belongs_sound a p tol : arc_ok a -> 0 <= tol -> arc2_point_belongs a p tol = Ok true ->
  exists q, arc_has (ac a) (ast a) (aen a) q /\ point_distance2 p q <= Rmax tol (6 / 1000 * cr2 (ac a)).
Proof.
  intros A T H. destruct (belongs_iff a p tol A T) as (b & E & B). rewrite H in E. apply Ok_inj in E. subst b. destruct (proj1 B eq_refl) as [D [G|[G|G]]]; clear B.
  - exists (ast a). split; [|eapply Rle_trans; [exact G|apply Rmax_l]]. apply arc_has_iff; auto. pose proof (arc_angles a A) as (E1 & E2 & R1 & R2). exists (ang1 a). split; auto; lra.
  - exists (aen a). split; [|eapply Rle_trans; [exact G|apply Rmax_l]]. apply arc_has_iff; auto. pose proof (arc_angles a A) as (E1 & E2 & R1 & R2). exists (ang2 a). split; auto; lra.
  - destruct G as (t & k & I & K & P). fold (ray (ac a) t k) in P. exists (circle2_point (ac a) t). split; [apply arc_has_iff; auto; exists t; split; auto; lra|]. pose proof A as (C & _). pose proof C as [O R].
    eapply Rle_trans; [|apply Rmax_r]. assert (DK : point_distance2 p (center2 (ac a)) = k * cr2 (ac a)) by (unfold point_distance2; rewrite P; apply ray_norm; auto). rewrite DK in D.
    assert (PQ : point_distance2 p (circle2_point (ac a) t) = Rabs (k - 1) * cr2 (ac a)).
    { rewrite <- (point_norm (ac a) t C), <- norm2_scale. unfold point_distance2. f_equal. pose proof (f_equal x2 P) as X. pose proof (f_equal y2 P) as Y. unfold ray, mul2, sub2 in *. cbn [x2 y2] in *. apply vec2_ext; cbn [x2 y2]; lra. }
    rewrite PQ. apply Rmult_le_compat_r; [lra|]. replace (k * cr2 (ac a) - cr2 (ac a)) with ((k - 1) * cr2 (ac a)) in D by ring. rewrite Rabs_mult, (Rabs_pos_eq (cr2 (ac a))) in D by lra. set (r := cr2 (ac a)) in *. clearbody r.
    destruct (Rle_dec k 1) as [L|L].
    + rewrite Rmax_right in D by nra. apply Rmult_le_reg_r with r; lra.
    + rewrite Rmax_left in D by nra. apply Rmult_le_reg_r with r; auto. rewrite Rabs_pos_eq in * by lra. assert (k - 1 <= 5 / 1000 * k) by (apply Rmult_le_reg_r with r; lra). nra.
Qed.
(** abscissa *)
Lemma abscissa_at a s tol : arc_ok a -> 0 <= tol -> 0 <= s <= arc2_length a -> forall p, arc2_at a s = Ok p ->
  tol <= point_distance2 p (ast a) -> tol <= point_distance2 p (aen a) -> 0 < s < arc2_length a -> arc2_abscissa a p tol = Ok s.
Proof.
  intros A T S p P D1 D2 S'. destruct (angle_ok a A) as [_ LN]. rewrite arc_at_point in P by auto. apply Ok_inj in P. pose proof A as (C & _). pose proof C as [O R]. pose proof (arc_angles a A) as (E1 & E2 & R1 & R2).
  assert (Q : on_circle2 (ac a) p) by (subst p; apply circle2_point_on; auto; lra). unfold on_circle2 in Q. unfold arc2_abscissa. rewrite Q, isclose_refl by auto. cbn [negb]. rewrite !(proj2 (Rltb_false _ _)) by auto.
  destruct (angle_test a p A) as (b & arc & s0 & e & -> & G1 & G2 & G2' & G3 & G4 & G5); [rewrite Q; auto|]. cbn [bind]. rewrite G1, G3, G4.
  assert (I : ang1 a < ang1 a + s / cr2 (ac a) < ang2 a).
  { rewrite LN in S'. unfold arc2_angle in S'. assert (0 < s / cr2 (ac a)) by (apply Rmult_lt_0_compat; [lra|apply Rinv_0_lt_compat; auto]). split; [lra|]. apply Rmult_lt_reg_r with (cr2 (ac a)); auto. rewrite Rmult_plus_distr_r. unfold Rdiv. rewrite Rmult_assoc, Rinv_l by lra. lra. }
  assert (RY : sub2 p (center2 (ac a)) = ray (ac a) (ang1 a + s / cr2 (ac a)) 1) by (subst p; unfold ray, mul2; apply vec2_ext; cbn [x2 y2]; ring).
  destruct G5 as [(t & k & I' & K & P' & SE & ST)|[N _]]; [|exfalso; apply N; apply (seen_inside_ray a (ang1 a + s / cr2 (ac a)) 1); auto; lra].
  rewrite SE, isclose_refl by auto. f_equal. rewrite RY in P'. apply ray_inj in P' as [_ SA]; auto; try lra. apply (same_range _ _ (ang1 a)) in SA; try lra. rewrite <- SA in ST. rewrite LN. unfold arc2_angle. destruct (arc2_is_trigo a); rewrite ST; field; lra.
Qed.
Lemma abscissa_sound a p tol s : arc_ok a -> 0 <= tol < 1 -> arc2_abscissa a p tol = Ok s -> 0 <= s <= arc2_length a.
Proof.
  intros A T H. destruct (angle_ok a A) as [_ LN]. pose proof A as (C & _). pose proof C as [O R]. pose proof (arc_angles a A) as (E1 & E2 & R1 & R2). assert (LP : 0 <= arc2_length a) by (rewrite LN; unfold arc2_angle; apply Rmult_le_pos; lra).
  unfold arc2_abscissa in H. destruct (isclose _ _ _); cbn [negb] in H; [|discriminate]. destruct (Rltb _ _) eqn:X1; [apply Ok_inj in H; lra|]. destruct (Rltb (point_distance2 p (aen a)) tol) eqn:X2; [apply Ok_inj in H; lra|].
  destruct (Req_dec (point_distance2 p (center2 (ac a))) 0) as [Z|Z].
  - apply dist2_zero in Z. subst p. destruct (clockwise_ok a A) as (b & al & be & E & CB & TB & CC & RR & AB & S & Q & AN & PT & W). rewrite E in H. cbn [bind] in H. rewrite CC in H.
    replace (sub2 (center2 (ac a)) (center2 (ac a))) with (V2 0 0) in H by (apply vec2_ext; unfold sub2; cbn [x2 y2]; ring). rewrite (clockwise_angle_zero _ (V2 0 0) (or_intror eq_refl)), (clockwise_angle_zero (V2 0 0) _ (or_introl eq_refl)) in H. destruct (isclose _ _ _); [|discriminate]. apply Ok_inj in H. destruct (arc2_is_trigo a); lra.
  - assert (DP : 0 < point_distance2 p (center2 (ac a))) by (assert (0 <= point_distance2 p (center2 (ac a))) by apply norm2_pos; lra).
    destruct (angle_test a p A DP) as (b & arc & s0 & e & E & G1 & G2 & G2' & G3 & G4 & G5). rewrite E in H. cbn [bind] in H. rewrite G1, G3, G4 in H. destruct (isclose arc _ _) eqn:I; [|discriminate]. apply Ok_inj in H.
    destruct G5 as [(t & k & I' & K & P' & SE & ST)|[N SE]].
    + rewrite LN in *. unfold arc2_angle in *. destruct (arc2_is_trigo a); rewrite ST in H; split; nra.
    + exfalso. rewrite SE in I. unfold isclose in I. apply Rleb_spec in I. pose proof PI2_3_2 as P3. unfold PI2 in P3. rewrite (Rabs_left (arc - (arc + 2 * PI))) in I by lra. rewrite !Rabs_pos_eq, (Rmax_right arc (arc + 2 * PI)) in I by lra. assert (/ 10 ^ 9 <= 1 / 10) by lra. revert I. apply Rmax_case; intros I; [|lra].
      assert (/ 10 ^ 9 * (arc + 2 * PI) <= 1 / 10 * (arc + 2 * PI)) by (apply Rmult_le_compat_r; lra). lra.
Qed.
