(** Lines: distances and intersections. *)
From Coq Require Import Reals Lra Lia List Bool ZArith.
From Verif.Model Require Import Base RBase Vec Frame Geometry Curves.
From Verif.Spec Require Import VecSpec FrameSpec PlaneSpec CurvesSpec.
From Verif.Proofs Require Import VecP LineP FrameP PlaneP PlaneP2 PlaneP3 PlaneP4.
Import ListNotations.
Open Scope R_scope.

Lemma cross2_le a b : Rabs (cross2 a b) <= norm2 a * norm2 b.
Proof.
  apply sq_le; [apply Rmult_le_pos; apply norm2_pos|]. rewrite <- Rabs_mult, Rabs_pos_eq by apply Rle_0_sqr. rewrite lagrange2.
  replace (norm2 a * norm2 b * (norm2 a * norm2 b)) with ((norm2 a * norm2 a) * (norm2 b * norm2 b)) by ring. rewrite !norm2_sq. pose proof (Rle_0_sqr (dot2 a b)) as Q. unfold Rsqr in Q. lra.
Qed.
Lemma dir2_ne l : fst l <> snd l -> dir2 l <> V2 0 0.
Proof.
  intros H Z. apply H. unfold dir2 in Z. destruct l as [[a b] [c d]]. cbn [fst snd] in *. unfold sub2 in Z. cbn [x2 y2] in Z.
  pose proof (f_equal x2 Z) as Z1. pose proof (f_equal y2 Z) as Z2. cbn [x2 y2] in *. f_equal; lra.
Qed.
Lemma dir3_ne l : fst l <> snd l -> dir3 l <> V3 0 0 0.
Proof.
  intros H Z. apply H. unfold dir3 in Z. destruct l as [[a b c] [d e f]]. cbn [fst snd] in *. unfold sub3 in Z. cbn [x3 y3 z3] in Z.
  pose proof (f_equal x3 Z) as Z1. pose proof (f_equal y3 Z) as Z2. pose proof (f_equal z3 Z) as Z3. cbn [x3 y3 z3] in *. f_equal; lra.
Qed.
Lemma foot2_dist w v k : 0 < norm2 v -> k = dot2 w v / (norm2 v * norm2 v) -> norm2 (sub2 w (mul2 v k)) = Rabs (cross2 w v) / norm2 v.
Proof.
  intros P E. assert (S : dot2 v v <> 0) by (rewrite <- norm2_sq; nra). rewrite norm2_dot. rewrite norm2_sq in E.
  assert (Q : dot2 (sub2 w (mul2 v k)) (sub2 w (mul2 v k)) = (Rabs (cross2 w v) / norm2 v) * (Rabs (cross2 w v) / norm2 v)).
  { replace (Rabs (cross2 w v) / norm2 v * (Rabs (cross2 w v) / norm2 v)) with (Rabs (cross2 w v) * Rabs (cross2 w v) / (norm2 v * norm2 v)) by (field; lra).
    rewrite <- Rabs_mult, Rabs_pos_eq by apply Rle_0_sqr. rewrite norm2_sq, lagrange2.
    transitivity (dot2 w w - 2 * k * dot2 w v + k * k * dot2 v v); [vec; ring|]. rewrite E. field. auto. }
  rewrite Q. apply sqrt_square. apply Rmult_le_pos; [apply Rabs_pos|]. left. apply Rinv_0_lt_compat. auto.
Qed.
Lemma normal_norm v : norm2 (normal_vector2 v) = norm2 v. Proof. apply normal2_perp. Qed.
Lemma line2_distance_ok l p : fst l <> snd l -> exists d, line2_point_distance l p = Ok d /\ dist_to_line2 l p d.
Proof.
  intros H. pose proof (norm2_ne _ (dir2_ne _ H)) as P. unfold line2_point_distance. cbv zeta. rewrite normal_norm.
  rewrite (proj2 (Reqb_false _ _)) by lra. eexists. split; [reflexivity|].
  assert (E : dot2 (normal_vector2 (dir2 l)) (sub2 (fst l) p) = - cross2 (dir2 l) (sub2 p (fst l))) by (destruct l as [a b]; unfold dir2; cbn [fst snd]; unfold normal_vector2; vec; ring). rewrite E, Rabs_Ropp.
  assert (A : forall t, sub2 p (at_param2 l t) = sub2 (sub2 p (fst l)) (mul2 (dir2 l) t)) by (intros t; unfold at_param2, dir2; destruct l as [a b]; cbn [fst snd]; vec; v_eq; ring).
  assert (C : cross2 (dir2 l) (sub2 p (fst l)) = - cross2 (sub2 p (fst l)) (dir2 l)) by (unfold cross2; ring). rewrite C, Rabs_Ropp.
  split.
  - exists (dot2 (sub2 p (fst l)) (dir2 l) / (norm2 (dir2 l) * norm2 (dir2 l))). unfold point_distance2. rewrite A. apply foot2_dist; auto.
  - intros t. unfold point_distance2. rewrite A. apply Rmult_le_reg_r with (norm2 (dir2 l)); auto. unfold Rdiv. rewrite Rmult_assoc, Rinv_l, Rmult_1_r by lra.
    eapply Rle_trans; [|apply cross2_le]. right. f_equal. unfold cross2, sub2, mul2. cbn [x2 y2]. ring.
Qed.
Lemma line2_distance_degenerate l p : fst l = snd l -> line2_point_distance l p = Err ZeroDivisionError.
Proof.
  intros H. unfold line2_point_distance. cbv zeta. rewrite normal_norm. replace (dir2 l) with (V2 0 0) by (unfold dir2; rewrite H; vec; v_eq; ring).
  rewrite (proj2 (norm2_zero (V2 0 0)) eq_refl), Reqb_refl. auto.
Qed.
Lemma line2_belongs_ok l p tol : 0 <= tol -> fst l <> snd l -> exists b, line2_point_belongs l p tol = Ok b /\ (b = true <-> exists t, point_distance2 p (at_param2 l t) <= tol).
Proof.
  intros Ht H. destruct (line2_distance_ok l p H) as (d & E & [t0 D] & M). unfold line2_point_belongs. rewrite E. cbn [bind]. eexists. split; [reflexivity|].
  assert (DP : 0 <= d) by (rewrite <- D; apply norm2_pos). rewrite isclose_0, Rabs_pos_eq by auto. split.
  - intros L. exists t0. lra.
  - intros [t L]. pose proof (M t). lra.
Qed.

(** ** line / line in 2D *)
Lemma line2_inters_ok l m : fst l <> snd l -> fst m <> snd m -> exists i, line2_line_intersections l m = Ok i /\
  (i = [] <-> Rabs (den2 l m) <= / 10 ^ 15) /\ forall p, In p i -> (exists s, p = at_param2 l s) /\ (exists t, p = at_param2 m t) /\ (forall q, on_line2 l q -> on_line2 m q -> q = p).
Proof.
  intros Hl Hm. unfold line2_line_intersections. destruct (line_intersection l m) as [[[p t] u]|] eqn:E.
  - destruct (proj_total2 l p Hl) as (q & a & Eq). destruct (proj_total2 m p Hm) as (q' & a' & Eq'). rewrite Eq, Eq'. cbn [bind fst]. eexists. split; [reflexivity|].
    pose proof (line_intersection_some _ _ _ _ _ E) as S. pose proof (line_intersection_unique l m p t u) as U.
    assert (N : ~ Rabs (den2 l m) <= / 10 ^ 15) by (intros K; apply line_intersection_none in K; rewrite K in E; discriminate).
    assert (QP : q = p).
    { destruct S as (_ & S1 & _). unfold point_projection2 in Eq. destruct (Reqb _ 0) eqn:Z; [discriminate|]. rb. apply Ok_inj in Eq. apply pair_equal_spec in Eq as [<- _].
      rewrite S1. unfold at_param2. f_equal. f_equal. set (v := sub2 (snd l) (fst l)) in *. replace (sub2 (add2 (fst l) (mul2 v t)) (fst l)) with (mul2 v t) by (clearbody v; destruct l as [a1 b1]; cbn [fst snd]; vec; v_eq; ring).
      rewrite dot2_mul_l, <- norm2_sq. field. intros K. apply Z. rewrite K. ring. }
    split; [split; [discriminate|tauto]|]. intros r [<- | []]. destruct S as (_ & S1 & S2). subst q. split; [exists t; auto|]. split; [exists u; auto|]. intros r R1 R2. exact (U r E R1 R2).
  - exists []. split; auto. split; [|intros p []]. apply line_intersection_none in E. tauto.
Qed.
(** intersecting lines: the distance is 0 *)
Lemma line2_line_distance_cross l m : fst l <> snd l -> fst m <> snd m -> / 10 ^ 15 < Rabs (den2 l m) -> line2_line_distance l m = Ok (Num 0) /\ dist_lines2 l m 0.
Proof.
  intros Hl Hm D. destruct (line2_inters_ok l m Hl Hm) as (i & E & N & S). unfold line2_line_distance. rewrite E. cbn [bind]. destruct i as [|p i].
  - exfalso. destruct N as [N _]. specialize (N eq_refl). lra.
  - split; auto. destruct (S p (or_introl eq_refl)) as ([s Es] & [t Et] & _). split.
    + exists s, t. rewrite <- Es, <- Et. apply dist2_zero. auto.
    + intros. apply norm2_pos.
Qed.
(** parallel lines: a point is returned instead of a distance *)
Lemma line2_line_distance_parallel l m : fst l <> snd l -> fst m <> snd m -> Rabs (den2 l m) <= / 10 ^ 15 -> exists p, line2_line_distance l m = Ok (Pnt p).
Proof.
  intros Hl Hm D. destruct (line2_inters_ok l m Hl Hm) as (i & E & N & S). unfold line2_line_distance. rewrite E. cbn [bind]. apply N in D. subst i.
  destruct (proj_total2 l (fst m) Hl) as (q & a & ->). cbn [bind]. eauto.
Qed.
Lemma line2_line_distance_wrong : exists l m, fst l <> snd l /\ fst m <> snd m /\ dist_lines2 l m 1 /\ line2_line_distance l m <> Ok (Num 1) /\ exists p, line2_line_distance l m = Ok (Pnt p).
Proof.
  exists (V2 0 0, V2 1 0), (V2 0 1, V2 1 1). cbn [fst snd].
  assert (H1 : V2 0 0 <> V2 1 0) by (intros H; pose proof (f_equal x2 H) as K; cbn [x2] in K; lra). assert (H2 : V2 0 1 <> V2 1 1) by (intros H; pose proof (f_equal x2 H) as K; cbn [x2] in K; lra).
  assert (D : Rabs (den2 (V2 0 0, V2 1 0) (V2 0 1, V2 1 1)) <= / 10 ^ 15). { unfold den2, cross2, sub2. cbn [fst snd x2 y2]. replace ((1 - 0) * (1 - 1) - (0 - 0) * (1 - 0)) with 0 by ring. rewrite Rabs_R0. left. apply pow10_inv_pos. }
  destruct (line2_line_distance_parallel (V2 0 0, V2 1 0) (V2 0 1, V2 1 1) H1 H2 D) as [p E]. split; auto. split; auto. split; [|split; [rewrite E; discriminate|eauto]].
  unfold dist_lines2, at_param2, point_distance2, norm2, add2, sub2, mul2. cbn [fst snd x2 y2]. split.
  - exists 0, 0. apply sqrt_lem_1; lra.
  - intros s t. apply Rle_trans with (sqrt (1 * 1)); [rewrite sqrt_square; lra|]. apply sqrt_le_1_alt. set (k := 0 + (1 - 0) * s - (0 + (1 - 0) * t)). pose proof (Rle_0_sqr k) as Q. unfold Rsqr in Q. lra.
Qed.

(** ** lines in 3D *)
Lemma foot3_dist w v k : 0 < norm3 v -> k = dot3 w v / (norm3 v * norm3 v) -> norm3 (sub3 w (mul3 v k)) = norm3 (cross3 w v) / norm3 v.
Proof.
  intros P E. assert (S : dot3 v v <> 0) by (rewrite <- norm3_sq; nra). rewrite (norm3_dot (sub3 _ _)). rewrite norm3_sq in E.
  assert (Q : dot3 (sub3 w (mul3 v k)) (sub3 w (mul3 v k)) = (norm3 (cross3 w v) / norm3 v) * (norm3 (cross3 w v) / norm3 v)).
  { replace (norm3 (cross3 w v) / norm3 v * (norm3 (cross3 w v) / norm3 v)) with (norm3 (cross3 w v) * norm3 (cross3 w v) / (norm3 v * norm3 v)) by (field; lra).
    rewrite !norm3_sq, lagrange3.
    transitivity (dot3 w w - 2 * k * dot3 w v + k * k * dot3 v v); [vec; ring|]. rewrite E. field. auto. }
  rewrite Q. apply sqrt_square. apply Rmult_le_pos; [apply norm3_pos|]. left. apply Rinv_0_lt_compat. auto.
Qed.
Lemma cross3_le a b : norm3 (cross3 a b) <= norm3 a * norm3 b.
Proof.
  apply sq_le; [apply Rmult_le_pos; apply norm3_pos|]. rewrite norm3_sq, lagrange3.
  replace (norm3 a * norm3 b * (norm3 a * norm3 b)) with ((norm3 a * norm3 a) * (norm3 b * norm3 b)) by ring. rewrite !norm3_sq. pose proof (Rle_0_sqr (dot3 a b)) as Q. unfold Rsqr in Q. lra.
Qed.
Lemma on_line3_seg l p : on_line3 l p <-> exists t, p = seg3 (fst l) (snd l) t.
Proof. reflexivity. Qed.
Lemma line3_distance_ok l p : fst l <> snd l -> exists d, line3_point_distance l p = Ok d /\ dist_to_line3 l p d.
Proof.
  intros H. pose proof (norm3_ne _ (dir3_ne _ H)) as P. unfold line3_point_distance. cbv zeta. change (sub3 (snd l) (fst l)) with (dir3 l).
  rewrite (proj2 (Reqb_false _ _)) by lra. eexists. split; [reflexivity|].
  assert (A : forall t, sub3 p (add3 (fst l) (mul3 (sub3 (snd l) (fst l)) t)) = sub3 (sub3 p (fst l)) (mul3 (dir3 l) t)) by (intros t; unfold dir3; destruct l as [a b]; cbn [fst snd]; vec; v_eq; ring).
  split.
  - eexists. split; [eexists; reflexivity|]. unfold point_distance3. rewrite A. apply foot3_dist; auto.
  - intros q [t ->]. unfold point_distance3. rewrite A. apply Rmult_le_reg_r with (norm3 (dir3 l)); auto. unfold Rdiv. rewrite Rmult_assoc, Rinv_l, Rmult_1_r by lra.
    eapply Rle_trans; [|apply cross3_le]. right. f_equal. generalize (dir3 l). intros v. vec; v_eq; ring.
Qed.
Lemma line3_distance_degenerate l p : fst l = snd l -> line3_point_distance l p = Err ZeroDivisionError.
Proof.
  intros H. unfold line3_point_distance. cbv zeta. replace (sub3 (snd l) (fst l)) with (V3 0 0 0) by (rewrite H; vec; v_eq; ring).
  rewrite (proj2 (norm3_zero (V3 0 0 0)) eq_refl), Reqb_refl. auto.
Qed.
Lemma line3_belongs_ok l p tol : fst l <> snd l -> exists b, line3_point_belongs l p tol = Ok b /\
  (b = true <-> point_distance3 p (fst l) <= / 10 ^ 6 \/ exists q, on_line3 l q /\ point_distance3 p q < tol).
Proof.
  intros H. pose proof (pow10_inv_pos 6) as P6. destruct (line3_distance_ok l p H) as (d & E & [q0 [Q0 D]] & M). unfold line3_point_belongs. destruct (is_close3 p (fst l) (/ 10 ^ 6)) eqn:C.
  - apply is_close3_spec in C; [|lra]. exists true. split; auto. tauto.
  - assert (N : ~ point_distance3 p (fst l) <= / 10 ^ 6) by (intros K; apply is_close3_spec in K; [rewrite K in C; discriminate|lra]).
    rewrite E. cbn [bind]. eexists. split; [reflexivity|]. rewrite Rltb_spec. split.
    + intros L. right. exists q0. split; auto. lra.
    + intros [L | (q & Q & L)]; [tauto|]. pose proof (M q Q). lra.
Qed.
(** distance of two lines that are not parallel *)
Lemma skew_lower l m s t : Rabs (dot3 (sub3 (fst m) (fst l)) (cross3 (dir3 l) (dir3 m))) <= point_distance3 (seg3 (fst l) (snd l) s) (seg3 (fst m) (snd m) t) * norm3 (cross3 (dir3 l) (dir3 m)).
Proof.
  unfold point_distance3. eapply Rle_trans; [|apply VecP.cauchy3]. right.
  replace (dot3 (sub3 (fst m) (fst l)) (cross3 (dir3 l) (dir3 m))) with (- dot3 (sub3 (seg3 (fst l) (snd l) s) (seg3 (fst m) (snd m) t)) (cross3 (dir3 l) (dir3 m))); [apply Rabs_Ropp|].
  unfold seg3, dir3. destruct l as [a b], m as [c d]. cbn [fst snd]. vec; ring.
Qed.
Lemma skew_attained l m : cross3 (dir3 l) (dir3 m) <> V3 0 0 0 -> exists s t,
  point_distance3 (seg3 (fst l) (snd l) s) (seg3 (fst m) (snd m) t) = Rabs (dot3 (sub3 (fst m) (fst l)) (cross3 (dir3 l) (dir3 m))) / norm3 (cross3 (dir3 l) (dir3 m)).
Proof.
  intros C. pose proof (norm3_ne _ C) as P. set (u := dir3 l) in *. set (v := dir3 m) in *. set (w := sub3 (fst m) (fst l)). set (n := cross3 u v) in *.
  assert (S : dot3 n n <> 0) by (rewrite <- norm3_sq; nra).
  (* w = (w.n / n.n) n + s u - t v *)
  set (s := dot3 (cross3 w v) n / dot3 n n). set (t := dot3 (cross3 w u) n / dot3 n n). exists s, t.
  assert (E : sub3 (seg3 (fst l) (snd l) s) (seg3 (fst m) (snd m) t) = mul3 n (- (dot3 w n / dot3 n n))).
  { assert (K : add3 (mul3 w (- dot3 n n)) (sub3 (mul3 u (dot3 (cross3 w v) n)) (mul3 v (dot3 (cross3 w u) n))) = mul3 n (- dot3 w n)) by (unfold n; clear; vec; v_eq; ring).
    transitivity (mul3 (add3 (mul3 w (- dot3 n n)) (sub3 (mul3 u (dot3 (cross3 w v) n)) (mul3 v (dot3 (cross3 w u) n)))) (/ dot3 n n)).
    - unfold s, t, seg3. change (sub3 (snd l) (fst l)) with u. change (sub3 (snd m) (fst m)) with v. unfold w at 3. generalize (dot3 (cross3 w v) n) (dot3 (cross3 w u) n). revert S. generalize (dot3 n n). clear. intros k Hk a b. generalize u v. clear u v. intros u v. destruct l as [l1 l2], m as [m1 m2]. cbn [fst snd]. vec; v_eq; field; auto.
    - rewrite K. generalize (dot3 w n). revert S. generalize (dot3 n n). generalize n. clear. intros n k Hk d. vec; v_eq; field; auto. }
  unfold point_distance3. rewrite E, norm3_scale, Rabs_Ropp. unfold Rdiv. rewrite Rabs_mult, <- norm3_sq, (Rabs_pos_eq (/ _)) by (left; apply Rinv_0_lt_compat; nra). field. lra.
Qed.
Lemma line3_line_distance_skew l m : is_colinear_to3 (dir3 l) (dir3 m) (/ 10 ^ 6) = false -> cross3 (dir3 l) (dir3 m) <> V3 0 0 0 ->
  exists d, line3_line_distance l m = Ok d /\ dist_lines3 l m d.
Proof.
  intros C N. pose proof (norm3_ne _ N) as P. unfold line3_line_distance. cbv zeta. rewrite C, (proj2 (Reqb_false _ _)) by lra. eexists. split; [reflexivity|]. split.
  - apply skew_attained. auto.
  - intros s t. pose proof (skew_lower l m s t) as L. apply Rmult_le_reg_r with (norm3 (cross3 (dir3 l) (dir3 m))); auto. unfold Rdiv. rewrite Rmult_assoc, Rinv_l by lra. lra.
Qed.
(** exactly parallel lines *)
Lemma line3_line_distance_parallel l m : fst l <> snd l -> fst m <> snd m -> cross3 (dir3 l) (dir3 m) = V3 0 0 0 -> exists d, line3_line_distance l m = Ok d /\ dist_lines3 l m d.
Proof.
  intros Hl Hm C. pose proof (norm3_ne _ (dir3_ne _ Hl)) as P. set (u := dir3 l) in *. set (v := dir3 m) in *.
  assert (S : 0 < dot3 u u) by (rewrite <- norm3_sq; nra).
  assert (K : exists k, k <> 0 /\ v = mul3 u k).
  { exists (dot3 u v / dot3 u u). assert (E : v = mul3 u (dot3 u v / dot3 u u)).
    { pose proof (double_cross u u v) as D. fold u in D. rewrite C in D.
      assert (E2 : mul3 v (dot3 u u) = mul3 u (dot3 u v)). { pose proof (f_equal x3 D) as D1. pose proof (f_equal y3 D) as D2. pose proof (f_equal z3 D) as D3. clear D. revert D1 D2 D3. clear. vec. intros. v_eq; lra. }
      transitivity (mul3 (mul3 v (dot3 u u)) (/ dot3 u u)); [|rewrite E2].
      - generalize v. revert S. clear. generalize (dot3 u u). intros k Hk v. vec; v_eq; field; lra.
      - revert S. generalize (dot3 u u) (dot3 u v) u. clear. intros k j u Hk. vec; v_eq; field; lra. }
    split; auto. intros Z. rewrite Z in E. apply (dir3_ne _ Hm). fold v. rewrite E. clear. vec; v_eq; ring. }
  destruct K as (k & Hk & Ev). pose proof (pow10_inv_pos 6) as P6.
  assert (CO : is_colinear_to3 u v (/ 10 ^ 6) = true) by (apply (colinear_true u v k); auto; [lra|apply dir3_ne; auto]).
  unfold line3_line_distance. cbv zeta. fold u v. rewrite CO, (proj2 (Reqb_false _ _)) by lra. eexists. split; [reflexivity|].
  set (w := sub3 (fst m) (fst l)). assert (A : forall s t, sub3 (seg3 (fst l) (snd l) s) (seg3 (fst m) (snd m) t) = mul3 (sub3 w (mul3 u (s - k * t))) (-1)).
  { intros s t. unfold seg3, w. change (sub3 (snd l) (fst l)) with u. change (sub3 (snd m) (fst m)) with v. rewrite Ev. generalize u. clear. intros u. destruct l as [l1 l2], m as [m1 m2]. cbn [fst snd]. vec; v_eq; ring. }
  assert (M1 : forall x, norm3 (mul3 x (-1)) = norm3 x) by (intros x; rewrite norm3_scale, Rabs_left by lra; ring).
  assert (AN : norm3 (cross3 u w) = norm3 (cross3 w u)) by (rewrite cross3_anti; rewrite <- (M1 (cross3 w u)); f_equal; clear; vec; v_eq; ring).
  split.
  - exists (dot3 w u / (norm3 u * norm3 u)), 0. unfold point_distance3. rewrite A, M1, AN. apply foot3_dist; auto. rewrite Rmult_0_r, Rminus_0_r. auto.
  - intros s t. unfold point_distance3. rewrite A, M1, AN. apply Rmult_le_reg_r with (norm3 u); auto. unfold Rdiv. rewrite Rmult_assoc, Rinv_l, Rmult_1_r by lra.
    eapply Rle_trans; [|apply cross3_le]. right. f_equal. generalize (s - k * t). clear. intros j. vec; v_eq; ring.
Qed.
