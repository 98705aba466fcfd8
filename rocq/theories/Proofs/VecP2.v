(** More facts on vectors: group laws, orientation conventions, division, rotations, lines. *)
From Coq Require Import Reals Lra Lia List Bool.
From Verif.Model Require Import RBase Vec.
From Verif.Spec Require Import VecSpec.
From Verif.Proofs Require Import VecP LineP.
Open Scope R_scope.

Lemma cross3_frame : cross3 X3D Y3D = Z3D /\ cross3 Y3D Z3D = X3D /\ cross3 Z3D X3D = Y3D.
Proof. unfold X3D, Y3D, Z3D, cross3. cbn [x3 y3 z3]. repeat split; v_eq; ring. Qed.
Lemma cross3_triple u1 u2 u3 v1 v2 v3 w1 w2 w3 : dot3 (cross3 (V3 u1 u2 u3) (V3 v1 v2 v3)) (V3 w1 w2 w3) =
  u1 * v2 * w3 + u2 * v3 * w1 + u3 * v1 * w2 - u3 * v2 * w1 - u1 * v3 * w2 - u2 * v1 * w3.
Proof. vec. ring. Qed.
Lemma cross2_z u v : cross2 u v = z3 (cross3 (V3 (x2 u) (y2 u) 0) (V3 (x2 v) (y2 v) 0)).
Proof. vec. ring. Qed.
Lemma cross2_frame : cross2 (V2 1 0) (V2 0 1) = 1.
Proof. vec. ring. Qed.
Lemma norm2_dot2 u : norm2 u * norm2 u = dot2 u u.
Proof. apply norm2_sq. Qed.
Lemma norm3_dot3 u : norm3 u * norm3 u = dot3 u u.
Proof. apply norm3_sq. Qed.
Lemma dot2_coords a b c d : dot2 (V2 a b) (V2 c d) = a * c + b * d.
Proof. reflexivity. Qed.

Lemma div3_spec u a w : div3 u a = Ok w <-> a <> 0 /\ mul3 w a = u.
Proof.
  unfold div3. destruct (Reqb a 0) eqn:E; rb.
  - split; [discriminate|]. intros [H _]; contradiction.
  - split.
    + intros H. apply Ok_inj in H. subst w. split; [auto|]. destruct u; vec. v_eq; field; auto.
    + intros [_ <-]. apply f_equal. destruct w; vec. v_eq; field; auto.
Qed.
Lemma div2_spec u a w : div2 u a = Ok w <-> a <> 0 /\ mul2 w a = u.
Proof.
  unfold div2. destruct (Reqb a 0) eqn:E; rb.
  - split; [discriminate|]. intros [H _]; contradiction.
  - split.
    + intros H. apply Ok_inj in H. subst w. split; [auto|]. destruct u; vec. v_eq; field; auto.
    + intros [_ <-]. apply f_equal. destruct w; vec. v_eq; field; auto.
Qed.
Lemma div3_err u a e : div3 u a = Err e <-> a = 0 /\ e = ZeroDivisionError.
Proof. unfold div3. destruct (Reqb a 0) eqn:E; rb; split; [intros [= <-]; auto|intros [_ ->]; auto|discriminate|intros [? _]; contradiction]. Qed.
Lemma div2_err u a e : div2 u a = Err e <-> a = 0 /\ e = ZeroDivisionError.
Proof. unfold div2. destruct (Reqb a 0) eqn:E; rb; split; [intros [= <-]; auto|intros [_ ->]; auto|discriminate|intros [? _]; contradiction]. Qed.

Lemma group3 u v w : add3 u v = add3 v u /\ add3 (add3 u v) w = add3 u (add3 v w) /\ add3 u (V3 0 0 0) = u /\
  add3 u (neg3 u) = V3 0 0 0 /\ add3 (sub3 u v) v = u.
Proof. repeat split; vec; v_eq; ring. Qed.
Lemma scale3 u v a b : mul3 (add3 u v) a = add3 (mul3 u a) (mul3 v a) /\ mul3 u (a + b) = add3 (mul3 u a) (mul3 u b) /\
  mul3 (mul3 u a) b = mul3 u (a * b) /\ mul3 u 1 = u.
Proof. repeat split; vec; v_eq; ring. Qed.
Lemma group2 u v w : add2 u v = add2 v u /\ add2 (add2 u v) w = add2 u (add2 v w) /\ add2 u (V2 0 0) = u /\
  add2 u (neg2 u) = V2 0 0 /\ add2 (sub2 u v) v = u.
Proof. repeat split; vec; v_eq; ring. Qed.
Lemma scale2 u v a b : mul2 (add2 u v) a = add2 (mul2 u a) (mul2 v a) /\ mul2 u (a + b) = add2 (mul2 u a) (mul2 u b) /\
  mul2 (mul2 u a) b = mul2 u (a * b) /\ mul2 u 1 = u.
Proof. repeat split; vec; v_eq; ring. Qed.

Lemma perpendicular_spec u v t : 0 <= t -> (is_perpendicular_to3 u v t = true <-> Rabs (dot3 u v) <= t).
Proof. intros Ht. unfold is_perpendicular_to3. rewrite isclose_0 by auto. rewrite Rabs_Rabsolu. tauto. Qed.

Lemma unit_normal2_spec u n : unit_normal_vector2 u = Ok n -> norm2 n = 1 /\ dot2 u n = 0 /\ cross2 u n = norm2 u.
Proof.
  unfold unit_normal_vector2. intros H. pose proof (unit2_spec _ _ H) as [N _].
  apply unit2_ok in H as [Hu ->]. destruct (normal2_perp u) as [D [C E]]. rewrite E in *.
  assert (P : 0 < norm2 u). { rewrite <- E. apply norm2_ne; auto. }
  split; [exact N|]. split.
  - transitivity (/ norm2 u * dot2 u (normal_vector2 u)); [vec; ring|]. rewrite D. ring.
  - transitivity (/ norm2 u * cross2 u (normal_vector2 u)); [vec; ring|]. rewrite C, <- norm2_sq. field. lra.
Qed.
Lemma unit_normal2_total u : u <> V2 0 0 -> exists n, unit_normal_vector2 u = Ok n.
Proof.
  intros Hu. destruct (unit_normal_vector2 u) eqn:E; [eexists; reflexivity|].
  apply unit2_err in E as [E _]. exfalso. apply Hu. pose proof (f_equal x2 E) as A. pose proof (f_equal y2 E) as B. cbn in A, B.
  destruct u; cbn in *. v_eq; lra.
Qed.

Lemma rotation2_sense u c a : cross2 (sub2 u c) (sub2 (rotation2 u c a) c) = sin a * dot2 (sub2 u c) (sub2 u c) /\
  dot2 (sub2 u c) (sub2 (rotation2 u c a) c) = cos a * dot2 (sub2 u c) (sub2 u c).
Proof. unfold rotation2. split; vec; ring. Qed.
Lemma translation3_exact p o : sub3 (translation3 p o) p = o.
Proof. unfold translation3. vec; v_eq; ring. Qed.
Lemma translation2_exact p o : sub2 (translation2 p o) p = o.
Proof. unfold translation2. vec; v_eq; ring. Qed.

Lemma line_abscissa_point l a p : line_point_at_abscissa3 l a = Ok p ->
  line_abscissa3 l p = Ok a /\ point_distance3 (fst l) p = Rabs a /\ exists k, p = seg3 (fst l) (snd l) k.
Proof.
  unfold line_point_at_abscissa3, bind. destruct (unit_vector3 _) as [d|] eqn:E; [|discriminate]. intros H. apply Ok_inj in H. subst p.
  pose proof (unit3_spec _ _ E) as [N [M P]]. apply unit3_ok in E as [NZ ED].
  set (v := sub3 (snd l) (fst l)) in *.
  assert (S : sub3 (add3 (fst l) (mul3 d a)) (fst l) = mul3 d a) by (clear; destruct (fst l); destruct d; vec; v_eq; ring).
  split; [|split].
  - unfold line_abscissa3. fold v. destruct (Reqb (norm3 v) 0) eqn:Z; rb; [lra|]. apply f_equal.
    rewrite S, dot3_mul_l. assert (D : dot3 d v = norm3 v). { rewrite <- M at 1. rewrite dot3_sym, dot3_mul_l, (norm3_1 _ N). ring. }
    rewrite D. field. lra.
  - rewrite dist3_sym. unfold point_distance3. rewrite S, norm3_scale, N. ring.
  - exists (a / norm3 v). unfold seg3. fold v. rewrite ED. apply (f_equal (add3 (fst l))).
    clear. destruct v as [v1 v2 v3]; generalize (norm3 (V3 v1 v2 v3)); vec. unfold Rdiv. v_eq; ring.
Qed.
Lemma line_abscissa_projection l p q a : point_projection3 l p = Ok (q, a) ->
  line_abscissa3 l p = Ok a /\ line_point_at_abscissa3 l a = Ok q.
Proof.
  unfold point_projection3. set (v := sub3 (snd l) (fst l)). destruct (Reqb _ 0) eqn:Z; rb; [discriminate|].
  intros H. apply Ok_inj in H. apply pair_equal_spec in H as [<- <-].
  assert (P : norm3 v <> 0) by (intros C; rewrite C in Z; apply Z; ring).
  split.
  - unfold line_abscissa3. fold v. destruct (Reqb (norm3 v) 0) eqn:W; rb; [contradiction|]. apply f_equal. field. auto.
  - unfold line_point_at_abscissa3. fold v. destruct (unit_vector3 v) as [d|] eqn:E.
    + cbn [bind]. apply f_equal. apply (f_equal (add3 (fst l))). apply unit3_ok in E as [_ ->].
      set (k := dot3 _ _). clearbody k v. clear -P. destruct v as [v1 v2 v3]. revert P. generalize (norm3 (V3 v1 v2 v3)). intros r Hr.
      vec. v_eq; field; auto.
    + exfalso. apply unit3_err in E as [E _]. apply P. rewrite E. apply norm3_zero. auto.
Qed.

(** The points returned for two lines are always on the lines, up to the tolerance of the incidence test. *)
Lemma belongs_dist a b p : a <> b -> line_point_belongs_with_points a b p = true ->
  exists k, point_distance3 p (seg3 a b k) < / 10 ^ 6.
Proof.
  intros Hab. unfold line_point_belongs_with_points. intros H. rb.
  set (v := sub3 b a) in *. set (w := sub3 p a) in *.
  assert (NZ : v <> V3 0 0 0).
  { intros C. apply Hab. unfold v in C. pose proof (f_equal x3 C). pose proof (f_equal y3 C). pose proof (f_equal z3 C).
    destruct a, b; cbn in *. v_eq; lra. }
  pose proof (norm3_ne _ NZ) as P.
  exists (dot3 w v / dot3 v v).
  assert (D : 0 < dot3 v v). { rewrite <- norm3_sq. apply Rmult_lt_0_compat; auto. }
  assert (E : sub3 p (seg3 a b (dot3 w v / dot3 v v)) = sub3 w (mul3 v (dot3 w v / dot3 v v))).
  { unfold seg3. fold v. generalize (dot3 w v / dot3 v v). intros k. unfold w. clear. destruct v, p, a. vec. v_eq; ring. }
  unfold point_distance3. rewrite E.
  eapply Rle_lt_trans; [|exact H]. apply Rmult_le_reg_r with (norm3 v); auto.
  unfold Rdiv at 2. rewrite Rmult_assoc, Rinv_l, Rmult_1_r by lra.
  apply sq_le; [apply norm3_pos|]. 
  set (r := sub3 w (mul3 v (dot3 w v / dot3 v v))).
  replace (norm3 r * norm3 v * (norm3 r * norm3 v)) with (norm3 r * norm3 r * (norm3 v * norm3 v)) by ring.
  rewrite !norm3_sq, lagrange3.
  assert (R : dot3 r r = dot3 w w - dot3 w v * dot3 w v / dot3 v v).
  { unfold r. assert (G : forall k, dot3 (sub3 w (mul3 v k)) (sub3 w (mul3 v k)) = dot3 w w - 2 * k * dot3 w v + k * k * dot3 v v) by (intros; vec; ring).
    rewrite G. field. lra. }
  rewrite R. apply Req_le. field. lra.
Qed.
Lemma min_lines_on a1 b1 a2 b2 p q : a1 <> b1 -> get_minimum_distance_points_lines a1 b1 a2 b2 = (p, q) ->
  (exists t, q = seg3 a2 b2 t) /\ exists s, point_distance3 p (seg3 a1 b1 s) < / 10 ^ 6.
Proof.
  intros Hab. unfold get_minimum_distance_points_lines.
  destruct (line_point_belongs_with_points a1 b1 a2) eqn:E1.
  - intros H. apply pair_equal_spec in H as [<- <-]. split; [|apply belongs_dist; auto].
    exists 0. unfold seg3. destruct a2, b2. vec. v_eq; ring.
  - destruct (line_point_belongs_with_points a1 b1 b2) eqn:E2.
    + intros H. apply pair_equal_spec in H as [<- <-]. split; [|apply belongs_dist; auto].
      exists 1. unfold seg3. destruct a2, b2. vec. v_eq; ring.
    + assert (Z : forall s, point_distance3 (seg3 a1 b1 s) (seg3 a1 b1 s) < / 10 ^ 6).
      { intros s. replace (point_distance3 (seg3 a1 b1 s) (seg3 a1 b1 s)) with 0 by (symmetry; apply dist3_zero; auto). apply pow10_inv_pos. }
      cbv zeta. destruct (Reqb _ 0).
      * intros H. apply pair_equal_spec in H as [<- <-]. split.
        -- exists 0. unfold seg3. destruct a2, b2. vec. v_eq; ring.
        -- exists 0. replace a1 with (seg3 a1 b1 0) at 1; [apply Z|]. unfold seg3. destruct a1, b1. vec. v_eq; ring.
      * intros H. apply pair_equal_spec in H as [<- <-]. split; [eexists; reflexivity|]. eexists. apply Z.
Qed.
Lemma min_lines_parallel_wrong : exists a1 b1 a2 b2 p q r s, a1 <> b1 /\ a2 <> b2 /\
  get_minimum_distance_points_lines a1 b1 a2 b2 = (p, q) /\
  point_distance3 (seg3 a1 b1 r) (seg3 a2 b2 s) < point_distance3 p q.
Proof.
  exists (V3 0 0 0), (V3 1 0 0), (V3 5 1 0), (V3 6 1 0), (V3 0 0 0), (V3 5 1 0), 5, 0.
  assert (N : forall v, dot3 v v = 1 -> norm3 v = 1) by (intros; apply dot3_1; auto).
  assert (Q : / 10 ^ 6 < 1). { apply Rmult_lt_reg_l with (10 ^ 6); [lra|]. rewrite Rinv_r; lra. }
  assert (B1 : line_point_belongs_with_points (V3 0 0 0) (V3 1 0 0) (V3 5 1 0) = false).
  { unfold line_point_belongs_with_points. rewrite !N by (vec; ring). apply Rltb_false. lra. }
  assert (B2 : line_point_belongs_with_points (V3 0 0 0) (V3 1 0 0) (V3 6 1 0) = false).
  { unfold line_point_belongs_with_points. rewrite !N by (vec; ring). apply Rltb_false. lra. }
  split; [intros C; injection C; lra|]. split; [intros C; injection C; lra|]. split.
  - unfold get_minimum_distance_points_lines. rewrite B1, B2. cbv zeta. destruct (Reqb _ 0) eqn:E; [reflexivity|]. rb. exfalso. apply E. vec. ring.
  - unfold point_distance3. rewrite (N (sub3 (seg3 _ _ _) _)) by (unfold seg3; vec; ring).
    unfold norm3, sub3. cbn [x3 y3 z3]. rewrite <- sqrt_1 at 1. apply sqrt_lt_1; lra.
Qed.
