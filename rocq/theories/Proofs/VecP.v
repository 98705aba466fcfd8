(** Vector algebra, rotations, lines. *)
From Coq Require Import Reals Lra Lia List Bool Psatz.
From Verif.Model Require Import RBase Vec.
Open Scope R_scope.

Lemma Ok_inj {A} (a b : A) : Ok a = Ok b -> a = b.
Proof. congruence. Qed.
Lemma Rltb_spec a b : Rltb a b = true <-> a < b.
Proof. unfold Rltb. destruct (Rlt_dec a b); split; intros; auto; congruence. Qed.
Lemma Rleb_spec a b : Rleb a b = true <-> a <= b.
Proof. unfold Rleb. destruct (Rle_dec a b); split; intros; auto; congruence. Qed.
Lemma Reqb_spec a b : Reqb a b = true <-> a = b.
Proof. unfold Reqb. destruct (Req_EM_T a b); split; intros; auto; congruence. Qed.
Lemma Rltb_false a b : Rltb a b = false <-> b <= a.
Proof. unfold Rltb. destruct (Rlt_dec a b); split; intros; auto; try congruence; lra. Qed.
Lemma Rleb_false a b : Rleb a b = false <-> b < a.
Proof. unfold Rleb. destruct (Rle_dec a b); split; intros; auto; try congruence; lra. Qed.
Lemma Reqb_false a b : Reqb a b = false <-> a <> b.
Proof. unfold Reqb. destruct (Req_EM_T a b); split; intros; auto; congruence. Qed.
Lemma Reqb_refl a : Reqb a a = true. Proof. apply Reqb_spec; reflexivity. Qed.

Ltac rb := repeat match goal with
  | H : Rltb _ _ = true |- _ => apply Rltb_spec in H
  | H : Rleb _ _ = true |- _ => apply Rleb_spec in H
  | H : Reqb _ _ = true |- _ => apply Reqb_spec in H
  | H : Rltb _ _ = false |- _ => apply Rltb_false in H
  | H : Rleb _ _ = false |- _ => apply Rleb_false in H
  | H : Reqb _ _ = false |- _ => apply Reqb_false in H
  end.

(** A relative tolerance of 1e-9 never matters against 0. *)
Lemma isclose_0 a t : 0 <= t -> (isclose a 0 t = true <-> Rabs a <= t).
Proof.
  intros Ht. unfold isclose. rewrite Rleb_spec. replace (a - 0) with a by ring.
  rewrite Rabs_R0. assert (P := Rabs_pos a).
  rewrite (Rmax_left (Rabs a) 0) by lra.
  assert (E : 0 < / 10 ^ 9 < 1) by (split; [apply Rinv_0_lt_compat; lra|apply Rmult_lt_reg_l with (10 ^ 9); [lra|]; rewrite Rinv_r; lra]).
  unfold Rmax. destruct (Rle_dec _ _) as [L|L]; [tauto|].
  split; intros H; [exfalso; nra|exfalso; apply L; nra].
Qed.
Lemma isclose_0_false a t : 0 <= t -> (isclose a 0 t = false <-> t < Rabs a).
Proof.
  intros Ht. destruct (isclose_0 a t Ht) as [H1 H2]. destruct (isclose a 0 t); split; intros K.
  - discriminate.
  - specialize (H1 eq_refl). lra.
  - destruct (Rlt_dec t (Rabs a)) as [L|L]; auto. exfalso. discriminate H2. lra.
  - reflexivity.
Qed.
Lemma pow10_inv_pos n : 0 < / 10 ^ n.
Proof. apply Rinv_0_lt_compat, pow_lt; lra. Qed.

Ltac vec := intros; repeat match goal with v : vec2 |- _ => destruct v | v : vec3 |- _ => destruct v end;
  unfold sub2, add2, mul2, neg2, dot2, cross2, sub3, add3, mul3, neg3, dot3, cross3 in *; cbn [x2 y2 x3 y3 z3 fst snd] in *.
Ltac v_eq := first [ apply (f_equal2 V2) | apply (f_equal3 V3) ].

Lemma vec2_ext u v : x2 u = x2 v -> y2 u = y2 v -> u = v.
Proof. destruct u, v; cbn; intros; subst; reflexivity. Qed.
Lemma vec3_ext u v : x3 u = x3 v -> y3 u = y3 v -> z3 u = z3 v -> u = v.
Proof. destruct u, v; cbn; intros; subst; reflexivity. Qed.

(** ** Dot, cross *)
Lemma dot3_sym u v : dot3 u v = dot3 v u. Proof. vec; ring. Qed.
Lemma dot3_add_l u v w : dot3 (add3 u v) w = dot3 u w + dot3 v w. Proof. vec; ring. Qed.
Lemma dot3_sub_l u v w : dot3 (sub3 u v) w = dot3 u w - dot3 v w. Proof. vec; ring. Qed.
Lemma dot3_mul_l u a w : dot3 (mul3 u a) w = a * dot3 u w. Proof. vec; ring. Qed.
Lemma dot2_sym u v : dot2 u v = dot2 v u. Proof. vec; ring. Qed.
Lemma dot2_add_l u v w : dot2 (add2 u v) w = dot2 u w + dot2 v w. Proof. vec; ring. Qed.
Lemma dot2_mul_l u a w : dot2 (mul2 u a) w = a * dot2 u w. Proof. vec; ring. Qed.
Lemma cross3_anti u v : cross3 u v = neg3 (cross3 v u). Proof. vec; v_eq; ring. Qed.
Lemma cross3_add_l u v w : cross3 (add3 u v) w = add3 (cross3 u w) (cross3 v w). Proof. vec; v_eq; ring. Qed.
Lemma cross3_mul_l u a w : cross3 (mul3 u a) w = mul3 (cross3 u w) a. Proof. vec; v_eq; ring. Qed.
Lemma cross3_perp_l u v : dot3 (cross3 u v) u = 0. Proof. vec; ring. Qed.
Lemma cross3_perp_r u v : dot3 (cross3 u v) v = 0. Proof. vec; ring. Qed.
Lemma lagrange3 u v : dot3 (cross3 u v) (cross3 u v) = dot3 u u * dot3 v v - dot3 u v * dot3 u v. Proof. vec; ring. Qed.
Lemma lagrange2 u v : cross2 u v * cross2 u v = dot2 u u * dot2 v v - dot2 u v * dot2 u v. Proof. vec; ring. Qed.
Lemma double_cross u v w : cross3 u (cross3 v w) = sub3 (mul3 v (dot3 u w)) (mul3 w (dot3 u v)). Proof. vec; v_eq; ring. Qed.

(** ** Norms *)
Lemma dot3_pos u : 0 <= dot3 u u. Proof. vec; nra. Qed.
Lemma dot2_pos u : 0 <= dot2 u u. Proof. vec; nra. Qed.
Lemma norm3_dot u : norm3 u = sqrt (dot3 u u). Proof. reflexivity. Qed.
Lemma norm2_dot u : norm2 u = sqrt (dot2 u u). Proof. reflexivity. Qed.
Lemma norm3_pos u : 0 <= norm3 u. Proof. apply sqrt_pos. Qed.
Lemma norm2_pos u : 0 <= norm2 u. Proof. apply sqrt_pos. Qed.
Lemma norm3_sq u : norm3 u * norm3 u = dot3 u u. Proof. apply sqrt_sqrt, dot3_pos. Qed.
Lemma norm2_sq u : norm2 u * norm2 u = dot2 u u. Proof. apply sqrt_sqrt, dot2_pos. Qed.
Lemma dot3_zero u : dot3 u u = 0 <-> u = V3 0 0 0.
Proof. vec; split; intros H; [v_eq; nra|]. injection H as -> -> ->. ring. Qed.
Lemma dot2_zero u : dot2 u u = 0 <-> u = V2 0 0.
Proof. vec; split; intros H; [v_eq; nra|]. injection H as -> ->. ring. Qed.
Lemma norm3_zero u : norm3 u = 0 <-> u = V3 0 0 0.
Proof. rewrite <- dot3_zero, <- norm3_sq. split; intros H; [rewrite H; ring|]. nra. Qed.
Lemma norm2_zero u : norm2 u = 0 <-> u = V2 0 0.
Proof. rewrite <- dot2_zero, <- norm2_sq. split; intros H; [rewrite H; ring|]. nra. Qed.
Lemma norm3_scale u a : norm3 (mul3 u a) = Rabs a * norm3 u.
Proof.
  rewrite !norm3_dot. replace (dot3 (mul3 u a) (mul3 u a)) with (a * a * dot3 u u) by (vec; ring).
  rewrite sqrt_mult by (try apply dot3_pos; nra). f_equal. rewrite <- sqrt_Rsqr_abs. reflexivity.
Qed.
Lemma norm2_scale u a : norm2 (mul2 u a) = Rabs a * norm2 u.
Proof.
  rewrite !norm2_dot. replace (dot2 (mul2 u a) (mul2 u a)) with (a * a * dot2 u u) by (vec; ring).
  rewrite sqrt_mult by (try apply dot2_pos; nra). f_equal. rewrite <- sqrt_Rsqr_abs. reflexivity.
Qed.
Lemma sq_le a b : 0 <= b -> a * a <= b * b -> a <= b.
Proof. intros. nra. Qed.
Lemma cauchy3 u v : Rabs (dot3 u v) <= norm3 u * norm3 v.
Proof.
  apply sq_le; [apply Rmult_le_pos; apply norm3_pos|].
  replace (Rabs (dot3 u v) * Rabs (dot3 u v)) with (dot3 u v * dot3 u v)
    by (unfold Rabs; destruct (Rcase_abs _); ring).
  pose proof (lagrange3 u v). pose proof (dot3_pos (cross3 u v)).
  pose proof (norm3_sq u). pose proof (norm3_sq v).
  replace (norm3 u * norm3 v * (norm3 u * norm3 v)) with ((norm3 u * norm3 u) * (norm3 v * norm3 v)) by ring.
  rewrite H1, H2. lra.
Qed.
Lemma cauchy2 u v : Rabs (dot2 u v) <= norm2 u * norm2 v.
Proof.
  apply sq_le; [apply Rmult_le_pos; apply norm2_pos|].
  replace (Rabs (dot2 u v) * Rabs (dot2 u v)) with (dot2 u v * dot2 u v)
    by (unfold Rabs; destruct (Rcase_abs _); ring).
  pose proof (lagrange2 u v). 
  pose proof (norm2_sq u). pose proof (norm2_sq v).
  replace (norm2 u * norm2 v * (norm2 u * norm2 v)) with ((norm2 u * norm2 u) * (norm2 v * norm2 v)) by ring.
  rewrite H0, H1. nra.
Qed.
Lemma norm3_triangle u v : norm3 (add3 u v) <= norm3 u + norm3 v.
Proof.
  pose proof (norm3_pos u). pose proof (norm3_pos v).
  apply sq_le; [lra|]. rewrite norm3_sq.
  replace (dot3 (add3 u v) (add3 u v)) with (dot3 u u + 2 * dot3 u v + dot3 v v) by (vec; ring).
  pose proof (cauchy3 u v). pose proof (Rle_abs (dot3 u v)).
  pose proof (norm3_sq u). pose proof (norm3_sq v). nra.
Qed.
Lemma norm2_triangle u v : norm2 (add2 u v) <= norm2 u + norm2 v.
Proof.
  pose proof (norm2_pos u). pose proof (norm2_pos v).
  apply sq_le; [lra|]. rewrite norm2_sq.
  replace (dot2 (add2 u v) (add2 u v)) with (dot2 u u + 2 * dot2 u v + dot2 v v) by (vec; ring).
  pose proof (cauchy2 u v). pose proof (Rle_abs (dot2 u v)).
  pose proof (norm2_sq u). pose proof (norm2_sq v). nra.
Qed.

Lemma unit3_ok u n : unit_vector3 u = Ok n <-> u <> V3 0 0 0 /\ n = mul3 u (/ norm3 u).
Proof.
  unfold unit_vector3. destruct (Reqb (norm3 u) 0) eqn:E; rb.
  - rewrite norm3_zero in E. split; [discriminate|]. tauto.
  - rewrite norm3_zero in E. split.
    + intros H; injection H as <-. split; auto.
    + intros [_ ->]. reflexivity.
Qed.
Lemma unit3_err u e : unit_vector3 u = Err e <-> u = V3 0 0 0 /\ e = ZeroDivisionError.
Proof.
  unfold unit_vector3. destruct (Reqb (norm3 u) 0) eqn:E; rb; rewrite norm3_zero in E;
    split; [intros H; injection H as <-; auto|intros [_ ->]; auto|discriminate|tauto].
Qed.
Lemma unit2_ok u n : unit_vector2 u = Ok n <-> u <> V2 0 0 /\ n = mul2 u (/ norm2 u).
Proof.
  unfold unit_vector2. destruct (Reqb (norm2 u) 0) eqn:E; rb.
  - rewrite norm2_zero in E. split; [discriminate|]. tauto.
  - rewrite norm2_zero in E. split.
    + intros H; injection H as <-. split; auto.
    + intros [_ ->]. reflexivity.
Qed.
Lemma unit2_err u e : unit_vector2 u = Err e <-> u = V2 0 0 /\ e = ZeroDivisionError.
Proof.
  unfold unit_vector2. destruct (Reqb (norm2 u) 0) eqn:E; rb; rewrite norm2_zero in E;
    split; [intros H; injection H as <-; auto|intros [_ ->]; auto|discriminate|tauto].
Qed.
Lemma norm3_ne u : u <> V3 0 0 0 -> 0 < norm3 u.
Proof. intros H. pose proof (norm3_pos u). rewrite <- norm3_zero in H. lra. Qed.
Lemma norm2_ne u : u <> V2 0 0 -> 0 < norm2 u.
Proof. intros H. pose proof (norm2_pos u). rewrite <- norm2_zero in H. lra. Qed.
Lemma unit3_spec u n : unit_vector3 u = Ok n -> norm3 n = 1 /\ mul3 n (norm3 u) = u /\ 0 < norm3 u.
Proof.
  rewrite unit3_ok. intros [N ->]. apply norm3_ne in N. split; [|split; auto].
  - rewrite norm3_scale, Rabs_right by (apply Rle_ge, Rlt_le, Rinv_0_lt_compat; lra). field; lra.
  - vec. v_eq; field; lra.
Qed.
Lemma unit2_spec u n : unit_vector2 u = Ok n -> norm2 n = 1 /\ mul2 n (norm2 u) = u /\ 0 < norm2 u.
Proof.
  rewrite unit2_ok. intros [N ->]. apply norm2_ne in N. split; [|split; auto].
  - rewrite norm2_scale, Rabs_right by (apply Rle_ge, Rlt_le, Rinv_0_lt_compat; lra). field; lra.
  - vec. v_eq; field; lra.
Qed.
Lemma norm3_1 n : norm3 n = 1 -> dot3 n n = 1.
Proof. intros H. rewrite <- norm3_sq, H. ring. Qed.
Lemma dot3_1 n : dot3 n n = 1 -> norm3 n = 1.
Proof. intros H. rewrite norm3_dot, H. apply sqrt_1. Qed.
Lemma norm2_1 n : norm2 n = 1 -> dot2 n n = 1.
Proof. intros H. rewrite <- norm2_sq, H. ring. Qed.

(** ** Distance *)
Lemma dist3_sym p q : point_distance3 p q = point_distance3 q p.
Proof. unfold point_distance3. rewrite !norm3_dot. f_equal. vec; ring. Qed.
Lemma dist2_sym p q : point_distance2 p q = point_distance2 q p.
Proof. unfold point_distance2. rewrite !norm2_dot. f_equal. vec; ring. Qed.
Lemma dist3_zero p q : point_distance3 p q = 0 <-> p = q.
Proof.
  unfold point_distance3. rewrite norm3_zero. vec. split; intros H.
  - injection H as H1 H2 H3. v_eq; lra.
  - injection H as -> -> ->. v_eq; ring.
Qed.
Lemma dist2_zero p q : point_distance2 p q = 0 <-> p = q.
Proof.
  unfold point_distance2. rewrite norm2_zero. vec. split; intros H.
  - injection H as H1 H2. v_eq; lra.
  - injection H as -> ->. v_eq; ring.
Qed.
Lemma dist3_triangle p q r : point_distance3 p r <= point_distance3 p q + point_distance3 q r.
Proof.
  unfold point_distance3. replace (sub3 p r) with (add3 (sub3 p q) (sub3 q r)) by (vec; v_eq; ring). apply norm3_triangle.
Qed.
Lemma dist2_triangle p q r : point_distance2 p r <= point_distance2 p q + point_distance2 q r.
Proof.
  unfold point_distance2. replace (sub2 p r) with (add2 (sub2 p q) (sub2 q r)) by (vec; v_eq; ring). apply norm2_triangle.
Qed.
Lemma is_close3_spec p q t : 0 <= t -> (is_close3 p q t = true <-> point_distance3 p q <= t).
Proof.
  intros H. unfold is_close3. rewrite isclose_0 by auto. rewrite Rabs_right; [tauto|]. apply Rle_ge, norm3_pos.
Qed.
Lemma is_close2_spec p q t : 0 <= t -> (is_close2 p q t = true <-> point_distance2 p q <= t).
Proof.
  intros H. unfold is_close2. rewrite isclose_0 by auto. rewrite Rabs_right; [tauto|]. apply Rle_ge, norm2_pos.
Qed.
Lemma middle3 p q : point_distance3 p (middle_point3 p q) = point_distance3 p q / 2 /\ point_distance3 q (middle_point3 p q) = point_distance3 p q / 2.
Proof.
  unfold point_distance3.
  replace (sub3 p (middle_point3 p q)) with (mul3 (sub3 p q) (1 / 2)) by (unfold middle_point3; vec; v_eq; field).
  replace (sub3 q (middle_point3 p q)) with (mul3 (sub3 p q) (- (1 / 2))) by (unfold middle_point3; vec; v_eq; field).
  rewrite !norm3_scale. rewrite Rabs_Ropp, Rabs_right by lra. split; field.
Qed.
Lemma middle2 p q : point_distance2 p (middle_point2 p q) = point_distance2 p q / 2 /\ point_distance2 q (middle_point2 p q) = point_distance2 p q / 2.
Proof.
  unfold point_distance2.
  replace (sub2 p (middle_point2 p q)) with (mul2 (sub2 p q) (1 / 2)) by (unfold middle_point2; vec; v_eq; field).
  replace (sub2 q (middle_point2 p q)) with (mul2 (sub2 p q) (- (1 / 2))) by (unfold middle_point2; vec; v_eq; field).
  rewrite !norm2_scale. rewrite Rabs_Ropp, Rabs_right by lra. split; field.
Qed.

(** ** Rotations *)
Lemma sc1 a : sin a * sin a + cos a * cos a = 1.
Proof. pose proof (sin2_cos2 a). unfold Rsqr in H. exact H. Qed.

Lemma rotation2_dist p q c a : point_distance2 (rotation2 p c a) (rotation2 q c a) = point_distance2 p q.
Proof.
  unfold point_distance2. rewrite !norm2_dot. f_equal. unfold rotation2. vec.
  pose proof (sc1 a).
  match goal with |- _ = ?r => transitivity ((sin a * sin a + cos a * cos a) * r); [ring|rewrite H; ring] end.
Qed.
Lemma rotation2_center c a : rotation2 c c a = c.
Proof. unfold rotation2. vec. v_eq; ring. Qed.
Lemma rotation2_compose p c a b : rotation2 (rotation2 p c a) c b = rotation2 p c (a + b).
Proof. unfold rotation2. rewrite cos_plus, sin_plus. vec. v_eq; ring. Qed.
Lemma rotation2_2pi p c : rotation2 p c (2 * PI) = p.
Proof. unfold rotation2. rewrite cos_2PI, sin_2PI. vec. v_eq; ring. Qed.
Lemma rotation2_cross p q c a : cross2 (sub2 (rotation2 p c a) c) (sub2 (rotation2 q c a) c) = cross2 (sub2 p c) (sub2 q c).
Proof.
  unfold rotation2. vec. pose proof (sc1 a).
  match goal with |- _ = ?r => transitivity ((sin a * sin a + cos a * cos a) * r); [ring|rewrite H; ring] end.
Qed.
Lemma translation2_dist p q o : point_distance2 (translation2 p o) (translation2 q o) = point_distance2 p q.
Proof. unfold point_distance2. rewrite !norm2_dot. f_equal. unfold translation2. vec. ring. Qed.
Lemma translation3_dist p q o : point_distance3 (translation3 p o) (translation3 q o) = point_distance3 p q.
Proof. unfold point_distance3. rewrite !norm3_dot. f_equal. unfold translation3. vec. ring. Qed.

(** Rodrigues: with u = p - center *)
Definition rod (u axis : vec3) (a : R) : vec3 :=
  add3 (add3 (mul3 u (cos a)) (mul3 axis ((1 - cos a) * dot3 u axis))) (mul3 (cross3 axis u) (sin a)).
Lemma rotation3_rod p c ax a : rotation3 p c ax a = add3 (rod (sub3 p c) ax a) c.
Proof. unfold rotation3, rod. vec. v_eq; ring. Qed.
Lemma rod_sub u v ax a : sub3 (rod u ax a) (rod v ax a) = rod (sub3 u v) ax a.
Proof. unfold rod. vec. v_eq; ring. Qed.

  Lemma rod_dot ax u v a : dot3 ax ax = 1 -> dot3 (rod u ax a) (rod v ax a) = dot3 u v.
  Proof.
    intros U.
    assert (Q := sc1 a). unfold rod.
    set (C := cos a) in *. set (S := sin a) in *.
    transitivity (C * C * dot3 u v + (1 - C * C) * dot3 u ax * dot3 v ax * (2 - 1) + S * S * (dot3 u v * dot3 ax ax - dot3 u ax * dot3 v ax)
      + (1 - C) * (1 - C) * dot3 u ax * dot3 v ax * (dot3 ax ax - 1)).
    - vec. ring.
    - rewrite U. replace (C * C) with (1 - S * S) by lra. ring.
  Qed.
  Lemma rod_axis ax u a : dot3 ax ax = 1 -> dot3 (rod u ax a) ax = dot3 u ax.
  Proof. intros U. unfold rod. transitivity (cos a * dot3 u ax + (1 - cos a) * dot3 u ax * dot3 ax ax); [vec; ring|rewrite U; ring]. Qed.
  Lemma rod_fix ax k a : dot3 ax ax = 1 -> rod (mul3 ax k) ax a = mul3 ax k.
  Proof.
    intros U.
    unfold rod. replace (dot3 (mul3 ax k) ax) with k by (rewrite dot3_mul_l, U; ring).
    vec. v_eq; ring.
  Qed.
  Lemma rod_cross_axis ax u a : dot3 ax ax = 1 -> cross3 ax (rod u ax a) = add3 (mul3 (cross3 ax u) (cos a)) (mul3 (sub3 (mul3 ax (dot3 u ax)) u) (sin a)).
  Proof.
    intros U.
    unfold rod. 
    assert (E : cross3 ax (cross3 ax u) = sub3 (mul3 ax (dot3 u ax)) u).
    { rewrite double_cross, U. rewrite (dot3_sym ax u). vec. v_eq; ring. }
    rewrite <- E. clear E. vec. v_eq; ring.
  Qed.
  Lemma rod_compose ax u a b : dot3 ax ax = 1 -> rod (rod u ax a) ax b = rod u ax (a + b).
  Proof.
    intros U.
    unfold rod at 1. rewrite rod_axis, rod_cross_axis by auto. unfold rod. rewrite cos_plus, sin_plus.
    generalize (dot3 u ax) as d. generalize (cross3 ax u) as w. intros. vec. v_eq; ring.
  Qed.
  Lemma rod_cross ax u v a : dot3 ax ax = 1 -> cross3 (rod u ax a) (rod v ax a) = rod (cross3 u v) ax a.
  Proof.
    intros U. assert (Q := sc1 a). unfold rod. set (C := cos a) in *. set (S := sin a) in *. clearbody C S.
    destruct ax as [p q r], u as [u1 u2 u3], v as [v1 v2 v3].
    unfold sub3, add3, mul3, neg3, dot3, cross3 in *; cbn [x3 y3 z3] in *.
    assert (U1 : p * p = 1 - q * q - r * r) by lra.
    assert (Q1 : S * S = 1 - C * C) by lra. clear U Q.
    v_eq; ring [Q1 U1].
  Qed.
