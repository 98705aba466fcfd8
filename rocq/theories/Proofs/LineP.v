(** Rotations in space, projections, lines, segments, nearest points. *)
From Coq Require Import Reals Lra Lia List Bool Psatz Permutation.
From Verif.Model Require Import RBase Vec.
From Verif.Spec Require Import VecSpec.
From Verif.Proofs Require Import VecP.
Open Scope R_scope.

Lemma rotation3_dist p q c ax a : dot3 ax ax = 1 -> point_distance3 (rotation3 p c ax a) (rotation3 q c ax a) = point_distance3 p q.
Proof.
  intros U. unfold point_distance3. rewrite !rotation3_rod, !norm3_dot. f_equal.
  replace (sub3 (add3 (rod (sub3 p c) ax a) c) (add3 (rod (sub3 q c) ax a) c)) with (rod (sub3 p q) ax a).
  - apply rod_dot; auto.
  - replace (sub3 p q) with (sub3 (sub3 p c) (sub3 q c)) by (vec; v_eq; ring). rewrite <- rod_sub.
    generalize (rod (sub3 p c) ax a) as s. generalize (rod (sub3 q c) ax a) as t. vec. v_eq; ring.
Qed.
Lemma sub_add3 u c : sub3 (add3 u c) c = u. Proof. vec; v_eq; ring. Qed.
Lemma rotation3_compose p c ax a b : dot3 ax ax = 1 -> rotation3 (rotation3 p c ax a) c ax b = rotation3 p c ax (a + b).
Proof. intros U. rewrite !rotation3_rod, sub_add3, rod_compose; auto. Qed.
Lemma rotation3_2pi p c ax : rotation3 p c ax (2 * PI) = p.
Proof. unfold rotation3. rewrite cos_2PI, sin_2PI. vec. v_eq; ring. Qed.
Lemma rotation3_0 p c ax : rotation3 p c ax 0 = p.
Proof. unfold rotation3. rewrite cos_0, sin_0. vec. v_eq; ring. Qed.
Lemma rotation3_axis c ax a k : dot3 ax ax = 1 -> rotation3 (add3 c (mul3 ax k)) c ax a = add3 c (mul3 ax k).
Proof.
  intros U. rewrite rotation3_rod. replace (sub3 (add3 c (mul3 ax k)) c) with (mul3 ax k) by (vec; v_eq; ring).
  rewrite rod_fix by auto. vec. v_eq; ring.
Qed.
(** Direct isometry: the rotated frame of two vectors has the rotated cross product. *)
Lemma rotation3_cross p q ax a : dot3 ax ax = 1 -> cross3 (rotation3 p O3D ax a) (rotation3 q O3D ax a) = rotation3 (cross3 p q) O3D ax a.
Proof.
  intros U. rewrite !rotation3_rod.
  assert (E : forall u, sub3 u O3D = u) by (intros; unfold O3D; vec; v_eq; ring).
  assert (F : forall u, add3 u O3D = u) by (intros; unfold O3D; vec; v_eq; ring).
  rewrite !E, !F. apply rod_cross; auto.
Qed.
Lemma rotation3_dot p q ax a : dot3 ax ax = 1 -> dot3 (rotation3 p O3D ax a) (rotation3 q O3D ax a) = dot3 p q.
Proof.
  intros U. rewrite !rotation3_rod.
  assert (E : forall u, sub3 u O3D = u) by (intros; unfold O3D; vec; v_eq; ring).
  assert (F : forall u, add3 u O3D = u) by (intros; unfold O3D; vec; v_eq; ring).
  rewrite !E, !F. apply rod_dot; auto.
Qed.
(** Angle actually turned: for a vector orthogonal to the axis, dot and triple product give cos and sin. *)
Lemma rotation3_angle u ax a : dot3 ax ax = 1 -> dot3 u ax = 0 ->
  dot3 u (rotation3 u O3D ax a) = cos a * dot3 u u /\ cross3 u (rotation3 u O3D ax a) = mul3 ax (sin a * dot3 u u).
Proof.
  intros U P. unfold rotation3, O3D. destruct ax as [p q r], u as [a1 b c1].
  unfold sub3, add3, mul3, dot3, cross3 in *; cbn [x3 y3 z3] in *.
  set (C := cos a). set (S := sin a). split.
  - transitivity (C * (a1 * a1 + b * b + c1 * c1) + (1 - C) * (a1 * p + b * q + c1 * r) * (a1 * p + b * q + c1 * r)); [ring|rewrite P; ring].
  - assert (E : (a1 - 0) * p + (b - 0) * q + (c1 - 0) * r = 0) by lra. rewrite E.
    v_eq.
    + transitivity (S * (p * (a1 * a1 + b * b + c1 * c1) - a1 * (a1 * p + b * q + c1 * r))); [ring|rewrite P; ring].
    + transitivity (S * (q * (a1 * a1 + b * b + c1 * c1) - b * (a1 * p + b * q + c1 * r))); [ring|rewrite P; ring].
    + transitivity (S * (r * (a1 * a1 + b * b + c1 * c1) - c1 * (a1 * p + b * q + c1 * r))); [ring|rewrite P; ring].
Qed.

(** x_rotation(a) turns by -a *)
Lemma x_rotation_neg v a : x_rotation v a = rotation3 v O3D X3D (- a).
Proof. unfold x_rotation, axis_rotation_parameters, rotation3, O3D, X3D. rewrite cos_neg, sin_neg. vec. v_eq; ring. Qed.
Lemma y_rotation_neg v a : y_rotation v a = rotation3 v O3D Y3D (- a).
Proof. unfold y_rotation, axis_rotation_parameters, rotation3, O3D, Y3D. rewrite cos_neg, sin_neg. vec. v_eq; ring. Qed.
Lemma z_rotation_neg v a : z_rotation v a = rotation3 v O3D Z3D (- a).
Proof. unfold z_rotation, axis_rotation_parameters, rotation3, O3D, Z3D. rewrite cos_neg, sin_neg. vec. v_eq; ring. Qed.
Lemma x_rotation_wrong : x_rotation Y3D (PI / 2) = neg3 Z3D /\ rotation3 Y3D O3D X3D (PI / 2) = Z3D.
Proof.
  unfold x_rotation, axis_rotation_parameters, rotation3, O3D, X3D, Y3D, Z3D. rewrite cos_PI2, sin_PI2. vec.
  split; v_eq; ring.
Qed.
Lemma rotation3_nonunit : exists p q c ax a, point_distance3 (rotation3 p c ax a) (rotation3 q c ax a) <> point_distance3 p q.
Proof.
  exists (V3 1 0 0), (V3 0 0 0), (V3 0 0 0), (V3 0 0 2), (PI / 2).
  assert (E : rotation3 (V3 1 0 0) (V3 0 0 0) (V3 0 0 2) (PI / 2) = V3 0 2 0)
    by (unfold rotation3; rewrite cos_PI2, sin_PI2; vec; v_eq; ring).
  assert (F : rotation3 (V3 0 0 0) (V3 0 0 0) (V3 0 0 2) (PI / 2) = V3 0 0 0)
    by (unfold rotation3; rewrite cos_PI2, sin_PI2; vec; v_eq; ring).
  rewrite E, F. unfold point_distance3, norm3. vec.
  replace ((0 - 0) * (0 - 0) + (2 - 0) * (2 - 0) + (0 - 0) * (0 - 0)) with (2 * 2) by ring.
  replace ((1 - 0) * (1 - 0) + (0 - 0) * (0 - 0) + (0 - 0) * (0 - 0)) with (1 * 1) by ring.
  rewrite !sqrt_square by lra. lra.
Qed.

(** ** Projections on a plane *)
Lemma plane_projection3d_spec p o x y q : plane_projection3d p o x y = Ok q ->
  dot3 (sub3 q o) (cross3 x y) = 0 /\ exists k, sub3 p q = mul3 (cross3 x y) k.
Proof.
  unfold plane_projection3d, bind. destruct (unit_vector3 (cross3 x y)) as [z|] eqn:E; [|discriminate].
  intros H; injection H as <-. pose proof E as E'. apply unit3_ok in E' as [N Ez].
  apply unit3_spec in E as (E1 & E2 & E3). apply norm3_1 in E1. split.
  - rewrite <- E2. replace (dot3 (sub3 (sub3 p (mul3 z (dot3 z (sub3 p o)))) o) (mul3 z (norm3 (cross3 x y))))
      with (norm3 (cross3 x y) * (dot3 z (sub3 p o) * (1 - dot3 z z))) by (generalize (norm3 (cross3 x y)) as k; clear; vec; ring).
    rewrite E1. ring.
  - exists (/ norm3 (cross3 x y) * dot3 z (sub3 p o)).
    replace (mul3 (cross3 x y) (/ norm3 (cross3 x y) * dot3 z (sub3 p o))) with (mul3 z (dot3 z (sub3 p o))).
    + vec. v_eq; ring.
    + rewrite Ez at 1. generalize (/ norm3 (cross3 x y)) as k, (dot3 z (sub3 p o)) as m. vec. v_eq; ring.
Qed.
Lemma plane_projection3d_err p o x y e : plane_projection3d p o x y = Err e <-> cross3 x y = V3 0 0 0 /\ e = ZeroDivisionError.
Proof.
  unfold plane_projection3d, bind. destruct (unit_vector3 (cross3 x y)) as [z|e'] eqn:E.
  - apply unit3_ok in E. split; [discriminate|]. tauto.
  - apply unit3_err in E as [E ->]. split; [intros H; injection H as <-; auto|intros [_ ->]; auto].
Qed.
(** Pythagoras: the projection is the closest point of the plane. *)
Lemma plane_projection3d_min p o x y q r : plane_projection3d p o x y = Ok q ->
  dot3 (sub3 r o) (cross3 x y) = 0 -> point_distance3 p q <= point_distance3 p r.
Proof.
  intros H R. apply plane_projection3d_spec in H as (H & k & K).
  unfold point_distance3. apply sq_le; [apply norm3_pos|]. rewrite !norm3_sq.
  assert (D : dot3 (sub3 r q) (cross3 x y) = 0).
  { replace (sub3 r q) with (sub3 (sub3 r o) (sub3 q o)) by (vec; v_eq; ring). rewrite dot3_sub_l. lra. }
  replace (sub3 p r) with (sub3 (sub3 p q) (sub3 r q)) by (vec; v_eq; ring).
  rewrite K. replace (dot3 (sub3 (mul3 (cross3 x y) k) (sub3 r q)) (sub3 (mul3 (cross3 x y) k) (sub3 r q)))
    with (dot3 (mul3 (cross3 x y) k) (mul3 (cross3 x y) k) + dot3 (sub3 r q) (sub3 r q) - 2 * k * dot3 (sub3 r q) (cross3 x y)).
  - rewrite D. pose proof (dot3_pos (sub3 r q)). lra.
  - generalize (sub3 r q) as s, (cross3 x y) as t. vec. ring.
Qed.
(** Local coordinates in an orthonormal pair *)
Lemma to_2d_3d q o x y : dot3 x x = 1 -> dot3 y y = 1 -> dot3 x y = 0 -> to_2d (to_3d q o x y) o x y = q.
Proof.
  intros. unfold to_2d, to_3d. destruct q as [a b]. apply vec2_ext; cbn [x2 y2].
  - transitivity (a * dot3 x x + b * dot3 x y); [vec; ring|rewrite H, H1; ring].
  - transitivity (a * dot3 x y + b * dot3 y y); [vec; ring|rewrite H0, H1; ring].
Qed.
Lemma orthonormal_decomp p x y : dot3 x x = 1 -> dot3 y y = 1 -> dot3 x y = 0 ->
  p = add3 (add3 (mul3 x (dot3 p x)) (mul3 y (dot3 p y))) (mul3 (cross3 x y) (dot3 p (cross3 x y))).
Proof.
  intros Hx Hy Hxy.
  assert (L := lagrange3 x y). rewrite Hx, Hy, Hxy in L.
  set (r := sub3 p (add3 (add3 (mul3 x (dot3 p x)) (mul3 y (dot3 p y))) (mul3 (cross3 x y) (dot3 p (cross3 x y))))).
  assert (R1 : dot3 r x = 0).
  { unfold r. transitivity (dot3 p x - (dot3 p x * dot3 x x + dot3 p y * dot3 x y)); [vec; ring|rewrite Hx, Hxy; ring]. }
  assert (R2 : dot3 r y = 0).
  { unfold r. transitivity (dot3 p y - (dot3 p x * dot3 x y + dot3 p y * dot3 y y)); [vec; ring|rewrite Hy, Hxy; ring]. }
  assert (R3 : dot3 r (cross3 x y) = 0).
  { unfold r. transitivity (dot3 p (cross3 x y) - dot3 p (cross3 x y) * dot3 (cross3 x y) (cross3 x y)); [vec; ring|rewrite L; ring]. }
  assert (Z : dot3 r r = 0).
  { clearbody r. 
    assert (E : mul3 r (dot3 (cross3 x y) (cross3 x y)) = add3 (mul3 (cross3 x y) (dot3 r (cross3 x y))) (add3 (mul3 (cross3 y (cross3 x y)) (dot3 r x)) (mul3 (cross3 (cross3 x y) x) (dot3 r y)))).
    { clear. vec. v_eq; ring. }
    rewrite L, R1, R2, R3 in E. assert (E2 : r = V3 0 0 0).
    { transitivity (mul3 r (1 * 1 - 0 * 0)); [vec; v_eq; ring|]. rewrite E. clear. generalize (cross3 x y) as c, (cross3 y (cross3 x y)) as d, (cross3 (cross3 x y) x) as e. vec. v_eq; ring. }
    rewrite E2. vec. ring. }
  apply dot3_zero in Z. unfold r in Z. clear - Z. 
  match goal with |- p = ?t => set (T := t) in * end. clearbody T. vec. injection Z as Z1 Z2 Z3. v_eq; lra.
Qed.
Lemma to_3d_2d p o x y : dot3 x x = 1 -> dot3 y y = 1 -> dot3 x y = 0 -> dot3 (sub3 p o) (cross3 x y) = 0 ->
  to_3d (to_2d p o x y) o x y = p.
Proof.
  intros Hx Hy Hxy H. pose proof (orthonormal_decomp (sub3 p o) x y Hx Hy Hxy) as E. rewrite H in E.
  match type of E with _ = ?rhs => transitivity (add3 o rhs) end.
  - clear. unfold to_3d, to_2d. vec. v_eq; ring.
  - rewrite <- E. clear. vec. v_eq; ring.
Qed.
Lemma plane_projection2d_to_2d p o x y q : dot3 x x = 1 -> dot3 y y = 1 -> dot3 x y = 0 ->
  plane_projection2d p o x y = Ok q -> q = add2 (to_2d p o x y) (V2 (dot3 o x) (dot3 o y)).
Proof.
  intros Hx Hy Hxy. unfold plane_projection2d, bind. destruct (plane_projection3d p o x y) as [r|] eqn:E; [|discriminate].
  intros H; injection H as <-. apply plane_projection3d_spec in E as (_ & k & K).
  assert (A : dot3 r x = dot3 p x).
  { replace r with (sub3 p (sub3 p r)) by (vec; v_eq; ring). rewrite dot3_sub_l, K, dot3_mul_l, cross3_perp_l. ring. }
  assert (B : dot3 r y = dot3 p y).
  { replace r with (sub3 p (sub3 p r)) by (vec; v_eq; ring). rewrite dot3_sub_l, K, dot3_mul_l, cross3_perp_r. ring. }
  rewrite A, B. unfold to_2d, add2. cbn. v_eq; ring.
Qed.

(** ** Normal vectors *)
Lemma normal2_perp u : dot2 u (normal_vector2 u) = 0 /\ cross2 u (normal_vector2 u) = dot2 u u /\ norm2 (normal_vector2 u) = norm2 u.
Proof. repeat split; try (unfold normal_vector2; vec; ring). rewrite !norm2_dot. f_equal. unfold normal_vector2; vec; ring. Qed.
Lemma det_normal_perp u v : deterministic_normal_vector u = Ok v -> dot3 v u = 0.
Proof.
  unfold deterministic_normal_vector, bind, div3. match goal with |- context [if ?b then X3D else Y3D] => set (w := if b then X3D else Y3D) end.
  destruct (Reqb (norm3 u ^ 2) 0) eqn:E; [discriminate|]. intros H; apply Ok_inj in H; subst v. rb.
  assert (N : norm3 u ^ 2 = dot3 u u) by (rewrite <- norm3_sq; ring). rewrite N in *. clear N.
  remember (dot3 u u) as d eqn:Dd. clearbody w.
  transitivity (dot3 w u - dot3 w u * dot3 u u / d); [clear -E; vec; field; auto|rewrite <- Dd; field; auto].
Qed.
Lemma isclose0_small a : isclose a 0 (/ 10 ^ 7) = true <-> Rabs a <= / 10 ^ 7.
Proof. apply isclose_0. apply Rlt_le, pow10_inv_pos. Qed.
(** The normal vector is non null (so that the unit version exists) as soon as u is not almost null. *)
Lemma det_normal_exists u : / 10 ^ 7 < norm3 u -> exists v, deterministic_normal_vector u = Ok v /\ dot3 v u = 0 /\ v <> V3 0 0 0.
Proof.
  intros B. assert (P7 := pow10_inv_pos 7). set (e := / 10 ^ 7) in *.
  assert (N : norm3 u ^ 2 = dot3 u u) by (rewrite <- norm3_sq; ring).
  assert (D : 0 < dot3 u u) by (rewrite <- norm3_sq; nra).
  unfold deterministic_normal_vector. fold e.
  match goal with |- context [if ?b then X3D else Y3D] => set (w := if b then X3D else Y3D) end.
  assert (W : w = X3D /\ (y3 u <> 0 \/ z3 u <> 0) \/ w = Y3D /\ x3 u <> 0 \/ w = Y3D /\ z3 u <> 0).
  { unfold w. destruct (isclose (y3 u) 0 e) eqn:Y.
    - destruct (isclose (z3 u) 0 e) eqn:Z; cbn.
      + apply isclose0_small in Y. right. 
        destruct (Req_dec (x3 u) 0) as [X0|]; [|auto]. destruct (Req_dec (z3 u) 0) as [Z0|]; [|auto].
        exfalso. fold e in Y.
        assert (norm3 u = Rabs (y3 u)).
        { unfold norm3. rewrite X0, Z0. replace (0 * 0 + y3 u * y3 u + 0 * 0) with (Rsqr (y3 u)) by (unfold Rsqr; ring). apply sqrt_Rsqr_abs. }
        lra.
      + left. split; auto. right. intros C. rewrite C in Z.
        apply isclose_0_false in Z; [|unfold e; apply Rlt_le; apply pow10_inv_pos]. rewrite Rabs_R0 in Z. lra.
    - left. cbn. split; auto. left. intros C. rewrite C in Y.
      apply isclose_0_false in Y; [|unfold e; apply Rlt_le; apply pow10_inv_pos]. rewrite Rabs_R0 in Y. lra. }
  clearbody w. unfold bind, div3. destruct (Reqb (norm3 u ^ 2) 0) eqn:E; rb; [lra|].
  eexists; split; [reflexivity|]. rewrite N. set (d := dot3 u u) in *. assert (Dd : dot3 u u = d) by reflexivity. clearbody d. split.
  - transitivity (dot3 w u - dot3 w u * dot3 u u / d); [clear -D; vec; field; lra|rewrite Dd; field; lra].
  - intros Z.
    assert (Z' : mul3 w d = mul3 u (dot3 w u)).
    { unfold sub3 in Z. injection Z as Z1 Z2 Z3. cbn [x3 y3 z3 mul3] in *. apply vec3_ext; cbn [x3 y3 z3 mul3].
      - replace (x3 w) with (x3 u * dot3 w u / d) by lra. field; lra.
      - replace (y3 w) with (y3 u * dot3 w u / d) by lra. field; lra.
      - replace (z3 w) with (z3 u * dot3 w u / d) by lra. field; lra. }
    destruct W as [(-> & W)|[(-> & W)|(-> & W)]]; destruct u as [a b c]; unfold X3D, Y3D, mul3, dot3 in Z'; cbn [x3 y3 z3] in *;
      injection Z' as Z1 Z2 Z3; unfold dot3 in Dd; cbn in Dd.
    + assert (b * a = 0) by lra. assert (c * a = 0) by lra. assert (A : a * a = d) by lra.
      assert (Na : a <> 0) by (intros ->; lra). destruct W; nra.
    + assert (a * b = 0) by lra. assert (b * b = d) by lra. assert (b <> 0) by (intros ->; lra). nra.
    + assert (c * b = 0) by lra. assert (b * b = d) by lra. assert (b <> 0) by (intros ->; lra). nra.
Qed.
(** ... but raises for a tiny vector along Y. *)
Lemma det_normal_tiny : deterministic_unit_normal_vector (V3 0 (/ 10 ^ 8) 0) = Err ZeroDivisionError.
Proof.
  unfold deterministic_unit_normal_vector, deterministic_normal_vector. cbn [y3 z3].
  assert (E1 : isclose (/ 10 ^ 8) 0 (/ 10 ^ 7) = true).
  { apply isclose0_small. rewrite Rabs_right by (apply Rle_ge, Rlt_le, pow10_inv_pos).
    apply Rinv_le_contravar; [lra|]. lra. }
  assert (E2 : isclose 0 0 (/ 10 ^ 7) = true).
  { apply isclose0_small. rewrite Rabs_R0. apply Rlt_le, pow10_inv_pos. }
  rewrite E1, E2. cbn [negb orb]. unfold bind, div3.
  assert (N : norm3 (V3 0 (/ 10 ^ 8) 0) ^ 2 = / 10 ^ 8 * / 10 ^ 8) .
  { transitivity (norm3 (V3 0 (/ 10 ^ 8) 0) * norm3 (V3 0 (/ 10 ^ 8) 0)); [ring|]. rewrite norm3_sq. vec. ring. }
  rewrite N. assert (P := pow10_inv_pos 8). set (e := / 10 ^ 8) in *. clearbody e.
  destruct (Reqb (e * e) 0) eqn:Z; rb; [nra|].
  apply unit3_err. split; auto. unfold Y3D. vec. v_eq; field; lra.
Qed.

(** ** Vector projection, colinearity, mean point *)
Lemma vector_projection_spec u v w : vector_projection3 u v = Ok w ->
  (exists k, w = mul3 v k) /\ dot3 (sub3 u w) v = 0.
Proof.
  unfold vector_projection3. destruct (Reqb (dot3 v v) 0) eqn:E; [discriminate|]. intros H; injection H as <-. rb.
  split; [eexists; reflexivity|]. rewrite dot3_sub_l, dot3_mul_l. field. auto.
Qed.
Lemma colinear_true u v k t : 0 <= t -> u <> V3 0 0 0 -> k <> 0 -> v = mul3 u k -> is_colinear_to3 u v t = true /\ is_colinear_to3 v u t = true.
Proof.
  intros T N K ->. assert (Nu := norm3_ne _ N).
  assert (Nv : norm3 (mul3 u k) = Rabs k * norm3 u) by apply norm3_scale.
  assert (Pk : 0 < Rabs k) by (apply Rabs_pos_lt; auto).
  assert (Pv : 0 < norm3 (mul3 u k)) by (rewrite Nv; apply Rmult_lt_0_compat; auto).
  assert (G : forall a, isclose a a t = true).
  { intros a. unfold isclose. apply Rleb_spec. rewrite Rminus_eq_0, Rabs_R0. apply Rle_trans with t; auto. apply Rmax_r. }
  assert (D : Rabs (dot3 u (mul3 u k)) = Rabs k * (norm3 u * norm3 u)).
  { rewrite dot3_sym, dot3_mul_l, Rabs_mult, norm3_sq. f_equal. apply Rabs_right, Rle_ge, dot3_pos. }
  unfold is_colinear_to3.
  destruct (Reqb (norm3 u) 0) eqn:E1; rb; [lra|]. destruct (Reqb (norm3 (mul3 u k)) 0) eqn:E2; rb; [lra|].
  split.
  - rewrite D, Nv. replace (Rabs k * (norm3 u * norm3 u) / norm3 u / (Rabs k * norm3 u)) with 1 by (field; lra). apply G.
  - rewrite dot3_sym, D, Nv. replace (Rabs k * (norm3 u * norm3 u) / (Rabs k * norm3 u) / norm3 u) with 1 by (field; lra). apply G.
Qed.
(** What a positive answer guarantees: |sin angle|^2 <= 2 tol (tol at least the relative 1e-9). *)
Lemma colinear_sound u v t : / 10 ^ 9 <= t -> is_colinear_to3 u v t = true ->
  0 < norm3 u /\ 0 < norm3 v /\
  dot3 (cross3 u v) (cross3 u v) <= 2 * t * (dot3 u u * dot3 v v).
Proof.
  intros T. unfold is_colinear_to3.
  destruct (Reqb (norm3 u) 0) eqn:E1; rb; [discriminate|]. destruct (Reqb (norm3 v) 0) eqn:E2; rb; [discriminate|].
  pose proof (norm3_pos u) as Pu. pose proof (norm3_pos v) as Pv.
  assert (Nu : 0 < norm3 u) by lra. assert (Nv : 0 < norm3 v) by lra.
  intros H. split; auto. split; auto. unfold isclose in H. rb.
  set (c := Rabs (dot3 u v) / norm3 u / norm3 v) in *.
  assert (C : Rabs (dot3 u v) = c * (norm3 u * norm3 v)) by (unfold c; field; lra).
  assert (C1 : c <= 1).
  { pose proof (cauchy3 u v) as K. rewrite C in K. assert (0 < norm3 u * norm3 v) by nra. nra. }
  assert (C0 : 0 <= c).
  { unfold c. apply Rmult_le_pos; [apply Rmult_le_pos|]; try apply Rabs_pos; apply Rlt_le, Rinv_0_lt_compat; auto. }
  rewrite Rabs_R1, (Rabs_right c) in H by lra. rewrite (Rmax_right c 1) in H by lra.
  rewrite Rmult_1_r, Rmax_right in H by auto.
  rewrite Rabs_left1 in H by lra.
  rewrite lagrange3. rewrite <- !norm3_sq.
  assert (S : dot3 u v * dot3 u v = Rabs (dot3 u v) * Rabs (dot3 u v)) by (unfold Rabs; destruct (Rcase_abs _); ring).
  rewrite S, C. assert (Q : 0 <= (norm3 u * norm3 u) * (norm3 v * norm3 v)) by nra.
  replace (norm3 u * norm3 u * (norm3 v * norm3 v) - c * (norm3 u * norm3 v) * (c * (norm3 u * norm3 v)))
    with ((1 - c * c) * (norm3 u * norm3 u * (norm3 v * norm3 v))) by ring.
  apply Rmult_le_compat_r; auto. nra.
Qed.
Lemma colinear_null u v t : u = V3 0 0 0 \/ v = V3 0 0 0 -> is_colinear_to3 u v t = false.
Proof.
  unfold is_colinear_to3. intros [-> | ->].
  - assert (norm3 (V3 0 0 0) = 0) by (apply norm3_zero; auto). rewrite H, Reqb_refl. auto.
  - assert (norm3 (V3 0 0 0) = 0) by (apply norm3_zero; auto). rewrite H, Reqb_refl. destruct (Reqb _ _); auto.
Qed.

Lemma fold_add3 l : forall p, fold_left add3 l p = add3 p (sum3 l).
Proof.
  induction l as [|q l IH]; intros p; cbn.
  - unfold O3D; vec; v_eq; ring.
  - rewrite IH. cbn [sum3 fold_right]; fold (sum3 l). generalize (sum3 l) as s. vec. v_eq; ring.
Qed.
Lemma mean_point_spec l p : mean_point3 l = Ok p -> mul3 p (INR (length l)) = sum3 l.
Proof.
  destruct l as [|q l]; [discriminate|]. unfold mean_point3, div3. 
  change (1 + length l)%nat with (S (length l)).
  destruct (Reqb (INR (S (length l))) 0) eqn:E; [discriminate|]. intros H; apply Ok_inj in H; subst p. rb.
  change (length (q :: l)) with (S (length l)).
  rewrite fold_add3. cbn [sum3 fold_right]. fold (sum3 l). generalize dependent (INR (S (length l))). intros r E.
  unfold mul3. apply vec3_ext; cbn [x3 y3 z3]; field; auto.
Qed.
Lemma mean_point_total l : l <> [] -> exists p, mean_point3 l = Ok p.
Proof.
  destruct l as [|q l]; [congruence|]. intros _. unfold mean_point3, div3.
  change (1 + length l)%nat with (S (length l)).
  destruct (Reqb (INR (S (length l))) 0) eqn:E; rb; [|eauto]. exfalso. apply (not_0_INR (S (length l))); auto.
Qed.
Lemma sum3_perm l l' : Permutation l l' -> sum3 l = sum3 l'.
Proof.
  induction 1; cbn; auto.
  - unfold sum3 in IHPermutation. rewrite IHPermutation; auto.
  - fold (sum3 l). generalize (sum3 l) as s. vec. v_eq; ring.
  - congruence.
Qed.

(** ** Membership and nearest points *)
Lemma dist3_le p q t : 0 <= t ->
  ((x3 q - x3 p) * (x3 q - x3 p) + (y3 q - y3 p) * (y3 q - y3 p) + (z3 q - z3 p) * (z3 q - z3 p) <= t * t <-> point_distance3 p q <= t).
Proof.
  intros T. assert (E : (x3 q - x3 p) * (x3 q - x3 p) + (y3 q - y3 p) * (y3 q - y3 p) + (z3 q - z3 p) * (z3 q - z3 p) = point_distance3 p q * point_distance3 p q).
  { unfold point_distance3. rewrite norm3_sq. vec. ring. }
  rewrite E. assert (P : 0 <= point_distance3 p q) by apply norm3_pos. split; intros; nra.
Qed.
Lemma dist2_le p q t : 0 <= t ->
  ((x2 q - x2 p) * (x2 q - x2 p) + (y2 q - y2 p) * (y2 q - y2 p) <= t * t <-> point_distance2 p q <= t).
Proof.
  intros T. assert (E : (x2 q - x2 p) * (x2 q - x2 p) + (y2 q - y2 p) * (y2 q - y2 p) = point_distance2 p q * point_distance2 p q).
  { unfold point_distance2. rewrite norm2_sq. vec. ring. }
  rewrite E. assert (P : 0 <= point_distance2 p q) by apply norm2_pos. split; intros; nra.
Qed.
Lemma in_list3_spec p l t : 0 <= t -> (in_list3 p l t = true <-> exists q, In q l /\ point_distance3 p q <= t).
Proof.
  intros T. unfold in_list3. rewrite existsb_exists. split; intros (q & H1 & H2); exists q; split; auto.
  - rewrite Rleb_spec in H2. apply dist3_le; auto.
  - rewrite Rleb_spec. apply dist3_le; auto.
Qed.
Lemma in_list2_spec p l t : 0 <= t -> (in_list2 p l t = true <-> exists q, In q l /\ point_distance2 p q <= t).
Proof.
  intros T. unfold in_list2. rewrite existsb_exists. split; intros (q & H1 & H2); exists q; split; auto.
  - rewrite Rleb_spec in H2. apply dist2_le; auto.
  - rewrite Rleb_spec. apply dist2_le; auto.
Qed.
Lemma nearest3_loop p l : forall acc d q,
  fold_left (fun acc q => let d := point_distance3 p q in
       match acc with None => Some (d, q) | Some (m, _) => if Rltb d m then Some (d, q) else acc end) l acc = Some (d, q) ->
  (forall d0 q0, acc = Some (d0, q0) -> d0 = point_distance3 p q0) ->
  d = point_distance3 p q /\ (In q l \/ exists d0, acc = Some (d0, q)) /\ (forall r, In r l -> d <= point_distance3 p r) /\
  (forall d0 q0, acc = Some (d0, q0) -> d <= d0).
Proof.
  induction l as [|r l IH]; intros acc d q H A; cbn in H.
  - subst acc. split; [apply A; auto|]. split; [right; eauto|]. split; [intros ? []|]. intros d0 q0 E; injection E as <- <-; lra.
  - apply IH in H; clear IH.
    + destruct H as (H1 & H2 & H3 & H4). split; auto.
      destruct acc as [[m s]|].
      * destruct (Rltb (point_distance3 p r) m) eqn:L; rb.
        -- split; [destruct H2 as [H2|[d0 H2]]; [left; right; auto|injection H2 as ? ->; left; left; auto]|].
           pose proof (H4 _ _ eq_refl). split; [intros r' [<-|R]; auto|]. intros d0 q0 E; injection E as <- <-. lra.
        -- split; [destruct H2 as [H2|H2]; [left; right; auto|right; auto]|].
           pose proof (H4 _ _ eq_refl). split; [intros r' [<-|R]; auto; lra|auto].
      * split; [destruct H2 as [H2|[d0 H2]]; [left; right; auto|injection H2 as ? ->; left; left; auto]|].
        pose proof (H4 _ _ eq_refl). split; [intros r' [<-|R]; auto|]. discriminate.
    + intros d0 q0 E. destruct acc as [[m s]|].
      * destruct (Rltb (point_distance3 p r) m); [injection E as <- <-; auto|apply A; auto].
      * injection E as <- <-; auto.
Qed.
Lemma nearest3_none p l : nearest_point3 p l = None <-> l = [].
Proof.
  unfold nearest_point3. split; [|intros ->; auto].
  destruct l as [|r l]; auto. cbn. 
  assert (G : forall l acc, acc <> None -> fold_left (fun acc q => let d := point_distance3 p q in
       match acc with None => Some (d, q) | Some (m, _) => if Rltb d m then Some (d, q) else acc end) l acc <> None).
  { clear. induction l as [|q l IH]; intros acc H; cbn; auto. apply IH. destruct acc as [[m s]|]; [|congruence]. destruct (Rltb _ _); congruence. }
  intros H. exfalso. eapply (G l (Some (point_distance3 p r, r))); [discriminate|].
  cbn zeta in *. destruct (fold_left _ l _); [discriminate|auto].
Qed.
Lemma nearest3_spec p l q : nearest_point3 p l = Some q -> In q l /\ forall r, In r l -> point_distance3 p q <= point_distance3 p r.
Proof.
  unfold nearest_point3. destruct (fold_left _ l None) as [[d s]|] eqn:E; [|discriminate].
  cbn. intros H; injection H as <-. apply nearest3_loop in E; [|discriminate].
  destruct E as (-> & [H|[d0 H]] & H3 & _); [auto|discriminate].
Qed.
Lemma nearest2_loop p l : forall acc d q,
  fold_left (fun acc q => let d := point_distance2 p q in if Rltb d (fst acc) then (d, q) else acc) l acc = (d, q) ->
  fst acc = point_distance2 p (snd acc) ->
  d = point_distance2 p q /\ (In q l \/ q = snd acc) /\ (forall r, In r l -> d <= point_distance2 p r) /\ d <= fst acc.
Proof.
  induction l as [|r l IH]; intros acc d q H A; cbn in H.
  - subst acc. cbn in *. repeat split; auto; try lra. intros ? [].
  - apply IH in H; clear IH.
    + destruct H as (H1 & H2 & H3 & H4). split; auto. destruct (Rltb (point_distance2 p r) (fst acc)) eqn:L; cbn in *; rb.
      * split; [destruct H2; subst; auto|]. split; [intros r' [<-|R]; auto|lra].
      * split; [tauto|]. split; [intros r' [<-|R]; auto; lra|lra].
    + destruct (Rltb _ _); auto.
Qed.
Lemma nearest2_spec p l q : nearest_point2 p l = Ok q -> In q l /\ forall r, In r l -> point_distance2 p q <= point_distance2 p r.
Proof.
  unfold nearest_point2. destruct l as [|a l]; [discriminate|].
  destruct (fold_left _ _ _) as [d s] eqn:E. cbn [snd]. intros H; injection H as <-.
  apply nearest2_loop in E; [|auto]. destruct E as (-> & H & H3 & _). split; auto. destruct H as [|H]; auto. left. cbn in H. auto.
Qed.

(** ** Lines in the plane *)
Lemma e15 : 0 <= / 10 ^ 15. Proof. apply Rlt_le, pow10_inv_pos. Qed.
Lemma line_intersection_some l1 l2 p t u : line_intersection l1 l2 = Some (p, t, u) ->
  / 10 ^ 15 < Rabs (den2 l1 l2) /\ p = at_param2 l1 t /\ p = at_param2 l2 u.
Proof.
  destruct l1 as [[a b] [c d]], l2 as [[e f] [g h]]. unfold line_intersection, den2, at_param2.
  destruct (isclose _ 0 _) eqn:E; [discriminate|]. apply isclose_0_false in E; [|apply e15].
  intros H; injection H as <- <- <-. vec.
  replace ((a - c) * (f - h) - (b - d) * (e - g)) with ((c - a) * (h - f) - (d - b) * (g - e)) in E by ring.
  split; auto.
  assert (N : (a - c) * (f - h) - (b - d) * (e - g) <> 0).
  { intros C. replace ((c - a) * (h - f) - (d - b) * (g - e)) with ((a - c) * (f - h) - (b - d) * (e - g)) in E by ring.
    rewrite C, Rabs_R0 in E. pose proof e15. lra. }
  split; v_eq; field; auto.
Qed.
Lemma line_intersection_none l1 l2 : line_intersection l1 l2 = None <-> Rabs (den2 l1 l2) <= / 10 ^ 15.
Proof.
  destruct l1 as [[a b] [c d]], l2 as [[e f] [g h]]. unfold line_intersection, den2. vec.
  replace ((c - a) * (h - f) - (d - b) * (g - e)) with ((a - c) * (f - h) - (b - d) * (e - g)) by ring.
  destruct (isclose _ 0 _) eqn:E.
  - apply isclose_0 in E; [|apply e15]. tauto.
  - apply isclose_0_false in E; [|apply e15]. split; [discriminate|lra].
Qed.
Lemma at_param_on l t : on_line2 l (at_param2 l t).
Proof. unfold on_line2, at_param2. destruct l. cbn [fst snd]. vec. ring. Qed.
Lemma line_intersection_unique l1 l2 p t u q : line_intersection l1 l2 = Some (p, t, u) ->
  on_line2 l1 q -> on_line2 l2 q -> q = p.
Proof.
  intros H Q1 Q2. apply line_intersection_some in H as (N & P1 & P2).
  assert (R1 := at_param_on l1 t). assert (R2 := at_param_on l2 u). rewrite <- P1 in R1. rewrite <- P2 in R2.
  assert (D : den2 l1 l2 <> 0). { intros C. rewrite C, Rabs_R0 in N. pose proof e15. lra. }
  clear P1 P2 N. unfold on_line2, den2 in *. destruct l1 as [p1 q1], l2 as [p2 q2]. cbn [fst snd] in *.
  destruct p1 as [a b], q1 as [c d], p2 as [e f], q2 as [g h], p as [px py], q as [qx qy].
  unfold sub2, cross2 in *. cbn [x2 y2] in *.
  set (m := c - a) in *. set (n := d - b) in *. set (r := g - e) in *. set (s := h - f) in *.
  assert (X : m * (qy - py) - n * (qx - px) = 0) by lra.
  assert (Y : r * (qy - py) - s * (qx - px) = 0) by lra.
  v_eq.
  - assert ((m * s - n * r) * (qx - px) = 0) by (replace ((m * s - n * r) * (qx - px)) with (r * (m * (qy - py) - n * (qx - px)) - m * (r * (qy - py) - s * (qx - px))) by ring; rewrite X, Y; ring).
    apply Rmult_integral in H as [H|H]; [congruence|lra].
  - assert ((m * s - n * r) * (qy - py) = 0) by (replace ((m * s - n * r) * (qy - py)) with (s * (m * (qy - py) - n * (qx - px)) - n * (r * (qy - py) - s * (qx - px))) by ring; rewrite X, Y; ring).
    apply Rmult_integral in H as [H|H]; [congruence|lra].
Qed.
Lemma segment_as_line l1 l2 : segment_intersection l1 l2 =
  match line_intersection l1 l2 with
  | Some (p, t, u) => if (Rleb 0 t && Rleb t 1) || (Rleb 0 u && Rleb u 1) then Some (p, t, u) else None
  | None => None
  end.
Proof.
  destruct l1 as [[a b] [c d]], l2 as [[e f] [g h]]. unfold segment_intersection, line_intersection.
  destruct (isclose _ 0 _); auto.
Qed.
Lemma segment_intersection_sound l1 l2 p t u : segment_intersection l1 l2 = Some (p, t, u) ->
  on_line2 l1 p /\ on_line2 l2 p /\ (on_segment2 l1 p \/ on_segment2 l2 p).
Proof.
  rewrite segment_as_line. destruct (line_intersection l1 l2) as [[[p' t'] u']|] eqn:E; [|discriminate].
  destruct (_ || _) eqn:B; [|discriminate]. intros H; injection H as -> -> ->.
  apply line_intersection_some in E as (_ & P1 & P2).
  split; [rewrite P1; apply at_param_on|]. split; [rewrite P2; apply at_param_on|].
  apply orb_true_iff in B as [B|B]; apply andb_true_iff in B as [B1 B2]; rb; [left|right]; eexists; split; eauto.
Qed.
Lemma segment_intersection_complete l1 l2 p : / 10 ^ 15 < Rabs (den2 l1 l2) -> on_segment2 l1 p -> on_segment2 l2 p ->
  exists t u, segment_intersection l1 l2 = Some (p, t, u).
Proof.
  intros N (t1 & T1 & P1) (u1 & U1 & P2). rewrite segment_as_line.
  destruct (line_intersection l1 l2) as [[[p' t'] u']|] eqn:E.
  - assert (Q : p = p'). { eapply line_intersection_unique; eauto; [rewrite P1|rewrite P2]; apply at_param_on. }
    subst p'. pose proof E as E0. apply line_intersection_some in E as (_ & R1 & R2).
    assert (t' = t1).
    { rewrite P1 in R1. clear - R1 N. unfold at_param2, den2 in *. destruct l1 as [[a b] [c d]]. cbn [fst snd] in *.
      unfold add2, mul2, sub2 in R1. cbn [x2 y2] in R1. injection R1 as A B.
      assert (A' : (c - a) * (t1 - t') = 0) by lra. assert (B' : (d - b) * (t1 - t') = 0) by lra.
      apply Rmult_integral in A' as [A'|A']; [|lra]. apply Rmult_integral in B' as [B'|B']; [|lra].
      exfalso. unfold cross2, sub2 in N. cbn [x2 y2] in N. rewrite A', B' in N.
      match type of N with _ < Rabs ?z => replace z with 0 in N by ring end. rewrite Rabs_R0 in N. pose proof e15. lra. }
    subst t'. destruct (Rleb 0 t1 && Rleb t1 1) eqn:B; [cbn; eauto|].
    exfalso. apply andb_false_iff in B as [B|B]; rb; lra.
  - exfalso. apply line_intersection_none in E. lra.
Qed.
Lemma segment_intersection_wrong : exists l1 l2 p t u, segment_intersection l1 l2 = Some (p, t, u) /\ ~ on_segment2 l2 p.
Proof.
  exists (V2 0 0, V2 1 0), (V2 (1/2) 1, V2 (1/2) 2), (V2 (1 / 2) 0), (1 / 2), (- 1).
  split.
  - unfold segment_intersection.
    match goal with |- context [isclose ?z 0 _] => replace z with 1 by ring end.
    assert (E : isclose 1 0 (/ 10 ^ 15) = false).
    { apply isclose_0_false; [apply e15|]. rewrite Rabs_R1.
      apply Rmult_lt_reg_l with (10 ^ 15); [lra|]. rewrite Rinv_r; lra. }
    rewrite E.
    match goal with |- (if (Rleb 0 ?t && _) || (Rleb 0 ?u && _) then _ else _) = _ => replace t with (1 / 2) by field; replace u with (-1) by field end.
    destruct (Rleb 0 (1 / 2)) eqn:B1; rb; [|lra]. destruct (Rleb (1 / 2) 1) eqn:B2; rb; [|lra]. cbn [andb orb].
    apply f_equal. apply f_equal2; auto. apply f_equal2; auto. v_eq; field.
  - intros (t & T & P). unfold at_param2 in P. cbn in P. unfold add2, mul2, sub2 in P. cbn in P. injection P as A B. lra.
Qed.

(** ** Projection on a line, axial symmetry *)
Lemma point_projection2_spec l p q a : point_projection2 l p = Ok (q, a) ->
  on_line2 l q /\ dot2 (sub2 p q) (sub2 (snd l) (fst l)) = 0 /\ Rabs a = point_distance2 (fst l) q.
Proof.
  unfold point_projection2. destruct l as [p1 p2]. cbn [fst snd]. set (v := sub2 p2 p1).
  destruct (Reqb (norm2 v ^ 2) 0) eqn:E; [discriminate|]. rb. intros H; apply Ok_inj, pair_equal_spec in H as [<- <-].
  assert (N : norm2 v ^ 2 = dot2 v v) by (rewrite <- norm2_sq; ring).
  set (t := dot2 (sub2 p p1) v / norm2 v ^ 2). split; [|split].
  - unfold on_line2. cbn [fst snd]. fold v. clearbody t v. vec. ring.
  - replace (dot2 (sub2 p (add2 p1 (mul2 v t))) v) with (dot2 (sub2 p p1) v - t * dot2 v v) by (clearbody t v; vec; ring).
    unfold t. rewrite N in *. field. auto.
  - unfold point_distance2. replace (sub2 p1 (add2 p1 (mul2 v t))) with (mul2 v (- t)) by (clearbody t v; vec; v_eq; ring).
    rewrite norm2_scale, Rabs_Ropp, Rabs_mult, (Rabs_right (norm2 v)); [auto|apply Rle_ge, norm2_pos].
Qed.
Lemma point_projection3_spec l p q a : point_projection3 l p = Ok (q, a) ->
  cross3 (sub3 (snd l) (fst l)) (sub3 q (fst l)) = V3 0 0 0 /\ dot3 (sub3 p q) (sub3 (snd l) (fst l)) = 0 /\ Rabs a = point_distance3 (fst l) q.
Proof.
  unfold point_projection3. destruct l as [p1 p2]. cbn [fst snd]. set (v := sub3 p2 p1).
  destruct (Reqb (norm3 v ^ 2) 0) eqn:E; [discriminate|]. rb. intros H; apply Ok_inj, pair_equal_spec in H as [<- <-].
  assert (N : norm3 v ^ 2 = dot3 v v) by (rewrite <- norm3_sq; ring).
  set (t := dot3 (sub3 p p1) v / norm3 v ^ 2). split; [|split].
  - clearbody t v. vec. v_eq; ring.
  - replace (dot3 (sub3 p (add3 p1 (mul3 v t))) v) with (dot3 (sub3 p p1) v - t * dot3 v v) by (clearbody t v; vec; ring).
    unfold t. rewrite N in *. field. auto.
  - unfold point_distance3. replace (sub3 p1 (add3 p1 (mul3 v t))) with (mul3 v (- t)) by (clearbody t v; vec; v_eq; ring).
    rewrite norm3_scale, Rabs_Ropp, Rabs_mult, (Rabs_right (norm3 v)); [auto|apply Rle_ge, norm3_pos].
Qed.
Lemma proj_total2 l p : fst l <> snd l -> exists q a, point_projection2 l p = Ok (q, a).
Proof.
  intros H. unfold point_projection2. destruct (Reqb _ 0) eqn:E; [|eauto]. rb. exfalso. apply H.
  symmetry. apply dist2_zero. unfold point_distance2. pose proof (norm2_pos (sub2 (snd l) (fst l))). nra.
Qed.
Lemma line_projection2_same l p q : line_projection2 p l = Ok q -> exists a, point_projection2 l p = Ok (q, a).
Proof.
  unfold line_projection2, point_projection2, bind. destruct l as [p1 p2]. cbn [fst snd]. set (v := sub2 p2 p1).
  destruct (unit_vector2 v) as [d|] eqn:E; [|discriminate]. intros H; apply Ok_inj in H as <-.
  apply unit2_ok in E as [NZ ->]. apply norm2_ne in NZ.
  destruct (Reqb (norm2 v ^ 2) 0) eqn:E; rb; [nra|]. eexists. apply f_equal. apply f_equal2; [|reflexivity].
  assert (N : norm2 v * norm2 v = dot2 v v) by apply norm2_sq.
  set (n := norm2 v) in *. clearbody n. destruct v as [a b]. destruct p as [p q], p1 as [r s].
  unfold add2, mul2, sub2, dot2, normal_vector2 in *. cbn [x2 y2] in *.
  v_eq.
  - apply Rmult_eq_reg_r with (n * n); [|nra].
    transitivity (r * (n * n) + ((p - r) * a + (q - s) * b) * a); [field; lra|].
    rewrite !N.
    replace ((p - r - - (b * / n) * ((p - r) * - (b * / n) + (q - s) * (a * / n)) + r) * (a * a + b * b))
      with (p * (a * a + b * b) + (b / (n * n)) * (- (p - r) * b + (q - s) * a) * (a * a + b * b)) by (field; lra).
    rewrite N. field. nra.
  - apply Rmult_eq_reg_r with (n * n); [|nra].
    transitivity (s * (n * n) + ((p - r) * a + (q - s) * b) * b); [field; lra|].
    rewrite !N.
    replace ((q - s - a * / n * ((p - r) * - (b * / n) + (q - s) * (a * / n)) + s) * (a * a + b * b))
      with (q * (a * a + b * b) - (a / (n * n)) * (- (p - r) * b + (q - s) * a) * (a * a + b * b)) by (field; lra).
    rewrite N. field. nra.
Qed.
Lemma symmetry2_spec l p q : axial_symmetry2 p l = Ok q ->
  on_line2 l (middle_point2 p q) /\ dot2 (sub2 q p) (sub2 (snd l) (fst l)) = 0.
Proof.
  unfold axial_symmetry2, bind. destruct (point_projection2 l p) as [[r a]|] eqn:E; [|discriminate].
  cbn [fst]. intros H; apply Ok_inj in H as <-. apply point_projection2_spec in E as (E1 & E2 & _).
  split.
  - replace (middle_point2 p (add2 r (sub2 r p))) with r; auto. unfold middle_point2. vec. v_eq; field.
  - replace (dot2 (sub2 (add2 r (sub2 r p)) p) (sub2 (snd l) (fst l))) with (- 2 * dot2 (sub2 p r) (sub2 (snd l) (fst l))) by (generalize (sub2 (snd l) (fst l)); vec; ring).
    rewrite E2. ring.
Qed.
Lemma symmetry2_invol l p q : axial_symmetry2 p l = Ok q -> axial_symmetry2 q l = Ok p.
Proof.
  unfold axial_symmetry2, bind, point_projection2. destruct l as [p1 p2]. cbn [fst snd]. set (v := sub2 p2 p1).
  destruct (Reqb (norm2 v ^ 2) 0) eqn:E; [discriminate|]. rb. cbn [fst]. intros H; apply Ok_inj in H as <-.
  assert (N : norm2 v ^ 2 = dot2 v v) by (rewrite <- norm2_sq; ring). rewrite N in *. apply f_equal.
  clearbody v. unfold add2, sub2, mul2, dot2 in *. destruct v as [a b], p1 as [c d], p as [x y]. cbn [x2 y2] in *. v_eq; field; auto.
Qed.
Lemma symmetry2_dist l p q p' q' : axial_symmetry2 p l = Ok p' -> axial_symmetry2 q l = Ok q' -> point_distance2 p' q' = point_distance2 p q.
Proof.
  unfold axial_symmetry2, bind, point_projection2. destruct l as [p1 p2]. cbn [fst snd]. set (v := sub2 p2 p1).
  destruct (Reqb (norm2 v ^ 2) 0) eqn:E; [discriminate|]. rb. cbn [fst]. intros H K; apply Ok_inj in H as <-; apply Ok_inj in K as <-.
  assert (N : norm2 v ^ 2 = dot2 v v) by (rewrite <- norm2_sq; ring). rewrite N in *.
  unfold point_distance2. rewrite !norm2_dot. f_equal.
  clearbody v. unfold add2, sub2, mul2, dot2 in *. destruct v as [a b], p1 as [c d], p as [x y], q as [z w]. cbn [x2 y2] in *. field; auto.
Qed.

(** ** Segment to point distance *)
Lemma clamp_min (A B : R) t : 0 < A -> 0 <= t <= 1 ->
  let t0 := Rmax 0 (Rmin 1 (B / A)) in A * t0 * t0 - 2 * B * t0 <= A * t * t - 2 * B * t.
Proof.
  intros HA T. cbn zeta. set (m := B / A). assert (HB : B = m * A) by (unfold m; field; lra). rewrite HB. clearbody m.
  assert (G : forall t0, 0 <= (t - t0) * (t + t0 - 2 * m) -> A * t0 * t0 - 2 * (m * A) * t0 <= A * t * t - 2 * (m * A) * t).
  { intros t0 H. assert (0 <= A * ((t - t0) * (t + t0 - 2 * m))) by nra. lra. }
  apply G. unfold Rmax, Rmin. destruct (Rle_dec 1 m).
  - destruct (Rle_dec 0 1); [|lra]. assert (0 <= (1 - t) * (2 * m - 1 - t)) by (apply Rmult_le_pos; lra). lra.
  - destruct (Rle_dec 0 m).
    + pose proof (Rle_0_sqr (t - m)) as Q. unfold Rsqr in Q. lra.
    + assert (0 <= t * (t - 2 * m)) by (apply Rmult_le_pos; lra). lra.
Qed.
Lemma clamp_range m : 0 <= Rmax 0 (Rmin 1 m) <= 1.
Proof. unfold Rmax, Rmin. destruct (Rle_dec 1 m), (Rle_dec 0 _); lra. Qed.
Lemma segdist3_spec p1 p2 p d q : linesegment3d_point_distance p1 p2 p = Ok (d, q) ->
  d = point_distance3 p q /\ (exists t, 0 <= t <= 1 /\ q = seg3 p1 p2 t) /\
  (forall t, 0 <= t <= 1 -> d <= point_distance3 p (seg3 p1 p2 t)).
Proof.
  unfold linesegment3d_point_distance. set (u := sub3 p2 p1). set (pp := sub3 p p1).
  destruct (Reqb (norm3 u ^ 2) 0) eqn:E; [discriminate|]. rb. intros H; apply Ok_inj, pair_equal_spec in H as [<- <-].
  assert (N : norm3 u ^ 2 = dot3 u u) by (rewrite <- norm3_sq; ring). rewrite N in *.
  set (t0 := Rmax 0 (Rmin 1 (dot3 pp u / dot3 u u))).
  assert (D : norm3 (sub3 (add3 p1 (mul3 u t0)) p) = point_distance3 p (add3 p1 (mul3 u t0))) by (rewrite dist3_sym; reflexivity).
  split; [exact D|]. split; [exists t0; split; [apply clamp_range|reflexivity]|].
  intros t T. rewrite D. unfold point_distance3. apply sq_le; [apply norm3_pos|]. rewrite !norm3_sq. unfold seg3. fold u.
  assert (G : forall k, dot3 (sub3 p (add3 p1 (mul3 u k))) (sub3 p (add3 p1 (mul3 u k))) = dot3 pp pp + (dot3 u u * k * k - 2 * dot3 pp u * k)).
  { intros k. unfold pp. clearbody u. vec. ring. }
  rewrite !G. apply Rplus_le_compat_l. apply clamp_min; auto. pose proof (dot3_pos u). lra.
Qed.
Lemma segdist2_spec p1 p2 p d q : linesegment2d_point_distance p1 p2 p = Ok (d, q) ->
  d = point_distance2 p q /\ (exists t, 0 <= t <= 1 /\ q = seg2 p1 p2 t) /\
  (forall t, 0 <= t <= 1 -> d <= point_distance2 p (seg2 p1 p2 t)).
Proof.
  unfold linesegment2d_point_distance. set (u := sub2 p2 p1). set (pp := sub2 p p1).
  destruct (Reqb (norm2 u ^ 2) 0) eqn:E; [discriminate|]. rb. intros H; apply Ok_inj, pair_equal_spec in H as [<- <-].
  assert (N : norm2 u ^ 2 = dot2 u u) by (rewrite <- norm2_sq; ring). rewrite N in *.
  set (t0 := Rmax 0 (Rmin 1 (dot2 pp u / dot2 u u))).
  assert (D : norm2 (sub2 (add2 p1 (mul2 u t0)) p) = point_distance2 p (add2 p1 (mul2 u t0))) by (rewrite dist2_sym; reflexivity).
  split; [exact D|]. split; [exists t0; split; [apply clamp_range|reflexivity]|].
  intros t T. rewrite D. unfold point_distance2. apply sq_le; [apply norm2_pos|]. rewrite !norm2_sq. unfold seg2. fold u.
  assert (G : forall k, dot2 (sub2 p (add2 p1 (mul2 u k))) (sub2 p (add2 p1 (mul2 u k))) = dot2 pp pp + (dot2 u u * k * k - 2 * dot2 pp u * k)).
  { intros k. unfold pp. clearbody u. vec. ring. }
  rewrite !G. apply Rplus_le_compat_l. apply clamp_min; auto. pose proof (dot2_pos u). lra.
Qed.
Lemma segdist3_total p1 p2 p : p1 <> p2 -> exists d q, linesegment3d_point_distance p1 p2 p = Ok (d, q).
Proof.
  intros H. unfold linesegment3d_point_distance. destruct (Reqb _ 0) eqn:E; [|eauto]. rb. exfalso. apply H.
  symmetry. apply dist3_zero. unfold point_distance3. pose proof (norm3_pos (sub3 p2 p1)). nra.
Qed.
Lemma segdist2_total p1 p2 p : p1 <> p2 -> exists d q, linesegment2d_point_distance p1 p2 p = Ok (d, q).
Proof.
  intros H. unfold linesegment2d_point_distance. destruct (Reqb _ 0) eqn:E; [|eauto]. rb. exfalso. apply H.
  symmetry. apply dist2_zero. unfold point_distance2. pose proof (norm2_pos (sub2 p2 p1)). nra.
Qed.

(** ** Two lines / two segments *)
Lemma min_lines_cross a1 b1 a2 b2 p q : get_minimum_distance_points_lines a1 b1 a2 b2 = (p, q) ->
  line_point_belongs_with_points a1 b1 a2 = false -> line_point_belongs_with_points a1 b1 b2 = false ->
  cross3 (sub3 b1 a1) (sub3 b2 a2) <> V3 0 0 0 ->
  (exists s t, p = seg3 a1 b1 s /\ q = seg3 a2 b2 t) /\
  dot3 (sub3 p q) (sub3 b1 a1) = 0 /\ dot3 (sub3 p q) (sub3 b2 a2) = 0 /\
  (forall s t, point_distance3 p q <= point_distance3 (seg3 a1 b1 s) (seg3 a2 b2 t)).
Proof.
  intros H E1 E2 C. unfold get_minimum_distance_points_lines in H. rewrite E1, E2 in H.
  set (u := sub3 b1 a1) in *. set (v := sub3 b2 a2) in *. set (w := sub3 a1 a2) in *.
  assert (D : dot3 u u * dot3 v v - dot3 u v ^ 2 = dot3 (cross3 u v) (cross3 u v)) by (rewrite lagrange3; ring).
  destruct (Reqb _ 0) eqn:E; rb.
  { exfalso. apply C. apply dot3_zero. congruence. }
  set (s0 := (dot3 u v * dot3 v w - dot3 v v * dot3 u w) / (dot3 u u * dot3 v v - dot3 u v ^ 2)) in *.
  set (t0 := (dot3 u u * dot3 v w - dot3 u v * dot3 u w) / (dot3 u u * dot3 v v - dot3 u v ^ 2)) in *.
  injection H as <- <-.
  assert (P : sub3 (add3 a1 (mul3 u s0)) (add3 a2 (mul3 v t0)) = add3 w (sub3 (mul3 u s0) (mul3 v t0))).
  { unfold w. clearbody u v s0 t0. vec. v_eq; ring. }
  assert (P1 : dot3 (add3 w (sub3 (mul3 u s0) (mul3 v t0))) u = 0).
  { transitivity (dot3 u w + s0 * dot3 u u - t0 * dot3 u v); [clearbody u v w s0 t0; vec; ring|].
    unfold s0, t0. field. auto. }
  assert (P2 : dot3 (add3 w (sub3 (mul3 u s0) (mul3 v t0))) v = 0).
  { transitivity (dot3 v w + s0 * dot3 u v - t0 * dot3 v v); [clearbody u v w s0 t0; vec; ring|].
    unfold s0, t0. field. auto. }
  split; [exists s0, t0; split; reflexivity|]. rewrite P. split; auto. split; auto.
  intros s t. unfold point_distance3. rewrite P. apply sq_le; [apply norm3_pos|]. rewrite !norm3_sq.
  unfold seg3. fold u v. set (r := add3 w (sub3 (mul3 u s0) (mul3 v t0))) in *.
  replace (sub3 (add3 a1 (mul3 u s)) (add3 a2 (mul3 v t))) with (add3 r (sub3 (mul3 u (s - s0)) (mul3 v (t - t0)))).
  - clearbody r. set (k := s - s0). set (m := t - t0).
    replace (dot3 (add3 r (sub3 (mul3 u k) (mul3 v m))) (add3 r (sub3 (mul3 u k) (mul3 v m))))
      with (dot3 r r + 2 * (k * dot3 r u - m * dot3 r v) + dot3 (sub3 (mul3 u k) (mul3 v m)) (sub3 (mul3 u k) (mul3 v m)))
      by (clearbody k m u v; vec; ring).
    rewrite P1, P2. pose proof (dot3_pos (sub3 (mul3 u k) (mul3 v m))). lra.
  - unfold r, w. clearbody u v s0 t0. vec. v_eq; ring.
Qed.
(** A point of the second line within 1e-6 of the first line: that point is returned twice. *)
Lemma min_lines_touch a1 b1 a2 b2 : line_point_belongs_with_points a1 b1 a2 = true -> get_minimum_distance_points_lines a1 b1 a2 b2 = (a2, a2).
Proof. intros H. unfold get_minimum_distance_points_lines. rewrite H. auto. Qed.

(** The segment/segment routine returns points of the segments ... *)
Lemma div_range n d : 0 < n -> n < d -> 0 <= n / d <= 1.
Proof.
  intros. split.
  - apply Rlt_le. apply Rdiv_lt_0_compat; lra.
  - apply Rmult_le_reg_r with d; [lra|]. unfold Rdiv. rewrite Rmult_assoc, Rinv_l; lra.
Qed.
Lemma clamp_s_range n a : 0 <= clamp_s n a <= 1.
Proof. unfold clamp_s. destruct (Rleb n 0) eqn:A; [lra|]. destruct (Rleb a n) eqn:B; [lra|]. rb. apply div_range; auto. Qed.
Lemma cdist_range u v w s t : CLineSegment3DDistance u v w = (s, t) -> 0 <= s <= 1 /\ 0 <= t <= 1.
Proof.
  unfold CLineSegment3DDistance. 
  generalize (dot3 u u) (dot3 u v) (dot3 v v) (dot3 u w) (dot3 v w). intros a b c d e.
  repeat match goal with |- context [if ?x then _ else _] => let E := fresh in destruct x eqn:E end;
    intros Q; apply pair_equal_spec in Q as [<- <-]; rb;
    (split; try apply clamp_s_range; try lra; try (apply div_range; lra)).
Qed.
Lemma segseg_on s1 s2 p q : LineSegment3DDistance s1 s2 = (p, q) ->
  (exists s, 0 <= s <= 1 /\ p = seg3 (fst s1) (snd s1) s) /\ (exists t, 0 <= t <= 1 /\ q = seg3 (fst s2) (snd s2) t).
Proof.
  unfold LineSegment3DDistance. destruct (CLineSegment3DDistance _ _ _) as [s t] eqn:E. apply cdist_range in E as [S T].
  intros Q; apply pair_equal_spec in Q as [<- <-]. split; [exists s|exists t]; split; auto; reflexivity.
Qed.
(** ... but not the closest ones: two segments crossing at the origin, answer 1/4 apart. *)
Lemma segseg_wrong :
  let s1 := (V3 (- (1/4)) 0 0, V3 (3/4) 0 0) in
  let s2 := (V3 0 (- (1/2)) 0, V3 0 (1/2) 0) in
  LineSegment3DDistance s1 s2 = (V3 0 0 0, V3 0 (1/4) 0) /\
  seg3 (fst s1) (snd s1) (1/4) = V3 0 0 0 /\ seg3 (fst s2) (snd s2) (1/2) = V3 0 0 0.
Proof.
  cbn [fst snd]. cbv zeta. split; [|split; unfold seg3; vec; v_eq; field].
  unfold LineSegment3DDistance, CLineSegment3DDistance. cbn [fst snd]. unfold sub3, dot3. cbn [x3 y3 z3].
  match goal with |- context [Rltb _ ?det] => replace det with 1 by field end.
  assert (P := pow10_inv_pos 6).
  destruct (Rltb (- / 10 ^ 6) 1) eqn:E1; rb; [|lra].
  match goal with |- context [Rleb ?x ?y] => destruct (Rleb x y) eqn:E2; rb; [lra|] end.
  match goal with |- context [Rleb 1 ?y] => destruct (Rleb 1 y) eqn:E3; rb; [lra|] end.
  match goal with |- context [Rleb ?x ?y] => destruct (Rleb x y) eqn:E4; rb; [lra|] end.
  match goal with |- context [Rleb 1 ?y] => destruct (Rleb 1 y) eqn:E5; rb; [lra|] end.
  apply f_equal2; unfold add3, mul3; cbn [x3 y3 z3]; v_eq; field.
Qed.
