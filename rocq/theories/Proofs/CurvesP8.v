(** The circle through three points of space. *)
From Coq Require Import Reals Lra Lia List Bool ZArith.
From Verif.Model Require Import Base RBase Vec Frame BBox Geometry ParamSurf Curves.
From Verif.Spec Require Import VecSpec FrameSpec BBoxSpec PlaneSpec ParamSurfSpec CurvesSpec.
From Verif.Proofs Require Import VecP LineP FrameP GeometryP ParamSurfP PlaneP CurvesP CurvesP3 CurvesP4.
Import ListNotations.
Open Scope R_scope.

Lemma perp_span d v w : dot3 d v = 0 -> dot3 d w = 0 -> dot3 d (cross3 v w) = 0 -> cross3 v w <> V3 0 0 0 -> d = V3 0 0 0.
Proof.
  intros A B C N. assert (X : cross3 d (cross3 v w) = V3 0 0 0). { rewrite double_cross, A, B. vec; v_eq; ring. }
  pose proof (VecP.lagrange3 d (cross3 v w)) as L. rewrite X, C in L. assert (P : 0 < norm3 (cross3 v w)). { pose proof (norm3_pos (cross3 v w)). assert (norm3 (cross3 v w) <> 0) by (intros K; apply norm3_zero in K; auto). lra. }
  assert (Q : dot3 d d = 0). { rewrite <- (norm3_sq (cross3 v w)) in L. set (k := norm3 (cross3 v w)) in *. assert (Z : dot3 (V3 0 0 0) (V3 0 0 0) = 0) by (unfold dot3; cbn [x3 y3 z3]; ring). rewrite Z in L. apply Rmult_eq_reg_r with (k * k); [lra|apply Rgt_not_eq; nra]. }
  apply norm3_zero. rewrite norm3_dot, Q. apply sqrt_0.
Qed.
Lemma cross_n n a b : cross3 (cross3 n a) (cross3 n b) = mul3 n (dot3 n (cross3 a b)).
Proof. vec; v_eq; ring. Qed.
(** a point of the perpendicular plane through the middle of a segment is at equal distance of its ends *)
Lemma bisector p q u m : dot3 (sub3 m (mul3 (add3 p q) (1 / 2))) u = 0 -> (exists k, sub3 q p = mul3 u k) -> point_distance3 m p = point_distance3 m q.
Proof.
  intros D [k K]. unfold point_distance3. rewrite !norm3_dot. f_equal. apply Rminus_diag_uniq.
  transitivity (2 * dot3 (sub3 m (mul3 (add3 p q) (1 / 2))) (sub3 q p)); [clear; vec; field|]. rewrite K. transitivity (2 * k * dot3 (sub3 m (mul3 (add3 p q) (1 / 2))) u); [clear; generalize (sub3 m (mul3 (add3 p q) (1 / 2))); intros; vec; ring|rewrite D; ring].
Qed.
Lemma touch_foot a v p : norm3 v = 1 -> line_point_belongs_with_points a (add3 a v) p = true -> exists s, point_distance3 p (add3 a (mul3 v s)) < / 10 ^ 6.
Proof.
  intros U H. unfold line_point_belongs_with_points in H. cbv zeta in H. apply Rltb_spec in H. replace (sub3 (add3 a v) a) with v in H by (vec; v_eq; ring). rewrite U in H.
  exists (dot3 (sub3 p a) v / (norm3 v * norm3 v)). unfold point_distance3. replace (sub3 p (add3 a (mul3 v (dot3 (sub3 p a) v / (norm3 v * norm3 v))))) with (sub3 (sub3 p a) (mul3 v (dot3 (sub3 p a) v / (norm3 v * norm3 v)))) by (generalize (dot3 (sub3 p a) v / (norm3 v * norm3 v)); intros; vec; v_eq; ring).
  rewrite (foot3_dist (sub3 p a) v _ ltac:(rewrite U; lra) eq_refl), U. auto.
Qed.
Lemma circle3_3_points_ok p1 p2 p3 u1 u2 : cross3 (sub3 p2 p1) (sub3 p2 p3) <> V3 0 0 0 ->
  unit_vector3 (sub3 p2 p1) = Ok u1 -> unit_vector3 (sub3 p2 p3) = Ok u2 -> / 10 ^ 6 < point_distance3 u1 u2 ->
  exists c, circle3_from_3_points p1 p2 p3 = Ok c /\ direct (fb3 (cf3 c)) /\ on_circle3 c p1 /\
    dot3 (bw (fb3 (cf3 c))) (sub3 p2 (center3 c)) = 0 /\ dot3 (bw (fb3 (cf3 c))) (sub3 p3 (center3 c)) = 0 /\
    point_distance3 p2 (center3 c) = point_distance3 p3 (center3 c) /\ Rabs (point_distance3 p2 (center3 c) - cr3 c) <= 2 * / 10 ^ 6.
Proof.
  intros N U1 U2 C. pose proof (pow10_inv_pos 6) as P6. unfold circle3_from_3_points. rewrite U1, U2. cbn [bind].
  destruct (unit3_spec _ _ U1) as (A1 & B1 & C1). destruct (unit3_spec _ _ U2) as (A2 & B2 & C2).
  set (k1 := norm3 (sub3 p2 p1)) in *. set (k2 := norm3 (sub3 p2 p3)) in *. clearbody k1 k2.
  assert (X : cross3 u2 u1 <> V3 0 0 0). { intros K. apply N. rewrite <- B1, <- B2. replace (cross3 (mul3 u1 k1) (mul3 u2 k2)) with (mul3 (cross3 u2 u1) (- (k1 * k2))) by (clear; vec; v_eq; ring). rewrite K. unfold mul3. cbn [x3 y3 z3]. f_equal; ring. }
  assert (NU : exists n, unit_vector3 (cross3 u2 u1) = Ok n) by (eexists; apply unit3_ok; split; [auto|reflexivity]). destruct NU as [n NU]. rewrite NU. cbn [bind].
  destruct (unit3_spec _ _ NU) as (An & Bn & Cn). set (kn := norm3 (cross3 u2 u1)) in *. clearbody kn.
  assert (D1 : dot3 n u1 = 0). { apply Rmult_eq_reg_r with kn; [|lra]. transitivity (dot3 (mul3 n kn) u1); [clear; vec; ring|]. rewrite Bn. clear; vec; ring. }
  assert (D2 : dot3 n u2 = 0). { apply Rmult_eq_reg_r with kn; [|lra]. transitivity (dot3 (mul3 n kn) u2); [clear; vec; ring|]. rewrite Bn. clear; vec; ring. }
  assert (NN : dot3 n n = 1) by (rewrite <- norm3_sq, An; ring). assert (UU1 : dot3 u1 u1 = 1) by (rewrite <- norm3_sq, A1; ring). assert (UU2 : dot3 u2 u2 = 1) by (rewrite <- norm3_sq, A2; ring).
  assert (F : is_close3 u1 u2 (/ 10 ^ 6) = false) by (destruct (is_close3 u1 u2 (/ 10 ^ 6)) eqn:F; auto; apply is_close3_spec in F; lra). rewrite F. cbn [bind]. cbv zeta.
  set (v1 := cross3 n u1). set (v2 := cross3 n u2). assert (V1 : norm3 v1 = 1). { rewrite norm3_dot. unfold v1. rewrite VecP.lagrange3, NN, UU1, D1. replace (1 * 1 - 0 * 0) with 1 by ring. apply sqrt_1. }
  assert (V2 : norm3 v2 = 1). { rewrite norm3_dot. unfold v2. rewrite VecP.lagrange3, NN, UU2, D2. replace (1 * 1 - 0 * 0) with 1 by ring. apply sqrt_1. }
  set (m1 := mul3 (add3 p1 p2) (1 / 2)). set (m2 := mul3 (add3 p2 p3) (1 / 2)).
  assert (E1 : dot3 n (sub3 p2 p1) = 0). { rewrite <- B1. transitivity (k1 * dot3 n u1); [clear; vec; ring|rewrite D1; ring]. } assert (E2 : dot3 n (sub3 p2 p3) = 0). { rewrite <- B2. transitivity (k2 * dot3 n u2); [clear; vec; ring|rewrite D2; ring]. }
  assert (G : exists m, fst (get_minimum_distance_points_lines m1 (add3 m1 v1) m2 (add3 m2 v2)) = m /\ (exists t, m = add3 m2 (mul3 v2 t)) /\ exists s, point_distance3 m (add3 m1 (mul3 v1 s)) <= / 10 ^ 6).
  { destruct (line_point_belongs_with_points m1 (add3 m1 v1) m2) eqn:T1.
    - exists m2. unfold get_minimum_distance_points_lines. rewrite T1. split; auto. split; [exists 0; clear; vec; v_eq; ring|]. destruct (touch_foot _ _ _ V1 T1) as [s S]. exists s. lra.
    - destruct (line_point_belongs_with_points m1 (add3 m1 v1) (add3 m2 v2)) eqn:T2.
      + exists (add3 m2 v2). unfold get_minimum_distance_points_lines. rewrite T1, T2. split; auto. split; [exists 1; clearbody m2 v2; clear; vec; v_eq; ring|]. destruct (touch_foot _ _ _ V1 T2) as [s S]. exists s. lra.
      + destruct (get_minimum_distance_points_lines m1 (add3 m1 v1) m2 (add3 m2 v2)) as [p q] eqn:M. assert (S1 : sub3 (add3 m1 v1) m1 = v1) by (clearbody m1 v1; clear; vec; v_eq; ring). assert (S2 : sub3 (add3 m2 v2) m2 = v2) by (clearbody m2 v2; clear; vec; v_eq; ring).
        assert (CV : cross3 v1 v2 = mul3 n (- kn)). { unfold v1, v2. rewrite cross_n. f_equal. replace (cross3 u1 u2) with (mul3 (cross3 u2 u1) (-1)) by (clear; vec; v_eq; ring). rewrite <- Bn. transitivity (- kn * dot3 n n); [clear; vec; ring|rewrite NN; ring]. }
        assert (CN : cross3 v1 v2 <> V3 0 0 0). { rewrite CV. intros K. assert (Q : dot3 n (mul3 n (- kn)) = 0) by (rewrite K; clear; unfold dot3; cbn [x3 y3 z3]; ring). replace (dot3 n (mul3 n (- kn))) with (- kn * dot3 n n) in Q by (clear; vec; ring). rewrite NN in Q. lra. }
        destruct (min_lines_cross _ _ _ _ _ _ M T1 T2) as ((s & t & Hs & Ht) & H1 & H2 & _); [rewrite S1, S2; auto|]. rewrite S1 in H1. rewrite S2 in H2.
        assert (Hs' : p = add3 m1 (mul3 v1 s)) by (rewrite Hs; unfold seg3; rewrite S1; auto). assert (Ht' : q = add3 m2 (mul3 v2 t)) by (rewrite Ht; unfold seg3; rewrite S2; auto).
        assert (PQ : sub3 p q = V3 0 0 0). { apply (perp_span _ v1 v2); auto. rewrite CV. transitivity (- kn * dot3 n (sub3 p q)); [clear; vec; ring|]. rewrite Hs', Ht'.
          assert (W : dot3 n (sub3 (add3 m1 (mul3 v1 s)) (add3 m2 (mul3 v2 t))) = dot3 n (sub3 m1 m2) + s * dot3 n v1 - t * dot3 n v2) by (clearbody m1 m2 v1 v2; clear; vec; ring). rewrite W. replace (dot3 n v1) with 0 by (unfold v1; clear; vec; ring). replace (dot3 n v2) with 0 by (unfold v2; clear; vec; ring).
          assert (Z : dot3 n (sub3 m1 m2) = (dot3 n (sub3 p2 p3) - dot3 n (sub3 p2 p1)) / 2) by (unfold m1, m2; clear; vec; field). rewrite Z, E1, E2. field. }
        assert (PE : p = q) by (pose proof (f_equal x3 PQ); pose proof (f_equal y3 PQ); pose proof (f_equal z3 PQ); unfold sub3 in *; cbn [x3 y3 z3] in *; apply vec3_ext; lra).
        exists p. cbn [fst]. split; auto. split; [exists t; rewrite PE; auto|]. exists s. rewrite <- Hs'. unfold point_distance3. replace (sub3 p p) with (V3 0 0 0) by (clear; vec; v_eq; ring). rewrite (proj2 (norm3_zero (V3 0 0 0)) eq_refl). lra. }
  destruct G as (m & GE & [t Gt] & [s Gs]). rewrite GE. eexists. split; [reflexivity|]. unfold center3, on_circle3. cbn [cf3 cr3 fb3 org3 bw].
  assert (VP1 : dot3 v1 u1 = 0) by (unfold v1; clear; vec; ring). assert (VP2 : dot3 v2 u2 = 0) by (unfold v2; clear; vec; ring). assert (VN1 : dot3 n v1 = 0) by (unfold v1; clear; vec; ring). assert (VN2 : dot3 n v2 = 0) by (unfold v2; clear; vec; ring).
  assert (MN2 : dot3 n (sub3 p2 m) = 0). { rewrite Gt. transitivity (dot3 n (sub3 p2 p3) / 2 - t * dot3 n v2); [unfold m2; clearbody v2; clear; vec; field|rewrite E2, VN2; field]. }
  assert (MN1 : dot3 n (sub3 p1 m) = 0) by (transitivity (dot3 n (sub3 p2 m) - dot3 n (sub3 p2 p1)); [clear; vec; ring|rewrite MN2, E1; ring]).
  assert (MN3 : dot3 n (sub3 p3 m) = 0) by (transitivity (dot3 n (sub3 p2 m) - dot3 n (sub3 p2 p3)); [clear; vec; ring|rewrite MN2, E2; ring]).
  split; [|split; [split; [apply dist3_sym|auto]|split; [auto|split; [auto|split]]]].
  - unfold direct, orthonormal. cbn [bu bv bw]. unfold v1 in *. assert (VV : dot3 (cross3 n u1) (cross3 n u1) = 1) by (rewrite <- norm3_sq, V1; ring). rewrite double_cross. rewrite UU1, (dot3_sym u1 n), D1. split; [|clear; vec; v_eq; ring]. repeat split; auto; try (clear; vec; ring).
  - rewrite !(dist3_sym _ m). apply (bisector p2 p3 u2 m).
    + fold m2. rewrite Gt. transitivity (t * dot3 v2 u2); [clearbody m2 v2; clear; vec; ring|rewrite VP2; ring].
    + exists (- k2). replace (sub3 p3 p2) with (mul3 (sub3 p2 p3) (-1)) by (clear; vec; v_eq; ring). rewrite <- B2. clear; vec; v_eq; ring.
  - set (q := add3 m1 (mul3 v1 s)) in *. assert (Q : point_distance3 q p1 = point_distance3 q p2). { apply (bisector p1 p2 u1 q).
      - fold m1. unfold q. transitivity (s * dot3 v1 u1); [clearbody m1 v1; clear; vec; ring|rewrite VP1; ring].
      - exists k1. auto. }
    change (norm3 (sub3 m p1)) with (point_distance3 m p1). rewrite (dist3_sym p2 m). pose proof (dist3_triangle m q p1) as T1. pose proof (dist3_triangle m q p2) as T2. pose proof (dist3_triangle q m p1) as T3. pose proof (dist3_triangle q m p2) as T4. rewrite (dist3_sym q m) in *. apply Rabs_le. lra.
Qed.
