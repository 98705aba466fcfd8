From Coq Require Import Reals Lra Lia List Bool ZArith.
From Verif.Model Require Import Base RBase Vec Frame BBox Geometry Curves Ellipse.
From Verif.Spec Require Import VecSpec FrameSpec BBoxSpec PlaneSpec CurvesSpec AngleSpec EllipseSpec.
From Verif.Proofs Require Import VecP LineP FrameP FrameP2 BBoxP GeometryP PlaneP CurvesP CurvesP3 CurvesP4 CurvesP5 EllipseP EllipseP2 EllipseP3 EllipseP4.
Import ListNotations.
Open Scope R_scope.

Lemma box3_quarters : forall e b, ellipse3_bounding_box e = Ok b ->
  (in_box b (ellipse3_point e 0) /\ in_box b (ellipse3_point e (PI / 2)) /\ in_box b (ellipse3_point e PI) /\ in_box b (ellipse3_point e (- (PI / 2)))) /\
  forall b', in_box b' (ellipse3_point e 0) -> in_box b' (ellipse3_point e (PI / 2)) -> in_box b' (ellipse3_point e PI) -> in_box b' (ellipse3_point e (- (PI / 2))) ->
    box_le b b'.
Proof.
  intros e b E. unfold ellipse3_bounding_box in E.
  assert (C : [add3 (org3 (ef3 e)) (mul3 (bu (fb3 (ef3 e))) (emaj3 e)); sub3 (org3 (ef3 e)) (mul3 (bu (fb3 (ef3 e))) (emaj3 e)); add3 (org3 (ef3 e)) (mul3 (bv (fb3 (ef3 e))) (emin3 e)); sub3 (org3 (ef3 e)) (mul3 (bv (fb3 (ef3 e))) (emin3 e))]
    = [ellipse3_point e 0; ellipse3_point e PI; ellipse3_point e (PI / 2); ellipse3_point e (- (PI / 2))]).
  { unfold ellipse3_point. rewrite cos_neg, sin_neg, cos_0, sin_0, cos_PI, sin_PI, cos_PI2, sin_PI2.
    unfold add3, mul3, sub3. cbn [x3 y3 z3]. do 4 (apply f_equal2; [f_equal; ring|]). reflexivity. }
  cbv zeta in E. rewrite C in E. destruct (from_points_least _ _ E) as (_ & I & L). split.
  - do 3 (split; [apply I; cbn; tauto|]). apply I; cbn; tauto.
  - intros b' H1 H2 H3 H4. apply L. intros p [<- | [<- | [<- | [<- | []]]]]; assumption.
Qed.
Lemma belongs_close : forall q t, 0 <= t -> Rabs (q - 1) <= t -> isclose q 1 t = true.
Proof. intros q t T H. apply Rleb_spec. eapply Rle_trans; [exact H|]. apply Rmax_r. Qed.
Lemma Rabs_le_inv2 : forall a b, Rabs a <= b -> - b <= a <= b.
Proof. intros a b H. pose proof (Rle_abs a). pose proof (Rle_abs (- a)). rewrite Rabs_Ropp in *. lra. Qed.
Definition tilted3 : ellipse3 := E3 2 1 (F3 O3D (B3 (V3 (3 / 5) (4 / 5) 0) (V3 (- (4 / 5)) (3 / 5) 0) Z3D)).
Lemma box3_refuted : exists e b t, direct (fb3 (ef3 e)) /\ 0 < emin3 e <= emaj3 e /\ ellipse3_bounding_box e = Ok b /\ ~ in_box b (ellipse3_point e t).
Proof.
  assert (B : exists b, ellipse3_bounding_box tilted3 = Ok b). { unfold ellipse3_bounding_box. cbv zeta. eexists. reflexivity. }
  destruct B as [b E]. destruct rect_refuted as (_ & _ & _).
  assert (K : exists t, V2 (36 / 25) (23 / 25) = ellipse2_point tilted t).
  { apply (on_ellipse_eqn _ _ tilted_ok). unfold eqn, loc2, tilted, dot2, sub2, O2D. cbn. lra. }
  destruct K as [t T]. exists tilted3, b, t. split; [|split; [cbn; lra|split; [exact E|]]].
  - unfold direct, orthonormal, tilted3, Z3D, dot3, cross3. cbn. repeat split; try lra; f_equal; lra.
  - intros H. destruct (box3_quarters _ _ E) as [_ L].
    assert (X : x3 (ellipse3_point tilted3 t) = 36 / 25).
    { apply (f_equal x2) in T. unfold ellipse2_point, tilted, ecenter, major_dir, minor_dir, O2D, add2, mul2 in T. cbn in T. unfold ellipse3_point, tilted3, O3D, add3, mul3. cbn. lra. }
    set (big := BBox (- (6 / 5)) (6 / 5) (-10) 10 (-10) 10).
    assert (Q : forall t, Rabs (x3 (ellipse3_point tilted3 t)) <= 6 / 5 -> in_box big (ellipse3_point tilted3 t)).
    { intros s Hs. pose proof (COS_bound s) as Cb. pose proof (SIN_bound s) as Sb. apply Rabs_le_inv2 in Hs. unfold in_box, big. cbn [xmin xmax ymin ymax zmin zmax]. split; [lra|].
      unfold ellipse3_point, tilted3, O3D, add3, mul3. cbn. lra. }
    assert (box_le b big) as LE.
    { apply L; apply Q; unfold ellipse3_point, tilted3, O3D, add3, mul3; cbn [x3 org3 fb3 bu bv ef3 emaj3 emin3]; rewrite ?cos_neg, ?sin_neg, ?cos_0, ?sin_0, ?cos_PI, ?sin_PI, ?cos_PI2, ?sin_PI2; apply Rabs_le; lra. }
    unfold in_box in H. unfold box_le in LE. cbn [xmin xmax ymin ymax zmin zmax big] in LE. unfold big in LE. cbn [xmin xmax ymin ymax zmin zmax] in LE. lra.
Qed.
Lemma belongs3_refuted : exists e p, direct (fb3 (ef3 e)) /\ 0 < emin3 e <= emaj3 e /\ ellipse3_point_belongs e p (/ 10 ^ 6) = Ok true /\ forall t, 5 <= point_distance3 p (ellipse3_point e t).
Proof.
  exists (E3 2 1 (F3 O3D (B3 X3D Y3D Z3D))), (V3 2 0 5). assert (D : direct (B3 X3D Y3D Z3D)) by (unfold direct, orthonormal, X3D, Y3D, Z3D, dot3, cross3; cbn; repeat split; try lra; f_equal; lra).
  split; [exact D|]. split; [cbn; lra|]. split.
  - destruct (direct_g2l (F3 O3D (B3 X3D Y3D Z3D)) (V3 2 0 5) D) as (l & G & N). unfold ellipse3_point_belongs. cbn [ef3 emaj3 emin3]. rewrite G. cbn [bind].
    destruct (Reqb 2 0) eqn:A; rb; [lra|]. destruct (Reqb 1 0) eqn:C; rb; [lra|]. cbn [orb]. f_equal. clear G A C. destruct N as (NX & NY & _).
    unfold X3D, Y3D, O3D, dot3, sub3 in NX, NY. cbn in NX, NY. destruct l as [lx ly lz]. cbn [x3 y3] in *. apply belongs_close; [lra|].
    assert (E6 : eps <= / 10 ^ 9) by (unfold eps; apply Rinv_le_contravar; simpl; lra). assert (T9 : / 10 ^ 9 = / 1000000000) by (f_equal; ring). assert (T6 : / 10 ^ 6 = / 1000000) by (f_equal; ring). rewrite T9 in E6. rewrite T6.
    apply Rabs_le_inv2 in NX, NY. assert (EX : exists d, lx = 2 + d) by (exists (lx - 2); ring). destruct EX as [d ->].
    assert (P0 : 0 < eps) by (unfold eps; apply pow10_inv_pos). assert (Hd : - / 1000000000 <= d <= / 1000000000) by lra. assert (Hl : - / 1000000000 <= ly <= / 1000000000) by lra. clear NX NY P0 E6.
    replace ((2 + d) ^ 2 / 2 ^ 2 + ly ^ 2 / 1 ^ 2 - 1) with (d + d * d / 4 + ly * ly) by field. assert (SQ : forall z, - / 1000000000 <= z <= / 1000000000 -> 0 <= z * z <= / 1000000000).
    { intros z Z. split; [apply Rle_0_sqr|]. assert (0 <= (/ 1000000000 - z) * (/ 1000000000 + z)) by (apply Rmult_le_pos; lra). lra. }
    pose proof (SQ _ Hd). pose proof (SQ _ Hl). apply Rabs_le. lra.
  - intros t. unfold point_distance3, norm3, ellipse3_point, sub3, add3, mul3, O3D, X3D, Y3D. cbn. apply (Rle_trans _ (sqrt (5 * 5))); [rewrite sqrt_square; lra|]. apply sqrt_le_1_alt.
    match goal with |- _ <= ?a * ?a + ?b * ?b + _ => pose proof (Rle_0_sqr a); pose proof (Rle_0_sqr b) end. unfold Rsqr in *. lra.
Qed.
(** the points of the ellipse are accepted, and only the projection of the point counts *)
Lemma belongs3_spec : forall e p tol, direct (fb3 (ef3 e)) -> 0 < emin3 e -> 0 < emaj3 e -> exists x y,
  Rabs (x - dot3 (sub3 p (org3 (ef3 e))) (bu (fb3 (ef3 e)))) <= eps /\ Rabs (y - dot3 (sub3 p (org3 (ef3 e))) (bv (fb3 (ef3 e)))) <= eps /\
  ellipse3_point_belongs e p tol = Ok (isclose (x ^ 2 / emaj3 e ^ 2 + y ^ 2 / emin3 e ^ 2) 1 tol).
Proof.
  intros e p tol D B A. destruct (direct_g2l (ef3 e) p D) as (l & G & (NX & NY & _)). exists (x3 l), (y3 l). split; [exact NX|]. split; [exact NY|].
  unfold ellipse3_point_belongs. rewrite G. cbn [bind]. destruct (Reqb (emaj3 e) 0) eqn:A1; rb; [lra|]. destruct (Reqb (emin3 e) 0) eqn:C1; rb; [lra|]. reflexivity.
Qed.
Lemma near_square : forall x y a, Rabs (x - y) <= eps -> Rabs y <= a -> eps <= a -> 0 < a -> Rabs (x ^ 2 / a ^ 2 - y ^ 2 / a ^ 2) <= 3 * (eps / a).
Proof.
  intros x y a H Y E A. replace (x ^ 2 / a ^ 2 - y ^ 2 / a ^ 2) with ((x - y) / a * ((x + y) / a)) by (field; lra). rewrite Rabs_mult.
  assert (IA : 0 < / a) by (apply Rinv_0_lt_compat, A). unfold Rdiv. rewrite !Rabs_mult, (Rabs_right (/ a)) by lra. pose proof (Rabs_pos (x - y)). 
  assert (K : Rabs (x + y) <= 3 * a). { replace (x + y) with ((x - y) + 2 * y) by ring. eapply Rle_trans; [apply Rabs_triang|]. rewrite (Rabs_mult 2), (Rabs_right 2) by lra. lra. }
  assert (K2 : Rabs (x + y) * / a <= 3). { apply (Rmult_le_reg_r a); [exact A|]. rewrite Rmult_assoc, Rinv_l by lra. lra. }
  assert (K3 : 0 <= Rabs (x + y) * / a) by (apply Rmult_le_pos; [apply Rabs_pos|lra]). assert (K4 : Rabs (x - y) * / a <= eps * / a) by (apply Rmult_le_compat_r; lra).
  assert (0 <= Rabs (x - y) * / a) by (apply Rmult_le_pos; lra). nra.
Qed.
Lemma belongs3_accepts : forall e t tol, direct (fb3 (ef3 e)) -> / 10 ^ 6 <= emin3 e -> / 10 ^ 6 <= emaj3 e -> / 10 ^ 6 <= tol -> ellipse3_point_belongs e (ellipse3_point e t) tol = Ok true.
Proof.
  intros e t tol D B A T. assert (P6 := pow10_inv_pos 6). assert (B0 : 0 < emin3 e) by lra. assert (A0 : 0 < emaj3 e) by lra. destruct (belongs3_spec e (ellipse3_point e t) tol D B0 A0) as (x & y & X & Y & ->). f_equal.
  apply belongs_close; [lra|]. 
  assert (EX : dot3 (sub3 (ellipse3_point e t) (org3 (ef3 e))) (bu (fb3 (ef3 e))) = emaj3 e * cos t /\ dot3 (sub3 (ellipse3_point e t) (org3 (ef3 e))) (bv (fb3 (ef3 e))) = emin3 e * sin t).
  { destruct D as ((U & V & W & UV & UW & VW) & _). unfold ellipse3_point. set (u := bu (fb3 (ef3 e))) in *. set (v := bv (fb3 (ef3 e))) in *. set (o := org3 (ef3 e)). clearbody u v o. unfold dot3, sub3, add3, mul3 in *. cbn [x3 y3 z3]. split.
    - transitivity (emaj3 e * cos t * (x3 u * x3 u + y3 u * y3 u + z3 u * z3 u) + emin3 e * sin t * (x3 u * x3 v + y3 u * y3 v + z3 u * z3 v)); [ring|rewrite U, UV; ring].
    - transitivity (emin3 e * sin t * (x3 v * x3 v + y3 v * y3 v + z3 v * z3 v) + emaj3 e * cos t * (x3 u * x3 v + y3 u * y3 v + z3 u * z3 v)); [ring|rewrite V, UV; ring]. }
  destruct EX as [EX EY]. rewrite EX in X. rewrite EY in Y. assert (E12 : eps = / 10 ^ 6 * / 10000000000) by (unfold eps; rewrite <- Rinv_mult; f_equal; ring).
  assert (CB := COS_bound t). assert (SB := SIN_bound t).
  assert (XB : Rabs (emaj3 e * cos t) <= emaj3 e) by (apply Rabs_le; nra). assert (YB : Rabs (emin3 e * sin t) <= emin3 e) by (apply Rabs_le; nra).
  assert (NX := near_square _ _ _ X XB ltac:(lra) A0). assert (NY := near_square _ _ _ Y YB ltac:(lra) B0).
  assert (Q : forall a, / 10 ^ 6 <= a -> eps / a <= / 10000000000). { intros a Ha. apply (Rmult_le_reg_r a); [lra|]. unfold Rdiv. rewrite Rmult_assoc, Rinv_l by lra. rewrite E12. nra. }
  assert (QA := Q _ A). assert (QB := Q _ B). assert (One : (emaj3 e * cos t) ^ 2 / emaj3 e ^ 2 + (emin3 e * sin t) ^ 2 / emin3 e ^ 2 = 1).
  { pose proof (sin2_cos2 t) as SC. unfold Rsqr in SC. transitivity (cos t * cos t + sin t * sin t); [field; lra|lra]. }
  replace (x ^ 2 / emaj3 e ^ 2 + y ^ 2 / emin3 e ^ 2 - 1) with ((x ^ 2 / emaj3 e ^ 2 - (emaj3 e * cos t) ^ 2 / emaj3 e ^ 2) + (y ^ 2 / emin3 e ^ 2 - (emin3 e * sin t) ^ 2 / emin3 e ^ 2)) by lra.
  assert (T6 : / 10 ^ 6 = / 1000000) by (f_equal; ring). rewrite T6 in T. eapply Rle_trans; [apply Rabs_triang|]. lra.
Qed.
(** discretization and moves *)
Lemma discretization3_ok : forall e n, (2 <= n)%nat -> length (ellipse3_discretization e n) = n /\
  forall i, (i < n)%nat -> nth_error (ellipse3_discretization e n) i = Some (ellipse3_point e (INR i * (2 * PI / INR (n - 1)))).
Proof.
  intros e n N. unfold ellipse3_discretization. split; [rewrite map_length; unfold linspace_n; rewrite map_length; apply seq_length|]. intros i I1.
  erewrite map_nth_error by (apply linspace_nth; assumption). f_equal. unfold TWO_PI. replace (0 + INR i * ((2 * PI - 0) / INR (n - 1))) with (INR i * (2 * PI / INR (n - 1))) by (rewrite Rminus_0_r; ring). reflexivity.
Qed.
Lemma translation3_moves : forall e o t, ellipse3_point (ellipse3_translation e o) t = translation3 (ellipse3_point e t) o.
Proof. intros e o t. unfold ellipse3_point, ellipse3_translation, frame3_translation, translation3, add3, mul3. cbn [ef3 fb3 org3 emaj3 emin3 x3 y3 z3]. f_equal; ring. Qed.
Lemma point3_frame : forall e t, ellipse3_point e t = frame_point (ef3 e) (V3 (emaj3 e * cos t) (emin3 e * sin t) 0).
Proof. intros e t. unfold ellipse3_point, frame_point, basis_vector, add3, mul3. cbn [x3 y3 z3]. f_equal; ring. Qed.
Lemma rotation3_moves : forall e c ax a t, / 10 ^ 6 < point_distance3 c (org3 (ef3 e)) -> ellipse3_point (ellipse3_rotation e c ax a) t = rotation3 (ellipse3_point e t) c ax a.
Proof. intros e c ax a t H. rewrite !point3_frame. unfold ellipse3_rotation. cbn [ef3 emaj3 emin3]. apply frame3_rotation_points, H. Qed.
