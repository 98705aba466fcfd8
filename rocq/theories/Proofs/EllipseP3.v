From Coq Require Import Reals Lra Lia List Bool ZArith.
From Verif.Model Require Import Base RBase Vec Frame BBox Geometry Curves Ellipse.
From Verif.Spec Require Import VecSpec FrameSpec BBoxSpec PlaneSpec CurvesSpec AngleSpec EllipseSpec.
From Verif.Proofs Require Import VecP LineP FrameP BBoxP GeometryP PlaneP CurvesP CurvesP3 CurvesP4 CurvesP5 EllipseP EllipseP2.
Import ListNotations.
Open Scope R_scope.

Definition OXY2 : frame2 := F2 O2D (B2 X2D Y2D).
Lemma oxy_ok : forall a b, 0 < b <= a -> ellipse_ok (E2 a b OXY2).
Proof. intros a b H. split; [|exact H]. unfold orthonormal2, OXY2, X2D, Y2D, dot2. cbn. repeat split; ring. Qed.
Lemma oxy_local : forall a b, ellipse_is_local (E2 a b OXY2) = true.
Proof.
  intros a b. unfold ellipse_is_local. cbv zeta. change (major_dir (E2 a b OXY2)) with X2D. change (ecenter (E2 a b OXY2)) with O2D.
  assert (Nx : X2D <> V2 0 0) by (intro K; apply (f_equal x2) in K; cbn in K; lra).
  rewrite (clockwise_angle_aligned X2D X2D Nx) by (exists 1; unfold X2D; cbn; repeat split; lra).
  pose proof (pow10_inv_pos 6). rewrite (isclose_refl (2 * PI)) by lra. rewrite orb_true_r. apply is_close2_spec; [lra|].
  rewrite dist_O, (proj2 (norm2_zero O2D) eq_refl). lra.
Qed.
(** * lines that touch the ellipse *)
Lemma ellipse_tangent_refuted : exists e l p, ellipse_ok e /\ fst l <> snd l /\ line2_has l p /\ on_ellipse2 e p /\ ellipse2_line_intersections e l (/ 10 ^ 6) = Ok [].
Proof.
  set (e := E2 2 1 OXY2). set (l := (V2 (-1) 1, V2 1 1)). assert (O : ellipse_ok e) by (apply oxy_ok; lra).
  exists e, l, (V2 0 1). split; [exact O|]. split; [intro K; apply (f_equal x2) in K; cbn in K; lra|]. split; [exists (1 / 2); unfold at_param2, l, add2, mul2, sub2; cbn; f_equal; lra|]. split.
  { apply (eqn_exact_frame e _ O eq_refl eq_refl). unfold eqn. cbn. lra. }
  assert (D : line2_point_distance l (ecenter e) = Ok 1).
  { apply line2_distance_is; [intro K; apply (f_equal x2) in K; cbn in K; lra|]. split.
    - exists (1 / 2). unfold point_distance2. apply norm_r; unfold l, at_param2, e, ecenter, OXY2, O2D, add2, mul2, sub2; cbn; lra.
    - intro t. apply sq_le; [apply norm2_pos|]. unfold point_distance2. rewrite norm2_sq. unfold l, at_param2, e, ecenter, OXY2, O2D, add2, mul2, sub2, dot2. cbn. pose proof (Rle_0_sqr (-1 + (1 - -1) * t)). unfold Rsqr in H. lra. }
  unfold ellipse2_line_intersections. rewrite D. cbn [e emaj emin bind]. rewrite (proj2 (Reqb_false 2 0)), (proj2 (Reqb_false 1 0)) by lra. cbn [orb].
  pose proof (pow10_inv_pos 6). rewrite (proj2 (Rltb_false (2 + / 10 ^ 6) 1)) by lra. unfold e at 1. rewrite oxy_local. cbn [negb].
  unfold ellipse_local_intersections. assert (C : isclose (x2 (snd l)) (x2 (fst l)) (/ 10 ^ 6) = false).
  { unfold isclose, l. cbn [fst snd x2]. apply Rleb_false. apply Rmax_lub_lt.
    - rewrite Rabs_R1. replace (Rabs (-1)) with 1 by (rewrite Rabs_left; lra). rewrite Rmax_left by lra. replace (1 - -1) with 2 by ring. rewrite (Rabs_right 2) by lra. assert (/ 10 ^ 9 = / 1000000000) by (f_equal; ring). lra.
    - replace (1 - -1) with 2 by ring. rewrite (Rabs_right 2) by lra. assert (/ 10 ^ 6 = / 1000000) by (f_equal; ring). lra. }
  rewrite C. unfold get_y_intersection, get_slope. unfold l. cbn [fst snd x2 y2]. rewrite (proj2 (Reqb_false (-1) 1)) by lra. cbv zeta. unfold e. cbn [emaj emin].
  rewrite (proj2 (Rltb_false _ _)); [reflexivity|]. right. field.
Qed.
Lemma ellipse_outside_refuted : exists e l, ellipse_ok e /\ fst l <> snd l /\ (forall p, line2_has l p -> ~ on_ellipse2 e p) /\ ellipse2_line_intersections e l (/ 10 ^ 6) = Err ValueError.
Proof.
  set (x := 2 + / 10 ^ 6). pose proof (pow10_inv_pos 6) as P6. set (e := E2 2 1 OXY2). set (l := (V2 x 0, V2 x 1)). assert (O : ellipse_ok e) by (apply oxy_ok; lra).
  assert (N : fst l <> snd l) by (intro K; apply (f_equal y2) in K; cbn in K; lra).
  exists e, l. split; [exact O|]. split; [exact N|].
  assert (V : ellipse_vertical_intersections e l = Err ValueError).
  { destruct (vertical_ok e l ltac:(cbn; lra) ltac:(cbn; lra) N eq_refl) as [[_ K]|[K _]]; [exact K|]. exfalso. cbn [e emaj l fst x2] in K. rewrite Rabs_right in K by (unfold x; lra). unfold x in K. lra. }
  assert (D : line2_point_distance l (ecenter e) = Ok x).
  { apply line2_distance_is; [exact N|]. split.
    - exists 0. unfold point_distance2. apply norm_r; unfold l, at_param2, e, ecenter, OXY2, O2D, add2, mul2, sub2; cbn [fst snd org2 ef x2 y2]; [unfold x; lra|ring].
    - intro t. apply sq_le; [apply norm2_pos|]. unfold point_distance2. rewrite norm2_sq. unfold l, at_param2, e, ecenter, OXY2, O2D, add2, mul2, sub2, dot2. cbn [fst snd org2 ef x2 y2]. pose proof (Rle_0_sqr t). unfold Rsqr in H. lra. }
  split.
  - intros p [t ->] H. apply (eqn_exact_frame e _ O eq_refl eq_refl) in H. unfold eqn, at_param2, l, add2, mul2, sub2 in H. cbn [fst snd x2 y2 e emaj emin] in H.
    assert (4 < (x + (x - x) * t) ^ 2) by (replace (x + (x - x) * t) with x by ring; unfold x; nra). assert (0 <= (0 + (1 - 0) * t) ^ 2) by apply pow2_ge_0. lra.
  - unfold ellipse2_line_intersections. rewrite D. cbn [e emaj emin bind]. rewrite (proj2 (Reqb_false 2 0)), (proj2 (Reqb_false 1 0)) by lra. cbn [orb].
    rewrite (proj2 (Rltb_false (2 + / 10 ^ 6) x)) by (unfold x; lra). unfold e at 1. rewrite oxy_local. cbn [negb].
    unfold ellipse_local_intersections. change (x2 (snd l)) with x. change (x2 (fst l)) with x. rewrite isclose_refl by lra. exact V.
Qed.

(** * bounding rectangle *)
Lemma rect_aligned : forall e p, ellipse_ok e -> x2 (major_dir e) * y2 (major_dir e) = 0 -> on_ellipse2 e p -> in_rect (ellipse2_rectangle e) p.
Proof.
  intros e p ((U & V & UV) & B) H (t & ->). unfold ellipse2_point. change (u2 (fb2 (ef e))) with (major_dir e) in *. change (v2 (fb2 (ef e))) with (minor_dir e) in *.
  pose proof (COS_bound t) as Ct. pose proof (SIN_bound t) as St. unfold ellipse2_rectangle, in_rect, add2, sub2, mul2. cbn [rxmin rxmax rymin rymax x2 y2].
  destruct (ecenter e) as [cx cy], (major_dir e) as [ux uy], (minor_dir e) as [vx vy]. unfold dot2 in *. cbn [x2 y2] in *. set (a := emaj e) in *. set (b := emin e) in *. set (C := cos t) in *. set (S1 := sin t) in *. clearbody a b C S1.
  assert (Mn : forall p q r s w, p <= w \/ q <= w \/ r <= w \/ s <= w -> Rmin p (Rmin q (Rmin r s)) <= w).
  { intros. pose proof (Rmin_l p (Rmin q (Rmin r s))). pose proof (Rmin_r p (Rmin q (Rmin r s))). pose proof (Rmin_l q (Rmin r s)). pose proof (Rmin_r q (Rmin r s)). pose proof (Rmin_l r s). pose proof (Rmin_r r s). destruct H0 as [|[|[|]]]; lra. }
  assert (Mx : forall p q r s w, w <= p \/ w <= q \/ w <= r \/ w <= s -> w <= Rmax p (Rmax q (Rmax r s))).
  { intros. pose proof (Rmax_l p (Rmax q (Rmax r s))). pose proof (Rmax_r p (Rmax q (Rmax r s))). pose proof (Rmax_l q (Rmax r s)). pose proof (Rmax_r q (Rmax r s)). pose proof (Rmax_l r s). pose proof (Rmax_r r s). destruct H0 as [|[|[|]]]; lra. }
  assert (aC : - a <= a * C <= a) by nra. assert (bS : - b <= b * S1 <= b) by nra.
  assert (K : (ux = 0 /\ vy = 0 /\ (uy = 1 \/ uy = -1) /\ (vx = 1 \/ vx = -1)) \/ (uy = 0 /\ vx = 0 /\ (ux = 1 \/ ux = -1) /\ (vy = 1 \/ vy = -1))).
  { assert (Sq : forall z, z * z = 1 -> z = 1 \/ z = -1) by (intros z Z; assert (G : (z - 1) * (z + 1) = 0) by lra; apply Rmult_integral in G; lra).
    apply Rmult_integral in H as [-> | ->].
    - left. assert (Uy : uy * uy = 1) by lra. assert (vy = 0) by (destruct (Sq _ Uy); subst; lra). subst vy. repeat split; auto; apply Sq; lra.
    - right. assert (Ux : ux * ux = 1) by lra. assert (vx = 0) by (destruct (Sq _ Ux); subst; lra). subst vx. repeat split; auto; apply Sq; lra. }
  destruct K as [(-> & -> & [-> | ->] & [-> | ->])|(-> & -> & [-> | ->] & [-> | ->])]; (split; split; [apply Mn|apply Mx|apply Mn|apply Mx]; lra).
Qed.
Definition tilted : ellipse2 := E2 2 1 (F2 O2D (B2 (V2 (3 / 5) (4 / 5)) (V2 (- (4 / 5)) (3 / 5)))).
Lemma tilted_ok : ellipse_ok tilted.
Proof. split; [|cbn; lra]. unfold orthonormal2, tilted, dot2. cbn. repeat split; lra. Qed.
Lemma rect_refuted : exists e p, ellipse_ok e /\ on_ellipse2 e p /\ ~ in_rect (ellipse2_rectangle e) p.
Proof.
  exists tilted, (V2 (36 / 25) (23 / 25)). split; [apply tilted_ok|]. split.
  - apply (on_ellipse_eqn _ _ tilted_ok). unfold eqn, loc2, tilted, dot2, sub2, O2D. cbn. lra.
  - intros [[_ H] _]. unfold ellipse2_rectangle, tilted, ecenter, major_dir, minor_dir, O2D, add2, sub2, mul2 in H. cbn in H.
    assert (H2 : Rmax (0 - 3 / 5 * 2) (Rmax (0 + 3 / 5 * 2) (Rmax (0 - - (4 / 5) * 1) (0 + - (4 / 5) * 1))) <= 6 / 5) by (repeat apply Rmax_lub; lra). lra.
Qed.

(** * point_over_ellipse *)
Lemma round3_near : forall x, Rabs (round3 x - x) <= / 2000.
Proof.
  intro x. unfold round3. cbv zeta. destruct (base_Int_part (1000 * x)) as [B1 B2]. set (n := Int_part (1000 * x)) in *. clearbody n.
  set (r := 1000 * x - IZR n) in *. assert (Hr : 0 <= r < 1) by (unfold r; lra).
  assert (K : forall m, IZR n <= IZR m <= IZR n + 1 -> Rabs (IZR m - 1000 * x) <= 1 / 2 -> Rabs (IZR m / 1000 - x) <= / 2000).
  { intros m _ H. assert (E : IZR m / 1000 - x = (IZR m - 1000 * x) * / 1000) by field. rewrite E, Rabs_mult, (Rabs_right (/ 1000)) by lra. lra. }
  destruct (Rltb r (1 / 2)) eqn:A; rb; [apply K; [lra|apply Rabs_le; unfold r in *; lra]|].
  destruct (Rltb (1 / 2) r) eqn:C; rb; [apply K; rewrite plus_IZR; [lra|apply Rabs_le; unfold r in *; lra]|].
  destruct (Z.even n); apply K; rewrite ?plus_IZR; try lra; apply Rabs_le; unfold r in *; lra.
Qed.
Lemma round3_1 : round3 1 = 1.
Proof.
  unfold round3. cbv zeta. assert (E : Int_part (1000 * 1) = 1000%Z).
  { destruct (base_Int_part (1000 * 1)) as [B1 B2]. set (n := Int_part (1000 * 1)) in *. clearbody n. assert (IZR n < IZR 1001) by lra. assert (IZR 999 < IZR n) by lra. apply lt_IZR in H, H0. lia. }
  rewrite E.
  assert (T : Rltb (1000 * 1 - 1000) (1 / 2) = true) by (apply Rltb_spec; lra). rewrite T. field.
Qed.
Lemma over_form : forall e p, ellipse_ok e ->
  (let t := ellipse2_theta e in let dx := x2 p - x2 (ecenter e) in let dy := y2 p - y2 (ecenter e) in
   (dx * cos t + dy * sin t) ^ 2 / emaj e ^ 2 + (dx * sin t - dy * cos t) ^ 2 / emin e ^ 2) = along_major e p ^ 2 / emaj e ^ 2 + along_minor e p ^ 2 / emin e ^ 2.
Proof.
  intros e p O. cbv zeta. destruct (theta_ok e O) as [-> ->]. pose proof O as ((U & V & UV) & B). change (u2 (fb2 (ef e))) with (major_dir e) in *. change (v2 (fb2 (ef e))) with (minor_dir e) in *.
  unfold along_major, along_minor, dot2, sub2 in *. cbn [x2 y2]. set (dx := x2 p - x2 (ecenter e)). set (dy := y2 p - y2 (ecenter e)). clearbody dx dy.
  destruct (major_dir e) as [ux uy], (minor_dir e) as [vx vy]. cbn [x2 y2] in *.
  assert (E : (dx * uy - dy * ux) ^ 2 = (dx * vx + dy * vy) ^ 2).
  { assert (X : vx * vx = uy * uy).
    { transitivity (vx * vx * (ux * ux + uy * uy)); [rewrite U; ring|]. transitivity ((ux * vx) * (ux * vx) + uy * uy * (vx * vx)); [ring|].
      assert (W : ux * vx = - (uy * vy)) by lra. rewrite W. transitivity (uy * uy * (vx * vx + vy * vy)); [ring|rewrite V; ring]. }
    assert (Y : vy * vy = ux * ux) by lra. assert (Z : vx * vy = - (ux * uy)).
    { transitivity (vx * vy * (ux * ux + uy * uy)); [rewrite U; ring|]. transitivity ((ux * vx) * (ux * vy) + (uy * vy) * (uy * vx)); [ring|].
      assert (W : ux * vx = - (uy * vy)) by lra. assert (W' : uy * vy = - (ux * vx)) by lra.
      transitivity (- (ux * uy) * (vy * vy) + - (ux * uy) * (vx * vx)); [rewrite W at 1; rewrite W' at 2; ring|]. transitivity (- (ux * uy) * (vx * vx + vy * vy)); [ring|rewrite V; ring]. }
    transitivity (dx * dx * (vx * vx) + dy * dy * (vy * vy) + 2 * dx * dy * (vx * vy)); [rewrite X, Y, Z; ring|ring]. }
  rewrite E. reflexivity.
Qed.
Lemma over_accepts : forall e p tol, ellipse_ok e -> 0 <= tol -> on_ellipse2 e p -> point_over_ellipse e p tol = true.
Proof.
  intros e p tol O T H. unfold point_over_ellipse. pose proof (over_form e p O) as F. cbv zeta in *. rewrite F.
  apply (on_ellipse_eqn e p O) in H. unfold eqn in H. rewrite along_loc in H. cbn [x2 y2] in H. rewrite H, round3_1. apply isclose_refl. exact T.
Qed.
Lemma over_sound : forall e p tol, ellipse_ok e -> / 10 ^ 6 <= tol -> tol <= 1 -> point_over_ellipse e p tol = true ->
  Rabs (along_major e p ^ 2 / emaj e ^ 2 + along_minor e p ^ 2 / emin e ^ 2 - 1) <= tol + / 2000.
Proof.
  intros e p tol O T T1 H. unfold point_over_ellipse in H. pose proof (over_form e p O) as F. cbv zeta in *. rewrite F in H. set (q := _ + _ / _) in *. clearbody q.
  pose proof (round3_near q) as N. set (r := round3 q) in *. clearbody r. apply Rleb_spec in H. rewrite Rabs_R1 in H. assert (T6 : / 10 ^ 6 = / 1000000) by (f_equal; ring). assert (T9 : / 10 ^ 9 = / 1000000000) by (f_equal; ring).
  assert (K : Rabs (r - 1) <= tol).
  { apply (Rmax_Rle _ _ _) in H as [H|H]; [|exact H]. apply (Rle_trans _ _ _ H). rewrite T9 in *. pose proof (Rabs_triang (r - 1) 1) as G. rewrite Rabs_R1 in G. replace (r - 1 + 1) with r in G by ring.
    assert (M : Rmax (Rabs r) 1 <= Rabs (r - 1) + 1) by (apply Rmax_lub; [lra|pose proof (Rabs_pos (r - 1)); lra]). assert (Rabs (r - 1) <= / 1000000000 * (Rabs (r - 1) + 1)) by nra. nra. }
  replace (q - 1) with ((r - 1) - (r - q)) by ring. eapply Rle_trans; [apply Rabs_triang|]. rewrite Rabs_Ropp. lra.
Qed.
