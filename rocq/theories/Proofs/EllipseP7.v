From Coq Require Import Reals Lra Lia List Bool ZArith.
From Verif.Model Require Import Base RBase Vec Frame BBox Geometry Curves Ellipse.
From Verif.Spec Require Import VecSpec FrameSpec BBoxSpec PlaneSpec CurvesSpec AngleSpec EllipseSpec EllipseSpec2.
From Verif.Proofs Require Import VecP LineP FrameP FrameP2 BBoxP GeometryP PlaneP CurvesP CurvesP3 CurvesP4 CurvesP5 EllipseP EllipseP2 EllipseP3 EllipseP4 EllipseP5 EllipseP6.
Import ListNotations.
Open Scope R_scope.

Lemma secant_example : let e := E2 2 1 (F2 O2D (B2 X2D Y2D)) in let l := (V2 (-3) 0, V2 3 0) in let r1 := V2 2 0 in let r2 := V2 (-2) 0 in
  ellipse_ok e /\ well_placed e /\ well_directed e l /\ fst l <> snd l /\ line2_has l r1 /\ on_ellipse2 e r1 /\ line2_has l r2 /\ on_ellipse2 e r2 /\ r1 <> r2.
Proof.
  cbv zeta. assert (O := oxy_ok 2 1 ltac:(lra)). split; [exact O|]. split; [left; split; reflexivity|]. split.
  { right. assert (T6 : / 10 ^ 6 = / 1000000) by (f_equal; ring). unfold along_major, dot2, sub2, ecenter, major_dir, O2D, X2D. cbn [fst snd x2 y2 ef org2 fb2 u2]. rewrite T6. split; [|split; apply Rabs_le; lra].
    rewrite Rabs_right; lra. }
  split; [intro K; apply (f_equal x2) in K; cbn in K; lra|]. split; [exists (5 / 6); unfold at_param2, add2, mul2, sub2; cbn; f_equal; lra|]. split; [apply (eqn_exact_frame _ _ O eq_refl eq_refl); unfold eqn; cbn; lra|].
  split; [exists (1 / 6); unfold at_param2, add2, mul2, sub2; cbn; f_equal; lra|]. split; [apply (eqn_exact_frame _ _ O eq_refl eq_refl); unfold eqn; cbn; lra|]. intro K; apply (f_equal x2) in K; cbn in K; lra.
Qed.
Lemma rect_example : let e := E2 2 1 (F2 O2D (B2 X2D Y2D)) in ellipse_ok e /\ x2 (major_dir e) * y2 (major_dir e) = 0.
Proof. cbv zeta. split; [apply oxy_ok; lra|]. cbn. ring. Qed.
Lemma tilted_example : ellipse_ok (E2 2 1 (F2 O2D (B2 (V2 (3 / 5) (4 / 5)) (V2 (- (4 / 5)) (3 / 5))))) /\ ellipse_ok (E2 2 1 (F2 O2D (B2 (V2 (3 / 5) (4 / 5)) (V2 (4 / 5) (- (3 / 5)))))).
Proof. split; [apply tilted_ok|]. split; [|cbn; lra]. unfold orthonormal2, dot2. cbn. repeat split; lra. Qed.
(** reversing an ellipse does not reverse its points *)
Lemma reverse_refuted : exists e pts, ellipse_ok e /\ ellipse2_discretization e 5 = Ok pts /\ ellipse2_discretization (ellipse2_reverse e) 5 = Ok pts /\ pts <> rev pts.
Proof.
  assert (O := oxy_ok 2 1 ltac:(lra)). destruct (discretization_ok _ 5 O ltac:(lia)) as (pts & E & L & H). exists (E2 2 1 OXY2), pts. split; [exact O|]. split; [exact E|]. split; [rewrite reverse_same by (auto; lia); exact E|].
  intros K. assert (N : nth_error pts 1 = nth_error pts 3).
  { destruct pts as [|a [|b [|c [|d [|f [|]]]]]]; try discriminate L. cbn in K |- *. injection K as _ K _ _. congruence. }
  rewrite (H 1%nat), (H 3%nat) in N by lia. apply some_inj2 in N. apply (f_equal y2) in N. unfold ellipse2_point, major_dir, minor_dir, ecenter, OXY2, X2D, Y2D, O2D, add2, mul2, cross2 in N. cbn [ef org2 fb2 u2 v2 emaj emin x2 y2] in N.
  replace ((1 * 1 - 0 * 0) * (INR 1 * (2 * PI / INR (5 - 1)))) with (PI / 2) in N by (cbn; field). replace ((1 * 1 - 0 * 0) * (INR 3 * (2 * PI / INR (5 - 1)))) with (PI / 2 + PI) in N by (cbn; field).
  rewrite neg_sin, sin_PI2 in N. lra.
Qed.
Lemma angle_example : 0 <= 1 < 2 * PI * (1 - / 10 ^ 9).
Proof. pose proof PI2_1. assert (/ 10 ^ 9 = / 1000000000) by (f_equal; ring). rewrite H0. lra. Qed.
(** the area is the limit of those of the inscribed polygons *)
Lemma inscribed_value : forall e n, ellipse_ok e -> (0 < n)%nat -> inscribed_area e n = Rabs (INR n * sin (2 * PI / INR n)) * (emaj e * emin e) / 2.
Proof.
  intros e n O N. unfold inscribed_area. set (k := fold_right _ _ _).
  assert (K : k = INR n * sin (2 * PI / INR n) * (emaj e * emin e) * cross2 (major_dir e) (minor_dir e)).
  { unfold k. assert (P : 0 < INR n) by (apply lt_0_INR; exact N). clear k.
    assert (G : forall l : list nat, fold_right (fun i s => cross2 (sub2 (inscribed e n i) (ecenter e)) (sub2 (inscribed e n (S i)) (ecenter e)) + s) 0 l = INR (length l) * sin (2 * PI / INR n) * (emaj e * emin e) * cross2 (major_dir e) (minor_dir e)); [|rewrite G, seq_length; reflexivity].
    induction l as [|i l IH]; [cbn; ring|]. cbn [fold_right]. rewrite IH. cbn [List.length]. rewrite S_INR.
    set (h := 2 * PI / INR n). assert (C : cross2 (sub2 (inscribed e n i) (ecenter e)) (sub2 (inscribed e n (S i)) (ecenter e)) = sin h * (emaj e * emin e) * cross2 (major_dir e) (minor_dir e)).
    { unfold inscribed. fold h. rewrite S_INR, Rmult_plus_distr_r, Rmult_1_l. set (t := INR i * h). replace h with ((t + h) - t) at 2 by ring. rewrite sin_minus. generalize (t + h). intros s.
      unfold ellipse2_point, cross2, sub2, add2, mul2. cbn [x2 y2]. ring. }
    rewrite C. ring. }
  rewrite K. destruct (angles_of e O) as [[-> _]|[-> _]]; destruct O as [_ B]; f_equal.
  - rewrite Rmult_1_r, Rabs_mult, (Rabs_right (emaj e * emin e)) by nra. reflexivity.
  - rewrite Rabs_mult, Rabs_mult, (Rabs_right (emaj e * emin e)) by nra. replace (Rabs (-1)) with 1 by (rewrite Rabs_left; lra). ring.
Qed.
Lemma polygon_limit : Un_cv (fun n => INR (S n) * sin (2 * PI / INR (S n))) (2 * PI).
Proof.
  intros eps0 He. pose proof PI_RGT_0 as PP. assert (H := derivable_pt_lim_sin 0). rewrite cos_0 in H. destruct (H (eps0 / (2 * PI))) as [d D]; [apply Rdiv_lt_0_compat; lra|].
  destruct (archimed_cor1 (pos d / (2 * PI))) as (N & HN & N0); [apply Rdiv_lt_0_compat; [apply cond_pos|lra]|]. exists N. intros n Hn. set (h := 2 * PI / INR (S n)).
  assert (P : 0 < INR (S n)) by (apply lt_0_INR; lia). assert (Hh : 0 < h) by (apply Rdiv_lt_0_compat; lra).
  assert (L : h < d). { unfold h. assert (IN : / INR (S n) <= / INR N) by (apply Rinv_le_contravar; [apply lt_0_INR, N0|apply le_INR; lia]).
    apply (Rmult_lt_reg_r (/ (2 * PI))); [apply Rinv_0_lt_compat; lra|]. replace (2 * PI / INR (S n) * / (2 * PI)) with (/ INR (S n)) by (field; lra). unfold Rdiv in HN. lra. }
  assert (Q := D h ltac:(lra)). rewrite Rplus_0_l, sin_0, Rminus_0_r in Q. specialize (Q ltac:(rewrite Rabs_right; lra)).
  unfold R_dist. replace (INR (S n) * sin h - 2 * PI) with (2 * PI * (sin h / h - 1)) by (unfold h; field; split; lra). rewrite Rabs_mult, (Rabs_right (2 * PI)) by lra.
  apply (Rmult_lt_compat_l (2 * PI)) in Q; [|lra]. replace (2 * PI * (eps0 / (2 * PI))) with eps0 in Q by (field; lra). exact Q.
Qed.
Lemma area_ok : forall e, ellipse_ok e -> Un_cv (fun n => inscribed_area e (S n)) (ellipse2_area e).
Proof.
  intros e O eps0 He. pose proof O as [Of B]. assert (AB : 0 < emaj e * emin e) by nra. destruct (polygon_limit (2 * eps0 / (emaj e * emin e))) as [N H]; [apply Rdiv_lt_0_compat; lra|]. exists N. intros n Hn. specialize (H n Hn).
  rewrite inscribed_value by (auto; lia). unfold ellipse2_area, R_dist in *. set (v := INR (S n) * sin (2 * PI / INR (S n))) in *. clearbody v. pose proof PI_RGT_0.
  assert (K : Rabs (Rabs v - 2 * PI) <= Rabs (v - 2 * PI)). { rewrite <- (Rabs_right (2 * PI)) at 1 by lra. apply Rabs_triang_inv2. }
  replace (Rabs v * (emaj e * emin e) / 2 - PI * emaj e * emin e) with ((Rabs v - 2 * PI) * (emaj e * emin e / 2)) by field. rewrite Rabs_mult, (Rabs_right (emaj e * emin e / 2)) by lra.
  apply (Rle_lt_trans _ (Rabs (v - 2 * PI) * (emaj e * emin e / 2))); [apply Rmult_le_compat_r; lra|].
  apply (Rmult_lt_compat_r (emaj e * emin e / 2)) in H; [|lra]. replace (2 * eps0 / (emaj e * emin e) * (emaj e * emin e / 2)) with eps0 in H by (field; lra). exact H.
Qed.
Lemma belongs3_sound : forall e p tol, direct (fb3 (ef3 e)) -> 0 < emin3 e -> 0 < emaj3 e -> / 10 ^ 6 <= tol <= 1 -> ellipse3_point_belongs e p tol = Ok true -> exists x y,
  Rabs (x - dot3 (sub3 p (org3 (ef3 e))) (bu (fb3 (ef3 e)))) <= eps /\ Rabs (y - dot3 (sub3 p (org3 (ef3 e))) (bv (fb3 (ef3 e)))) <= eps /\
  Rabs (x ^ 2 / emaj3 e ^ 2 + y ^ 2 / emin3 e ^ 2 - 1) <= tol.
Proof.
  intros e p tol D B A T H. destruct (belongs3_spec e p tol D B A) as (x & y & X & Y & E). exists x, y. split; [exact X|]. split; [exact Y|]. rewrite E in H. apply Ok_inj in H.
  set (q := _ + _ / _) in *. clearbody q. apply Rleb_spec in H. rewrite Rabs_R1 in H. apply (Rmax_Rle _ _ _) in H as [H|H]; [|exact H]. apply (Rle_trans _ _ _ H).
  assert (T6 : / 10 ^ 6 = / 1000000) by (f_equal; ring). assert (T9 : / 10 ^ 9 = / 1000000000) by (f_equal; ring). rewrite T9 in *. rewrite T6 in T.
  pose proof (Rabs_triang (q - 1) 1) as G. rewrite Rabs_R1 in G. replace (q - 1 + 1) with q in G by ring.
  assert (M : Rmax (Rabs q) 1 <= Rabs (q - 1) + 1) by (apply Rmax_lub; [lra|pose proof (Rabs_pos (q - 1)); lra]). lra.
Qed.
