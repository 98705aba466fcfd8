From Coq Require Import Reals Lra Lia List Bool ZArith.
From Verif.Model Require Import Base RBase Vec Frame BBox Geometry Curves Ellipse.
From Verif.Spec Require Import VecSpec FrameSpec BBoxSpec PlaneSpec CurvesSpec AngleSpec EllipseSpec.
From Verif.Proofs Require Import VecP LineP FrameP GeometryP PlaneP CurvesP CurvesP3 CurvesP4 CurvesP5 EllipseP.
Import ListNotations.
Open Scope R_scope.

(** * the angle of the major direction *)
Lemma theta_clockwise : forall u, dot2 u u = 1 -> 0 < clockwise_angle u X2D <= 2 * PI /\ cos (clockwise_angle u X2D) = x2 u /\ sin (clockwise_angle u X2D) = y2 u.
Proof.
  intros [x y] H. unfold dot2 in H. cbn [x2 y2] in *.
  assert (Nu : V2 x y <> V2 0 0) by (intro K; pose proof (f_equal x2 K) as K1; pose proof (f_equal y2 K) as K2; cbn in K1, K2; subst; lra).
  assert (Nx : X2D <> V2 0 0) by (intro K; apply (f_equal x2) in K; cbn in K; lra).
  destruct (clockwise_angle_spec _ _ Nu Nx) as [B (c & Hc & E1 & E2)]. split; [exact B|]. set (t := clockwise_angle (V2 x y) X2D) in *.
  unfold X2D in E1, E2. unfold rotate_clockwise in E1, E2. cbn [x2 y2] in E1, E2.
  pose proof (sin2_cos2 t) as T. unfold Rsqr in T. set (C := cos t) in *. set (S1 := sin t) in *. clearbody C S1.
  (* rotate_clockwise (x, y) = (x C + y S, y C - x S) *)
  assert (Z : y * C - x * S1 = 0) by nra. assert (P : 0 < x * C + y * S1) by nra.
  assert (Q : (x * C + y * S1) * (x * C + y * S1) = 1) by (transitivity ((x * x + y * y) * (S1 * S1 + C * C) - (y * C - x * S1) * (y * C - x * S1)); [ring|rewrite H, T, Z; ring]).
  assert (W : x * C + y * S1 = 1) by nra.
  split.
  - transitivity (C * (x * x + y * y)); [rewrite H; ring|]. transitivity (x * (x * C + y * S1) + y * (y * C - x * S1)); [ring|rewrite W, Z; ring].
  - transitivity (S1 * (x * x + y * y)); [rewrite H; ring|]. transitivity (y * (x * C + y * S1) - x * (y * C - x * S1)); [ring|rewrite W, Z; ring].
Qed.
Lemma theta_ok : forall e, ellipse_ok e -> cos (ellipse2_theta e) = x2 (major_dir e) /\ sin (ellipse2_theta e) = y2 (major_dir e).
Proof.
  intros e ((U & _) & _). destruct (theta_clockwise _ U) as (_ & C & S1). unfold ellipse2_theta. cbv zeta.
  destruct (Reqb (clockwise_angle (major_dir e) X2D) TWO_PI) eqn:B; [|auto]. apply Reqb_spec in B. change (u2 (fb2 (ef e))) with (major_dir e) in C, S1. rewrite B in C, S1. unfold TWO_PI in C, S1.
  rewrite <- C, <- S1, cos_2PI, sin_2PI, cos_0, sin_0. auto.
Qed.
Lemma sin_le : forall a, Rabs (sin a) <= Rabs a.
Proof.
  intro a. destruct (Req_dec a 0) as [-> |N]; [rewrite sin_0; lra|].
  assert (P : forall b, 0 < b -> Rabs (sin b) <= b).
  { intros b Hb. apply Rabs_le. split; [|left; apply sin_lt_x; exact Hb].
    destruct (Rle_lt_dec b PI) as [L|L]; [pose proof (sin_ge_0 b ltac:(lra) L); lra|]. pose proof (SIN_bound b). pose proof PI2_3_2. lra. }
  destruct (Rle_lt_dec 0 a) as [L|L].
  - rewrite (Rabs_right a) by lra. apply P. lra.
  - rewrite (Rabs_left a) by lra. replace (sin a) with (- sin (- a)) by (rewrite sin_neg; ring). rewrite Rabs_Ropp. apply P. lra.
Qed.
Lemma isclose_bound : forall a b t, 0 <= t -> isclose a b t = true -> Rabs (a - b) <= / 10 ^ 9 * Rmax (Rabs a) (Rabs b) + t.
Proof.
  intros a b t Ht H. apply Rleb_spec in H. eapply Rle_trans; [exact H|]. pose proof (pow10_inv_pos 9). pose proof (Rabs_pos a). pose proof (Rmax_l (Rabs a) (Rabs b)).
  assert (0 <= / 10 ^ 9 * Rmax (Rabs a) (Rabs b)) by (apply Rmult_le_pos; lra). apply Rmax_lub; lra.
Qed.
Lemma turned : forall e, ellipse_ok e -> / 10 ^ 5 < Rabs (y2 (major_dir e)) \/ x2 (major_dir e) < 0 -> ellipse_is_local e = false.
Proof.
  intros e ((U & _) & _) H. destruct (theta_clockwise _ U) as (Rg & C & S1). unfold ellipse_is_local. cbv zeta. change (u2 (fb2 (ef e))) with (major_dir e) in *.
  set (t := clockwise_angle (major_dir e) X2D) in *. clearbody t. apply andb_false_iff. left. pose proof PI2_3_2 as P3. unfold PI2 in P3. pose proof PI_4 as P4.
  assert (T5 : / 10 ^ 5 = / 100000) by (f_equal; ring). assert (T6 : / 10 ^ 6 = / 1000000) by (f_equal; ring). assert (T9 : / 10 ^ 9 = / 1000000000) by (f_equal; ring).
  apply orb_false_iff. split; apply not_true_is_false; intro K; apply isclose_bound in K; try (rewrite T6; lra).
  - rewrite Rminus_0_r, Rabs_R0, (Rabs_right t), Rmax_left in K by lra. assert (B : t <= / 500000) by (rewrite T9, T6 in K; lra).
    destruct H as [H|H].
    + rewrite <- S1 in H. pose proof (sin_le t) as G. rewrite (Rabs_right t) in G by lra. rewrite T5 in H. lra.
    + rewrite <- C in H. pose proof (cos_gt_0 t ltac:(lra) ltac:(lra)). lra.
  - rewrite (Rabs_right t), (Rabs_right (2 * PI)), Rmax_right in K by lra. rewrite Rabs_minus_sym in K. rewrite (Rabs_right (2 * PI - t)) in K by lra.
    assert (B : 2 * PI - t <= / 500000) by (rewrite T9, T6 in K; lra).
    destruct H as [H|H].
    + rewrite <- S1 in H. assert (Sn : sin t = - sin (2 * PI - t)) by (rewrite sin_minus, sin_2PI, cos_2PI; ring). rewrite Sn, Rabs_Ropp in H.
      pose proof (sin_le (2 * PI - t)) as G. rewrite (Rabs_right (2 * PI - t)) in G by lra. rewrite T5 in H. lra.
    + rewrite <- C in H. assert (Cn : cos t = cos (2 * PI - t)) by (rewrite cos_minus, sin_2PI, cos_2PI; ring). rewrite Cn in H. pose proof (cos_gt_0 (2 * PI - t) ltac:(lra) ltac:(lra)). lra.
Qed.
Lemma far_centre : forall e, / 10 ^ 6 < point_distance2 (ecenter e) O2D -> ellipse_is_local e = false.
Proof.
  intros e H. unfold ellipse_is_local. apply andb_false_iff. right. pose proof (pow10_inv_pos 6). apply isclose_0_false; [lra|]. rewrite Rabs_right; lra.
Qed.
(** the branch taken computes in the frame of the ellipse *)
Lemma branch : forall e l tol d, ellipse_ok e -> well_placed e -> fst l <> snd l -> dist_to_line2 l (ecenter e) d -> d <= emaj e + tol ->
  exists e', emaj e' = emaj e /\ emin e' = emin e /\
    ((ellipse2_line_intersections e l tol = do r <- ellipse_local_intersections e' (loc_line (ef e) l) (/ 10 ^ 6); Ok (map (frame2_l2g (ef e)) r)) \/
     (ellipse2_line_intersections e l tol = ellipse_local_intersections e' l (/ 10 ^ 6) /\ ecenter e = O2D /\ major_dir e = X2D)).
Proof.
  intros e l tol d O W N D Dt. pose proof O as ((U & V & UV) & B). unfold ellipse2_line_intersections.
  rewrite (proj2 (Reqb_false _ _)) by lra. rewrite (proj2 (Reqb_false (emin e) 0)) by lra. cbn [orb].
  rewrite (line2_distance_is _ _ _ N D). cbn [bind]. rewrite (proj2 (Rltb_false _ _)) by lra.
  destruct (ellipse_is_local e) eqn:L; cbn [negb].
  - exists e. split; [reflexivity|]. split; [reflexivity|]. right. split; [reflexivity|]. destruct W as [W|[W|W]]; [exact W| |].
    + rewrite (far_centre _ W) in L. discriminate L.
    + rewrite (turned _ O W) in L. discriminate L.
  - assert (Of : orthonormal2 (fb2 (ef e))) by (split; auto). destruct (mapping_some _ Of) as [g G]. unfold ellipse2_mapping_new. rewrite G, !frame2_g2l_ok by exact Of. cbn [bind].
    exists (E2 (emaj e) (emin e) g). split; [reflexivity|]. split; [reflexivity|]. left. reflexivity.
Qed.
Lemma directed_exact : forall e l, well_directed e l -> exact_x (loc_line (ef e) l) (/ 10 ^ 6).
Proof.
  intros e l [H|(H & A & B)].
  - left. exact H.
  - right. unfold loc_line. cbn [fst snd]. rewrite !along_loc. cbn [x2]. apply not_true_is_false. intro K. apply Rleb_spec in K. assert (T9 : / 10 ^ 9 = / 1000000000) by (f_equal; ring). assert (T6 : / 10 ^ 6 = / 1000000) by (f_equal; ring).
    assert (M : Rmax (Rabs (along_major e (snd l))) (Rabs (along_major e (fst l))) <= 1000) by (apply Rmax_lub; auto).
    assert (Rmax (/ 10 ^ 9 * Rmax (Rabs (along_major e (snd l))) (Rabs (along_major e (fst l)))) (/ 10 ^ 6) <= / 10 ^ 6) by (apply Rmax_lub; rewrite ?T9, ?T6; lra). lra.
Qed.
Lemma loc_exact_frame : forall e p, ellipse_ok e -> ecenter e = O2D -> major_dir e = X2D -> x2 (loc2 (ef e) p) = x2 p /\ (y2 (loc2 (ef e) p) = y2 p \/ y2 (loc2 (ef e) p) = - y2 p).
Proof.
  intros e p ((U & V & UV) & B) C M. change (u2 (fb2 (ef e))) with (major_dir e) in *. change (v2 (fb2 (ef e))) with (minor_dir e) in *. rewrite along_loc. unfold along_major, along_minor. rewrite C, M in *.
  destruct (minor_dir e) as [vx vy]. unfold X2D, O2D, dot2, sub2 in *. cbn [x2 y2] in *. assert (vx = 0) by lra. subst vx. assert (Q : (vy - 1) * (vy + 1) = 0) by lra.
  apply Rmult_integral in Q. split; [ring|]. destruct Q as [Q|Q]; [left|right]; [replace vy with 1 by lra|replace vy with (-1) by lra]; ring.
Qed.
Lemma eqn_exact_frame : forall e p, ellipse_ok e -> ecenter e = O2D -> major_dir e = X2D -> eqn (emaj e) (emin e) p <-> on_ellipse2 e p.
Proof.
  intros e p O C M. rewrite (on_ellipse_eqn e p O). destruct (loc_exact_frame e p O C M) as [X [Y|Y]]; unfold eqn; rewrite X, Y; [tauto|]. replace ((- y2 p) ^ 2) with (y2 p ^ 2) by ring. tauto.
Qed.
Lemma exact_exact_frame : forall e l, ellipse_ok e -> ecenter e = O2D -> major_dir e = X2D -> exact_x (loc_line (ef e) l) (/ 10 ^ 6) -> exact_x l (/ 10 ^ 6).
Proof.
  intros e l O C M. unfold exact_x, loc_line. cbn [fst snd]. destruct (loc_exact_frame e (fst l) O C M) as [-> _]. destruct (loc_exact_frame e (snd l) O C M) as [-> _]. auto.
Qed.
Lemma has_loc : forall f l p, orthonormal2 (fb2 f) -> line2_has (loc_line f l) (loc2 f p) <-> line2_has l p.
Proof.
  intros f l p O. unfold line2_has. split; intros (t & E); exists t.
  - rewrite <- loc_param in E. rewrite <- (l2g_loc f p O), E, (l2g_loc f _ O). reflexivity.
  - rewrite E. apply loc_param.
Qed.
Lemma centre_far : forall e r p, ellipse_ok e -> on_ellipse2 e r -> point_distance2 (ecenter e) p <= point_distance2 (ecenter e) r -> point_distance2 (ecenter e) p <= emaj e.
Proof.
  intros e r p O H L. eapply Rle_trans; [exact L|]. pose proof O as (Of & B). apply (on_ellipse_eqn e r O) in H. rewrite <- (loc_dist (ef e) _ _ Of). change (ecenter e) with (org2 (ef e)). rewrite loc_org, dist2_sym, dist_O.
  unfold eqn in H. set (q := loc2 (ef e) r) in *. clearbody q. destruct q as [x y]. cbn [x2 y2] in H.
  assert (PA : 0 < emaj e ^ 2) by (apply pow_lt; lra). assert (PB : 0 < emin e ^ 2) by (apply pow_lt; lra).
  assert (X : x ^ 2 + y ^ 2 <= emaj e ^ 2).
  { assert (E : emaj e ^ 2 = x ^ 2 + emaj e ^ 2 * (y ^ 2 / emin e ^ 2)) by (transitivity (emaj e ^ 2 * (x ^ 2 / emaj e ^ 2 + y ^ 2 / emin e ^ 2)); [rewrite H; ring|field; lra]).
    rewrite E. assert (y ^ 2 = emin e ^ 2 * (y ^ 2 / emin e ^ 2)) by (field; lra). assert (0 <= y ^ 2 / emin e ^ 2) by (apply Rmult_le_pos; [apply pow2_ge_0|left; apply Rinv_0_lt_compat; auto]).
    assert (emin e ^ 2 <= emaj e ^ 2) by (apply pow_incr; lra). nra. }
  unfold norm2. cbn [x2 y2]. rewrite <- (sqrt_pow2 (emaj e)) by lra. apply sqrt_le_1_alt. lra.
Qed.

(** * the intersections *)
Lemma ellipse_line_sound : forall e l tol pts p, ellipse_ok e -> well_placed e -> well_directed e l -> fst l <> snd l ->
  ellipse2_line_intersections e l tol = Ok pts -> In p pts -> line2_has l p /\ on_ellipse2 e p.
Proof.
  intros e l tol pts p O W X N E Hp. destruct (line2_distance_ok l (ecenter e) N) as (d & Ed & D). pose proof O as (Of & B). pose proof (pow10_inv_pos 6) as P6.
  destruct (Rle_lt_dec d (emaj e + tol)) as [L|L].
  - pose proof (directed_exact _ _ X) as X'. destruct (branch e l tol d O W N D L) as (e' & Ea & Eb & [K|(K & C & M)]); rewrite K in E.
    + destruct (ellipse_local_intersections e' (loc_line (ef e) l) (/ 10 ^ 6)) as [r|x] eqn:Er; [|discriminate E]. cbn [bind] in E. apply Ok_inj in E. subst pts.
      apply in_map_iff in Hp as (q & Eq & Hq). destruct (local_sound e' _ (/ 10 ^ 6) r q ltac:(lra) ltac:(lra) ltac:(lra) (loc_line_ne _ _ Of N) X' Er Hq) as [H1 H2].
      rewrite Ea, Eb in H2. assert (Q : loc2 (ef e) p = q) by (rewrite <- Eq; apply loc_l2g; exact Of). rewrite <- Q in H1, H2. split; [apply (has_loc (ef e)); auto|apply on_ellipse_eqn; auto].
    + apply (exact_exact_frame e l O C M) in X'. destruct (local_sound e' _ (/ 10 ^ 6) pts p ltac:(lra) ltac:(lra) ltac:(lra) N X' E Hp) as [H1 H2]. rewrite Ea, Eb in H2. split; [exact H1|]. apply eqn_exact_frame; auto.
  - unfold ellipse2_line_intersections in E. rewrite (proj2 (Reqb_false _ _)), (proj2 (Reqb_false (emin e) 0)) in E by lra. cbn [orb] in E. rewrite Ed in E. cbn [bind] in E. rewrite (proj2 (Rltb_spec _ _)) in E by lra. apply Ok_inj in E. subst. destruct Hp.
Qed.
Lemma ellipse_line_complete : forall e l tol r1 r2, ellipse_ok e -> well_placed e -> well_directed e l -> fst l <> snd l -> 0 <= tol ->
  line2_has l r1 -> on_ellipse2 e r1 -> line2_has l r2 -> on_ellipse2 e r2 -> r1 <> r2 ->
  exists pts, ellipse2_line_intersections e l tol = Ok pts /\ forall r, line2_has l r -> on_ellipse2 e r -> exists p, In p pts /\ point_distance2 r p <= / 10 ^ 6.
Proof.
  intros e l tol r1 r2 O W X N Ht L1 E1 L2 E2 Ne. destruct (line2_distance_ok l (ecenter e) N) as (d & Ed & D). pose proof O as (Of & B). pose proof (pow10_inv_pos 6) as P6.
  assert (Dl : d <= emaj e + tol).
  { destruct D as [[t T] M]. pose proof (centre_far e r1 (at_param2 l t) O E1) as G. rewrite T in G. destruct L1 as [s ->]. specialize (G (M s)). lra. }
  pose proof (directed_exact _ _ X) as X'. destruct (branch e l tol d O W N D Dl) as (e' & Ea & Eb & [K|(K & C & M)]); rewrite K.
  - apply (has_loc (ef e) l _ Of) in L1, L2. apply (on_ellipse_eqn e _ O) in E1, E2. rewrite <- Ea, <- Eb in E1, E2.
    assert (Ne' : loc2 (ef e) r1 <> loc2 (ef e) r2) by (intro G; apply Ne; rewrite <- (l2g_loc (ef e) r1 Of), G, l2g_loc; auto).
    destruct (local_complete e' _ (/ 10 ^ 6) _ _ ltac:(lra) ltac:(lra) ltac:(lra) ltac:(lra) (loc_line_ne _ _ Of N) X' L1 E1 L2 E2 Ne') as (pts & Er & Cp).
    rewrite Er. cbn [bind]. eexists. split; [reflexivity|]. intros r Hr He. apply (has_loc (ef e) l _ Of) in Hr. apply (on_ellipse_eqn e _ O) in He. rewrite <- Ea, <- Eb in He.
    destruct (Cp _ Hr He) as (p & Hp & Hd). exists (frame2_l2g (ef e) p). split; [apply in_map; exact Hp|]. rewrite <- (loc_dist (ef e) _ _ Of), loc_l2g by exact Of. exact Hd.
  - apply (exact_exact_frame e l O C M) in X'. apply (eqn_exact_frame e _ O C M) in E1, E2. rewrite <- Ea, <- Eb in E1, E2.
    destruct (local_complete e' _ (/ 10 ^ 6) _ _ ltac:(lra) ltac:(lra) ltac:(lra) ltac:(lra) N X' L1 E1 L2 E2 Ne) as (pts & Er & Cp).
    exists pts. split; [exact Er|]. intros r Hr He. apply (eqn_exact_frame e _ O C M) in He. rewrite <- Ea, <- Eb in He. auto.
Qed.
Lemma ellipse_line_far : forall e l tol d, ellipse_ok e -> fst l <> snd l -> dist_to_line2 l (ecenter e) d -> emaj e + tol < d -> ellipse2_line_intersections e l tol = Ok [].
Proof.
  intros e l tol d (Of & B) N D L. unfold ellipse2_line_intersections. rewrite (proj2 (Reqb_false _ _)), (proj2 (Reqb_false (emin e) 0)) by lra. cbn [orb].
  rewrite (line2_distance_is _ _ _ N D). cbn [bind]. rewrite (proj2 (Rltb_spec _ _) L). reflexivity.
Qed.
