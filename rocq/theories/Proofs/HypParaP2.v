(** Proofs about hyperbolas and parabolas, part 2: parabolas of the plane, tangents, trim. *)
From Coq Require Import Reals Lra Lia List Bool ZArith Psatz.
From Verif.Model Require Import Base RBase Vec Frame Geometry Plane Curves Ellipse HypPara.
From Verif.Spec Require Import VecSpec FrameSpec PlaneSpec CurvesSpec HypParaSpec.
From Verif.Proofs Require Import VecP CurvesP CurvesP4 HypParaP.
Import ListNotations.
Open Scope R_scope.

(** ** derivatives *)
Lemma hyp_derivative a b y : a <> 0 -> b <> 0 -> derivable_pt_lim (hyp_x a b) y (hyp_dx_dy a b y).
Proof.
  intros A B. destruct (hyp_x_sq a b y A B) as (P & _). pose proof (sqr_pos a A). pose proof (sqr_pos b B).
  assert (G : derivable_pt_lim (fun t => (t ^ 2 / b ^ 2 + 1) * a ^ 2) y (2 * y / b ^ 2 * a ^ 2)).
  { replace (2 * y / b ^ 2 * a ^ 2) with ((INR 2 * y ^ 1 * (a ^ 2 / b ^ 2)) + 0) by (cbn [INR pow]; field; auto).
    apply derivable_pt_lim_ext with (f := plus_fct (mult_real_fct (a ^ 2 / b ^ 2) (fun t => t ^ 2)) (fct_cte (a ^ 2))).
    - intros t. unfold plus_fct, mult_real_fct, fct_cte. field. auto.
    - apply derivable_pt_lim_plus; [|apply derivable_pt_lim_const]. replace (INR 2 * y ^ 1 * (a ^ 2 / b ^ 2)) with (a ^ 2 / b ^ 2 * (INR 2 * y ^ 1)) by ring.
      apply derivable_pt_lim_scal, derivable_pt_lim_pow. }
  assert (Q : 0 < (y ^ 2 / b ^ 2 + 1) * a ^ 2). { assert (0 <= y ^ 2 / b ^ 2) by (apply Rmult_le_pos; [apply pow2_ge_0|apply Rlt_le, Rinv_0_lt_compat; auto]). apply Rmult_lt_0_compat; lra. }
  pose proof (derivable_pt_lim_comp _ sqrt y _ _ G (derivable_pt_lim_sqrt _ Q)) as D. unfold comp in D.
  replace (hyp_dx_dy a b y) with (/ (2 * sqrt ((y ^ 2 / b ^ 2 + 1) * a ^ 2)) * (2 * y / b ^ 2 * a ^ 2)); [exact D|].
  unfold hyp_dx_dy. replace (a ^ 2 * y ^ 2 / b ^ 2 + a ^ 2) with ((y ^ 2 / b ^ 2 + 1) * a ^ 2) by (field; auto). change (sqrt ((y ^ 2 / b ^ 2 + 1) * a ^ 2)) with (hyp_x a b y). field. split; [lra|auto].
Qed.
Lemma par_derivative f x : f <> 0 -> derivable_pt_lim (par_y f) x (2 * par_a f * x).
Proof.
  intros F. replace (2 * par_a f * x) with (par_a f * (INR 2 * x ^ 1)) by (cbn [INR pow]; ring).
  apply derivable_pt_lim_ext with (f := mult_real_fct (par_a f) (fun t => t ^ 2)); [intros t; unfold mult_real_fct, par_a, par_y; field; auto|].
  apply derivable_pt_lim_scal, derivable_pt_lim_pow.
Qed.

(** ** parabolas of the plane *)
Lemma par_iff p q : orthonormal2 (fb2 (pf p)) -> focal p <> 0 -> (on_parabola2 p q <-> y2 (loc2 (pf p) q) = par_a (focal p) * x2 (loc2 (pf p) q) ^ 2).
Proof.
  intros O F. unfold on_parabola2. set (f := focal p) in *.
  replace (add2 (org2 (pf p)) (mul2 (v2 (fb2 (pf p))) f)) with (frame2_l2g (pf p) (V2 0 f)).
  2:{ rewrite frame2_l2g_eq. unfold add2, mul2. cbn [x2 y2]. apply vec2_ext; cbn [x2 y2]; ring. }
  rewrite <- (loc_dist (pf p)) by auto. rewrite loc_l2g by auto. change (dot2 (sub2 q (org2 (pf p))) (v2 (fb2 (pf p)))) with (y2 (loc2 (pf p) q)).
  destruct (loc2 (pf p) q) as [x y]. cbn [x2 y2]. unfold point_distance2. rewrite norm2_dot. unfold dot2, sub2. cbn [x2 y2].
  rewrite <- sqrt_Rsqr_abs. unfold Rsqr, par_a. split.
  - intros H. apply sqrt_inj in H; [|apply Rplus_le_le_0_compat; apply Rle_0_sqr|apply Rle_0_sqr]. assert (x ^ 2 = 4 * f * y) by lra. rewrite H0. field. auto.
  - intros ->. f_equal. field. auto.
Qed.
Lemma par_points_ok p lo hi n : orthonormal2 (fb2 (pf p)) -> focal p <> 0 -> lo <> 0 \/ hi <> 0 -> (2 <= n)%nat -> exists l, parabola2_points p (Some lo) (Some hi) n = Ok l /\ length l = n /\
  (forall q, In q l -> on_parabola2 p q) /\
  forall i, (i < n)%nat -> exists y, nth i l O2D = frame2_point (pf p) (V2 (lo + INR i * ((hi - lo) / INR (n - 1))) y).
Proof.
  intros O F N Hn. unfold parabola2_points, sample_range, nothing.
  assert (E : Reqb lo 0 && Reqb hi 0 = false). { destruct N as [N|N]; [rewrite (proj2 (Reqb_false lo 0) N); reflexivity|rewrite (proj2 (Reqb_false hi 0) N); apply andb_false_r]. }
  rewrite E. cbn [bind]. eexists. split; [reflexivity|]. rewrite linspace_ends, map_map by auto. split; [now rewrite map_length, seq_length|]. split.
  - intros q Hq. apply in_map_iff in Hq as (i & <- & _). apply par_iff; auto. rewrite loc_l2g by auto. cbn [x2 y2]. generalize (lo + INR i * ((hi - lo) / INR (n - 1))). intros z. unfold par_y, par_a. field. auto.
  - intros i Hi. pose (t := fun k => lo + INR k * ((hi - lo) / INR (n - 1))). pose (g := fun k => frame2_l2g (pf p) (V2 (t k) (par_y (focal p) (t k)))). exists (par_y (focal p) (t i)).
    change (nth i (map g (seq 0 n)) O2D = frame2_point (pf p) (V2 (t i) (par_y (focal p) (t i)))). rewrite (nth_indep _ O2D (g 0%nat)) by (rewrite map_length, seq_length; auto).
    rewrite map_nth, seq_nth by auto. symmetry. apply point_l2g.
Qed.
Lemma isclose_self a tol : 0 <= tol -> isclose a a tol = true.
Proof. intros H. unfold isclose. apply Rleb_spec. replace (a - a) with 0 by ring. rewrite Rabs_R0. eapply Rle_trans; [exact H|apply Rmax_r]. Qed.
Lemma par_belongs p q tol : orthonormal2 (fb2 (pf p)) -> focal p <> 0 -> 0 <= tol -> exists b, parabola2_point_belongs p q tol = Ok b /\ (on_parabola2 p q -> b = true) /\
  (b = true -> exists q', on_parabola2 p q' /\ point_distance2 q q' <= Rmax (/ 10 ^ 9 * Rmax (Rabs (y2 (local2 (pf p) q))) (Rabs (y2 (local2 (pf p) q')))) tol).
Proof.
  change local2 with loc2 in *.
  intros O F T. unfold parabola2_point_belongs. rewrite frame2_g2l_ok by auto. cbn [bind]. eexists. split; [reflexivity|]. split.
  - intros H. apply par_iff in H; auto. rewrite H. now apply isclose_self.
  - intros H. set (s := loc2 (pf p) q) in *. exists (frame2_l2g (pf p) (V2 (x2 s) (par_a (focal p) * x2 s ^ 2))). split.
    + apply par_iff; auto. now rewrite loc_l2g.
    + rewrite <- (loc_dist (pf p)) by auto. rewrite loc_l2g by auto. fold s. cbn [x2 y2]. unfold isclose in H. apply Rleb_spec in H. eapply Rle_trans; [|exact H].
      unfold point_distance2. rewrite norm2_dot. unfold dot2, sub2. cbn [x2 y2]. rewrite <- sqrt_Rsqr_abs. apply Req_le. f_equal. unfold Rsqr. ring.
Qed.
Lemma par_line_ok p l tol : orthonormal2 (fb2 (pf p)) -> focal p <> 0 -> 0 <= tol -> ~ parallel_to_v (pf p) l ->
  let m := slope_in (pf p) l in let c := height_in (pf p) l in
  0 < m ^ 2 + c / focal p \/ (m ^ 2 + c / focal p < - tol /\ m ^ 2 + c / focal p < - (/ 10 ^ 9 * Rmax (m ^ 2) (Rabs (c / focal p)))) ->
  exists r, parabola2_line_intersections p l tol = Ok r /\ forall q, In q r <-> on_parabola2 p q /\ line2_has l q.
Proof.
  intros O F T N m c D. unfold parabola2_line_intersections. rewrite !frame2_g2l_ok by auto. cbn [bind]. destruct (line_local (pf p) l O N) as (E1 & E2 & L). rewrite E1, E2. cbv zeta. fold m c. fold m c in L. set (f := focal p) in *.
  assert (EA : - 4 * par_a f * c = - (c / f)) by (unfold par_a; field; auto). rewrite EA. assert (A0 : par_a f <> 0) by (unfold par_a; apply Rmult_integral_contrapositive_currified; [lra|apply Rinv_neq_0_compat; lra]).
  assert (EQ : forall q, on_parabola2 p q /\ line2_has l q <-> exists x, par_a f * x ^ 2 = m * x + c /\ q = frame2_l2g (pf p) (V2 x (m * x + c))).
  { intros q. rewrite (par_iff p q O F), L. fold f. set (s := loc2 (pf p) q). split.
    - intros (E & Y). exists (x2 s). split; [lra|]. rewrite <- Y. replace (V2 (x2 s) (y2 s)) with s by (destruct s; reflexivity). unfold s. symmetry. now apply l2g_loc.
    - intros (x & E & ->). unfold s. rewrite loc_l2g by auto. cbn [x2 y2]. split; lra. }
  assert (SQ : forall x, 4 * par_a f * (par_a f * x ^ 2 - (m * x + c)) = (2 * par_a f * x - m) ^ 2 - (m ^ 2 + c / f)).
  { intros x. replace (c / f) with (4 * par_a f * c) by (unfold par_a; field; auto). ring. }
  destruct (Rltb (- (c / f)) (m ^ 2)) eqn:K.
  - apply Rltb_spec in K. unfold sqrt_py. replace (m ^ 2 - 4 * par_a f * - c) with (m ^ 2 + c / f) by (replace (c / f) with (4 * par_a f * c) by (unfold par_a; field; auto); ring).
    rewrite (proj2 (Rltb_false _ 0)) by lra. cbn [bind]. set (d := sqrt (m ^ 2 + c / f)). assert (Dd : d ^ 2 = m ^ 2 + c / f) by (apply pow2_sqrt; lra). rewrite <- Dd in SQ.
    set (x1 := (m + d) / (2 * par_a f)). set (x2' := (m - d) / (2 * par_a f)).
    assert (W1 : 2 * par_a f * x1 = m + d) by (unfold x1; field; auto). assert (W2 : 2 * par_a f * x2' = m - d) by (unfold x2'; field; auto).
    assert (ROOT : forall x, par_a f * x ^ 2 = m * x + c <-> x = x1 \/ x = x2').
    { intros x. specialize (SQ x). replace ((2 * par_a f * x - m) ^ 2 - d ^ 2) with ((2 * par_a f * x - (m + d)) * (2 * par_a f * x - (m - d))) in SQ by ring. rewrite <- W1, <- W2 in SQ. split.
      - intros E. rewrite E, Rminus_diag_eq, Rmult_0_r in SQ by reflexivity. symmetry in SQ. apply Rmult_integral in SQ as [S|S]; [left|right]; apply (Rmult_eq_reg_l (2 * par_a f)); lra.
      - intros H. assert (Z : 4 * par_a f * (par_a f * x ^ 2 - (m * x + c)) = 0) by (rewrite SQ; destruct H as [-> | ->]; ring). apply Rmult_integral in Z as [Z|Z]; lra. }
    eexists. split; [reflexivity|]. intros q. rewrite EQ, in_map_iff. split.
    + intros (s & <- & [<-|[<-|[]]]); [exists x1|exists x2']; (split; [apply ROOT; auto|reflexivity]).
    + intros (x & E & ->). apply ROOT in E. exists (V2 x (m * x + c)). split; [reflexivity|]. destruct E as [-> | ->]; [now left|right; now left].
  - apply Rltb_false in K. destruct D as [D|(D1 & D2)]; [lra|].
    replace (isclose (m ^ 2) (- (c / f)) tol) with false.
    2:{ symmetry. unfold isclose. apply Rleb_false. replace (m ^ 2 - - (c / f)) with (m ^ 2 + c / f) by ring. rewrite (Rabs_left (m ^ 2 + c / f)) by (pose proof (pow2_ge_0 m); lra). rewrite Rabs_Ropp. rewrite (Rabs_right (m ^ 2)) by (apply Rle_ge, pow2_ge_0). apply Rmax_lub_lt; lra. }
    exists []. split; [reflexivity|]. intros q. rewrite EQ. split; [intros []|]. intros (x & E & _). specialize (SQ x). rewrite E, Rminus_diag_eq, Rmult_0_r in SQ by reflexivity. pose proof (pow2_ge_0 (2 * par_a f * x - m)). lra.
Qed.
(** lines parallel to the axis *)
Lemma vertical_errors f l : orthonormal2 (fb2 f) -> parallel_to_v f l -> (forall a b, hyperbola2_line_intersections (H2 f a b) l = Err TypeError) /\ forall k tol, parabola2_line_intersections (Pa2 f k) l tol = Err TypeError.
Proof.
  intros O N. unfold parallel_to_v in N. assert (G : get_slope (loc2 f (fst l), loc2 f (snd l)) = None).
  { unfold get_slope. cbn [fst snd]. rewrite (proj2 (Reqb_spec _ _)); [reflexivity|]. unfold loc2. cbn [x2]. destruct f as [o [u v]]. cbn [fb2 org2 u2 v2] in *. revert N. vec. lra. }
  split; intros; [unfold hyperbola2_line_intersections|unfold parabola2_line_intersections]; cbn [hf pf]; rewrite !frame2_g2l_ok by auto; cbn [bind]; now rewrite G.
Qed.

(** ** tangents in the plane *)
Lemma par_tangent p q : orthonormal2 (fb2 (pf p)) -> parabola2_tangent p q = Ok (add2 (u2 (fb2 (pf p))) (mul2 (v2 (fb2 (pf p))) (2 * par_a (focal p) * x2 (loc2 (pf p) q)))).
Proof.
  intros O. unfold parabola2_tangent. rewrite frame2_g2l_ok by auto. cbn [bind]. cbv zeta. f_equal. set (k := 2 * par_a (focal p) * x2 (loc2 (pf p) q)).
  transitivity (sub2 (frame2_l2g (pf p) (add2 (loc2 (pf p) q) (V2 1 k))) (frame2_l2g (pf p) (loc2 (pf p) q))); [now rewrite l2g_loc|].
  clearbody k. set (s := loc2 (pf p) q). clearbody s. rewrite !frame2_l2g_eq. unfold sub2, add2, mul2. cbn [x2 y2]. apply vec2_ext; cbn [x2 y2]; ring.
Qed.
Lemma par_tangent_ok p q : orthonormal2 (fb2 (pf p)) -> focal p <> 0 -> exists t k, parabola2_tangent p q = Ok t /\ t = add2 (u2 (fb2 (pf p))) (mul2 (v2 (fb2 (pf p))) k) /\
  derivable_pt_lim (par_y (focal p)) (x2 (local2 (pf p) q)) k.
Proof. change local2 with loc2 in *. intros O F. eexists. eexists. split; [now apply par_tangent|]. split; [reflexivity|]. now apply par_derivative. Qed.
Lemma hyp_tangent_ok h q : hf h = F2 O2D (B2 X2D Y2D) -> ha h <> 0 -> hb h <> 0 -> exists k, hyperbola2_tangent h q = Ok (V2 k 1) /\ derivable_pt_lim (hyp_x (ha h) (hb h)) (y2 q) k.
Proof.
  intros E A B. assert (O : orthonormal2 (fb2 (hf h))) by (rewrite E; unfold orthonormal2, X2D, Y2D, dot2; cbn [fb2 u2 v2 x2 y2]; repeat split; ring).
  exists (hyp_dx_dy (ha h) (hb h) (y2 q)). split; [|now apply hyp_derivative]. unfold hyperbola2_tangent. rewrite frame2_g2l_ok by auto. cbn [bind]. cbv zeta. f_equal. rewrite E. rewrite frame2_l2g_eq.
  unfold loc2, X2D, Y2D, O2D, dot2, add2, sub2, mul2. cbn [fb2 org2 u2 v2 x2 y2]. apply vec2_ext; cbn [x2 y2]; ring.
Qed.
(** ** trim *)
Lemma trim_ok p p1 p2 : orthonormal2 (fb2 (pf p)) -> 0 < focal p -> on_parabola2 p p1 -> on_parabola2 p p2 -> / 10 ^ 15 * (2 * focal p) < Rabs (dot2 (sub2 p2 p1) (u2 (fb2 (pf p)))) ->
  exists q, parabola2_trim p p1 p2 = Ok [p1; q; p2] /\
  (forall t, on_parabola2 p (bezier2 p1 q p2 t)) /\
  forall s, (exists t, 0 <= t <= 1 /\ s = bezier2 p1 q p2 t) <-> on_parabola2 p s /\
    Rmin (x2 (local2 (pf p) p1)) (x2 (local2 (pf p) p2)) <= x2 (local2 (pf p) s) <= Rmax (x2 (local2 (pf p) p1)) (x2 (local2 (pf p) p2)).
Proof.
  change local2 with loc2 in *.
  intros O F P1 P2 D. assert (F0 : focal p <> 0) by lra. unfold parabola2_trim. rewrite !par_tangent by auto. cbn [bind].
  assert (D' : / 10 ^ 15 * (2 * focal p) < Rabs (x2 (loc2 (pf p) p2) - x2 (loc2 (pf p) p1))).
  { replace (x2 (loc2 (pf p) p2) - x2 (loc2 (pf p) p1)) with (dot2 (sub2 p2 p1) (u2 (fb2 (pf p)))); [exact D|]. unfold loc2. cbn [x2]. destruct (pf p) as [o [u v]]. cbn [fb2 org2 u2 v2]. vec. ring. }
  clear D. apply par_iff in P1; auto. apply par_iff in P2; auto. set (f := focal p) in *.
  remember (loc2 (pf p) p1) as s1 eqn:Es1. remember (loc2 (pf p) p2) as s2 eqn:Es2. destruct s1 as [a1 b1], s2 as [a2 b2]. cbn [x2 y2] in *.
  assert (Q1 : p1 = frame2_l2g (pf p) (V2 a1 b1)) by (rewrite Es1; symmetry; now apply l2g_loc). assert (Q2 : p2 = frame2_l2g (pf p) (V2 a2 b2)) by (rewrite Es2; symmetry; now apply l2g_loc). clear Es1 Es2.
  set (u := u2 (fb2 (pf p))) in *. set (v := v2 (fb2 (pf p))) in *. set (k1 := 2 * par_a f * a1). set (k2 := 2 * par_a f * a2).
  set (l := (p1, add2 p1 (add2 u (mul2 v k1)))). set (m := (p2, add2 p2 (add2 u (mul2 v k2)))).
  assert (UN : forall z k, z <> add2 z (add2 u (mul2 v k))).
  { intros z k E. destruct O as (U & V & W). assert (Z : dot2 (add2 u (mul2 v k)) u = 0).
    { assert (ZZ : add2 u (mul2 v k) = O2D). { apply (f_equal (fun w => sub2 w z)) in E. transitivity (sub2 (add2 z (add2 u (mul2 v k))) z); [|rewrite <- E]; unfold sub2, add2, mul2, O2D; apply vec2_ext; cbn [x2 y2]; ring. } rewrite ZZ. unfold dot2, O2D. cbn [x2 y2]. ring. }
    fold u in U. fold u v in W. assert (Y : dot2 (add2 u (mul2 v k)) u = dot2 u u + k * dot2 u v) by (unfold dot2, add2, mul2; cbn [x2 y2]; ring). rewrite Y, U, W in Z. lra. }
  destruct (line2_inters_ok l m) as (i & Ei & En & Ep); [apply UN|apply UN|]. rewrite Ei. cbn [bind].
  assert (DEN : Rabs (den2 l m) = Rabs (k2 - k1)).
  { assert (X : den2 l m = cross2 u v * (k2 - k1)) by (unfold den2, l, m, cross2, sub2, add2, mul2; cbn [fst snd x2 y2]; ring). rewrite X, Rabs_mult. pose proof (ortho_det _ O) as D1. fold u v in D1.
    assert (Rabs (cross2 u v) = 1). { assert (Q : Rabs (cross2 u v) * Rabs (cross2 u v) = 1) by (rewrite <- Rabs_mult, D1; apply Rabs_R1). pose proof (Rabs_pos (cross2 u v)). nra. } rewrite H. ring. }
  assert (KK : k2 - k1 = (a2 - a1) / (2 * f)) by (unfold k1, k2, par_a; field; auto).
  assert (BIG : / 10 ^ 15 < Rabs (den2 l m)).
  { rewrite DEN, KK. unfold Rdiv. rewrite Rabs_mult, (Rabs_right (/ (2 * f))) by (apply Rle_ge, Rlt_le, Rinv_0_lt_compat; lra). apply (Rmult_lt_reg_r (2 * f)); [lra|]. rewrite Rmult_assoc, Rinv_l by lra. lra. }
  destruct i as [|q i']; [exfalso; destruct En as (En & _); specialize (En eq_refl); lra|]. clear En. destruct (Ep q (or_introl eq_refl)) as (_ & _ & UQ). clear Ep Ei.
  assert (EQ : q = frame2_l2g (pf p) (V2 ((a1 + a2) / 2) (a1 * a2 / (4 * f)))).
  { symmetry. apply UQ.
    - unfold on_line2, l. cbn [fst snd]. rewrite Q1, !frame2_l2g_eq. fold u v. cbn [x2 y2]. rewrite P1. unfold k1, par_a, cross2, sub2, add2, mul2. cbn [x2 y2]. field. auto.
    - unfold on_line2, m. cbn [fst snd]. rewrite Q2, !frame2_l2g_eq. fold u v. cbn [x2 y2]. rewrite P2. unfold k2, par_a, cross2, sub2, add2, mul2. cbn [x2 y2]. field. auto. }
  exists q. split; [reflexivity|].
  assert (BZ : forall t, bezier2 p1 q p2 t = frame2_l2g (pf p) (V2 ((1 - t) * a1 + t * a2) (par_a f * ((1 - t) * a1 + t * a2) ^ 2))).
  { intros t. rewrite Q1, Q2, EQ, P1, P2. unfold bezier2. rewrite !frame2_l2g_eq. cbn [x2 y2]. unfold par_a, add2, mul2. cbn [x2 y2]. apply vec2_ext; cbn [x2 y2]; field; auto. }
  split; [intros t; apply par_iff; auto; rewrite BZ, loc_l2g by auto; reflexivity|].
  assert (F15 : 0 < / 10 ^ 15) by apply pow10_inv_pos. assert (NE : a1 <> a2) by (intros ->; rewrite Rminus_diag_eq, Rabs_R0 in D' by reflexivity; nra).
  intros s. split.
  - intros (t & T & ->). rewrite BZ. split; [apply par_iff; auto; now rewrite loc_l2g|]. rewrite loc_l2g by auto. cbn [x2].
    destruct (Rle_or_lt a1 a2) as [H|H]; [rewrite Rmin_left, Rmax_right by lra|rewrite Rmin_right, Rmax_left by lra]; split; nra.
  - intros (PS & X). apply par_iff in PS; auto. fold f in PS. remember (loc2 (pf p) s) as w eqn:Ew. destruct w as [x y]. cbn [x2 y2] in *. exists ((x - a1) / (a2 - a1)).
    assert (DA : a2 - a1 <> 0) by lra. assert (ET : (x - a1) / (a2 - a1) * (a2 - a1) = x - a1) by (field; auto). set (t := (x - a1) / (a2 - a1)) in *. clearbody t. split.
    + destruct (Rle_or_lt a1 a2) as [H|H]; [rewrite Rmin_left, Rmax_right in X by lra|rewrite Rmin_right, Rmax_left in X by lra]; split; nra.
    + rewrite BZ. replace ((1 - t) * a1 + t * a2) with x by lra. rewrite <- PS. rewrite Ew. symmetry. now apply l2g_loc.
Qed.
