(** Proofs about hyperbolas and parabolas, part 3: in space; where the code deviates. *)
From Coq Require Import Reals Lra Lia List Bool ZArith Psatz.
From Verif.Model Require Import Base RBase Vec Frame Geometry Plane Curves Ellipse HypPara.
From Verif.Spec Require Import VecSpec FrameSpec PlaneSpec CurvesSpec HypParaSpec.
From Verif.Proofs Require Import VecP FrameP FrameP2 PlaneP CurvesP CurvesP4 ParamSurfP PrimsP4 PrimsP5 HypParaP HypParaP2.
Import ListNotations.
Open Scope R_scope.

Lemma std2 : orthonormal2 (B2 X2D Y2D).
Proof. unfold orthonormal2, X2D, Y2D, dot2. cbn [u2 v2 x2 y2]. repeat split; ring. Qed.
Lemma loc_std q : loc2 (F2 O2D (B2 X2D Y2D)) q = q.
Proof. unfold loc2, X2D, Y2D, O2D, dot2, sub2. cbn [fb2 org2 u2 v2 x2 y2]. apply vec2_ext; cbn [x2 y2]; ring. Qed.
Lemma l2g_std q : frame2_l2g (F2 O2D (B2 X2D Y2D)) q = q.
Proof. rewrite frame2_l2g_eq. unfold X2D, add2, mul2, Y2D, O2D. cbn [fb2 org2 u2 v2 x2 y2]. apply vec2_ext; cbn [x2 y2]; ring. Qed.

(** ** in space: points *)
Lemma points3_ok h lo hi n : ha3 h <> 0 -> hb3 h <> 0 -> lo <> 0 \/ hi <> 0 -> (2 <= n)%nat -> exists l, hyperbola3_points h (Some lo) (Some hi) n = Ok l /\ length l = n /\
  forall p, In p l -> exists p', on_branch3 h p' /\ near (/ 10 ^ 16) p p'.
Proof.
  intros A B N Hn. unfold hyperbola3_points, sample_range, nothing.
  assert (E : Reqb lo 0 && Reqb hi 0 = false). { destruct N as [N|N]; [rewrite (proj2 (Reqb_false lo 0) N); reflexivity|rewrite (proj2 (Reqb_false hi 0) N); apply andb_false_r]. }
  rewrite E. cbn [bind]. eexists. split; [reflexivity|]. rewrite linspace_ends, map_map by auto. split; [now rewrite map_length, seq_length|].
  intros p Hp. apply in_map_iff in Hp as (i & <- & _). generalize (lo + INR i * ((hi - lo) / INR (n - 1))). intros z. exists (frame_point (hf3 h) (V3 (hyp_x (ha3 h) (hb3 h) z) z 0)). split.
  - exists (V2 (hyp_x (ha3 h) (hb3 h) z) z). cbn [x2 y2]. split; [now apply branch_iff|reflexivity].
  - apply frame3_l2g_near.
Qed.
Lemma par_points3_ok p lo hi n : focal3 p <> 0 -> lo <> 0 \/ hi <> 0 -> (2 <= n)%nat -> exists l, parabola3_points p (Some lo) (Some hi) n = Ok l /\ length l = n /\
  forall q, In q l -> exists q', on_parabola3 p q' /\ near (/ 10 ^ 16) q q'.
Proof.
  intros F N Hn. unfold parabola3_points, sample_range, nothing.
  assert (E : Reqb lo 0 && Reqb hi 0 = false). { destruct N as [N|N]; [rewrite (proj2 (Reqb_false lo 0) N); reflexivity|rewrite (proj2 (Reqb_false hi 0) N); apply andb_false_r]. }
  rewrite E. cbn [bind]. eexists. split; [reflexivity|]. rewrite linspace_ends, map_map by auto. split; [now rewrite map_length, seq_length|].
  intros q Hq. apply in_map_iff in Hq as (i & <- & _). generalize (lo + INR i * ((hi - lo) / INR (n - 1))). intros z. exists (frame_point (pf3 p) (V3 z (par_y (focal3 p) z) 0)). split.
  - exists z, (par_y (focal3 p) z). split; [unfold par_y; field; auto|reflexivity].
  - apply frame3_l2g_near.
Qed.
(** ** in space: belonging. The points on the curve, away from the 1e-16 rounding of the coordinates, are accepted *)
Lemma hyp3_accepts h x y tol : direct (fb3 (hf3 h)) -> ha3 h <> 0 -> hb3 h <> 0 -> branch (ha3 h) (hb3 h) (V2 x y) -> / 10 ^ 16 <= x -> y = 0 \/ / 10 ^ 16 <= Rabs y -> 0 <= tol ->
  hyperbola3_point_belongs h (frame_point (hf3 h) (V3 x y 0)) tol = Ok true.
Proof.
  intros D A B (X & E) X0 Y0 T. cbn [x2 y2] in *. unfold hyperbola3_point_belongs. rewrite g2l_coords by auto. cbn [bind]. rewrite coords_of by apply D. unfold snap3. cbn [x3 y3 z3].
  rewrite (snap_exact x) by (right; unfold eps; rewrite Rabs_right by lra; exact X0). rewrite (snap_exact y) by exact Y0. rewrite E. f_equal. now apply isclose_self.
Qed.
Lemma par3_accepts p x y tol : direct (fb3 (pf3 p)) -> focal3 p <> 0 -> 4 * focal3 p * y = x ^ 2 -> x = 0 \/ / 10 ^ 16 <= Rabs x -> y = 0 \/ / 10 ^ 16 <= Rabs y -> 0 <= tol ->
  parabola3_point_belongs p (frame_point (pf3 p) (V3 x y 0)) tol = Ok true.
Proof.
  intros D F E X0 Y0 T. unfold parabola3_point_belongs. rewrite g2l_coords by auto. cbn [bind]. rewrite coords_of by apply D. unfold snap3. cbn [x3 y3 z3].
  rewrite (snap_exact x) by exact X0. rewrite (snap_exact y) by exact Y0. f_equal. replace (par_a (focal3 p) * x ^ 2) with y; [now apply isclose_self|]. rewrite <- E. unfold par_a. field. auto.
Qed.
(** the height above the plane of the curve plays no part *)
Lemma coords_shift f p t : orthonormal (fb3 f) -> x3 (coords f (add3 p (mul3 (bw (fb3 f)) t))) = x3 (coords f p) /\ y3 (coords f (add3 p (mul3 (bw (fb3 f)) t))) = y3 (coords f p).
Proof.
  intros (UU & VV & WW & UV & UW & VW). unfold coords. cbn [x3 y3]. split.
  - transitivity (dot3 (sub3 p (org3 f)) (bu (fb3 f)) + t * dot3 (bu (fb3 f)) (bw (fb3 f))); [unfold dot3, sub3, add3, mul3; cbn [x3 y3 z3]; ring|rewrite UW; ring].
  - transitivity (dot3 (sub3 p (org3 f)) (bv (fb3 f)) + t * dot3 (bv (fb3 f)) (bw (fb3 f))); [unfold dot3, sub3, add3, mul3; cbn [x3 y3 z3]; ring|rewrite VW; ring].
Qed.
Lemma belongs3_ignores_height f : direct (fb3 f) -> forall p t tol,
  (forall a b, hyperbola3_point_belongs (H3 f a b) (add3 p (mul3 (bw (fb3 f)) t)) tol = hyperbola3_point_belongs (H3 f a b) p tol) /\
  forall k, parabola3_point_belongs (Pa3 f k) (add3 p (mul3 (bw (fb3 f)) t)) tol = parabola3_point_belongs (Pa3 f k) p tol.
Proof.
  intros D p t tol. destruct (coords_shift f p t (proj1 D)) as (EX & EY).
  split; intros; unfold hyperbola3_point_belongs, parabola3_point_belongs; cbn [hf3 pf3 ha3 hb3 focal3]; rewrite !g2l_coords by auto; cbn [bind]; unfold snap3; cbn [x3 y3]; now rewrite EX, EY.
Qed.
Lemma std3 : direct (fb3 world3).
Proof. unfold direct, orthonormal, world3, X3D, Y3D, Z3D, dot3, cross3. cbn [fb3 bu bv bw x3 y3 z3]. split; [repeat split; ring|]. f_equal; ring. Qed.
Lemma off_plane : (forall tol, 0 <= tol -> hyperbola3_point_belongs (H3 world3 1 2) (V3 (5 / 4) (3 / 2) 7) tol = Ok true /\ parabola3_point_belongs (Pa3 world3 (1 / 4)) (V3 1 1 7) tol = Ok true) /\
  (forall p, on_branch3 (H3 world3 1 2) p -> 7 <= point_distance3 (V3 (5 / 4) (3 / 2) 7) p) /\ forall p, on_parabola3 (Pa3 world3 (1 / 4)) p -> 7 <= point_distance3 (V3 1 1 7) p.
Proof.
  assert (D7 : forall a b x y, 7 <= point_distance3 (V3 a b 7) (frame_point world3 (V3 x y 0))).
  { intros a b x y. unfold point_distance3, norm3. replace 7 with (sqrt (7 * 7)) at 1 by (apply sqrt_square; lra). apply sqrt_le_1_alt. unfold frame_point, basis_vector, world3, O3D, X3D, Y3D, Z3D, add3, sub3, mul3. cbn [fb3 org3 bu bv bw x3 y3 z3].
    match goal with |- _ <= ?a * ?a + ?b * ?b + ?c * ?c => pose proof (Rle_0_sqr a) as Q1; pose proof (Rle_0_sqr b) as Q2; unfold Rsqr in Q1, Q2; replace (c * c) with (7 * 7) by ring; lra end. }
  split; [|split].
  - intros tol T. assert (S16 : / 10 ^ 16 <= 1) by (rewrite <- Rinv_1; apply Rinv_le_contravar; [lra|apply pow_R1_Rle; lra]). split.
    + replace (V3 (5 / 4) (3 / 2) 7) with (add3 (frame_point world3 (V3 (5 / 4) (3 / 2) 0)) (mul3 (bw (fb3 world3)) 7)) by (unfold frame_point, basis_vector, world3, O3D, X3D, Y3D, Z3D, add3, mul3; cbn [fb3 org3 bu bv bw x3 y3 z3]; apply vec3_ext; cbn [x3 y3 z3]; ring).
      rewrite (proj1 (belongs3_ignores_height world3 std3 _ 7 tol)). apply (hyp3_accepts (H3 world3 1 2)); cbn [hf3 ha3 hb3]; auto using std3; try lra.
      * unfold branch. cbn [x2 y2]. split; lra.
      * right. rewrite Rabs_right by lra. lra.
    + replace (V3 1 1 7) with (add3 (frame_point world3 (V3 1 1 0)) (mul3 (bw (fb3 world3)) 7)) by (unfold frame_point, basis_vector, world3, O3D, X3D, Y3D, Z3D, add3, mul3; cbn [fb3 org3 bu bv bw x3 y3 z3]; apply vec3_ext; cbn [x3 y3 z3]; ring).
      rewrite (proj2 (belongs3_ignores_height world3 std3 _ 7 tol)). apply (par3_accepts (Pa3 world3 (1 / 4))); cbn [pf3 focal3]; auto using std3; try lra; right; rewrite Rabs_R1; lra.
  - intros p (q & _ & ->). apply D7.
  - intros p (x & y & _ & ->). apply D7.
Qed.
(** ** in space: tangents *)
Lemma own_frame_std f : orthonormal (fb3 f) -> own_frame2 f = Ok (F2 O2D (B2 X2D Y2D)).
Proof.
  intros (UU & VV & WW & UV & UW & VW). unfold own_frame2. set (u := bu (fb3 f)) in *. set (v := bv (fb3 f)) in *. set (o := org3 f).
  assert (K : forall w, to_2d (add3 o w) o u v = V2 (dot3 w u) (dot3 w v)) by (intros w; unfold to_2d; apply vec2_ext; cbn [x2 y2]; unfold dot3, add3; cbn [x3 y3 z3]; ring).
  assert (KO : to_2d o o u v = O2D) by (unfold to_2d, O2D; apply vec2_ext; cbn [x2 y2]; ring). cbv zeta. rewrite !K, KO. rewrite UU, VV, UV. replace (dot3 v u) with 0 by (rewrite <- UV; unfold dot3; ring).
  assert (N : forall a b, a * a + b * b = 1 -> norm2 (sub2 (V2 a b) O2D) = 1). { intros a b H. rewrite norm2_dot. unfold dot2, sub2, O2D. cbn [x2 y2]. rewrite <- sqrt_1. f_equal. lra. }
  assert (U1 : forall a b, a * a + b * b = 1 -> unit_vector2 (sub2 (V2 a b) O2D) = Ok (V2 a b)).
  { intros a b H. apply unit2_ok. split. { intros E. pose proof (N a b H) as E2. rewrite E in E2. revert E2. rewrite norm2_dot. unfold dot2. cbn [x2 y2]. replace (0 * 0 + 0 * 0) with 0 by ring. rewrite sqrt_0. lra. }
    rewrite N by auto. unfold mul2, sub2, O2D. cbn [x2 y2]. apply vec2_ext; cbn [x2 y2]; field. }
  rewrite !U1 by ring. reflexivity.
Qed.
Lemma planar_tangent_ok f tg x y kx ky : orthonormal (fb3 f) -> tg (F2 O2D (B2 X2D Y2D)) (V2 x y) = Ok (V2 kx ky) -> exists t, planar_tangent f tg (frame_point f (V3 x y 0)) = Ok t /\
  point_distance3 t (add3 (mul3 (bu (fb3 f)) kx) (mul3 (bv (fb3 f)) ky)) <= / 10 ^ 12.
Proof.
  intros O E. unfold planar_tangent. cbv zeta. rewrite own_frame_std by auto. cbn [bind].
  assert (P2 : to_2d (frame_point f (V3 x y 0)) (org3 f) (bu (fb3 f)) (bv (fb3 f)) = V2 x y).
  { transitivity (V2 (x3 (coords f (frame_point f (V3 x y 0)))) (y3 (coords f (frame_point f (V3 x y 0))))); [|now rewrite coords_of].
    unfold to_2d, coords. cbn [x3 y3]. apply vec2_ext; cbn [x2 y2]; unfold dot3, sub3; cbn [x3 y3 z3]; ring. }
  rewrite P2, E. cbn [bind]. eexists. split; [reflexivity|]. unfold point_to_3d. set (q := to_3d _ _ _ _). cbv zeta.
  assert (N : near (/ 10 ^ 12 / 2) (V3 (py_round 12 (x3 q)) (py_round 12 (y3 q)) (py_round 12 (z3 q))) q) by (repeat split; cbn [x3 y3 z3]; apply py_round_err).
  assert (EQ : q = add3 (add3 (mul3 (bu (fb3 f)) kx) (mul3 (bv (fb3 f)) ky)) (frame_point f (V3 x y 0))).
  { unfold q, to_3d, frame_point, basis_vector, add2, add3, mul3. cbn [x2 y2 x3 y3 z3]. apply vec3_ext; cbn [x3 y3 z3]; ring. }
  destruct N as (N1 & N2 & N3). cbn [x3 y3 z3] in *. assert (T12 := pow10_inv_pos 12). set (e := / 10 ^ 12) in *. set (g := add3 (mul3 (bu (fb3 f)) kx) (mul3 (bv (fb3 f)) ky)) in *. set (p := frame_point f (V3 x y 0)) in *.
  unfold point_distance3, norm3. rewrite <- (sqrt_square e) by lra. apply sqrt_le_1_alt. clearbody q. subst q. unfold sub3, add3 in *. cbn [x3 y3 z3] in *.
  assert (SQ : forall a b c, Rabs (a - (b + c)) <= e / 2 -> (a - c - b) * (a - c - b) <= e / 2 * (e / 2)). { intros a b c H. replace (a - c - b) with (a - (b + c)) by ring. rewrite <- (Rabs_right (_ * _)) by (apply Rle_ge, Rle_0_sqr). rewrite Rabs_mult. apply Rmult_le_compat; auto using Rabs_pos. }
  apply SQ in N1. apply SQ in N2. apply SQ in N3. nra.
Qed.
Lemma hyp3_tangent h x y : orthonormal (fb3 (hf3 h)) -> ha3 h <> 0 -> hb3 h <> 0 -> exists k t, hyperbola3_tangent h (frame_point (hf3 h) (V3 x y 0)) = Ok t /\ derivable_pt_lim (hyp_x (ha3 h) (hb3 h)) y k /\
  point_distance3 t (add3 (mul3 (bu (fb3 (hf3 h))) k) (bv (fb3 (hf3 h)))) <= / 10 ^ 12.
Proof.
  intros O A B. destruct (hyp_tangent_ok (H2 (F2 O2D (B2 X2D Y2D)) (ha3 h) (hb3 h)) (V2 x y) eq_refl A B) as (k & E & D). exists k.
  destruct (planar_tangent_ok (hf3 h) (fun g q => hyperbola2_tangent (H2 g (ha3 h) (hb3 h)) q) x y k 1 O E) as (t & T & N). exists t. split; [exact T|]. split; [exact D|].
  replace (bv (fb3 (hf3 h))) with (mul3 (bv (fb3 (hf3 h))) 1) at 1; [exact N|]. unfold mul3. apply vec3_ext; cbn [x3 y3 z3]; ring.
Qed.
Lemma par3_tangent p x y : orthonormal (fb3 (pf3 p)) -> focal3 p <> 0 -> exists k t, parabola3_tangent p (frame_point (pf3 p) (V3 x y 0)) = Ok t /\ derivable_pt_lim (par_y (focal3 p)) x k /\
  point_distance3 t (add3 (bu (fb3 (pf3 p))) (mul3 (bv (fb3 (pf3 p))) k)) <= / 10 ^ 12.
Proof.
  intros O F. pose proof (par_tangent (Pa2 (F2 O2D (B2 X2D Y2D)) (focal3 p)) (V2 x y) std2) as E. cbn [pf focal fb2 u2 v2] in E. rewrite loc_std in E. cbn [x2] in E. set (k := 2 * par_a (focal3 p) * x) in *. exists k.
  replace (add2 X2D (mul2 Y2D k)) with (V2 1 k) in E by (unfold X2D, Y2D, add2, mul2; cbn [x2 y2]; apply vec2_ext; cbn [x2 y2]; ring).
  destruct (planar_tangent_ok (pf3 p) (fun g r => parabola2_tangent (Pa2 g (focal3 p)) r) x y 1 k O E) as (t & T & N). exists t. split; [exact T|]. split; [now apply par_derivative|].
  replace (bu (fb3 (pf3 p))) with (mul3 (bu (fb3 (pf3 p))) 1) at 1; [exact N|]. unfold mul3. apply vec3_ext; cbn [x3 y3 z3]; ring.
Qed.

(** ** where the code deviates *)
Lemma belongs2_value h p tol : orthonormal2 (fb2 (hf h)) -> hyperbola2_point_belongs h p tol = Ok (isclose (x2 (loc2 (hf h) p) ^ 2 / ha h ^ 2 - y2 (loc2 (hf h) p) ^ 2 / hb h) 1 tol).
Proof. intros O. unfold hyperbola2_point_belongs. rewrite frame2_g2l_ok by auto. cbn [bind]. now rewrite pow_1. Qed.
Lemma belongs2_refuted : exists h p q, orthonormal2 (fb2 (hf h)) /\ 0 < ha h /\ 0 < hb h /\
  on_branch2 h p /\ hyperbola2_point_belongs h p (/ 10 ^ 6) = Ok false /\
  x2 (local2 (hf h) q) ^ 2 / ha h ^ 2 - y2 (local2 (hf h) q) ^ 2 / hb h ^ 2 = 5 /\ hyperbola2_point_belongs h q (/ 10 ^ 6) = Ok true.
Proof.
  change local2 with loc2. set (h := H2 (F2 O2D (B2 X2D Y2D)) 1 2). exists h, (V2 (5 / 4) (3 / 2)), (V2 3 4). cbn [hf ha hb h]. assert (T6 := pow10_inv_pos 6). assert (T9 := pow10_inv_pos 9).
  split; [exact std2|]. split; [lra|]. split; [lra|]. split; [|split; [|split]].
  - apply on_branch_loc; [exact std2|]. cbn [hf ha hb h]. rewrite loc_std. unfold branch. cbn [x2 y2]. split; lra.
  - rewrite belongs2_value by exact std2. cbn [hf ha hb h]. rewrite loc_std. cbn [x2 y2]. f_equal. unfold isclose. apply Rleb_false.
    replace ((5 / 4) ^ 2 / 1 ^ 2 - (3 / 2) ^ 2 / 2) with (7 / 16) by field. rewrite (Rabs_left (7 / 16 - 1)), (Rabs_right (7 / 16)), Rabs_R1, (Rmax_right (7 / 16) 1) by lra.
    replace (10 ^ 9) with 1000000000 by ring. replace (10 ^ 6) with 1000000 by ring. apply Rmax_lub_lt; lra.
  - rewrite loc_std. cbn [x2 y2]. field.
  - rewrite belongs2_value by exact std2. cbn [hf ha hb h]. rewrite loc_std. cbn [x2 y2]. f_equal. replace (3 ^ 2 / 1 ^ 2 - 4 ^ 2 / 2) with 1 by field. apply isclose_self. lra.
Qed.
(** the minor axis 1 hides it; the other branch belongs too *)
Lemma belongs2_unit h p tol : orthonormal2 (fb2 (hf h)) -> hb h = 1 -> 0 <= tol -> on_branch2 h p ->
  hyperbola2_point_belongs h p tol = Ok true /\ hyperbola2_point_belongs h (sub2 (mul2 (org2 (hf h)) 2) p) tol = Ok true.
Proof.
  intros O B T H. apply on_branch_loc in H; auto. destruct H as (_ & E). rewrite B in E. rewrite !belongs2_value by auto. rewrite B.
  assert (M : loc2 (hf h) (sub2 (mul2 (org2 (hf h)) 2) p) = V2 (- x2 (loc2 (hf h) p)) (- y2 (loc2 (hf h) p))) by (unfold loc2, dot2, sub2, mul2; cbn [x2 y2]; apply vec2_ext; cbn [x2 y2]; ring).
  rewrite M. cbn [x2 y2]. set (x := x2 (loc2 (hf h) p)) in *. set (y := y2 (loc2 (hf h) p)) in *. replace ((- x) ^ 2) with (x ^ 2) by ring. replace ((- y) ^ 2) with (y ^ 2) by ring.
  replace (x ^ 2 / ha h ^ 2 - y ^ 2 / 1) with 1 by lra. rewrite isclose_self by auto. auto.
Qed.
(** lines parallel to the second axis *)
Lemma vertical_refuted : (exists h l p, orthonormal2 (fb2 (hf h)) /\ 0 < ha h /\ 0 < hb h /\ on_branch2 h p /\ line2_has l p /\ hyperbola2_line_intersections h l = Err TypeError) /\
  exists q l p, orthonormal2 (fb2 (pf q)) /\ 0 < focal q /\ on_parabola2 q p /\ line2_has l p /\ forall tol, parabola2_line_intersections q l tol = Err TypeError.
Proof.
  split.
  - exists (H2 (F2 O2D (B2 X2D Y2D)) 1 1), (V2 1 0, V2 1 1), (V2 1 0). cbn [hf ha hb fst snd]. split; [exact std2|]. split; [lra|]. split; [lra|]. split; [|split].
    + apply on_branch_loc; [exact std2|]. cbn [hf ha hb]. rewrite loc_std. unfold branch. cbn [x2 y2]. split; lra.
    + exists 0. unfold at_param2, add2, mul2, sub2. cbn [fst snd x2 y2]. apply vec2_ext; cbn [x2 y2]; ring.
    + apply (proj1 (vertical_errors (F2 O2D (B2 X2D Y2D)) (V2 1 0, V2 1 1) std2 ltac:(unfold parallel_to_v, X2D, dot2, sub2; cbn [fst snd fb2 u2 x2 y2]; ring))).
  - exists (Pa2 (F2 O2D (B2 X2D Y2D)) 1), (V2 0 0, V2 0 1), (V2 0 0). cbn [pf focal fst snd]. split; [exact std2|]. split; [lra|]. split; [|split].
    + apply par_iff; cbn [pf focal]; [exact std2|lra|]. rewrite loc_std. cbn [x2 y2]. ring.
    + exists 0. unfold at_param2, add2, mul2, sub2. cbn [fst snd x2 y2]. apply vec2_ext; cbn [x2 y2]; ring.
    + intros tol. apply (proj2 (vertical_errors (F2 O2D (B2 X2D Y2D)) (V2 0 0, V2 0 1) std2 ltac:(unfold parallel_to_v, X2D, dot2, sub2; cbn [fst snd fb2 u2 x2 y2]; ring))).
Qed.
(** lines parallel to an asymptote *)
Lemma asymptote_empty h l : orthonormal2 (fb2 (hf h)) -> ~ parallel_to_v (hf h) l -> (ha h * slope_in (hf h) l) ^ 2 = hb h ^ 2 -> hyperbola2_line_intersections h l = Ok [].
Proof.
  intros O N E. unfold hyperbola2_line_intersections. rewrite !frame2_g2l_ok by auto. cbn [bind]. destruct (line_local (hf h) l O N) as (E1 & E2 & _). rewrite E1, E2. cbv zeta.
  destruct (Rltb _ _); [reflexivity|]. rewrite (proj2 (Reqb_spec _ _)); [reflexivity|]. rewrite <- E. ring.
Qed.
Lemma asymptote_refuted : exists h l p, orthonormal2 (fb2 (hf h)) /\ 0 < ha h /\ 0 < hb h /\ on_branch2 h p /\ line2_has l p /\ hyperbola2_line_intersections h l = Ok [].
Proof.
  exists (H2 (F2 O2D (B2 X2D Y2D)) 1 1), (V2 1 0, V2 2 1), (V2 1 0). cbn [hf ha hb fst snd]. split; [exact std2|]. split; [lra|]. split; [lra|]. split; [|split].
  - apply on_branch_loc; [exact std2|]. cbn [hf ha hb]. rewrite loc_std. unfold branch. cbn [x2 y2]. split; lra.
  - exists 0. unfold at_param2, add2, mul2, sub2. cbn [fst snd x2 y2]. apply vec2_ext; cbn [x2 y2]; ring.
  - apply asymptote_empty; cbn [hf ha hb]; [exact std2| |]; unfold parallel_to_v, slope_in, X2D, Y2D, dot2, sub2; cbn [fst snd fb2 u2 v2 x2 y2]; [lra|field].
Qed.
(** a line tangent to the parabola: the point is given in the frame of the parabola *)
Lemma tangent_line_local p l tol : orthonormal2 (fb2 (pf p)) -> 0 < focal p -> ~ parallel_to_v (pf p) l -> 0 <= tol -> slope_in (pf p) l ^ 2 + height_in (pf p) l / focal p = 0 ->
  exists s, parabola2_line_intersections p l tol = Ok [local2 (pf p) s] /\ on_parabola2 p s /\ line2_has l s.
Proof.
  intros O F N T E. change local2 with loc2. assert (F0 : focal p <> 0) by lra. unfold parabola2_line_intersections. rewrite !frame2_g2l_ok by auto. cbn [bind]. destruct (line_local (pf p) l O N) as (E1 & E2 & L). rewrite E1, E2. cbv zeta.
  set (m := slope_in (pf p) l) in *. set (c := height_in (pf p) l) in *. set (f := focal p) in *. assert (EA : - 4 * par_a f * c = m ^ 2) by (unfold par_a; replace (m ^ 2) with (- (c / f)) by lra; field; auto).
  rewrite EA. rewrite (proj2 (Rltb_false _ _)) by lra. rewrite isclose_self by auto. set (x := m / (2 * par_a f)). exists (frame2_l2g (pf p) (V2 x (m * x + c))). rewrite loc_l2g by auto. split; [reflexivity|].
  assert (Ec : c = - (m ^ 2 * f)). { apply (Rmult_eq_reg_r (/ f)); [|apply Rinv_neq_0_compat; auto]. change (c * / f) with (c / f). rewrite Ropp_mult_distr_l_reverse, Rmult_assoc, Rinv_r by auto. lra. }
  split.
  - apply par_iff; auto. rewrite loc_l2g by auto. cbn [x2 y2]. fold f. rewrite Ec. unfold x, par_a. field. auto.
  - apply L. rewrite loc_l2g by auto. reflexivity.
Qed.
Lemma tangent_line_refuted : exists p l s, orthonormal2 (fb2 (pf p)) /\ 0 < focal p /\ parabola2_line_intersections p l (/ 10 ^ 6) = Ok [s] /\ ~ line2_has l s /\ exists s', on_parabola2 p s' /\ line2_has l s'.
Proof.
  set (p := Pa2 (F2 (V2 10 10) (B2 X2D Y2D)) (1 / 4)). set (l := (V2 0 10, V2 1 10)). assert (T6 := pow10_inv_pos 6).
  assert (NV : ~ parallel_to_v (pf p) l) by (unfold p, l, parallel_to_v, X2D, dot2, sub2; cbn [pf fst snd fb2 u2 x2 y2]; lra).
  destruct (tangent_line_local p l (/ 10 ^ 6)) as (s & E & P & L); [exact std2|cbn [focal p]; lra|exact NV|lra| |].
  { unfold p, l, height_in, slope_in, X2D, Y2D, dot2, sub2. cbn [pf focal fst snd fb2 org2 u2 v2 x2 y2]. field. }
  exists p, l, (local2 (pf p) s). split; [exact std2|]. split; [cbn [focal p]; lra|]. split; [exact E|]. split; [|exists s; auto].
  destruct L as (t & ->). intros (t' & H). revert H. unfold p, l, local2, at_param2, X2D, Y2D, dot2, add2, mul2, sub2. cbn [pf fst snd fb2 org2 u2 v2 x2 y2]. intros H. apply (f_equal y2) in H. cbn [y2] in H. lra.
Qed.
(** Hyperbola2D.tangent in a frame that is not the standard one *)
Lemma tangent2_refuted : exists h p t k, orthonormal2 (fb2 (hf h)) /\ 0 < ha h /\ 0 < hb h /\ on_branch2 h p /\ derivable_pt_lim (hyp_x (ha h) (hb h)) (y2 (local2 (hf h) p)) k /\
  hyperbola2_tangent h p = Ok t /\ cross2 t (add2 (mul2 (u2 (fb2 (hf h))) k) (v2 (fb2 (hf h)))) <> 0.
Proof.
  change local2 with loc2. set (h := H2 (F2 (V2 0 3) (B2 X2D Y2D)) 1 1). set (p := V2 1 3). assert (LP : loc2 (hf h) p = V2 1 0) by (unfold h, p, loc2, X2D, Y2D, dot2, sub2; cbn [hf fb2 org2 u2 v2 x2 y2]; apply vec2_ext; cbn [x2 y2]; ring).
  exists h, p. eexists. exists 0. split; [exact std2|]. split; [cbn [ha h]; lra|]. split; [cbn [hb h]; lra|]. split; [|split; [|split]].
  - apply on_branch_loc; [exact std2|]. rewrite LP. unfold branch, h. cbn [x2 y2 ha hb]. split; lra.
  - rewrite LP. cbn [y2 ha hb h]. replace 0 with (hyp_dx_dy 1 1 0) at 2; [apply hyp_derivative; lra|]. unfold hyp_dx_dy. rewrite Rmult_0_r. apply Rmult_0_l.
  - unfold hyperbola2_tangent. rewrite frame2_g2l_ok by exact std2. cbn [bind]. cbv zeta. reflexivity.
  - rewrite LP. unfold cross2. cbn [hf ha hb h]. rewrite frame2_l2g_eq. unfold p, X2D, Y2D, add2, mul2, sub2. cbn [fb2 org2 u2 v2 x2 y2].
    assert (P : 0 < hyp_dx_dy 1 1 3). { unfold hyp_dx_dy. apply Rmult_lt_0_compat; [lra|]. apply Rinv_0_lt_compat, Rmult_lt_0_compat; [lra|]. apply sqrt_lt_R0. lra. } lra.
Qed.
(** equality *)
Lemma hyp_eq_iff frames a1 b1 a2 b2 : hyperbola_eq frames a1 b1 a2 b2 = true <-> frames = true /\ a1 = a2 /\ b1 <> b2.
Proof.
  unfold hyperbola_eq. destruct frames; cbn [negb]; [|split; [discriminate|intros (D & _); discriminate]]. rewrite negb_involutive.
  destruct (Reqb a1 a2) eqn:E; [apply Reqb_spec in E|apply Reqb_false in E]; cbn [negb orb]; [|split; [discriminate|tauto]].
  destruct (Reqb b1 b2) eqn:F; [apply Reqb_spec in F|apply Reqb_false in F]; split; try discriminate; tauto.
Qed.
Lemma hyp_eq_refuted : (forall a b, hyperbola_eq true a b a b = false) /\ hyperbola_eq true 1 2 1 3 = true.
Proof.
  split; [intros a b; destruct (hyperbola_eq true a b a b) eqn:E; [apply hyp_eq_iff in E as (_ & _ & H); congruence|reflexivity]|]. apply hyp_eq_iff. repeat split; lra.
Qed.
(** ** examples *)
Lemma line_example : exists h l, orthonormal2 (fb2 (hf h)) /\ ha h <> 0 /\ hb h <> 0 /\ ~ parallel_to_v (hf h) l /\ (ha h * slope_in (hf h) l) ^ 2 <> hb h ^ 2 /\ exists p, on_branch2 h p /\ line2_has l p.
Proof.
  exists (H2 (F2 O2D (B2 X2D Y2D)) 1 1), (V2 0 0, V2 5 3). cbn [hf ha hb]. unfold parallel_to_v, slope_in. split; [exact std2|]. split; [lra|]. split; [lra|].
  unfold X2D, Y2D, dot2, sub2. cbn [fst snd fb2 u2 v2 x2 y2]. split; [lra|]. split; [replace ((1 * (((5 - 0) * 0 + (3 - 0) * 1) / ((5 - 0) * 1 + (3 - 0) * 0))) ^ 2) with (9 / 25) by field; lra|].
  exists (V2 (5 / 4) (3 / 4)). split.
  - exists (V2 (5 / 4) (3 / 4)). split; [unfold branch; cbn [ha hb x2 y2]; split; lra|]. unfold frame2_point, add2, mul2, O2D. cbn [hf org2 fb2 u2 v2 x2 y2]. apply vec2_ext; cbn [x2 y2]; ring.
  - exists (1 / 4). unfold at_param2, add2, mul2, sub2. cbn [fst snd x2 y2]. apply vec2_ext; cbn [x2 y2]; field.
Qed.
Lemma par_line_example : exists p l, orthonormal2 (fb2 (pf p)) /\ focal p <> 0 /\ ~ parallel_to_v (pf p) l /\ 0 < slope_in (pf p) l ^ 2 + height_in (pf p) l / focal p.
Proof.
  exists (Pa2 (F2 O2D (B2 X2D Y2D)) 1), (V2 0 0, V2 1 1). cbn [pf focal]. split; [exact std2|]. split; [lra|]. unfold parallel_to_v, height_in, slope_in, X2D, Y2D, O2D, dot2, sub2. cbn [fst snd org2 fb2 u2 v2 x2 y2]. split; [lra|].
  match goal with |- 0 < ?e => replace e with 1 by field end. lra.
Qed.
Lemma trim_example : exists p p1 p2, orthonormal2 (fb2 (pf p)) /\ 0 < focal p /\ on_parabola2 p p1 /\ on_parabola2 p p2 /\ / 10 ^ 15 * (2 * focal p) < Rabs (dot2 (sub2 p2 p1) (u2 (fb2 (pf p)))).
Proof.
  exists (Pa2 (F2 O2D (B2 X2D Y2D)) (1 / 4)), (V2 0 0), (V2 1 1). cbn [pf focal]. split; [exact std2|]. split; [lra|]. split; [|split].
  - apply par_iff; cbn [pf focal]; [exact std2|lra|]. rewrite loc_std. cbn [x2 y2]. ring.
  - apply par_iff; cbn [pf focal]; [exact std2|lra|]. rewrite loc_std. unfold par_a. cbn [x2 y2]. field.
  - unfold X2D, dot2, sub2. cbn [fb2 u2 x2 y2]. replace ((1 - 0) * 1 + (1 - 0) * 0) with 1 by ring. rewrite Rabs_R1. replace (10 ^ 15) with 1000000000000000 by ring. lra.
Qed.
