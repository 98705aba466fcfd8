From Coq Require Import Reals Lra Lia List Bool ZArith.
From Verif.Model Require Import Base RBase Vec Frame BBox Geometry Plane Curves Ellipse Conic3.
From Verif.Spec Require Import VecSpec FrameSpec BBoxSpec PlaneSpec CurvesSpec EllipseSpec EllipseSpec2 ParamSurfSpec Conic3Spec.
From Verif.Proofs Require Import VecP LineP FrameP FrameP2 PlaneP PlaneP3 CurvesP CurvesP4 EllipseP EllipseP2 EllipseP3 EllipseP4 EllipseP6 EllipseP7 Conic3P Conic3P2 ParamSurfP ParamSurfP2 ParamSurfP4 Conic3P3 Conic3P5 Conic3P7.
Import ListNotations.
Open Scope R_scope.

Definition flat2 (v : vec3) : vec2 := V2 (x3 v) (y3 v).
Lemma slanted_directed a b p q : slanted p q -> well_directed (E2 a b OXY2) (flat2 p, flat2 q).
Proof.
  intros H. unfold well_directed. assert (A : forall v, along_major (E2 a b OXY2) v = x2 v). { intros v. unfold along_major, ecenter, major_dir, OXY2, O2D, X2D, sub2, dot2. cbn. ring. }
  cbn [fst snd]. rewrite !A. exact H.
Qed.
Lemma local_form e p q tol : direct (fb3 (ef3 e)) -> inclined (ef3 e) tol -> 0 <= tol -> 0 < emin3 e <= emaj3 e -> clean3 p -> clean3 q -> z3 p = 0 -> z3 q = 0 -> p <> q ->
  ellipse3_line_intersections e (frame_point (ef3 e) p, frame_point (ef3 e) q) tol =
  do r <- ellipse2_line_intersections (E2 (emaj3 e) (emin3 e) OXY2) (flat2 p, flat2 q) (/ 10 ^ 6); Ok (map (fun i => frame3_l2g (ef3 e) (V3 (x2 i) (y2 i) 0)) r).
Proof.
  intros D I1 T B CP CQ Zp Zq N. rewrite inclined_form by assumption. change LOCAL with (zframe (V3 0 0 0)). rewrite flat_lines by (assumption || lra). cbn [x3 y3 z3]. rewrite !Rminus_0_r. fold (flat2 p) (flat2 q).
  destruct (ellipse2_line_intersections _ _ _) as [r|x]; [|reflexivity]. cbn [bind]. rewrite map_map. reflexivity.
Qed.
Lemma flat_ne p q : z3 p = 0 -> z3 q = 0 -> p <> q -> fst (flat2 p, flat2 q) <> snd (flat2 p, flat2 q).
Proof. intros Zp Zq N K. cbn in K. injection K as K1 K2. apply N. destruct p as [p1 p2 p3], q as [q1 q2 q3]. cbn in *. congruence. Qed.
Lemma conic_sound : forall e l p q tol pts r, direct (fb3 (ef3 e)) -> inclined (ef3 e) tol -> 0 <= tol -> 0 < emin3 e <= emaj3 e ->
  l = (frame_point (ef3 e) p, frame_point (ef3 e) q) -> clean3 p -> clean3 q -> p <> q -> z3 p = 0 -> z3 q = 0 -> slanted p q ->
  ellipse3_line_intersections e l tol = Ok pts -> In r pts -> exists r0, near eps r r0 /\ on_line3 l r0 /\ on_ellipse3 e r0.
Proof.
  intros e l p q tol pts r D I1 T B -> CP CQ N Zp Zq W E Ir. rewrite local_form in E by assumption. set (e2 := E2 (emaj3 e) (emin3 e) OXY2) in *.
  destruct (ellipse2_line_intersections e2 (flat2 p, flat2 q) (/ 10 ^ 6)) as [r2|x] eqn:E2; [|discriminate E]. cbn [bind] in E. apply Ok_inj in E. subst pts. apply in_map_iff in Ir as (i & <- & Ii).
  destruct (ellipse_line_sound e2 _ _ _ i (oxy_ok _ _ B) (or_introl (conj eq_refl eq_refl)) (slanted_directed _ _ _ _ W) (flat_ne _ _ Zp Zq N) E2 Ii) as [L [t Et]].
  exists (frame_point (ef3 e) (V3 (x2 i) (y2 i) 0)). split; [apply frame3_l2g_near|]. split.
  - apply line_local. apply flat_has; [assumption|assumption|]. destruct i. exact L.
  - exists t. rewrite ellipse3_local. unfold e2 in Et. rewrite oxy_point in Et. rewrite Et. reflexivity.
Qed.
Lemma conic_complete : forall e l p q tol r1 r2, direct (fb3 (ef3 e)) -> inclined (ef3 e) tol -> 0 <= tol -> 0 < emin3 e <= emaj3 e ->
  l = (frame_point (ef3 e) p, frame_point (ef3 e) q) -> clean3 p -> clean3 q -> p <> q -> z3 p = 0 -> z3 q = 0 -> slanted p q ->
  on_line3 l r1 -> on_ellipse3 e r1 -> on_line3 l r2 -> on_ellipse3 e r2 -> r1 <> r2 ->
  exists pts, ellipse3_line_intersections e l tol = Ok pts /\ forall r, on_line3 l r -> on_ellipse3 e r -> exists r', In r' pts /\ point_distance3 r r' <= / 10 ^ 5.
Proof.
  intros e l p q tol r1 r2 D I1 T B -> CP CQ N Zp Zq W L1 O1 L2 O2 Ne. rewrite local_form by assumption. set (e2 := E2 (emaj3 e) (emin3 e) OXY2) in *. assert (O := proj1 D).
  assert (G : forall r, on_line3 (frame_point (ef3 e) p, frame_point (ef3 e) q) r -> on_ellipse3 e r -> exists v, r = frame_point (ef3 e) (V3 (x2 v) (y2 v) 0) /\ line2_has (flat2 p, flat2 q) v /\ on_ellipse2 e2 v).
  { intros r L [t Et]. rewrite ellipse3_local in Et. exists (V2 (emaj3 e * cos t) (emin3 e * sin t)). cbn [x2 y2]. split; [exact Et|]. split.
    - apply flat_has; [assumption|assumption|]. destruct (line_global _ _ _ _ O L) as (w & Ew & Lw). rewrite Ew in Et. apply (f_equal (coords (ef3 e))) in Et. rewrite !coords_frame_point in Et by exact O. rewrite <- Et. exact Lw.
    - exists t. unfold e2. rewrite oxy_point. reflexivity. }
  destruct (G r1 L1 O1) as (v1 & E1 & H1 & K1). destruct (G r2 L2 O2) as (v2 & E2' & H2 & K2).
  destruct (ellipse_line_complete e2 (flat2 p, flat2 q) (/ 10 ^ 6) v1 v2 (oxy_ok _ _ B) (or_introl (conj eq_refl eq_refl)) (slanted_directed _ _ _ _ W) (flat_ne _ _ Zp Zq N) (Rlt_le _ _ (pow10_inv_pos 6)) H1 K1 H2 K2) as (pts & E & C).
  { congruence. }
  rewrite E. cbn [bind]. eexists. split; [reflexivity|]. intros r L Or. destruct (G r L Or) as (v & -> & Hv & Kv). destruct (C v Hv Kv) as (i & Ii & Di). exists (frame3_l2g (ef3 e) (V3 (x2 i) (y2 i) 0)). split; [apply (in_map (fun i => frame3_l2g (ef3 e) (V3 (x2 i) (y2 i) 0))), Ii|].
  assert (Nr := frame3_l2g_near (ef3 e) (V3 (x2 i) (y2 i) 0)). apply near_dist in Nr. rewrite dist3_sym in Nr. eapply Rle_trans; [apply (dist3_triangle _ (frame_point (ef3 e) (V3 (x2 i) (y2 i) 0)))|]. rewrite frame_point_dist by exact O.
  assert (Fl : point_distance3 (V3 (x2 v) (y2 v) 0) (V3 (x2 i) (y2 i) 0) = point_distance2 v i). { unfold point_distance3, point_distance2, norm3, norm2, sub3, sub2. cbn [x3 y3 z3 x2 y2]. f_equal. ring. }
  rewrite Fl. assert (eps <= / 10 ^ 6) by (apply pow10_le; lia). assert (/ 10 ^ 6 = / 1000000) by (f_equal; ring). assert (/ 10 ^ 5 = / 100000) by (f_equal; ring). lra.
Qed.
(** lines that cross the plane *)
Lemma local_direct : direct (fb3 LOCAL).
Proof. unfold direct, orthonormal, LOCAL, dot3, cross3. cbn. repeat split; try ring. f_equal; ring. Qed.
Lemma steep_form n a b p q tol : / 10 ^ 6 < Rabs (z3 q - z3 p) -> 0 <= tol <= / 10 ^ 6 -> ellipse3_line_loop (S n) (E3 a b LOCAL) (p, q) tol =
  match plane_line_intersections LOCAL (p, q) (/ 10 ^ 6) with [] => Ok [] | r :: rest => do h <- ellipse3_point_belongs (E3 a b LOCAL) r tol; Ok (if h then r :: rest else []) end.
Proof.
  intros H T. cbn [ellipse3_line_loop ef3]. rewrite upright_horizontal by (try (left; reflexivity); lra). cbn [negb fst snd]. rewrite Rabs_minus_sym in H. rewrite (proj2 (Rleb_false _ _)) by lra. reflexivity.
Qed.
Lemma local_plane r : on_plane LOCAL r <-> z3 r = 0.
Proof. unfold on_plane, LOCAL, dot3, sub3. cbn. split; intros; lra. Qed.
Lemma conic_steep : forall e l p q tol, direct (fb3 (ef3 e)) -> inclined (ef3 e) tol -> tol = / 10 ^ 6 -> / 10 ^ 6 <= emin3 e <= emaj3 e ->
  l = (frame_point (ef3 e) p, frame_point (ef3 e) q) -> clean3 p -> clean3 q -> / 10 ^ 6 < Rabs (z3 q - z3 p) ->
  exists pts, ellipse3_line_intersections e l tol = Ok pts /\
  (forall r, In r pts -> exists r0, near eps r r0 /\ on_line3 l r0 /\ about_ellipse3 e r0 tol) /\
  (forall r, on_line3 l r -> on_ellipse3 e r -> exists r', In r' pts /\ near eps r' r).
Proof.
  intros e l p q tol D I1 T B -> CP CQ H. assert (P6 := pow10_inv_pos 6). assert (T0 : 0 <= tol) by lra. rewrite inclined_form by assumption. rewrite steep_form by lra. set (E := E3 (emaj3 e) (emin3 e) LOCAL) in *. assert (O := proj1 D).
  destruct (plane_line_complete LOCAL (p, q) (/ 10 ^ 6)) as (v & Ev & U); [lra| |].
  { replace (dot3 (bw (fb3 LOCAL)) (sub3 (snd (p, q)) (fst (p, q)))) with (z3 q - z3 p) by (unfold LOCAL, dot3, sub3; cbn; ring). exact H. }
  assert (Sv : on_line3 (p, q) v /\ on_plane LOCAL v) by (apply (plane_line_sound LOCAL (p, q) (/ 10 ^ 6)); [lra|rewrite Ev; left; reflexivity]). destruct Sv as [Lv Pv].
  rewrite Ev. destruct (belongs3_spec E v tol local_direct) as (x & y & X & Y & Eb); [cbn; lra|cbn; lra|]. assert (Eb' := Eb). rewrite Eb. cbn [bind]. set (h := isclose _ 1 tol) in *. eexists. split; [reflexivity|]. split.
  - intros r Ir. destruct h eqn:Eh; cbn [map] in Ir; [|destruct Ir]. destruct Ir as [<-|[]]. exists (frame_point (ef3 e) v). split; [apply frame3_l2g_near|]. split; [apply line_local, Lv|].
    assert (Zv := proj1 (local_plane v) Pv). split; [apply plane_local; assumption|].
    destruct (belongs3_sound E v tol local_direct) as (x' & y' & X' & Y' & Q); [cbn; lra|cbn; lra|rewrite T; split; [lra|]; assert (/ 10 ^ 6 = / 1000000) by (f_equal; ring); lra|exact Eb'|].
    assert (Cv := coords_frame_point (ef3 e) v O). assert (Cx := f_equal x3 Cv). assert (Cy := f_equal y3 Cv). unfold coords in Cx, Cy. cbn [x3 y3] in Cx, Cy. exists x', y'. rewrite Cx, Cy.
    assert (Lx : dot3 (sub3 v (org3 (ef3 E))) (bu (fb3 (ef3 E))) = x3 v) by (unfold E, LOCAL, dot3, sub3; cbn; ring). assert (Ly : dot3 (sub3 v (org3 (ef3 E))) (bv (fb3 (ef3 E))) = y3 v) by (unfold E, LOCAL, dot3, sub3; cbn; ring).
    rewrite Lx in X'. rewrite Ly in Y'. split; [exact X'|]. split; [exact Y'|]. exact Q.
  - intros r L [t Et]. rewrite ellipse3_local in Et. set (w := V3 (emaj3 e * cos t) (emin3 e * sin t) 0) in *. destruct (line_global _ _ _ _ O L) as (w' & Ew & Lw). rewrite Ew in Et. apply (f_equal (coords (ef3 e))) in Et. rewrite !coords_frame_point in Et by exact O. subst w'.
    assert (Wv : w = v). { apply U; [exact Lw|]. apply local_plane. reflexivity. }
    assert (A := belongs3_accepts E t tol local_direct). rewrite ellipse3_local in A. assert (FP : frame_point (ef3 E) (V3 (emaj3 E * cos t) (emin3 E * sin t) 0) = v).
    { rewrite <- Wv. unfold w, E, LOCAL, frame_point, basis_vector, add3, mul3. cbn. f_equal; ring. }
    rewrite FP in A. rewrite A in Eb by (cbn; lra). apply Ok_inj in Eb. rewrite <- Eb. exists (frame3_l2g (ef3 e) v). split; [left; reflexivity|]. rewrite Ew, Wv. apply frame3_l2g_near.
Qed.
