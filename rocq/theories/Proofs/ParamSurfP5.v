(** Projection on tori, membership tests, and the cases where point_distance / point_belongs are wrong. *)
From Coq Require Import Reals Lra Lia List Bool.
From Verif.Model Require Import RBase Vec Frame Geometry ParamSurf.
From Verif.Spec Require Import VecSpec FrameSpec ParamSurfSpec AngleSpec.
From Verif.Proofs Require Import VecP LineP FrameP FrameP2 GeometryP ParamSurfP ParamSurfP2 ParamSurfP3 ParamSurfP4.
Open Scope R_scope.

(** ** Torus *)
Lemma rho3 a b c a' b' c' : point_distance3 (V3 a b c) (V3 a' b' c') = rho (rho (a - a') (b - b')) (c - c').
Proof. unfold point_distance3, norm3, sub3. cbn [x3 y3 z3]. unfold rho at 1. rewrite rho_sq. reflexivity. Qed.
Lemma tube_coords f M p : direct (fb3 f) -> tube_distance f M p = rho (rho (x3 (coords f p)) (y3 (coords f p)) - M) (z3 (coords f p)).
Proof. intros H. unfold tube_distance. rewrite axis_coords by auto. change (height f p) with (z3 (coords f p)). unfold rho at 2. apply f_equal. ring. Qed.
Definition torus_local (M m th ph : R) : vec3 := V3 ((M + m * cos ph) * cos th) ((M + m * cos ph) * sin th) (m * sin ph).
Lemma torus_local_lip M m th ph th' ph' : 0 <= M -> 0 <= m ->
  point_distance3 (torus_local M m th ph) (torus_local M m th' ph') <= (M + m) * Rabs (th - th') + m * Rabs (ph - ph').
Proof.
  intros HM Hm. apply Rle_trans with (point_distance3 (torus_local M m th ph) (torus_local M m th' ph) + point_distance3 (torus_local M m th' ph) (torus_local M m th' ph')); [apply dist3_triangle|].
  apply Rplus_le_compat.
  - unfold torus_local. rewrite rho3. replace (m * sin ph - m * sin ph) with 0 by ring.
    pose proof (chord_rho (M + m * cos ph) th th') as C. set (q := rho _ _) in *. assert (E : rho q 0 = q) by (apply sqrt_of_sq; [apply rho_pos|ring]). rewrite E.
    eapply Rle_trans; [exact C|]. apply Rmult_le_compat_r; [apply Rabs_pos|]. pose proof (COS_bound ph). apply Rabs_le. split; nra.
  - unfold torus_local. rewrite rho3. pose proof (chord_rho m ph ph') as C. rewrite (Rabs_pos_eq m Hm) in C.
    replace ((M + m * cos ph) * cos th' - (M + m * cos ph') * cos th') with ((m * cos ph - m * cos ph') * cos th') by ring.
    replace ((M + m * cos ph) * sin th' - (M + m * cos ph') * sin th') with ((m * cos ph - m * cos ph') * sin th') by ring.
    rewrite rho_polar. eapply Rle_trans; [|exact C]. right. unfold rho. apply f_equal. f_equal. rewrite <- Rabs_mult. apply Rabs_pos_eq. apply Rle_0_sqr.
Qed.
Lemma torus_distance f M m p : direct (fb3 f) -> 0 < M -> 0 <= m -> / 10 ^ 11 <= tube_distance f M p ->
  exists q d, torus_point_projection f M m p = Ok q /\ surface_point_distance (torus_point_projection f M m) p = Ok d /\ d = point_distance3 q p /\
  Rabs (d - Rabs (tube_distance f M p - m)) <= / 10 ^ 11 + / 10 ^ 9 * (M + 2 * m).
Proof.
  intros H HM Hm HT. unfold surface_point_distance. rewrite tube_coords in * by auto.
  assert (K : exists q, torus_point_projection f M m p = Ok q /\ Rabs (point_distance3 q p - Rabs (rho (rho (x3 (coords f p)) (y3 (coords f p)) - M) (z3 (coords f p)) - m)) <= / 10 ^ 11 + / 10 ^ 9 * (M + 2 * m)).
  2:{ destruct K as (q & -> & K). exists q. eexists. split; [reflexivity|]. split; [reflexivity|]. split; [reflexivity|]. exact K. }
  unfold torus_point_projection. rewrite g2l_coords by auto. unfold bind, snap3. pose proof (frame_point_coords f p H) as EP.
  destruct (coords f p) as [X Y Z]. subst p. cbn [x3 y3 z3] in *. rewrite !zap_snap by apply eps12.
  pose proof (zap_err (/ 10 ^ 12) X ltac:(apply Rlt_le, pow10_inv_pos)) as ZX. pose proof (zap_err (/ 10 ^ 12) Y ltac:(apply Rlt_le, pow10_inv_pos)) as ZY.
  pose proof (snap_err Z) as ZZ. set (x := zap (/ 10 ^ 12) X) in *. set (y := zap (/ 10 ^ 12) Y) in *. set (z := snap Z) in *. set (a := atan2 y x).
  destruct (polar x y) as [PX PY]. fold a in PX, PY. set (q' := rho x y) in *.
  pose proof eps_small as ES. pose proof e12 as E12. pose proof eps_pos as EP0. pose proof (pow10_inv_pos 12) as P12. pose proof (pow10_inv_pos 9) as P9.
  assert (DP : rho (x - X) (y - Y) <= 2 * / 10 ^ 12) by (pose proof (rho_abs (x - X) (y - Y)); lra).
  pose proof (rho_lip x y X Y) as DQ. fold q' in DQ.
  assert (DD : Rabs (rho (q' - M) z - rho (rho X Y - M) Z) <= 2 * / 10 ^ 12 + eps).
  { eapply Rle_trans; [apply rho_lip|]. eapply Rle_trans; [apply rho_abs|]. replace (q' - M - (rho X Y - M)) with (q' - rho X Y) by ring. lra. }
  set (D := rho (rho X Y - M) Z) in *. set (d' := rho (q' - M) z) in *.
  assert (Pd : 0 < d'). { unfold Rabs in DD; destruct (Rcase_abs (d' - D)); lra. }
  assert (NZ : q' - M <> 0 \/ z <> 0).
  { destruct (Req_dec (q' - M) 0) as [A|A]; [|auto]. destruct (Req_dec z 0) as [B|B]; [|auto]. exfalso. unfold d' in Pd. rewrite A, B in Pd. unfold rho in Pd. replace (0 * 0 + 0 * 0) with 0 in Pd by ring. rewrite sqrt_0 in Pd. lra. }
  assert (EV : sub3 (V3 x y z) (V3 (M * cos a) (M * sin a) 0) = V3 ((q' - M) * cos a) ((q' - M) * sin a) z).
  { unfold sub3. cbn [x3 y3 z3]. apply vec3_ext; cbn [x3 y3 z3]; lra. }
  rewrite EV. destruct (tube_angle M (q' - M) z (cos a) (sin a)) as (t & Et & _ & Bt & Ct); [auto|pose proof (sc1 a); lra|auto|].
  rewrite (Rabs_pos_eq M) in Et by lra. rewrite Et. change (sqrt ((q' - M) * (q' - M) + z * z)) with d' in Ct. clear EV Et.
  eexists. split; [reflexivity|]. set (ph := if Rltb z 0 then 2 * PI - t else t).
  assert (SP : d' * cos ph = q' - M /\ d' * sin ph = z).
  { assert (ST : 0 <= sin t) by (apply sin_ge_0; lra). pose proof (sc1 t) as S1. pose proof (rho_sq (q' - M) z) as Q. fold d' in Q.
    assert (SZ : (d' * sin t) * (d' * sin t) = z * z). { rewrite <- Ct in Q. transitivity (d' * d' * (sin t * sin t + cos t * cos t) - d' * cos t * (d' * cos t)); [ring|]. rewrite S1. lra. }
    unfold ph. destruct (Rltb z 0) eqn:EZ; rb.
    - replace (2 * PI - t) with (- t + IZR 1 * (2 * PI)) by (cbn; ring). rewrite cos_2kpi, sin_2kpi, cos_neg, sin_neg. split; auto. assert (d' * sin t = - z); [|lra]. apply Rsqr_inj; [nra|lra|]. unfold Rsqr. lra.
    - split; auto. apply Rsqr_inj; [nra|lra|]. unfold Rsqr. lra. }
  destruct SP as [C1 S1].
  pose proof (zap_err (/ 10 ^ 9) a ltac:(lra)) as ZA. pose proof (zap_err (/ 10 ^ 9) ph ltac:(lra)) as ZP. set (th := zap (/ 10 ^ 9) a) in *. set (ph' := zap (/ 10 ^ 9) ph) in *.
  pose proof (torus_agree f M m (V2 th ph')) as N. rewrite torus_array_local in N. cbn [x2 y2] in N. apply near_dist in N. fold (torus_local M m th ph') in N.
  set (q := torus_2d_to_3d f M m (V2 th ph')) in *.
  pose proof (dist3_lip q (frame_point f (torus_local M m th ph')) (frame_point f (V3 X Y Z))) as L1. rewrite frame_point_dist in L1 by apply H.
  pose proof (dist3_lip (torus_local M m th ph') (torus_local M m a ph) (V3 X Y Z)) as L2.
  pose proof (torus_local_lip M m th ph' a ph ltac:(lra) Hm) as L3.
  assert (L3' : point_distance3 (torus_local M m th ph') (torus_local M m a ph) <= (M + 2 * m) * / 10 ^ 9).
  { eapply Rle_trans; [exact L3|]. assert ((M + m) * Rabs (th - a) <= (M + m) * / 10 ^ 9) by (apply Rmult_le_compat_l; lra). assert (m * Rabs (ph' - ph) <= m * / 10 ^ 9) by (apply Rmult_le_compat_l; lra). lra. }
  pose proof (dist3_lip (V3 x y z) (V3 X Y Z) (torus_local M m a ph)) as L4.
  assert (L5 : point_distance3 (V3 x y z) (V3 X Y Z) <= 2 * / 10 ^ 12 + eps). { rewrite rho3. pose proof (rho_abs (rho (x - X) (y - Y)) (z - Z)) as Q. rewrite (Rabs_pos_eq (rho _ _)) in Q by apply rho_pos. lra. }
  assert (L6 : point_distance3 (V3 x y z) (torus_local M m a ph) = Rabs (d' - m)).
  { unfold torus_local. rewrite rho3. replace (x - (M + m * cos ph) * cos a) with ((d' - m) * cos ph * cos a) by (rewrite <- PX; replace q' with (M + d' * cos ph) by lra; ring).
    replace (y - (M + m * cos ph) * sin a) with ((d' - m) * cos ph * sin a) by (rewrite <- PY; replace q' with (M + d' * cos ph) by lra; ring).
    replace (z - m * sin ph) with ((d' - m) * sin ph) by (rewrite <- S1; ring). rewrite rho_polar. rewrite <- (rho_polar (d' - m) ph). unfold rho. apply f_equal. f_equal. rewrite <- Rabs_mult. apply Rabs_pos_eq. apply Rle_0_sqr. }
  rewrite (dist3_sym (V3 X Y Z) (torus_local M m a ph)) in L4. rewrite L6 in L4.
  pose proof (Rabs_triang_inv2 (d' - m) (D - m)) as L7. replace (d' - m - (D - m)) with (d' - D) in L7 by ring.
  set (d1 := point_distance3 q (frame_point f (V3 X Y Z))) in *. set (d2 := point_distance3 (torus_local M m th ph') (V3 X Y Z)) in *.
  set (d3 := point_distance3 (torus_local M m a ph) (V3 X Y Z)) in *. set (d4 := Rabs (d' - m)) in *. set (d5 := Rabs (D - m)) in *.
  replace (d1 - d5) with ((d1 - d2) + ((d2 - d3) + ((d3 - d4) + (d4 - d5)))) by ring. rewrite <- (Rabs_Ropp (d4 - d3)) in L4. replace (- (d4 - d3)) with (d3 - d4) in L4 by ring.
  eapply Rle_trans; [apply Rabs_triang|]. pose proof (Rabs_triang (d2 - d3) (d3 - d4 + (d4 - d5))). pose proof (Rabs_triang (d3 - d4) (d4 - d5)).
  assert (B1 : Rabs (d1 - d2) <= 2 * eps) by (eapply Rle_trans; [exact L1|exact N]).
  assert (B2 : Rabs (d2 - d3) <= (M + 2 * m) * / 10 ^ 9) by (eapply Rle_trans; [exact L2|exact L3']).
  assert (B3 : Rabs (d3 - d4) <= 2 * / 10 ^ 12 + eps) by (eapply Rle_trans; [exact L4|exact L5]).
  assert (B4 : Rabs (d4 - d5) <= 2 * / 10 ^ 12 + eps) by (eapply Rle_trans; [exact L7|exact DD]). lra.
Qed.
Lemma torus_minimal f M m p q : direct (fb3 f) -> 0 <= m <= M -> on_torus f M m q -> Rabs (tube_distance f M p - m) <= point_distance3 p q.
Proof.
  intros H Hm Q. unfold on_torus in Q. rewrite <- Q. rewrite !tube_coords by auto. clear Q. pose proof (frame_point_coords f p H) as EP. pose proof (frame_point_coords f q H) as EQ.
  destruct (coords f p) as [X Y Z], (coords f q) as [X' Y' Z']. subst p q. rewrite frame_point_dist by apply H. cbn [x3 y3 z3]. eapply Rle_trans; [apply rho_lip|].
  replace (rho X Y - M - (rho X' Y' - M)) with (rho X Y - rho X' Y') by ring. rewrite rho3. pose proof (rho_lip X Y X' Y') as L.
  set (u := rho X Y - rho X' Y') in *. set (w := rho (X - X') (Y - Y')) in *. assert (0 <= w) by apply rho_pos.
  assert (E : u * u = Rabs u * Rabs u) by (rewrite <- Rabs_mult; symmetry; apply Rabs_pos_eq, Rle_0_sqr). pose proof (Rabs_pos u).
  unfold rho. apply sqrt_le_1_alt. rewrite E. nra.
Qed.
Lemma torus_attained f M m p : direct (fb3 f) -> 0 <= m <= M -> exists q, on_torus f M m q /\ point_distance3 p q = Rabs (tube_distance f M p - m).
Proof.
  intros H Hm. rewrite tube_coords by auto. pose proof (frame_point_coords f p H) as EP. destruct (coords f p) as [X Y Z]. subst p. cbn [x3 y3 z3].
  set (a := atan2 Y X). set (b := atan2 Z (rho X Y - M)). exists (torus_array f M m (V2 a b)). split; [apply torus_array_on; auto; apply H|].
  rewrite torus_array_local. cbn [x2 y2]. rewrite frame_point_dist by apply H. destruct (polar X Y) as [PX PY]. destruct (polar (rho X Y - M) Z) as [QX QZ]. fold a in PX, PY. fold b in QX, QZ.
  set (d' := rho (rho X Y - M) Z) in *. set (q' := rho X Y) in *. rewrite rho3.
  replace (X - (M + m * cos b) * cos a) with ((d' - m) * cos b * cos a) by (rewrite <- PX; replace q' with (M + d' * cos b) by lra; ring).
  replace (Y - (M + m * cos b) * sin a) with ((d' - m) * cos b * sin a) by (rewrite <- PY; replace q' with (M + d' * cos b) by lra; ring).
  replace (Z - m * sin b) with ((d' - m) * sin b) by (rewrite <- QZ; ring). rewrite rho_polar. rewrite <- (rho_polar (d' - m) b). unfold rho. apply f_equal. f_equal. rewrite <- Rabs_mult. apply Rabs_pos_eq, Rle_0_sqr.
Qed.
