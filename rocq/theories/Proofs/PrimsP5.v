From Coq Require Import Reals Lra Lia List Bool ZArith Psatz.
From Verif.Model Require Import Base Mesh RBase Vec Frame BBox Geometry Prims.
From Verif.Spec Require Import VecSpec FrameSpec BBoxSpec PrimsSpec.
From Verif.Proofs Require Import VecP LineP FrameP FrameP2 BBoxP ParamSurfP ParamSurfP4 PrimsP PrimsP2 PrimsP4.
Import ListNotations.
Open Scope R_scope.

(** ** an orthonormal frame gives every point its coordinates *)
Lemma decomp b d : orthonormal b -> basis_vector b (V3 (dot3 d (bu b)) (dot3 d (bv b)) (dot3 d (bw b))) = d.
Proof.
  destruct b as [u v w]. unfold orthonormal. cbn [bu bv bw]. intros (UU & VV & WW & UV & UW & VW).
  pose proof (gram_one _ _ _ UU VV WW UV UW VW) as D.
  assert (L : forall x y, dot3 x y = dot3 y x) by (intros [? ? ?] [? ? ?]; unfold dot3; cbn; ring).
  assert (P : forall q a b' c t, dot3 (sub3 q (add3 (add3 (mul3 u a) (mul3 v b')) (mul3 w c))) t = dot3 q t - a * dot3 u t - b' * dot3 v t - c * dot3 w t).
  { clear. intros [q1 q2 q3] a b' c [t1 t2 t3]. destruct u as [u1 u2 u3], v as [v1 v2 v3], w as [w1 w2 w3]. unfold dot3, sub3, add3, mul3. cbn [x3 y3 z3]. ring. }
  set (s := add3 (add3 (mul3 u (dot3 d u)) (mul3 v (dot3 d v))) (mul3 w (dot3 d w))).
  assert (R1 : dot3 (sub3 d s) u = 0) by (unfold s; rewrite P, UU, (L v u), (L w u), UV, UW; ring).
  assert (R2 : dot3 (sub3 d s) v = 0) by (unfold s; rewrite P, VV, UV, (L w v), VW; ring).
  assert (R3 : dot3 (sub3 d s) w = 0) by (unfold s; rewrite P, WW, UW, VW; ring).
  pose proof (cramer3 (sub3 d s) u v w) as C. cbn zeta in C. rewrite R1, R2, R3 in C.
  change (basis_vector _ _) with s. clear R1 R2 R3 P. set (k := dot3 (cross3 u v) w) in *. clearbody k s.
  assert (Z : mul3 (sub3 d s) k = O3D). { rewrite C. unfold add3, mul3, O3D. cbn [x3 y3 z3]. f_equal; ring. }
  unfold mul3, sub3, O3D in Z. injection Z as Z1 Z2 Z3. apply Rmult_integral in Z1, Z2, Z3.
  apply vec3_ext; [destruct Z1|destruct Z2|destruct Z3]; lra.
Qed.
Lemma coords_point f p : orthonormal (fb3 f) -> frame_point f (coords f p) = p.
Proof.
  intros O. unfold coords, frame_point. rewrite decomp by auto. unfold add3, sub3. cbn [x3 y3 z3]. apply vec3_ext; cbn [x3 y3 z3]; ring.
Qed.
Lemma coords_of f v : orthonormal (fb3 f) -> coords f (frame_point f v) = v.
Proof.
  intros (UU & VV & WW & UV & UW & VW). unfold coords. replace (sub3 (frame_point f v) (org3 f)) with (basis_vector (fb3 f) v).
  2:{ unfold frame_point. apply vec3_ext; unfold add3, sub3; cbn [x3 y3 z3]; ring. }
  assert (K : forall t, dot3 (basis_vector (fb3 f) v) t = x3 v * dot3 (bu (fb3 f)) t + y3 v * dot3 (bv (fb3 f)) t + z3 v * dot3 (bw (fb3 f)) t).
  { intros t. unfold basis_vector, dot3, add3, mul3. cbn [x3 y3 z3]. ring. }
  assert (L : forall x y, dot3 x y = dot3 y x) by (intros [? ? ?] [? ? ?]; unfold dot3; cbn; ring).
  destruct v as [a b c]. cbn [x3 y3 z3] in K. rewrite !K. rewrite (L (bv (fb3 f)) (bu (fb3 f))), (L (bw (fb3 f)) (bu (fb3 f))), (L (bw (fb3 f)) (bv (fb3 f))), UU, VV, WW, UV, UW, VW.
  f_equal; ring.
Qed.
Lemma in_cylinder_iff c p : orthonormal (fb3 (cyf c)) -> in_cylinder c p <->
  x3 (coords (cyf c) p) ^ 2 + y3 (coords (cyf c) p) ^ 2 <= cyr c ^ 2 /\ - (cyl c / 2) <= z3 (coords (cyf c) p) <= cyl c / 2.
Proof.
  intros O. split.
  - intros (x & y & z & XY & Z & ->). rewrite coords_of by auto. cbn [x3 y3 z3]. auto.
  - intros (XY & Z). exists (x3 (coords (cyf c) p)), (y3 (coords (cyf c) p)), (z3 (coords (cyf c) p)). split; [auto|]. split; [auto|].
    symmetry. etransitivity; [|apply (coords_point (cyf c) p O)]. f_equal.
Qed.
(** two frames on the same origin and axis: same distance from the axis, same height *)
Lemma same_axis f g p : orthonormal (fb3 f) -> orthonormal (fb3 g) -> org3 f = org3 g -> bw (fb3 f) = bw (fb3 g) ->
  z3 (coords f p) = z3 (coords g p) /\ x3 (coords f p) ^ 2 + y3 (coords f p) ^ 2 = x3 (coords g p) ^ 2 + y3 (coords g p) ^ 2.
Proof.
  intros OF OG E W. unfold coords. cbn [x3 y3 z3]. rewrite <- E, <- W. split; [reflexivity|].
  pose proof (coordinates_norm _ (sub3 p (org3 f)) OF) as A. pose proof (coordinates_norm _ (sub3 p (org3 f)) OG) as B. rewrite <- W in B. lra.
Qed.
(** ** the local frame of a cylinder *)
Lemma local_frame_ok c : orthonormal (fb3 (cyf c)) -> exists f, local_frame c = Ok f /\ org3 f = org3 (cyf c) /\ bw (fb3 f) = axis c /\ orthonormal (fb3 f) /\
  forall p, frame3_g2l f p = Ok (snap3 (coords f p)).
Proof.
  intros O. assert (W1 : dot3 (axis c) (axis c) = 1) by apply O.
  destruct (from_point_and_vector_total (org3 (cyf c)) (axis c) Z3D) as (f & E); [auto|intros Z; rewrite Z in W1; unfold dot3 in W1; cbn in W1; lra|].
  exists f. split; [exact E|]. apply from_point_and_vector_ok in E as (EO & (k & K & EW) & D). split; [exact EO|].
  assert (M : main_of Z3D (fb3 f) = bw (fb3 f)). { unfold main_of, Z3D. cbn [x3 y3 z3]. apply vec3_ext; unfold add3, mul3; cbn [x3 y3 z3]; ring. }
  rewrite M in EW. clear M.
  assert (OF : orthonormal (fb3 f)).
  { destruct D as [D|(_ & ->)]; [apply D|]. unfold orthonormal, neg3, X3D, Y3D, Z3D, dot3. cbn [bu bv bw x3 y3 z3]. repeat split; ring. }
  assert (k = 1).
  { rewrite EW in W1. assert (N : dot3 (bw (fb3 f)) (bw (fb3 f)) = 1) by apply OF. replace (dot3 _ _) with (k * k * dot3 (bw (fb3 f)) (bw (fb3 f))) in W1 by (unfold dot3, mul3; cbn [x3 y3 z3]; ring). rewrite N in W1. nra. }
  subst k. split; [rewrite EW; apply vec3_ext; unfold mul3; cbn [x3 y3 z3]; ring|]. split; [exact OF|].
  intros p. destruct D as [D|(_ & EF)]; [apply g2l_coords, D|].
  unfold frame3_g2l, basis3_g2l, coords. rewrite EF. unfold neg3, X3D, Y3D, Z3D, transfer_matrix3, inverse33. cbn [bu bv bw x3 y3 z3].
  replace (det33 _) with (-1) by (unfold det33; cbn [m11 m12 m13 m21 m22 m23 m31 m32 m33]; ring).
  replace (Rleb (Rabs (-1)) (/ 10 ^ 12)) with false.
  2:{ symmetry. apply Rleb_false. rewrite Rabs_left by lra. assert (/ 10 ^ 12 < 1) by (rewrite <- Rinv_1; apply Rinv_lt_contravar; [|apply Rlt_pow_R1; [lra|lia]]; rewrite Rmult_1_l; apply pow_lt; lra). lra. }
  cbn [negb bind]. unfold mvec33, snap3, dot3. cbn [x3 y3 z3 m11 m12 m13 m21 m22 m23 m31 m32 m33]. f_equal. apply vec3_ext; cbn [x3 y3 z3]; apply f_equal; field.
Qed.
Lemma snap_le x : snap x ^ 2 <= x ^ 2.
Proof. unfold snap. fold eps. destruct (Rltb _ _); [|lra]. replace (0 ^ 2) with 0 by ring. apply pow2_ge_0. Qed.
Lemma snap_between x a : 0 <= a -> - a <= x <= a -> - a <= snap x <= a.
Proof. intros A H. unfold snap. fold eps. destruct (Rltb _ _); lra. Qed.
Lemma disc_add x y a b r e : 0 <= r -> 0 <= e -> x ^ 2 + y ^ 2 <= r ^ 2 -> a ^ 2 + b ^ 2 <= e ^ 2 -> (x + a) ^ 2 + (y + b) ^ 2 <= (r + e) ^ 2.
Proof.
  intros R0 E0 XY AB. pose proof (disc_bound x y (sqrt (x ^ 2 + y ^ 2)) a b e (sqrt_pos _) E0) as B.
  assert (P : 0 <= x ^ 2 + y ^ 2) by (pose proof (pow2_ge_0 x); pose proof (pow2_ge_0 y); lra).
  rewrite pow2_sqrt in B by auto. destruct (B eq_refl AB) as (_ & B2).
  assert (sqrt (x ^ 2 + y ^ 2) <= r). { rewrite <- (sqrt_pow2 r) by auto. apply sqrt_le_1_alt. auto. }
  assert (sqrt (x ^ 2 + y ^ 2) * e <= r * e) by (apply Rmult_le_compat_r; auto). nra.
Qed.
Lemma grown_orthonormal c e : orthonormal (fb3 (cyf c)) -> orthonormal (fb3 (cyf (grown c e))). Proof. auto. Qed.
Lemma belongs_spec c p : orthonormal (fb3 (cyf c)) -> 0 <= cyr c -> 0 <= cyl c -> exists a, cylinder_point_belongs c p = Ok a /\
  (in_cylinder c p -> a = true) /\ (a = true -> in_cylinder (grown c (2 * eps)) p).
Proof.
  intros O R0 L. pose proof eps_pos as EP. destruct (local_frame_ok c O) as (f & E & EO & EW & OF & G). unfold cylinder_point_belongs. rewrite E. cbn [bind]. rewrite G. cbn [bind].
  destruct (same_axis f (cyf c) p OF O EO EW) as (SZ & SXY). set (q := coords f p) in *. unfold snap3. cbn [x3 y3 z3].
  eexists. split; [reflexivity|]. rewrite !andb_true_iff, !Rleb_spec. split.
  - intros H. apply (in_cylinder_iff _ _ O) in H as (XY & Z). rewrite <- SXY in XY. rewrite <- SZ in Z. split; [|].
    + rewrite <- (sqrt_pow2 (cyr c)) by auto. apply sqrt_le_1_alt. pose proof (snap_le (x3 q)). pose proof (snap_le (y3 q)). lra.
    + destruct (snap_between (z3 q) (cyl c / 2) ltac:(lra) Z) as (A & B). split; lra.
  - intros (HR & HZ1 & HZ2). apply (in_cylinder_iff (grown c (2 * eps)) p (grown_orthonormal _ _ O)). unfold grown. cbn [cyf cyr cyl]. rewrite <- SXY, <- SZ.
    assert (HR' : snap (x3 q) ^ 2 + snap (y3 q) ^ 2 <= cyr c ^ 2).
    { assert (P : 0 <= snap (x3 q) ^ 2 + snap (y3 q) ^ 2) by (pose proof (pow2_ge_0 (snap (x3 q))); pose proof (pow2_ge_0 (snap (y3 q))); lra).
      rewrite <- (pow2_sqrt _ P). apply pow_incr. split; [apply sqrt_pos|exact HR]. }
    pose proof (snap_err (x3 q)) as SX. pose proof (snap_err (y3 q)) as SY. pose proof (snap_err (z3 q)) as SZ'.
    unfold Rabs in SX; destruct (Rcase_abs (snap (x3 q) - x3 q)) in SX.
    all: unfold Rabs in SY, SZ'; destruct (Rcase_abs (snap (y3 q) - y3 q)) in SY; destruct (Rcase_abs (snap (z3 q) - z3 q)) in SZ'.
    all: split; [|lra].
    all: assert (AB : (x3 q - snap (x3 q)) ^ 2 + (y3 q - snap (y3 q)) ^ 2 <= (2 * eps) ^ 2) by (assert ((x3 q - snap (x3 q)) ^ 2 <= eps ^ 2) by nra; assert ((y3 q - snap (y3 q)) ^ 2 <= eps ^ 2) by nra; nra).
    all: pose proof (disc_add _ _ _ _ _ (2 * eps) R0 ltac:(lra) HR' AB) as F.
    all: replace (snap (x3 q) + (x3 q - snap (x3 q))) with (x3 q) in F by ring; replace (snap (y3 q) + (y3 q - snap (y3 q))) with (y3 q) in F by ring; exact F.
Qed.
Lemma sampled_ok c d : orthonormal (fb3 (cyf c)) -> 0 <= cyr c -> 0 <= cyl c -> fair_draw c d -> exists p, sampled_point c d = Ok p /\ in_cylinder (grown c (2 * eps)) p.
Proof.
  destruct d as [[s th] z]. intros O R0 L (S0 & Z). pose proof eps_pos as EP. destruct (local_frame_ok c O) as (f & E & EO & EW & OF & _). unfold sampled_point. rewrite E. cbn [bind].
  eexists. split; [reflexivity|]. set (v := V3 (sqrt s * cyr c * cos th) (sqrt s * cyr c * sin th) z). pose proof (frame3_l2g_near f v) as N. set (p := frame3_l2g f v) in *. clearbody p.
  apply (in_cylinder_iff (grown c (2 * eps)) p (grown_orthonormal _ _ O)). unfold grown. cbn [cyf cyr cyl]. destruct (same_axis f (cyf c) p OF O EO EW) as (<- & <-).
  set (dv := sub3 p (frame_point f v)). pose proof (near_dist _ _ _ N) as ND.
  assert (LEN : dot3 dv dv <= (2 * eps) ^ 2). { unfold dv. rewrite <- norm3_sq. unfold point_distance3 in ND. fold dv in ND |- *. pose proof (sqrt_pos (x3 dv * x3 dv + y3 dv * y3 dv + z3 dv * z3 dv)) as P. fold (norm3 dv) in P. nra. }
  assert (C : forall t, dot3 (sub3 p (org3 f)) t = dot3 (sub3 (frame_point f v) (org3 f)) t + dot3 dv t). { intros t. unfold dv, dot3, sub3. cbn [x3 y3 z3]. ring. }
  pose proof (coords_of f v OF) as CV. unfold coords in *. cbn [x3 y3 z3]. rewrite !C.
  assert (CX := f_equal x3 CV). assert (CY := f_equal y3 CV). assert (CZ := f_equal z3 CV). unfold v in CX, CY, CZ. cbn [x3 y3 z3] in CX, CY, CZ. fold v in CX, CY, CZ. rewrite CX, CY, CZ.
  pose proof (coordinates_norm _ dv OF) as CN. pose proof (pow2_ge_0 (dot3 dv (bu (fb3 f)))). pose proof (pow2_ge_0 (dot3 dv (bv (fb3 f)))). pose proof (pow2_ge_0 (dot3 dv (bw (fb3 f)))).
  split.
  - apply disc_add; try lra.
    replace ((sqrt s * cyr c * cos th) ^ 2 + (sqrt s * cyr c * sin th) ^ 2) with (sqrt s ^ 2 * cyr c ^ 2 * (Rsqr (sin th) + Rsqr (cos th))) by (unfold Rsqr; ring).
    rewrite sin2_cos2, pow2_sqrt by lra. pose proof (pow2_ge_0 (cyr c)). nra.
  - assert (dot3 dv (bw (fb3 f)) ^ 2 <= (2 * eps) ^ 2) by lra. assert (- (2 * eps) <= dot3 dv (bw (fb3 f)) <= 2 * eps) by (split; nra). lra.
Qed.
