(** More facts on matrices and frames: conventions, mappings, rotations. *)
From Coq Require Import Reals Lra Lia List Bool.
From Verif.Model Require Import RBase Vec Frame.
From Verif.Spec Require Import VecSpec FrameSpec.
From Verif.Proofs Require Import VecP LineP FrameP.
Open Scope R_scope.

Ltac des := repeat match goal with
  | f : frame3 |- _ => let a := fresh "o" in let b := fresh "b" in destruct f as [a b]
  | f : frame2 |- _ => let a := fresh "o" in let b := fresh "b" in destruct f as [a b]
  | f : basis3 |- _ => let a := fresh "p" in let b := fresh "q" in let c := fresh "r" in destruct f as [a b c]
  | f : basis2 |- _ => let a := fresh "p" in let b := fresh "q" in destruct f as [a b]
  | f : vec3 |- _ => let a := fresh "vx" in let b := fresh "vy" in let c := fresh "vz" in destruct f as [a b c]
  | f : vec2 |- _ => let a := fresh "vx" in let b := fresh "vy" in destruct f as [a b]
  end; cbn [fb3 org3 bu bv bw fb2 org2 u2 v2]; unfold add3, sub3, mul3, neg3, cross3, dot3, add2, sub2, mul2, neg2, dot2, cross2;
  cbn [x3 y3 z3 x2 y2 fb3 org3 bu bv bw fb2 org2 u2 v2].

Lemma madd22_apply m n v : mvec22 (madd22 m n) v = add2 (mvec22 m v) (mvec22 n v).
Proof. unfold mvec22, madd22. cbn [a11 a12 a21 a22]. destruct v as [p q]. unfold add2. cbn [x2 y2]. v_eq; ring. Qed.
Lemma madd33_apply m n v : mapply (madd33 m n) v = add3 (mapply m v) (mapply n v).
Proof. unfold mapply, madd33. cbn [m11 m12 m13 m21 m22 m23 m31 m32 m33]. destruct v as [p q r]. unfold add3. cbn [x3 y3 z3]. v_eq; ring. Qed.
Lemma float_mul33_apply m k v : mapply (float_multiplication33 m k) v = mul3 (mapply m v) k.
Proof. unfold mapply, float_multiplication33. cbn [m11 m12 m13 m21 m22 m23 m31 m32 m33]. destruct v as [p q r]. unfold mul3. cbn [x3 y3 z3]. v_eq; ring. Qed.
Lemma mvec22_coords a b c d x y : mvec22 (M22 a b c d) (V2 x y) = V2 (a * x + b * y) (c * x + d * y).
Proof. reflexivity. Qed.
Lemma det22_coords a b c d : det22 (M22 a b c d) = a * d - b * c.
Proof. reflexivity. Qed.
Lemma det33_coords a b c d e f g h i : det33 (M33 a b c d e f g h i) = a * (e * i - f * h) - b * (d * i - f * g) + c * (d * h - e * g).
Proof. unfold det33. cbn [m11 m12 m13 m21 m22 m23 m31 m32 m33]. ring. Qed.

Lemma basis2_l2g_comb b v : basis2_l2g b v = add2 (mul2 (u2 b) (x2 v)) (mul2 (v2 b) (y2 v)).
Proof. unfold basis2_l2g, transfer_matrix2, mvec22. des. cbn [a11 a12 a21 a22]. des. v_eq; ring. Qed.
Lemma frame2_l2g_comb f v : frame2_l2g f v = add2 (add2 (mul2 (u2 (fb2 f)) (x2 v)) (mul2 (v2 (fb2 f)) (y2 v))) (org2 f).
Proof. unfold frame2_l2g. rewrite basis2_l2g_comb. auto. Qed.
Lemma mapply_basis b v : mapply (transfer_matrix3 b) v = basis_vector b v.
Proof. unfold mapply, transfer_matrix3, basis_vector. cbn [m11 m12 m13 m21 m22 m23 m31 m32 m33]. destruct b as [[a1 a2 a3] [b1 b2 b3] [c1 c2 c3]], v as [v1 v2 v3]. unfold add3, mul3. cbn [x3 y3 z3 bu bv bw]. v_eq; ring. Qed.
Lemma basis3_l2g_near b v : near eps (basis3_l2g b v) (basis_vector b v).
Proof. unfold basis3_l2g. rewrite <- mapply_basis. apply mvec33_near. Qed.
Lemma frame3_l2g_near f v : near eps (frame3_l2g f v) (frame_point f v).
Proof. unfold frame3_l2g, frame_point. apply near_add, basis3_l2g_near. Qed.
Lemma frame3_translation_points f o v : frame_point (frame3_translation f o) v = translation3 (frame_point f v) o.
Proof. unfold frame3_translation, frame_point, translation3. cbn [fb3 org3]. generalize (basis_vector (fb3 f) v) as w, (org3 f) as q. vec. v_eq; ring. Qed.
Lemma frame3_rotation_points f c ax a v : / 10 ^ 6 < point_distance3 c (org3 f) ->
  frame_point (frame3_rotation f c ax a) v = rotation3 (frame_point f v) c ax a.
Proof.
  intros H. unfold frame3_rotation. destruct (is_close3 c (org3 f) (/ 10 ^ 6)) eqn:E.
  - apply is_close3_spec in E; [lra|apply Rlt_le, pow10_inv_pos].
  - clear H E. unfold frame_point, basis_vector, basis3_rotation. rewrite !rotation3_rod. cbn [fb3 org3 bu bv bw]. unfold rod, O3D.
    generalize (cos a), (sin a). intros. des. v_eq; ring.
Qed.
(** when the centre is within 1e-6 of the origin only the directions turn *)
Lemma frame3_rotation_close f c ax a : point_distance3 c (org3 f) <= / 10 ^ 6 ->
  org3 (frame3_rotation f c ax a) = org3 f /\ forall v, basis_vector (fb3 (frame3_rotation f c ax a)) v = rotation3 (basis_vector (fb3 f) v) O3D ax a.
Proof.
  intros H. unfold frame3_rotation. assert (E : is_close3 c (org3 f) (/ 10 ^ 6) = true) by (apply is_close3_spec; auto; apply Rlt_le, pow10_inv_pos).
  rewrite E. split; [reflexivity|]. clear. intros v. cbn [fb3]. unfold basis_vector, basis3_rotation. rewrite !rotation3_rod. unfold rod, O3D.
  generalize (cos a), (sin a). intros. des. v_eq; ring.
Qed.
Lemma frame2_rotation_keep f c a : fb2 (frame2_rotation f c a false) = fb2 f /\
  (/ 10 ^ 6 < point_distance2 c (org2 f) -> org2 (frame2_rotation f c a false) = rotation2 (org2 f) c a) /\
  (point_distance2 c (org2 f) <= / 10 ^ 6 -> org2 (frame2_rotation f c a false) = org2 f).
Proof.
  split; [reflexivity|]. unfold frame2_rotation. cbn [org2]. destruct (is_close2 c (org2 f) (/ 10 ^ 6)) eqn:E.
  - apply is_close2_spec in E; [|apply Rlt_le, pow10_inv_pos]. split; [lra|auto].
  - split; [auto|]. intros H. assert (is_close2 c (org2 f) (/ 10 ^ 6) = true) by (apply is_close2_spec; auto; apply Rlt_le, pow10_inv_pos). congruence.
Qed.
Lemma frame2_rotation_close f c a : point_distance2 c (org2 f) <= / 10 ^ 6 ->
  org2 (frame2_rotation f c a true) = org2 f /\ forall v, basis2_l2g (fb2 (frame2_rotation f c a true)) v = rotation2 (basis2_l2g (fb2 f) v) O2D a.
Proof.
  intros H. unfold frame2_rotation. assert (E : is_close2 c (org2 f) (/ 10 ^ 6) = true) by (apply is_close2_spec; auto; apply Rlt_le, pow10_inv_pos).
  rewrite E. split; [reflexivity|]. clear. intros v. cbn [fb2]. rewrite !basis2_l2g_comb. unfold basis2_rotation, rotation2, O2D. cbn [u2 v2].
  des. v_eq; ring.
Qed.

(** mapping a frame to the old reference and back *)
Lemma frame3_mapping_roundtrip g f h K : 0 <= K -> mbound K (transfer_matrix3 (fb3 f)) -> frame3_mapping_new g f = Ok h ->
  near ((1 + 3 * K) * eps) (org3 (frame3_mapping_old h f)) (org3 g) /\
  near ((1 + 3 * K) * eps) (bu (fb3 (frame3_mapping_old h f))) (bu (fb3 g)) /\
  near ((1 + 3 * K) * eps) (bv (fb3 (frame3_mapping_old h f))) (bv (fb3 g)) /\
  near ((1 + 3 * K) * eps) (bw (fb3 (frame3_mapping_old h f))) (bw (fb3 g)).
Proof.
  intros HK HB. unfold frame3_mapping_new, bind.
  destruct (frame3_g2l f (org3 g)) as [o|] eqn:Eo; [|discriminate].
  destruct (basis3_g2l (fb3 f) (bu (fb3 g))) as [u|] eqn:Eu; [|discriminate].
  destruct (basis3_g2l (fb3 f) (bv (fb3 g))) as [v|] eqn:Ev; [|discriminate].
  destruct (basis3_g2l (fb3 f) (bw (fb3 g))) as [w|] eqn:Ew; [|discriminate].
  intros H. apply Ok_inj in H. subst h. unfold frame3_mapping_old. cbn [org3 fb3 bu bv bw].
  split; [apply frame3_roundtrip_gl; auto|]. split; [|split]; apply basis3_roundtrip_gl; auto.
Qed.
Lemma frame3_mapping_new_total g f : / 10 ^ 12 < Rabs (det33 (transfer_matrix3 (fb3 f))) -> exists h, frame3_mapping_new g f = Ok h.
Proof.
  intros H. apply inverse33_total in H as [n E]. unfold frame3_mapping_new, frame3_g2l, basis3_g2l. rewrite E. cbn [bind]. eauto.
Qed.
Lemma near_mul k u v a : near k u v -> near (k * Rabs a) (mul3 u a) (mul3 v a).
Proof.
  intros (A & B & C). unfold near, mul3. cbn [x3 y3 z3].
  assert (M : forall p q, Rabs (p - q) <= k -> Rabs (p * a - q * a) <= k * Rabs a).
  { intros p q H. replace (p * a - q * a) with ((p - q) * a) by ring. rewrite Rabs_mult. apply Rmult_le_compat_r; auto using Rabs_pos. }
  repeat split; apply M; auto.
Qed.
Lemma frame3_mapping_old_points g f v : Rabs (x3 v) <= 1 -> Rabs (y3 v) <= 1 -> Rabs (z3 v) <= 1 ->
  near (4 * eps) (frame_point (frame3_mapping_old g f) v) (frame_point f (frame_point g v)).
Proof.
  intros X Y Z. pose proof eps_pos as EP.
  assert (EX : frame_point f (frame_point g v) =
    add3 (add3 (add3 (mul3 (basis_vector (fb3 f) (bu (fb3 g))) (x3 v)) (mul3 (basis_vector (fb3 f) (bv (fb3 g))) (y3 v)))
       (mul3 (basis_vector (fb3 f) (bw (fb3 g))) (z3 v))) (add3 (basis_vector (fb3 f) (org3 g)) (org3 f))).
  { unfold frame_point, basis_vector. des. v_eq; ring. }
  rewrite EX. unfold frame3_mapping_old, frame_point at 1, basis_vector at 1. cbn [fb3 org3 bu bv bw].
  assert (W : forall u a, Rabs a <= 1 -> near eps (mul3 (basis3_l2g (fb3 f) u) a) (mul3 (basis_vector (fb3 f) u) a)).
  { intros u a Ha. apply near_weaken with (eps * Rabs a); [apply near_mul, basis3_l2g_near|]. rewrite <- (Rmult_1_r eps) at 2. apply Rmult_le_compat_l; lra. }
  apply near_weaken with (((eps + eps) + eps) + eps); [|lra].
  apply near_add2; [apply near_add2; [apply near_add2|]|]; auto. unfold frame3_l2g. apply near_add, basis3_l2g_near.
Qed.

Lemma frame_from_step_axis o w f : frame_from_step o (Some w) None = Ok f -> org3 f = o /\ exists k, 0 < k /\ w = mul3 (bw (fb3 f)) k.
Proof.
  cbn [frame_from_step]. intros H. apply from_point_and_vector_ok in H as (A & (k & K & E) & _). split; auto. exists k. split; auto.
  rewrite E. apply (f_equal (fun t => mul3 t k)). unfold main_of, Z3D. clear; des. v_eq; ring.
Qed.
Lemma frame_from_step_ref o u f : frame_from_step o None (Some u) = Ok f -> org3 f = o /\ exists k, 0 < k /\ u = mul3 (bu (fb3 f)) k.
Proof.
  cbn [frame_from_step]. intros H. apply from_point_and_vector_ok in H as (A & (k & K & E) & _). split; auto. exists k. split; auto.
  rewrite E. apply (f_equal (fun t => mul3 t k)). unfold main_of, X3D. clear; des. v_eq; ring.
Qed.
Lemma frame_from_step_default o : frame_from_step o None None = Ok (F3 o (B3 X3D Y3D Z3D)).
Proof. reflexivity. Qed.
Lemma frame_from_step_side o w u f : norm3 w = 1 -> frame_from_step o (Some w) (Some u) = Ok f -> 0 < dot3 (bu (fb3 f)) u.
Proof.
  intros N. unfold frame_from_step, bind. destruct (unit_vector3 _) as [u'|] eqn:E; [|discriminate]. intros H; apply Ok_inj in H; subst f. cbn [fb3 bu].
  apply norm3_1 in N. pose proof (unit3_spec _ _ E) as (A & B & C). apply unit3_ok in E as [_ E].
  assert (O : dot3 u' w = 0). { rewrite E, dot3_mul_l, dot3_sub_l, dot3_mul_l, N. ring. }
  set (r := sub3 u (mul3 w (dot3 u w))) in *.
  assert (D : dot3 u' u = dot3 u' r).
  { unfold r. transitivity (dot3 u' (sub3 u (mul3 w (dot3 u w))) + dot3 u w * dot3 u' w); [generalize (dot3 u w); clear; intros; vec; ring|rewrite O; ring]. }
  rewrite D, <- B, (dot3_sym u'), dot3_mul_l, (norm3_1 _ A). lra.
Qed.

(** equalities modulo s^2 + c^2 = 1 (P) and st^2 + ct^2 = 1 (T) *)
Ltac mod2 P T := apply Rminus_diag_uniq; ring_simplify; rewrite ?P, ?T; ring_simplify; try reflexivity; rewrite ?P, ?T; ring.
Lemma rod_cs u ax a c s : cos a = c -> sin a = s -> add3 (rod (sub3 u O3D) ax a) O3D =
  add3 (add3 (mul3 u c) (mul3 ax ((1 - c) * dot3 u ax))) (mul3 (cross3 ax u) s).
Proof. intros <- <-. unfold rod, O3D. des. v_eq; ring. Qed.
Lemma euler_value psi theta phi : transfer_matrix3 (euler_rotation (B3 X3D Y3D Z3D) psi theta phi) = euler_matrix psi theta phi.
Proof.
  unfold euler_rotation, euler_matrix. cbn [bu bv bw]. rewrite !rotation3_rod.
  rewrite !(rod_cs _ _ psi _ _ eq_refl eq_refl), !(rod_cs _ _ theta _ _ eq_refl eq_refl), !(rod_cs _ _ phi _ _ eq_refl eq_refl).
  pose proof (sc1 psi) as P. pose proof (sc1 theta) as T. revert P T.
  generalize (cos psi), (sin psi), (cos theta), (sin theta), (cos phi), (sin phi).
  intros c s ct st cp sp P T.
  assert (P2 : s ^ 2 = 1 - c ^ 2) by (rewrite <- P; ring). assert (T2 : st ^ 2 = 1 - ct ^ 2) by (rewrite <- T; ring).
  assert (U : add3 (add3 (mul3 X3D c) (mul3 Z3D ((1 - c) * dot3 X3D Z3D))) (mul3 (cross3 Z3D X3D) s) = V3 c s 0) by (unfold X3D, Z3D; des; v_eq; ring).
  assert (V : add3 (add3 (mul3 Y3D c) (mul3 Z3D ((1 - c) * dot3 Y3D Z3D))) (mul3 (cross3 Z3D Y3D) s) = V3 (- s) c 0) by (unfold Y3D, Z3D; des; v_eq; ring).
  rewrite U, V. clear U V.
  assert (V : add3 (add3 (mul3 (V3 (- s) c 0) ct) (mul3 (V3 c s 0) ((1 - ct) * dot3 (V3 (- s) c 0) (V3 c s 0))))
     (mul3 (cross3 (V3 c s 0) (V3 (- s) c 0)) st) = V3 (- s * ct) (c * ct) st).
  { des. v_eq; try ring; mod2 P2 T2. }
  assert (W : add3 (add3 (mul3 Z3D ct) (mul3 (V3 c s 0) ((1 - ct) * dot3 Z3D (V3 c s 0))))
     (mul3 (cross3 (V3 c s 0) Z3D) st) = V3 (s * st) (- c * st) ct).
  { unfold Z3D. des. v_eq; ring. }
  rewrite V, W. clear V W.
  set (w := V3 (s * st) (- c * st) ct).
  assert (U : add3 (add3 (mul3 (V3 c s 0) cp) (mul3 w ((1 - cp) * dot3 (V3 c s 0) w))) (mul3 (cross3 w (V3 c s 0)) sp) =
     V3 (c * cp - s * ct * sp) (s * cp + c * ct * sp) (st * sp)).
  { unfold w. des. v_eq; try ring; mod2 P2 T2. }
  assert (V : add3 (add3 (mul3 (V3 (- s * ct) (c * ct) st) cp) (mul3 w ((1 - cp) * dot3 (V3 (- s * ct) (c * ct) st) w)))
     (mul3 (cross3 w (V3 (- s * ct) (c * ct) st)) sp) = V3 (- c * sp - s * ct * cp) (- s * sp + c * ct * cp) (st * cp)).
  { assert (D : dot3 (V3 (- s * ct) (c * ct) st) w = 0) by (unfold w; des; mod2 P2 T2). rewrite D. unfold w. des. v_eq; try ring; mod2 P2 T2. }
  rewrite U, V. unfold w, transfer_matrix3, mmul33. cbn [bu bv bw x3 y3 z3 m11 m12 m13 m21 m22 m23 m31 m32 m33].
  apply mat33_ext; cbn [m11 m12 m13 m21 m22 m23 m31 m32 m33]; ring.
Qed.

Lemma is_orthonormal_sound b tol : 0 <= tol -> is_orthonormal b tol = true ->
  Rabs (dot3 (bu b) (bv b)) < tol /\ Rabs (dot3 (bu b) (bw b)) < tol /\ Rabs (dot3 (bv b) (bw b)) < tol /\
  Rabs (norm3 (bu b) - 1) <= Rmax (/ 10 ^ 9 * Rmax (norm3 (bu b)) 1) tol /\
  Rabs (norm3 (bv b) - 1) <= Rmax (/ 10 ^ 9 * Rmax (norm3 (bv b)) 1) tol /\
  Rabs (norm3 (bw b) - 1) <= Rmax (/ 10 ^ 9 * Rmax (norm3 (bw b)) 1) tol.
Proof.
  intros Ht. unfold is_orthonormal, is_orthogonal, is_normalized. rewrite !andb_true_iff, !Rltb_spec.
  intros [[[A B] C] [[D E] F]].
  assert (G : forall n, 0 <= n -> isclose n 1 tol = true -> Rabs (n - 1) <= Rmax (/ 10 ^ 9 * Rmax n 1) tol).
  { intros n Hn. unfold isclose. intros H. rb. rewrite (Rabs_right n), (Rabs_right 1) in H by lra. exact H. }
  split; [exact A|]. split; [exact B|]. split; [exact C|]. split; [|split]; apply G; auto; apply norm3_pos.
Qed.
