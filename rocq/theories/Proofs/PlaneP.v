(** Planes: distance, membership, constructors, plane / line. *)
From Coq Require Import Reals Lra Lia List Bool ZArith.
From Verif.Model Require Import Base RBase Vec Frame Geometry Plane.
From Verif.Spec Require Import VecSpec FrameSpec PlaneSpec.
From Verif.Proofs Require Import VecP LineP FrameP FrameP2 GeometryP.
Open Scope R_scope.

Lemma p10 d : 0 < 10 ^ d. Proof. apply pow_lt. lra. Qed.
Lemma py_round_err d x : Rabs (py_round d x - x) <= / 10 ^ d / 2.
Proof.
  unfold py_round. cbv zeta. set (y := x * 10 ^ d). set (n := rfloor (y + 1 / 2)). pose proof (floor_spec (y + 1 / 2)) as F. fold n in F.
  pose proof (p10 d) as P.
  assert (K : forall m : R, Rabs (m - y) <= 1 / 2 -> Rabs (m / 10 ^ d - x) <= / 10 ^ d / 2).
  { intros m Hm. replace (m / 10 ^ d - x) with ((m - y) / 10 ^ d) by (unfold y; field; lra).
    unfold Rdiv. rewrite Rabs_mult, (Rabs_pos_eq (/ 10 ^ d)) by (left; apply Rinv_0_lt_compat; auto).
    assert (0 < / 10 ^ d) by (apply Rinv_0_lt_compat; auto). nra. }
  apply K. destruct (Reqb (IZR n) (y + 1 / 2) && Z.odd n) eqn:E.
  - apply andb_prop in E as [E _]. rb. rewrite minus_IZR. unfold Rabs. destruct (Rcase_abs _); lra.
  - unfold Rabs. destruct (Rcase_abs _); lra.
Qed.
(** the result is a multiple of 10^-d *)
Lemma py_round_grid d x : exists n : Z, py_round d x = IZR n / 10 ^ d.
Proof. unfold py_round. cbv zeta. eexists. reflexivity. Qed.
Lemma py_round_fixed d n : py_round d (IZR n / 10 ^ d) = IZR n / 10 ^ d.
Proof.
  pose proof (p10 d). unfold py_round. cbv zeta. replace (IZR n / 10 ^ d * 10 ^ d) with (IZR n) by (field; lra).
  assert (E : rfloor (IZR n + 1 / 2) = n).
  { pose proof (floor_spec (IZR n + 1 / 2)) as F. assert (A : IZR (rfloor (IZR n + 1 / 2)) < IZR (n + 1)) by (rewrite plus_IZR; lra).
    assert (B : IZR n < IZR (rfloor (IZR n + 1 / 2) + 1)) by (rewrite plus_IZR; lra). apply lt_IZR in A, B. lia. }
  rewrite E. assert (Q : Reqb (IZR n) (IZR n + 1 / 2) = false) by (apply Reqb_false; lra). rewrite Q. reflexivity.
Qed.

(** ** point_distance, point_belongs *)
Lemma plane_belongs_spec f p tol : 0 <= tol -> (plane_point_belongs f p tol = true <-> Rabs (plane_height f p) <= tol).
Proof.
  intros H. unfold plane_point_belongs, plane_height. rewrite dot3_sym. apply isclose_0. auto.
Qed.
Lemma height_minimal f p q : dot3 (bw (fb3 f)) (bw (fb3 f)) = 1 -> on_plane f q -> Rabs (plane_height f p) <= point_distance3 p q.
Proof.
  unfold on_plane, plane_height. intros W Q. pose proof (VecP.cauchy3 (sub3 p q) (bw (fb3 f))) as C. rewrite (dot3_1 _ W), Rmult_1_r in C.
  replace (dot3 (sub3 p (org3 f)) (bw (fb3 f))) with (dot3 (sub3 p q) (bw (fb3 f))); auto.
  assert (E : dot3 (sub3 p (org3 f)) (bw (fb3 f)) = dot3 (sub3 p q) (bw (fb3 f)) + dot3 (sub3 q (org3 f)) (bw (fb3 f))) by (vec; ring). rewrite E, Q. ring.
Qed.
Lemma height_attained f p : dot3 (bw (fb3 f)) (bw (fb3 f)) = 1 -> exists q, on_plane f q /\ point_distance3 p q = Rabs (plane_height f p).
Proof.
  intros W. exists (sub3 p (mul3 (bw (fb3 f)) (plane_height f p))). split.
  - unfold on_plane. assert (E : dot3 (sub3 (sub3 p (mul3 (bw (fb3 f)) (plane_height f p))) (org3 f)) (bw (fb3 f)) = plane_height f p - plane_height f p * dot3 (bw (fb3 f)) (bw (fb3 f))).
    { unfold plane_height. vec. ring. } rewrite E, W. ring.
  - unfold point_distance3. replace (sub3 p (sub3 p (mul3 (bw (fb3 f)) (plane_height f p)))) with (mul3 (bw (fb3 f)) (plane_height f p)) by (vec; v_eq; ring).
    rewrite norm3_scale, (dot3_1 _ W). ring.
Qed.
Lemma e12_pos : 0 < / 10 ^ 12. Proof. apply pow10_inv_pos. Qed.
Lemma coeff_norm a b c a' b' c' e : 0 <= e -> Rabs (a' - a) <= e -> Rabs (b' - b) <= e -> Rabs (c' - c) <= e ->
  Rabs (sqrt (a' ^ 2 + b' ^ 2 + c' ^ 2) - sqrt (a ^ 2 + b ^ 2 + c ^ 2)) <= 2 * e.
Proof.
  intros He Ha Hb Hc.
  assert (N : forall x y z, sqrt (x ^ 2 + y ^ 2 + z ^ 2) = norm3 (V3 x y z)). { intros. unfold norm3. cbn [x3 y3 z3]. f_equal. ring. }
  rewrite !N. assert (T : norm3 (V3 (a' - a) (b' - b) (c' - c)) <= 2 * e).
  { apply sq_le; [lra|]. rewrite norm3_sq. unfold dot3. cbn [x3 y3 z3].
    assert (S : forall t, Rabs t <= e -> t * t <= e * e). { intros t Ht. rewrite <- (Rabs_pos_eq e) in Ht by auto. apply Rsqr_le_abs_1 in Ht. exact Ht. }
    pose proof (S _ Ha). pose proof (S _ Hb). pose proof (S _ Hc). nra. }
  pose proof (norm3_triangle (V3 a b c) (V3 (a' - a) (b' - b) (c' - c))) as T1.
  pose proof (norm3_triangle (V3 a' b' c') (V3 (a - a') (b - b') (c - c'))) as T2.
  assert (E1 : add3 (V3 a b c) (V3 (a' - a) (b' - b) (c' - c)) = V3 a' b' c') by (vec; v_eq; ring).
  assert (E2 : add3 (V3 a' b' c') (V3 (a - a') (b - b') (c - c')) = V3 a b c) by (vec; v_eq; ring).
  assert (E3 : norm3 (V3 (a - a') (b - b') (c - c')) = norm3 (V3 (a' - a) (b' - b) (c' - c))). { unfold norm3. cbn [x3 y3 z3]. f_equal. ring. }
  rewrite E1 in T1. rewrite E2, E3 in T2. unfold Rabs. destruct (Rcase_abs _); lra.
Qed.
Lemma plane_distance_spec f p : dot3 (bw (fb3 f)) (bw (fb3 f)) = 1 -> exists d, plane_point_distance f p = Ok d /\ Rabs (d - Rabs (plane_height f p)) <= / 10 ^ 12 * (1 + 2 * Rabs (plane_height f p)).
Proof.
  intros W. unfold plane_point_distance, plane_coefficients. set (e := / 10 ^ 12). assert (He : 0 < e) by apply e12_pos. assert (He1 : e <= / 4) by (unfold e; lra).
  set (d := py_round 12 (- dot3 (org3 f) (bw (fb3 f)))).
  pose proof (coeff_norm _ _ _ _ _ _ (e / 2) ltac:(lra) (py_round_err 12 (x3 (bw (fb3 f)))) (py_round_err 12 (y3 (bw (fb3 f)))) (py_round_err 12 (z3 (bw (fb3 f))))) as C.
  pose proof (py_round_err 12 (- dot3 (org3 f) (bw (fb3 f)))) as D. fold d e in D.
  set (n := sqrt (py_round 12 (x3 (bw (fb3 f))) ^ 2 + py_round 12 (y3 (bw (fb3 f))) ^ 2 + py_round 12 (z3 (bw (fb3 f))) ^ 2)) in *.
  replace (sqrt (x3 (bw (fb3 f)) ^ 2 + y3 (bw (fb3 f)) ^ 2 + z3 (bw (fb3 f)) ^ 2)) with 1 in C.
  2:{ symmetry. rewrite <- sqrt_1. f_equal. rewrite <- W. unfold dot3. ring. }
  assert (N : 1 - e <= n <= 1 + e) by (revert C; unfold Rabs; destruct (Rcase_abs _); lra).
  assert (Q : Reqb n 0 = false) by (apply Reqb_false; lra). rewrite Q. eexists; split; [reflexivity|].
  set (h := plane_height f p). set (m := dot3 (bw (fb3 f)) p + d).
  assert (M : Rabs (m - h) <= e / 2). { replace (m - h) with (d - - dot3 (org3 f) (bw (fb3 f))); auto. unfold m, h, plane_height. vec. ring. }
  assert (M2 : Rabs (Rabs m - Rabs h) <= e / 2) by (eapply Rle_trans; [apply Rabs_triang_inv2|auto]).
  pose proof (Rabs_pos h) as Hh. pose proof (Rabs_pos m) as Hm. clearbody m h. generalize dependent (Rabs m). generalize dependent (Rabs h). clear - N He He1.
  intros h Hh m M2 Hm. replace (m / n - h) with ((m - h * n) / n) by (field; lra). unfold Rdiv. rewrite Rabs_mult, (Rabs_pos_eq (/ n)) by (left; apply Rinv_0_lt_compat; lra).
  apply Rmult_le_reg_r with n; [lra|]. rewrite Rmult_assoc, Rinv_l, Rmult_1_r by lra.
  assert (A : Rabs (m - h * n) <= e / 2 + h * e). { replace (m - h * n) with ((m - h) + h * (1 - n)) by ring. eapply Rle_trans; [apply Rabs_triang|]. rewrite Rabs_mult, (Rabs_pos_eq h) by auto.
    assert (Rabs (1 - n) <= e) by (unfold Rabs; destruct (Rcase_abs _); lra). nra. }
  assert (B : 0 <= e * (1 + 2 * h)) by nra. pose proof (Rmult_le_compat_l _ (3 / 4) n B ltac:(lra)). nra.
Qed.

(** ** constructors *)
Lemma direct_of a n : dot3 a a = 1 -> dot3 n n = 1 -> dot3 a n = 0 -> direct (B3 a (cross3 n a) n).
Proof.
  intros A N P. assert (P' : dot3 n a = 0) by (rewrite dot3_sym; auto).
  repeat split; cbn [bu bv bw]; auto.
  - rewrite lagrange3, A, N, P'. ring.
  - rewrite dot3_sym. apply cross3_perp_r.
  - apply cross3_perp_l.
  - rewrite double_cross, A, P. vec. v_eq; ring.
Qed.
Lemma unit_dot u n : unit_vector3 u = Ok n -> dot3 n n = 1.
Proof. intros H. apply norm3_1. apply (unit3_spec _ _ H). Qed.
Lemma plane_3_points_ok p1 p2 p3 f : plane_from_3_points p1 p2 p3 = Ok f ->
  direct (fb3 f) /\ org3 f = p1 /\ on_plane f p1 /\ on_plane f p2 /\ on_plane f p3 /\
  (exists k, 0 < k /\ sub3 p2 p1 = mul3 (bu (fb3 f)) k) /\
  (exists k, 0 < k /\ cross3 (sub3 p2 p1) (sub3 p3 p1) = mul3 (bw (fb3 f)) k).
Proof.
  unfold plane_from_3_points, bind. destruct (unit_vector3 (sub3 p2 p1)) as [a|] eqn:E1; [|discriminate].
  destruct (unit_vector3 (sub3 p3 p1)) as [b|] eqn:E2; [|discriminate]. destruct (unit_vector3 (cross3 a b)) as [n|] eqn:E3; [|discriminate].
  intros E. apply Ok_inj in E. subst f. cbn [fb3 org3 bu bv bw].
  pose proof (unit_dot _ _ E1) as A. pose proof (unit_dot _ _ E3) as N.
  pose proof (unit3_spec _ _ E1) as (_ & SA & PA). pose proof (unit3_spec _ _ E2) as (_ & SB & PB). pose proof (unit3_spec _ _ E3) as (_ & SN & PN).
  destruct (proj1 (unit3_ok _ _) E3) as [_ EN].
  assert (AN : dot3 a n = 0) by (rewrite dot3_sym, EN, dot3_mul_l, cross3_perp_l; ring).
  assert (BN : dot3 b n = 0) by (rewrite dot3_sym, EN, dot3_mul_l, cross3_perp_r; ring).
  clear EN.
  split; [apply direct_of; auto|]. split; auto. unfold on_plane. cbn [fb3 org3 bw].
  split; [vec; ring|]. split; [rewrite <- SA, dot3_mul_l, AN; ring|]. split; [rewrite <- SB, dot3_mul_l, BN; ring|]. split.
  - eexists. split; [exact PA|]. auto.
  - exists (norm3 (sub3 p2 p1) * norm3 (sub3 p3 p1) * norm3 (cross3 a b)). split; [apply Rmult_lt_0_compat; auto; apply Rmult_lt_0_compat; auto|].
    set (ka := norm3 (sub3 p2 p1)) in *. set (kb := norm3 (sub3 p3 p1)) in *. rewrite <- SA, <- SB.
    replace (mul3 n (ka * kb * norm3 (cross3 a b))) with (mul3 (mul3 n (norm3 (cross3 a b))) (ka * kb)) by (generalize (norm3 (cross3 a b)); intros; vec; v_eq; ring).
    rewrite SN. vec. v_eq; ring.
Qed.
