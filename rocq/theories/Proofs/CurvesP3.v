(** Circles in 2D: construction, membership, distance, transformations. *)
From Coq Require Import Reals Lra Lia List Bool ZArith.
From Verif.Model Require Import Base RBase Vec Frame BBox Geometry Curves.
From Verif.Spec Require Import VecSpec FrameSpec BBoxSpec PlaneSpec CurvesSpec.
From Verif.Proofs Require Import VecP LineP FrameP GeometryP PlaneP CurvesP.
Import ListNotations.
Open Scope R_scope.

Lemma center_solves p1 p2 p3 c : det3p p1 p2 p3 <> 0 ->
  (2 * (x2 p1 - x2 p2) * x2 c + 2 * (y2 p1 - y2 p2) * y2 c = - (x2 p2 ^ 2 + y2 p2 ^ 2 - x2 p1 ^ 2 - y2 p1 ^ 2) /\
   2 * (x2 p1 - x2 p3) * x2 c + 2 * (y2 p1 - y2 p3) * y2 c = - (x2 p3 ^ 2 + y2 p3 ^ 2 - x2 p1 ^ 2 - y2 p1 ^ 2)) ->
  point_distance2 p2 c = point_distance2 p1 c /\ point_distance2 p3 c = point_distance2 p1 c.
Proof.
  intros _ [A B]. unfold point_distance2, norm2, sub2. cbn [x2 y2]. split; f_equal; lra.
Qed.
Lemma center_3_points_ok p1 p2 p3 : det3p p1 p2 p3 <> 0 -> exists c, circle_center_from_3_points p1 p2 p3 = Ok c /\ point_distance2 p2 c = point_distance2 p1 c /\ point_distance2 p3 c = point_distance2 p1 c.
Proof.
  intros D. unfold circle_center_from_3_points. cbv zeta. set (m := M22 (2 * (x2 p1 - x2 p2)) (2 * (y2 p1 - y2 p2)) (2 * (x2 p1 - x2 p3)) (2 * (y2 p1 - y2 p3))).
  assert (DM : det22 m = 4 * det3p p1 p2 p3) by (unfold det22, m, det3p, cross2, sub2; cbn [a11 a12 a21 a22 x2 y2]; ring). assert (DN : det22 m <> 0) by (rewrite DM; lra).
  unfold inverse22. cbv zeta. destruct (negb _).
  - eexists. split; [reflexivity|]. apply center_solves; auto. unfold mvec22, neg2. cbn [a11 a12 a21 a22 x2 y2].
    unfold det22 in DN. unfold det22. unfold m in *. cbn [a11 a12 a21 a22] in *. split; field; auto.
  - rewrite (proj2 (Reqb_false _ _)) by auto. eexists. split; [reflexivity|]. apply center_solves; auto. unfold neg2. cbn [x2 y2].
    unfold det22 in DN. unfold det22. unfold m in *. cbn [a11 a12 a21 a22] in *. split; field; auto.
Qed.
Lemma circle_3_points_ok p1 p2 p3 trigo : det3p p1 p2 p3 <> 0 -> exists c, circle2_from_3_points p1 p2 p3 trigo = Ok c /\ on_circle2 c p1 /\ on_circle2 c p2 /\ on_circle2 c p3 /\ orthonormal2 (fb2 (cf2 c)).
Proof.
  intros D. destruct (center_3_points_ok _ _ _ D) as (c & E & A & B). unfold circle2_from_3_points. rewrite E. cbn [bind]. eexists. split; [reflexivity|].
  unfold on_circle2, center2, circle2_of. cbn [cf2 cr2 org2 fb2]. split; [auto|]. split; [auto|]. split; [auto|]. destruct trigo; unfold orthonormal2, dot2, neg2, X2D, Y2D; cbn [u2 v2 x2 y2]; repeat split; ring.
Qed.
(** aligned points have no circle *)
Lemma circle_3_points_err p1 p2 p3 trigo : det3p p1 p2 p3 = 0 <-> circle2_from_3_points p1 p2 p3 trigo = Err ValueError.
Proof.
  split.
  - intros D. unfold circle2_from_3_points, circle_center_from_3_points. cbv zeta. set (m := M22 _ _ _ _). assert (DM : det22 m = 0) by (transitivity (4 * det3p p1 p2 p3); [unfold det22, m, det3p, cross2, sub2; cbn [a11 a12 a21 a22 x2 y2]; ring|rewrite D; ring]).
    unfold inverse22. cbv zeta. rewrite DM. rewrite (proj2 (isclose_0 0 (/ 10 ^ 10) ltac:(left; apply pow10_inv_pos))) by (rewrite Rabs_R0; left; apply pow10_inv_pos). cbn [negb]. rewrite Reqb_refl. reflexivity.
  - intros E. destruct (Req_dec (det3p p1 p2 p3) 0) as [|N]; auto. destruct (circle_3_points_ok p1 p2 p3 trigo N) as (c & E' & _). rewrite E' in E. discriminate.
Qed.
(** the circle through three points is unique *)
Lemma circle_unique p1 p2 p3 c c' : det3p p1 p2 p3 <> 0 -> point_distance2 p2 c = point_distance2 p1 c -> point_distance2 p3 c = point_distance2 p1 c ->
  point_distance2 p2 c' = point_distance2 p1 c' -> point_distance2 p3 c' = point_distance2 p1 c' -> c = c'.
Proof.
  intros D A B A' B'.
  assert (Q : forall p q k, point_distance2 p k = point_distance2 q k -> dot2 (sub2 p k) (sub2 p k) = dot2 (sub2 q k) (sub2 q k)) by (intros p q k E; rewrite <- !norm2_sq; unfold point_distance2 in E; rewrite E; auto).
  apply Q in A, B, A', B'. unfold det3p in D. revert D A B A' B'. clear. destruct p1 as [a1 b1], p2 as [a2 b2], p3 as [a3 b3], c as [c d], c' as [c' d']. unfold dot2, sub2, cross2. cbn [x2 y2]. intros D A B A' B'.
  assert (E1 : (a2 - a1) * (c - c') + (b2 - b1) * (d - d') = 0) by lra. assert (E2 : (a3 - a1) * (c - c') + (b3 - b1) * (d - d') = 0) by lra.
  assert (F1 : ((a2 - a1) * (b3 - b1) - (b2 - b1) * (a3 - a1)) * (c - c') = 0) by (transitivity ((b3 - b1) * ((a2 - a1) * (c - c') + (b2 - b1) * (d - d')) - (b2 - b1) * ((a3 - a1) * (c - c') + (b3 - b1) * (d - d'))); [ring|rewrite E1, E2; ring]).
  assert (F2 : ((a2 - a1) * (b3 - b1) - (b2 - b1) * (a3 - a1)) * (d - d') = 0) by (transitivity ((a2 - a1) * ((a3 - a1) * (c - c') + (b3 - b1) * (d - d')) - (a3 - a1) * ((a2 - a1) * (c - c') + (b2 - b1) * (d - d'))); [ring|rewrite E1, E2; ring]).
  apply Rmult_integral in F1, F2. destruct F1 as [F1|F1], F2 as [F2|F2]; try tauto. f_equal; lra.
Qed.
(** ** membership and distance *)
Lemma circle_belongs_edge c p tol : circle2_point_belongs c p true tol = true <-> point_distance2 p (center2 c) <= cr2 c + tol.
Proof. unfold circle2_point_belongs. apply Rleb_spec. Qed.
Lemma circle_belongs_open c p tol : circle2_point_belongs c p false tol = true <-> point_distance2 p (center2 c) < cr2 c.
Proof. unfold circle2_point_belongs. apply Rltb_spec. Qed.
Lemma dist2_lip p q c : Rabs (point_distance2 p c - point_distance2 q c) <= point_distance2 p q.
Proof.
  pose proof (dist2_triangle p q c) as A. pose proof (dist2_triangle q p c) as B. rewrite (dist2_sym q p) in B. unfold Rabs. destruct (Rcase_abs _); lra.
Qed.
Lemma circle_distance_minimal c p q : on_circle2 c q -> circle2_point_distance c p <= point_distance2 p q.
Proof. unfold on_circle2, circle2_point_distance. intros <-. apply dist2_lip. Qed.
Lemma circle_distance_attained c p : 0 <= cr2 c -> exists q, on_circle2 c q /\ point_distance2 p q = circle2_point_distance c p.
Proof.
  intros Hr. unfold on_circle2, circle2_point_distance. set (o := center2 c). set (r := cr2 c) in *.
  destruct (Req_dec (point_distance2 p o) 0) as [Z|N].
  - exists (add2 o (V2 r 0)). assert (Q : forall k, 0 <= k -> norm2 (V2 k 0) = k) by (intros k Hk; unfold norm2; cbn [x2 y2]; apply sqrt_lem_1; nra).
    apply dist2_zero in Z. subst p. split.
    + unfold point_distance2. replace (sub2 (add2 o (V2 r 0)) o) with (V2 r 0) by (vec; v_eq; ring). auto.
    + rewrite (proj2 (dist2_zero o o) eq_refl). rewrite dist2_sym. unfold point_distance2. replace (sub2 (add2 o (V2 r 0)) o) with (V2 r 0) by (vec; v_eq; ring). rewrite Q, Rabs_left1; lra.
  - set (d := point_distance2 p o) in *. assert (DP : 0 < d) by (pose proof (norm2_pos (sub2 p o)) as K; fold (point_distance2 p o) in K; fold d in K; lra).
    exists (add2 o (mul2 (sub2 p o) (r / d))). split.
    + unfold point_distance2. replace (sub2 (add2 o (mul2 (sub2 p o) (r / d))) o) with (mul2 (sub2 p o) (r / d)) by (generalize (r / d); clear; intros; vec; v_eq; ring).
      rewrite norm2_scale. fold (point_distance2 p o). fold d. rewrite Rabs_pos_eq; [field; lra|]. apply Rmult_le_pos; [auto|left; apply Rinv_0_lt_compat; auto].
    + unfold point_distance2. replace (sub2 p (add2 o (mul2 (sub2 p o) (r / d)))) with (mul2 (sub2 p o) (1 - r / d)) by (generalize (r / d); clear; intros; vec; v_eq; ring).
      rewrite norm2_scale. fold (point_distance2 p o). fold d. rewrite <- (Rabs_pos_eq d) at 2 by lra. rewrite <- Rabs_mult. f_equal. field. lra.
Qed.
Lemma comp_le v : Rabs (x2 v) <= norm2 v /\ Rabs (y2 v) <= norm2 v.
Proof.
  split; (apply sq_le; [apply norm2_pos|]); rewrite <- Rabs_mult, Rabs_pos_eq, norm2_sq by apply Rle_0_sqr; unfold dot2; [pose proof (Rle_0_sqr (y2 v)) as Q|pose proof (Rle_0_sqr (x2 v)) as Q]; unfold Rsqr in Q; lra.
Qed.
(** the bounding rectangle contains the disk and is the smallest one *)
Lemma circle_rectangle_contains c p : point_distance2 p (center2 c) <= cr2 c -> in_rect (circle2_rectangle c) p.
Proof.
  intros H. unfold point_distance2 in H. destruct (comp_le (sub2 p (center2 c))) as [A B]. unfold in_rect, circle2_rectangle. cbn [rxmin rxmax rymin rymax].
  unfold sub2 in A, B. cbn [x2 y2] in A, B. fold (sub2 p (center2 c)) in A, B. assert (A' : Rabs (x2 p - x2 (center2 c)) <= cr2 c) by lra. assert (B' : Rabs (y2 p - y2 (center2 c)) <= cr2 c) by lra.
  revert A' B'. unfold Rabs. destruct (Rcase_abs _), (Rcase_abs _); intros; lra.
Qed.
Lemma circle_rectangle_smallest c b : 0 <= cr2 c -> (forall p, on_circle2 c p -> in_rect b p) ->
  rxmin b <= rxmin (circle2_rectangle c) /\ rxmax (circle2_rectangle c) <= rxmax b /\ rymin b <= rymin (circle2_rectangle c) /\ rymax (circle2_rectangle c) <= rymax b.
Proof.
  intros Hr H. set (o := center2 c). set (r := cr2 c) in *.
  assert (Q : forall v, dot2 v v = r * r -> in_rect b (add2 o v)).
  { intros v E. apply H. unfold on_circle2, point_distance2. fold o. replace (sub2 (add2 o v) o) with v by (vec; v_eq; ring). rewrite norm2_dot, E. apply sqrt_square. auto. }
  pose proof (Q (V2 r 0)) as Q1. pose proof (Q (V2 (- r) 0)) as Q2. pose proof (Q (V2 0 r)) as Q3. pose proof (Q (V2 0 (- r))) as Q4. unfold dot2, in_rect, add2 in *. cbn [x2 y2] in *.
  specialize (Q1 ltac:(ring)). specialize (Q2 ltac:(ring)). specialize (Q3 ltac:(ring)). specialize (Q4 ltac:(ring)). unfold circle2_rectangle. cbn [rxmin rxmax rymin rymax]. fold o r. lra.
Qed.
(** ** transformations *)
Lemma circle_translation_ok c o p : on_circle2 (circle2_translation c o) (add2 p o) <-> on_circle2 c p.
Proof.
  unfold on_circle2, circle2_translation, center2. cbn [cf2 cr2]. unfold frame2_translation. cbn [org2].
  replace (point_distance2 (add2 p o) (translation2 (org2 (cf2 c)) o)) with (point_distance2 p (org2 (cf2 c))); [tauto|]. symmetry. apply (translation2_dist p (org2 (cf2 c)) o).
Qed.
Lemma circle_axial_ok c l c' : circle2_axial_symmetry c l = Ok c' -> cr2 c' = cr2 c /\ axial_symmetry2 (center2 c) l = Ok (center2 c') /\
  forall p p', axial_symmetry2 p l = Ok p' -> (on_circle2 c p <-> on_circle2 c' p').
Proof.
  unfold circle2_axial_symmetry. destruct (axial_symmetry2 (center2 c) l) as [s|] eqn:E; [|discriminate]. cbn [bind]. intros H. apply Ok_inj in H. subst c'.
  assert (C : center2 (circle2_translation c (sub2 s (center2 c))) = s) by (unfold circle2_translation, center2, frame2_translation, translation2; cbn [cf2 org2]; vec; v_eq; ring).
  split; auto. split; [rewrite C; auto|]. intros p p' Ep. unfold on_circle2. rewrite C. rewrite (symmetry2_dist l p (center2 c) p' s Ep E). tauto.
Qed.
(** point_symmetric puts the centre at 2 * point *)
Lemma circle_point_symmetric_center c p : center2 (circle2_point_symmetric c p) = mul2 p 2.
Proof. unfold circle2_point_symmetric, circle2_translation, center2, frame2_translation, translation2. cbn [cf2 org2]. vec; v_eq; ring. Qed.
Lemma circle_point_symmetric_wrong : exists c p q, on_circle2 c q /\ ~ on_circle2 (circle2_point_symmetric c p) (sub2 (mul2 p 2) q).
Proof.
  exists (circle2_of (V2 3 0) 1 true), (V2 0 0), (V2 4 0). unfold on_circle2. rewrite circle_point_symmetric_center. unfold circle2_of, center2, circle2_point_symmetric, circle2_translation. cbn [cf2 cr2 org2].
  assert (Q : forall a b, point_distance2 (V2 a 0) (V2 b 0) = Rabs (a - b)). { intros a b. unfold point_distance2, norm2, sub2. cbn [x2 y2]. replace ((a - b) * (a - b) + (0 - 0) * (0 - 0)) with (Rsqr (a - b)) by (unfold Rsqr; ring). apply sqrt_Rsqr_abs. }
  split; [rewrite Q, Rabs_pos_eq; lra|]. replace (sub2 (mul2 (V2 0 0) 2) (V2 4 0)) with (V2 (-4) 0) by (vec; v_eq; ring). replace (mul2 (V2 0 0) 2) with (V2 0 0) by (vec; v_eq; ring). rewrite Q, Rabs_left; lra.
Qed.
Lemma circle_rotation_ok c o a p : point_distance2 o (center2 c) = 0 \/ / 10 ^ 6 < point_distance2 o (center2 c) -> on_circle2 (circle2_rotation c o a) (rotation2 p o a) <-> on_circle2 c p.
Proof.
  intros H. unfold on_circle2, circle2_rotation, center2. cbn [cf2 cr2]. unfold frame2_rotation. cbn [org2]. fold (center2 c).
  assert (E : (if is_close2 o (center2 c) (/ 10 ^ 6) then center2 c else rotation2 (center2 c) o a) = rotation2 (center2 c) o a).
  { pose proof (pow10_inv_pos 6) as P6. destruct (is_close2 o (center2 c) (/ 10 ^ 6)) eqn:C; auto. apply is_close2_spec in C; [|lra]. destruct H as [H|H]; [|lra]. apply dist2_zero in H. rewrite H, rotation2_center. auto. }
  rewrite E, rotation2_dist. tauto.
Qed.
Lemma circle_reverse_ok c p : on_circle2 (circle2_reverse c) p <-> on_circle2 c p.
Proof. reflexivity. Qed.
(** ** area, length and moments: scaling laws and additivity of the moment *)
Lemma circle_moment_shift c p : 0 <= cr2 c -> let '(ix, iy, ixy) := circle2_second_moment c p in
  ix = PI * cr2 c ^ 4 / 4 + PI * cr2 c ^ 2 * (y2 (center2 c) - y2 p) ^ 2 /\ iy = PI * cr2 c ^ 4 / 4 + PI * cr2 c ^ 2 * (x2 (center2 c) - x2 p) ^ 2 /\
  ixy = - (PI * cr2 c ^ 2) * (x2 (center2 c) - x2 p) * (y2 (center2 c) - y2 p).
Proof. intros _. unfold circle2_second_moment, huygens2d, circle2_area, sub2. cbn [x2 y2]. repeat split; ring. Qed.
