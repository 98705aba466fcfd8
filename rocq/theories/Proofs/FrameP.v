(** Matrices, bases, frames. *)
From Coq Require Import Reals Lra Lia List Bool Psatz.
From Verif.Model Require Import RBase Vec Frame.
From Verif.Spec Require Import VecSpec.
From Verif.Proofs Require Import VecP LineP.
Open Scope R_scope.

Lemma mat33_ext a b : m11 a = m11 b -> m12 a = m12 b -> m13 a = m13 b -> m21 a = m21 b -> m22 a = m22 b -> m23 a = m23 b ->
  m31 a = m31 b -> m32 a = m32 b -> m33 a = m33 b -> a = b.
Proof. destruct a, b; cbn; intros; subst; reflexivity. Qed.
Lemma mat22_ext a b : a11 a = a11 b -> a12 a = a12 b -> a21 a = a21 b -> a22 a = a22 b -> a = b.
Proof. destruct a, b; cbn; intros; subst; reflexivity. Qed.

Ltac mat := intros; repeat match goal with m : mat33 |- _ => 
    let a := fresh "e" in let b := fresh "e" in let c := fresh "e" in let d := fresh "e" in let e := fresh "e" in
    let f := fresh "e" in let g := fresh "e" in let h := fresh "e" in let i := fresh "e" in destruct m as [a b c d e f g h i]
  | m : mat22 |- _ => let a := fresh "e" in let b := fresh "e" in let c := fresh "e" in let d := fresh "e" in destruct m as [a b c d] end;
  unfold mmul33, madd33, det33, float_multiplication33, mmul22, madd22, det22, I22, I33 in *;
  cbn [m11 m12 m13 m21 m22 m23 m31 m32 m33 a11 a12 a21 a22] in *.

Lemma mmul33_assoc a b c : mmul33 (mmul33 a b) c = mmul33 a (mmul33 b c).
Proof. mat. apply mat33_ext; cbn; ring. Qed.
Lemma mmul22_assoc a b c : mmul22 (mmul22 a b) c = mmul22 a (mmul22 b c).
Proof. mat. apply mat22_ext; cbn; ring. Qed.
Lemma mmul33_add a b c : mmul33 a (madd33 b c) = madd33 (mmul33 a b) (mmul33 a c).
Proof. mat. apply mat33_ext; cbn; ring. Qed.
Lemma mmul33_scale a b k : mmul33 (float_multiplication33 a k) b = float_multiplication33 (mmul33 a b) k.
Proof. mat. apply mat33_ext; cbn; ring. Qed.
Lemma mmul33_id a : mmul33 I33 a = a /\ mmul33 a I33 = a.
Proof. mat. split; apply mat33_ext; cbn; ring. Qed.
Lemma mmul22_id a : mmul22 I22 a = a /\ mmul22 a I22 = a.
Proof. mat. split; apply mat22_ext; cbn; ring. Qed.
Lemma det33_mul a b : det33 (mmul33 a b) = det33 a * det33 b.
Proof. mat. ring. Qed.
Lemma det22_mul a b : det22 (mmul22 a b) = det22 a * det22 b.
Proof. mat. ring. Qed.
Lemma det33_scale a k : det33 (float_multiplication33 a k) = k ^ 3 * det33 a.
Proof. mat. ring. Qed.

Lemma inverse33_ok m n : inverse33 m = Ok n -> mmul33 m n = I33 /\ mmul33 n m = I33 /\ / 10 ^ 12 < Rabs (det33 m).
Proof.
  unfold inverse33. destruct (Rleb _ _) eqn:E; cbn [negb]; [discriminate|]. rb. intros H; apply Ok_inj in H; subst n.
  assert (N : det33 m <> 0). { intros C. rewrite C, Rabs_R0 in E. pose proof (pow10_inv_pos 12). lra. }
  split; [|split; auto]; clear E; mat; apply mat33_ext; cbn [m11 m12 m13 m21 m22 m23 m31 m32 m33]; field; auto.
Qed.
Lemma inverse33_err m e : inverse33 m = Err e <-> Rabs (det33 m) <= / 10 ^ 12 /\ e = ValueError.
Proof.
  unfold inverse33. destruct (Rleb _ _) eqn:E; cbn [negb]; rb; split; try discriminate; try lra.
  - intros H. split; congruence.
  - intros [_ ->]; auto.
Qed.
Lemma inverse33_total m : / 10 ^ 12 < Rabs (det33 m) -> exists n, inverse33 m = Ok n.
Proof. intros H. unfold inverse33. destruct (Rleb _ _) eqn:E; cbn [negb]; rb; [lra|eauto]. Qed.
Lemma inverse22_ok m n : inverse22 m = Ok n -> mmul22 m n = I22 /\ mmul22 n m = I22 /\ / 10 ^ 10 < Rabs (det22 m).
Proof.
  unfold inverse22. destruct (isclose _ _ _) eqn:E; cbn [negb]; [discriminate|].
  apply isclose_0_false in E; [|apply Rlt_le, pow10_inv_pos]. intros H; apply Ok_inj in H; subst n.
  assert (N : det22 m <> 0). { intros C. rewrite C, Rabs_R0 in E. pose proof (pow10_inv_pos 10). lra. }
  split; [|split; auto]; clear E; mat; apply mat22_ext; cbn [a11 a12 a21 a22]; field; auto.
Qed.
Lemma inverse22_err m e : inverse22 m = Err e <-> Rabs (det22 m) <= / 10 ^ 10 /\ e = ValueError.
Proof.
  assert (P := Rlt_le _ _ (pow10_inv_pos 10)).
  unfold inverse22. destruct (isclose _ _ _) eqn:E; cbn [negb].
  - apply isclose_0 in E; auto. split; [intros H; split; congruence|intros [_ ->]; auto].
  - apply isclose_0_false in E; auto. split; [discriminate|lra].
Qed.
Lemma inverse22_total m : / 10 ^ 10 < Rabs (det22 m) -> exists n, inverse22 m = Ok n.
Proof.
  intros H. destruct (inverse22 m) as [n|e] eqn:E; [eauto|]. apply inverse22_err in E. lra.
Qed.
(** An invertible matrix of small scale is rejected. *)
Lemma inverse33_small : inverse33 (M33 (/ 10 ^ 5) 0 0 0 (/ 10 ^ 5) 0 0 0 (/ 10 ^ 5)) = Err ValueError.
Proof.
  apply inverse33_err. split; auto. unfold det33. cbn [m11 m12 m13 m21 m22 m23 m31 m32 m33].
  match goal with |- Rabs ?x <= _ => replace x with (/ 10 ^ 15) by (simpl; field) end.
  rewrite Rabs_right by (apply Rle_ge, Rlt_le, pow10_inv_pos).
  apply Rinv_le_contravar; [lra|]. lra.
Qed.

(** ** 2D frames: exact *)
Lemma mvec22_mul a b v : mvec22 (mmul22 a b) v = mvec22 a (mvec22 b v).
Proof. unfold mvec22. mat. destruct v. cbn. v_eq; ring. Qed.
Lemma mvec22_id v : mvec22 I22 v = v.
Proof. unfold mvec22, I22. destruct v. cbn. v_eq; ring. Qed.
Lemma basis2_g2l_l2g b v l : basis2_g2l b v = Ok l -> basis2_l2g b l = v.
Proof.
  unfold basis2_g2l, basis2_l2g, bind. destruct (inverse22 _) as [n|] eqn:E; [|discriminate]. intros H; apply Ok_inj in H; subst l.
  apply inverse22_ok in E as (E & _ & _). rewrite <- mvec22_mul, E. apply mvec22_id.
Qed.
Lemma basis2_l2g_g2l b v : / 10 ^ 10 < Rabs (det22 (transfer_matrix2 b)) -> basis2_g2l b (basis2_l2g b v) = Ok v.
Proof.
  intros H. destruct (inverse22_total _ H) as [n E]. unfold basis2_g2l, basis2_l2g, bind. rewrite E. apply f_equal.
  apply inverse22_ok in E as (_ & E & _). rewrite <- mvec22_mul, E. apply mvec22_id.
Qed.
Lemma frame2_g2l_l2g f v l : frame2_g2l f v = Ok l -> frame2_l2g f l = v.
Proof.
  unfold frame2_g2l, frame2_l2g. intros H. apply basis2_g2l_l2g in H. rewrite H. vec. destruct f as [[] ?]. cbn. v_eq; ring.
Qed.
Lemma frame2_l2g_g2l f v : / 10 ^ 10 < Rabs (det22 (transfer_matrix2 (fb2 f))) -> frame2_g2l f (frame2_l2g f v) = Ok v.
Proof.
  unfold frame2_g2l, frame2_l2g. intros H.
  replace (sub2 (add2 (basis2_l2g (fb2 f) v) (org2 f)) (org2 f)) with (basis2_l2g (fb2 f) v).
  - apply basis2_l2g_g2l; auto.
  - generalize (basis2_l2g (fb2 f) v) as x, (org2 f) as y. vec. v_eq; ring.
Qed.
Lemma transfer_of_mat2 m : transfer_matrix2 (B2 (V2 (a11 m) (a21 m)) (V2 (a12 m) (a22 m))) = m.
Proof. destruct m; reflexivity. Qed.
Lemma frame2_add_l2g f g v : frame2_l2g (frame2_add f g) v = frame2_l2g f (frame2_l2g g v).
Proof.
  unfold frame2_l2g, frame2_add, basis2_l2g. cbn [fb2 org2]. rewrite transfer_of_mat2, mvec22_mul.
  generalize (transfer_matrix2 (fb2 f)) as m. generalize (mvec22 (transfer_matrix2 (fb2 g)) v) as w, (org2 g) as o, (org2 f) as o'.
  intros. unfold mvec22. vec. v_eq; ring.
Qed.
Lemma frame2_mapping_roundtrip g f h : frame2_mapping_new g f = Ok h -> frame2_mapping_old h f = g.
Proof.
  unfold frame2_mapping_new, frame2_mapping_old, bind.
  destruct (frame2_g2l f (org2 g)) eqn:E1; [|discriminate].
  destruct (basis2_g2l (fb2 f) (u2 (fb2 g))) eqn:E2; [|discriminate].
  destruct (basis2_g2l (fb2 f) (v2 (fb2 g))) eqn:E3; [|discriminate].
  intros H; apply Ok_inj in H; subst h. cbn [org2 fb2 u2 v2].
  apply frame2_g2l_l2g in E1. apply basis2_g2l_l2g in E2. apply basis2_g2l_l2g in E3.
  rewrite E1, E2, E3. destruct g as [o []]; reflexivity.
Qed.
(** Mapping a frame commutes with mapping points given in that frame. *)
Lemma frame2_mapping_old_points g f v : frame2_l2g (frame2_mapping_old g f) v = frame2_l2g f (frame2_l2g g v).
Proof.
  unfold frame2_mapping_old, frame2_l2g, basis2_l2g, transfer_matrix2, mvec22. destruct g as [[] [[] []]], f as [[] [[] []]], v.
  cbn. unfold add2. cbn. v_eq; ring.
Qed.
Lemma frame2_rotation_points f c a v : / 10 ^ 6 < point_distance2 c (org2 f) ->
  frame2_l2g (frame2_rotation f c a true) v = rotation2 (frame2_l2g f v) c a.
Proof.
  intros H. unfold frame2_rotation.
  destruct (is_close2 c (org2 f) (/ 10 ^ 6)) eqn:E.
  - apply is_close2_spec in E; [lra|apply Rlt_le, pow10_inv_pos].
  - clear H E. unfold frame2_l2g, basis2_l2g, transfer_matrix2, mvec22, basis2_rotation, rotation2, O2D.
    destruct f as [[] [[] []]], v, c. cbn. unfold add2, sub2. cbn. v_eq; ring.
Qed.
Lemma frame2_translation_points f o v : frame2_l2g (frame2_translation f o) v = translation2 (frame2_l2g f v) o.
Proof.
  unfold frame2_translation, frame2_l2g, translation2. cbn [fb2 org2]. generalize (basis2_l2g (fb2 f) v) as w, (org2 f) as q. vec. v_eq; ring.
Qed.

(** ** 3D frames: exact up to the 1e-16 snapping *)
Lemma eps_pos : 0 < eps. Proof. apply pow10_inv_pos. Qed.
Lemma snap_err u : Rabs (snap u - u) <= eps.
Proof.
  unfold snap. fold eps. destruct (Rltb (Rabs u) eps) eqn:E; rb.
  - replace (0 - u) with (- u) by ring. rewrite Rabs_Ropp. lra.
  - replace (u - u) with 0 by ring. rewrite Rabs_R0. apply Rlt_le, eps_pos.
Qed.
Lemma snap_exact u : u = 0 \/ eps <= Rabs u -> snap u = u.
Proof.
  unfold snap. fold eps. intros [->|H].
  - destruct (Rltb _ _); auto.
  - destruct (Rltb (Rabs u) eps) eqn:E; auto. rb. lra.
Qed.
(** exact matrix-vector product *)
Lemma mvec33_snap m v : mvec33 m v = V3 (snap (x3 (mapply m v))) (snap (y3 (mapply m v))) (snap (z3 (mapply m v))).
Proof. reflexivity. Qed.
Lemma mapply_mul a b v : mapply (mmul33 a b) v = mapply a (mapply b v).
Proof. unfold mapply. mat. destruct v. cbn. v_eq; ring. Qed.
Lemma mapply_id v : mapply I33 v = v.
Proof. unfold mapply, I33. destruct v. cbn. v_eq; ring. Qed.

(** Componentwise closeness *)
Lemma mvec33_near m v : near eps (mvec33 m v) (mapply m v).
Proof. rewrite mvec33_snap. repeat split; cbn; apply snap_err. Qed.
Lemma near_trans k l u v w : near k u v -> near l v w -> near (k + l) u w.
Proof.
  intros (A & B & C) (D & E & F). 
  assert (G : forall a b c, Rabs (a - b) <= k -> Rabs (b - c) <= l -> Rabs (a - c) <= k + l).
  { intros a b c H1 H2. replace (a - c) with ((a - b) + (b - c)) by ring. eapply Rle_trans; [apply Rabs_triang|lra]. }
  repeat split; eauto.
Qed.
Lemma near_weaken k l u v : near k u v -> k <= l -> near l u v.
Proof. intros (A & B & C) H. repeat split; lra. Qed.
(** all entries bounded *)
Lemma row_lip K k a b c x y z x' y' z' : 0 <= k -> Rabs a <= K -> Rabs b <= K -> Rabs c <= K ->
  Rabs (x - x') <= k -> Rabs (y - y') <= k -> Rabs (z - z') <= k ->
  Rabs (a * x + b * y + c * z - (a * x' + b * y' + c * z')) <= 3 * K * k.
Proof.
  intros Hk A B C X Y Z.
  replace (a * x + b * y + c * z - (a * x' + b * y' + c * z')) with (a * (x - x') + (b * (y - y') + c * (z - z'))) by ring.
  eapply Rle_trans; [apply Rabs_triang|]. pose proof (Rabs_triang (b * (y - y')) (c * (z - z'))).
  rewrite !Rabs_mult in *.
  pose proof (Rabs_pos a). pose proof (Rabs_pos b). pose proof (Rabs_pos c).
  pose proof (Rabs_pos (x - x')). pose proof (Rabs_pos (y - y')). pose proof (Rabs_pos (z - z')).
  assert (Rabs a * Rabs (x - x') <= K * k) by (apply Rmult_le_compat; auto).
  assert (Rabs b * Rabs (y - y') <= K * k) by (apply Rmult_le_compat; auto).
  assert (Rabs c * Rabs (z - z') <= K * k) by (apply Rmult_le_compat; auto). lra.
Qed.
Lemma mapply_lip K k m u v : 0 <= k -> mbound K m -> near k u v -> near (3 * K * k) (mapply m u) (mapply m v).
Proof.
  intros Hk (A & B & C & D & E & F & G & H & I) (X & Y & Z). unfold mapply. repeat split; cbn [x3 y3 z3]; apply row_lip; auto.
Qed.

Lemma basis3_roundtrip_gl b v l K : 0 <= K -> mbound K (transfer_matrix3 b) -> basis3_g2l b v = Ok l ->
  near ((1 + 3 * K) * eps) (basis3_l2g b l) v.
Proof.
  intros HK HB. unfold basis3_g2l, basis3_l2g, bind. destruct (inverse33 _) as [n|] eqn:E; [|discriminate].
  intros H; apply Ok_inj in H; subst l. apply inverse33_ok in E as (E & _ & _).
  set (P := transfer_matrix3 b) in *.
  assert (E2 : mapply P (mapply n v) = v) by (rewrite <- mapply_mul, E; apply mapply_id).
  apply near_weaken with (eps + 3 * K * eps); [|lra].
  eapply near_trans; [apply mvec33_near|]. rewrite <- E2 at 2.
  apply mapply_lip; auto; [apply Rlt_le, eps_pos|]. apply mvec33_near.
Qed.
Lemma basis3_roundtrip_lg b v n K : 0 <= K -> inverse33 (transfer_matrix3 b) = Ok n -> mbound K n ->
  exists l, basis3_g2l b (basis3_l2g b v) = Ok l /\ near ((1 + 3 * K) * eps) l v.
Proof.
  intros HK E HB. unfold basis3_g2l, basis3_l2g, bind. rewrite E. eexists; split; [reflexivity|].
  apply inverse33_ok in E as (_ & E & _). set (P := transfer_matrix3 b) in *.
  assert (E2 : mapply n (mapply P v) = v) by (rewrite <- mapply_mul, E; apply mapply_id).
  apply near_weaken with (eps + 3 * K * eps); [|lra].
  eapply near_trans; [apply mvec33_near|]. rewrite <- E2 at 2.
  apply mapply_lip; auto; [apply Rlt_le, eps_pos|]. apply mvec33_near.
Qed.
Lemma near_add k u v o : near k u v -> near k (add3 u o) (add3 v o).
Proof.
  intros (A & B & C). unfold near, add3 in *. cbn [x3 y3 z3] in *.
  repeat split; match goal with |- Rabs (?a + ?c - (?b + ?c)) <= _ => replace (a + c - (b + c)) with (a - b) by ring end; auto.
Qed.
Lemma frame3_roundtrip_gl f v l K : 0 <= K -> mbound K (transfer_matrix3 (fb3 f)) -> frame3_g2l f v = Ok l ->
  near ((1 + 3 * K) * eps) (frame3_l2g f l) v.
Proof.
  intros HK HB H. unfold frame3_g2l in H. apply basis3_roundtrip_gl with (K := K) in H; auto.
  unfold frame3_l2g. replace v with (add3 (sub3 v (org3 f)) (org3 f)) at 1 by (generalize (org3 f); vec; v_eq; ring).
  apply near_add; auto.
Qed.
Lemma frame3_roundtrip_lg f v n K : 0 <= K -> inverse33 (transfer_matrix3 (fb3 f)) = Ok n -> mbound K n ->
  exists l, frame3_g2l f (frame3_l2g f v) = Ok l /\ near ((1 + 3 * K) * eps) l v.
Proof.
  intros HK HI HB. unfold frame3_g2l, frame3_l2g.
  replace (sub3 (add3 (basis3_l2g (fb3 f) v) (org3 f)) (org3 f)) with (basis3_l2g (fb3 f) v) by (symmetry; apply sub_add3).
  eapply basis3_roundtrip_lg; eauto.
Qed.

(** ** Orthonormal bases *)
Lemma sq1 a b c : a * a + b * b + c * c = 1 -> Rabs a <= 1 /\ Rabs b <= 1 /\ Rabs c <= 1.
Proof. intros. repeat split; apply Rabs_le; nra. Qed.
Lemma orthonormal_bound b : orthonormal b -> mbound 1 (transfer_matrix3 b).
Proof.
  intros (A & B & C & _). unfold dot3 in *. apply sq1 in A, B, C. unfold mbound, transfer_matrix3. cbn. tauto.
Qed.
Lemma direct_det b : direct b -> det33 (transfer_matrix3 b) = 1.
Proof.
  intros [(A & B & C & _) D]. rewrite <- D in C.
  transitivity (dot3 (cross3 (bu b) (bv b)) (bw b)).
  - unfold det33, transfer_matrix3. cbn. destruct b. cbn. vec. ring.
  - rewrite <- D. auto.
Qed.
Lemma direct_inverse b : direct b -> inverse33 (transfer_matrix3 b) = Ok (transpose (transfer_matrix3 b)).
Proof.
  intros H. pose proof (direct_det b H) as D.
  assert (T : exists n, inverse33 (transfer_matrix3 b) = Ok n).
  { apply inverse33_total. rewrite D, Rabs_R1. apply Rmult_lt_reg_l with (10 ^ 12); [lra|]. rewrite Rinv_r; lra. }
  destruct T as [n T]. rewrite T. apply f_equal. apply inverse33_ok in T as (T & _ & _).
  assert (O : mmul33 (transpose (transfer_matrix3 b)) (transfer_matrix3 b) = I33).
  { destruct H as [(A1 & A2 & A3 & A4 & A5 & A6) _]. unfold dot3 in *. apply mat33_ext; cbn; lra. }
  transitivity (mmul33 I33 n); [symmetry; apply mmul33_id|]. rewrite <- O, mmul33_assoc, T. apply mmul33_id.
Qed.
Lemma transpose_bound K m : mbound K m -> mbound K (transpose m).
Proof. unfold mbound, transpose. cbn. tauto. Qed.
(** In an orthonormal direct frame the local coordinates are the dot products (up to the snapping). *)
Lemma direct_g2l f v : direct (fb3 f) -> exists l, frame3_g2l f v = Ok l /\
  near eps l (V3 (dot3 (sub3 v (org3 f)) (bu (fb3 f))) (dot3 (sub3 v (org3 f)) (bv (fb3 f))) (dot3 (sub3 v (org3 f)) (bw (fb3 f)))).
Proof.
  intros H. unfold frame3_g2l, basis3_g2l, bind. rewrite direct_inverse by auto. eexists; split; [reflexivity|].
  match goal with |- near _ _ ?r => replace r with (mapply (transpose (transfer_matrix3 (fb3 f))) (sub3 v (org3 f))) end.
  - apply mvec33_near.
  - unfold mapply, transpose, transfer_matrix3, dot3. cbn. v_eq; ring.
Qed.
Lemma direct_frame_roundtrip f v : direct (fb3 f) ->
  (exists l, frame3_g2l f v = Ok l /\ near (4 * eps) (frame3_l2g f l) v) /\
  (exists l, frame3_g2l f (frame3_l2g f v) = Ok l /\ near (4 * eps) l v).
Proof.
  intros H. pose proof (orthonormal_bound _ (proj1 H)) as B. split.
  - destruct (direct_g2l f v H) as (l & E & _). exists l. split; auto.
    apply near_weaken with ((1 + 3 * 1) * eps); [|pose proof eps_pos; lra]. eapply frame3_roundtrip_gl; eauto; lra.
  - destruct (frame3_roundtrip_lg f v _ 1 (ltac:(lra)) (direct_inverse _ H) (transpose_bound _ _ B)) as (l & E & N).
    exists l. split; auto. apply near_weaken with ((1 + 3 * 1) * eps); [auto|pose proof eps_pos; lra].
Qed.

(** ** Composition *)
Lemma transfer_of_matrix m : transfer_matrix3 (basis_of_matrix m) = m.
Proof. destruct m; reflexivity. Qed.
Lemma basis_of_transfer b : basis_of_matrix (transfer_matrix3 b) = b.
Proof. destruct b as [[] [] []]; reflexivity. Qed.
Lemma basis3_add_matrix b c : transfer_matrix3 (basis3_add b c) = mmul33 (transfer_matrix3 b) (transfer_matrix3 c).
Proof. apply transfer_of_matrix. Qed.
Lemma basis3_add_sub b c d : basis3_sub b c = Ok d -> basis3_add c d = b.
Proof.
  unfold basis3_sub, bind. destruct (inverse33 _) as [p|] eqn:E; [|discriminate]. intros H; apply Ok_inj in H; subst d.
  unfold basis3_add. rewrite transfer_of_matrix, <- mmul33_assoc. apply inverse33_ok in E as (-> & _ & _).
  rewrite (proj1 (mmul33_id _)). apply basis_of_transfer.
Qed.
Lemma basis3_add_neg b d : basis3_neg b = Ok d -> basis3_add b d = B3 X3D Y3D Z3D /\ basis3_add d b = B3 X3D Y3D Z3D.
Proof.
  unfold basis3_neg, bind. destruct (inverse33 _) as [p|] eqn:E; [|discriminate]. intros H; apply Ok_inj in H; subst d.
  unfold basis3_add. rewrite transfer_of_matrix. apply inverse33_ok in E as (-> & -> & _). split; reflexivity.
Qed.
(** l2g of a sum of frames is the composition (exact parts equal; code up to snapping) *)
Lemma frame3_add_exact f g v :
  add3 (mapply (transfer_matrix3 (fb3 (frame3_add f g))) v) (add3 (mapply (transfer_matrix3 (fb3 f)) (org3 g)) (org3 f)) =
  add3 (mapply (transfer_matrix3 (fb3 f)) (add3 (mapply (transfer_matrix3 (fb3 g)) v) (org3 g))) (org3 f).
Proof.
  unfold frame3_add. cbn [fb3]. rewrite transfer_of_matrix, mapply_mul.
  generalize (mapply (transfer_matrix3 (fb3 g)) v) as w, (transfer_matrix3 (fb3 f)) as m, (org3 g) as o, (org3 f) as o'.
  intros. unfold mapply. vec. v_eq; ring.
Qed.
Lemma near_sym k u v : near k u v -> near k v u.
Proof. intros (A & B & C). repeat split; rewrite Rabs_minus_sym; auto. Qed.
Lemma near_add2 k l u v u' v' : near k u v -> near l u' v' -> near (k + l) (add3 u u') (add3 v v').
Proof.
  intros (A & B & C) (D & E & F). unfold near, add3 in *. cbn [x3 y3 z3] in *.
  repeat split; match goal with |- Rabs (?a + ?c - (?b + ?d)) <= _ => replace (a + c - (b + d)) with ((a - b) + (c - d)) by ring end;
    (eapply Rle_trans; [apply Rabs_triang|lra]).
Qed.
Lemma frame3_add_l2g f g v K : 0 <= K -> mbound K (transfer_matrix3 (fb3 f)) ->
  near ((3 + 3 * K) * eps) (frame3_l2g (frame3_add f g) v) (frame3_l2g f (frame3_l2g g v)).
Proof.
  intros HK HB. pose proof (frame3_add_exact f g v) as EX. pose proof eps_pos as EP.
  set (Pf := transfer_matrix3 (fb3 f)) in *. set (Pg := transfer_matrix3 (fb3 g)) in *.
  apply near_weaken with ((eps + eps) + (3 * K * eps + eps)); [|lra].
  apply near_trans with (add3 (mapply (transfer_matrix3 (fb3 (frame3_add f g))) v) (add3 (mapply Pf (org3 g)) (org3 f))).
  - unfold frame3_l2g at 1. apply near_add2; [apply mvec33_near|]. unfold frame3_add. cbn [org3]. apply near_add. apply mvec33_near.
  - rewrite EX. unfold frame3_l2g. apply near_add. fold Pf.
    eapply near_trans; [|apply near_sym, mvec33_near].
    apply mapply_lip; auto; [lra|]. apply near_add. apply near_sym, mvec33_near.
Qed.
Lemma frame3_sub_add f g d K : 0 <= K -> mbound K (transfer_matrix3 (fb3 g)) -> frame3_sub f g = Ok d ->
  near ((1 + 3 * K) * eps) (org3 (frame3_add g d)) (org3 f) /\ fb3 (frame3_add g d) = fb3 f.
Proof.
  intros HK HB. unfold frame3_sub, bind. destruct (inverse33 _) as [p|] eqn:E; [|discriminate]. intros H; apply Ok_inj in H; subst d.
  pose proof E as E0. apply inverse33_ok in E as (E & _ & _).
  unfold frame3_add. cbn [org3 fb3]. split.
  - assert (R := basis3_roundtrip_gl (fb3 g) (sub3 (org3 f) (org3 g)) (mvec33 p (sub3 (org3 f) (org3 g))) K HK HB).
    unfold basis3_g2l, bind in R. rewrite E0 in R. specialize (R eq_refl). unfold basis3_l2g in R.
    replace (org3 f) with (add3 (sub3 (org3 f) (org3 g)) (org3 g)) at 2 by (generalize (org3 f), (org3 g); vec; v_eq; ring).
    apply near_add. auto.
  - rewrite transfer_of_matrix, <- mmul33_assoc, E, (proj1 (mmul33_id _)). apply basis_of_transfer.
Qed.
(** -frame: the basis is inverted but the origin is not: frame + (-frame) is not the identity *)
Lemma frame3_neg_wrong : let f := F3 (V3 1 0 0) (B3 X3D Y3D Z3D) in
  exists d, frame3_neg f = Ok d /\ org3 (frame3_add f d) = V3 2 0 0.
Proof.
  assert (D : direct (B3 X3D Y3D Z3D)).
  { unfold direct, orthonormal, X3D, Y3D, Z3D, dot3, cross3. cbn. repeat split; try ring. v_eq; ring. }
  cbn zeta. unfold frame3_neg, bind. cbn [fb3 org3]. rewrite direct_inverse by auto. eexists. split; [reflexivity|].
  unfold frame3_add. cbn [org3 fb3]. unfold mvec33 at 2, transpose, transfer_matrix3, X3D, Y3D, Z3D. cbn [m11 m12 m13 m21 m22 m23 m31 m32 m33 x3 y3 z3 bu bv bw].
  replace (1 * 1 + 0 * 0 + 0 * 0) with 1 by ring. replace (0 * 1 + 1 * 0 + 0 * 0) with 0 by ring. replace (0 * 1 + 0 * 0 + 1 * 0) with 0 by ring.
  assert (S0 : snap 0 = 0) by (apply snap_exact; auto).
  assert (S1 : snap 1 = 1).
  { apply snap_exact. right. rewrite Rabs_R1. unfold eps. apply Rmult_le_reg_l with (10 ^ 16); [lra|]. rewrite Rinv_r; lra. }
  rewrite S0, S1. unfold mvec33. cbn [m11 m12 m13 m21 m22 m23 m31 m32 m33 x3 y3 z3].
  replace (1 * 1 + 0 * 0 + 0 * 0) with 1 by ring. replace (0 * 1 + 1 * 0 + 0 * 0) with 0 by ring. replace (0 * 1 + 0 * 0 + 1 * 0) with 0 by ring.
  rewrite S0, S1. unfold add3. cbn. v_eq; ring.
Qed.

(** ** Constructors of frames *)
Lemma direct_from_uv u v : dot3 u u = 1 -> dot3 v v = 1 -> dot3 u v = 0 -> direct (B3 u v (cross3 u v)).
Proof.
  intros A B C. pose proof (lagrange3 u v) as L. rewrite A, B, C in L.
  unfold direct, orthonormal. cbn. repeat split; auto.
  - lra.
  - rewrite dot3_sym. apply cross3_perp_l.
  - rewrite dot3_sym. apply cross3_perp_r.
Qed.
Lemma direct_wu w u : dot3 u u = 1 -> dot3 w w = 1 -> dot3 u w = 0 -> direct (B3 u (cross3 w u) w).
Proof.
  intros A B C. pose proof (lagrange3 w u) as L. rewrite A, B, (dot3_sym w u), C in L.
  unfold direct, orthonormal. cbn. repeat split; auto.
  - lra.
  - rewrite dot3_sym. apply cross3_perp_r.
  - apply cross3_perp_l.
  - rewrite double_cross. rewrite A, C. vec. v_eq; ring.
Qed.
Lemma from_two_vectors_ok a b f : norm3 a = 1 -> from_two_vectors a b = Ok f -> direct f /\ bu f = a /\ dot3 (bw f) b = 0 /\ 0 < dot3 (bv f) b.
Proof.
  intros N. unfold from_two_vectors, bind. destruct (unit_vector3 a) as [u|] eqn:E1; [|discriminate].
  destruct (unit_vector3 (sub3 b (mul3 a (dot3 b a)))) as [v|] eqn:E2; [|discriminate]. intros H; apply Ok_inj in H; subst f.
  cbn [bu bv bw].
  pose proof (norm3_1 _ N) as N1.
  apply unit3_ok in E1 as [_ E1]. assert (u = a). { rewrite E1, N. vec. v_eq; field. } clear E1. subst u.
  pose proof E2 as E2'. apply unit3_spec in E2 as (V1 & V2 & V3). apply norm3_1 in V1.
  set (r := sub3 b (mul3 a (dot3 b a))) in *.
  assert (R : dot3 r a = 0).
  { unfold r. rewrite dot3_sub_l, dot3_mul_l, N1. ring. }
  assert (O : dot3 a v = 0).
  { apply unit3_ok in E2' as [_ ->]. rewrite dot3_sym, dot3_mul_l, R. ring. }
  split; [apply direct_from_uv; auto|]. split; auto.
  assert (Eb : b = add3 r (mul3 a (dot3 b a))) by (unfold r; generalize (dot3 b a); intros; vec; v_eq; ring).
  rewrite <- V2 in Eb. assert (G : exists n k, 0 < n /\ b = add3 (mul3 v n) (mul3 a k)) by eauto.
  destruct G as (n & k & Pn & G). clear - V1 O G Pn. subst b.
  split.
  - transitivity (dot3 (cross3 a v) v * n + dot3 (cross3 a v) a * k); [clear; vec; ring|].
    rewrite cross3_perp_l, cross3_perp_r. ring.
  - replace (dot3 v (add3 (mul3 v n) (mul3 a k))) with (n * dot3 v v + k * dot3 a v) by (clear; vec; ring).
    rewrite V1, O. lra.
Qed.
(** without a unit first vector the result is not even orthogonal *)
Lemma from_two_vectors_wrong : exists f, from_two_vectors (V3 2 0 0) (V3 1 1 0) = Ok f /\ dot3 (bu f) (bv f) < 0.
Proof.
  unfold from_two_vectors, bind.
  assert (N1 : norm3 (V3 2 0 0) = 2).
  { unfold norm3. cbn. replace (2 * 2 + 0 * 0 + 0 * 0) with (2 * 2) by ring. apply sqrt_square; lra. }
  destruct (unit_vector3 (V3 2 0 0)) as [u|] eqn:E1; [|apply unit3_err in E1 as [E1 _]; injection E1 as E1; lra].
  assert (Q : sub3 (V3 1 1 0) (mul3 (V3 2 0 0) (dot3 (V3 1 1 0) (V3 2 0 0))) = V3 (- 3) 1 0) by (vec; v_eq; ring).
  rewrite Q. destruct (unit_vector3 (V3 (-3) 1 0)) as [v|] eqn:E2; [|apply unit3_err in E2 as [E2 _]; injection E2 as E2; lra].
  eexists. split; [reflexivity|]. cbn [bu bv].
  apply unit3_ok in E1 as [_ ->]. apply unit3_ok in E2 as [NZ ->]. apply norm3_ne in NZ. rewrite N1.
  set (n := norm3 (V3 (-3) 1 0)) in *. clearbody n. vec. assert (0 < / n) by (apply Rinv_0_lt_compat; auto). lra.
Qed.
Lemma from_3_points_ok p1 p2 p3 f : from_3_points p1 p2 p3 = Ok f ->
  direct (fb3 f) /\ org3 f = p1 /\ (exists k, 0 < k /\ sub3 p2 p1 = mul3 (bu (fb3 f)) k) /\
  dot3 (sub3 p2 p1) (bw (fb3 f)) = 0 /\ dot3 (sub3 p3 p1) (bw (fb3 f)) = 0.
Proof.
  unfold from_3_points, bind. destruct (unit_vector3 (sub3 p2 p1)) as [a|] eqn:E1; [|discriminate].
  destruct (unit_vector3 (sub3 p3 p1)) as [b|] eqn:E2; [|discriminate].
  destruct (unit_vector3 (cross3 a b)) as [n|] eqn:E3; [|discriminate]. intros H; apply Ok_inj in H; subst f. cbn [fb3 org3 bu bv bw].
  apply unit3_spec in E1 as (A1 & A2 & A3). apply unit3_spec in E2 as (B1 & B2 & B3).
  pose proof E3 as E3'. apply unit3_ok in E3' as [_ En]. apply unit3_spec in E3 as (C1 & _ & _).
  apply norm3_1 in A1, B1, C1.
  assert (Oa : dot3 n a = 0) by (rewrite En, dot3_mul_l, cross3_perp_l; ring).
  assert (Ob : dot3 n b = 0) by (rewrite En, dot3_mul_l, cross3_perp_r; ring).
  split; [apply direct_wu; auto; rewrite dot3_sym; auto|]. split; auto. split; [eauto|].
  split; [rewrite <- A2, dot3_mul_l, dot3_sym, Oa|rewrite <- B2, dot3_mul_l, dot3_sym, Ob]; ring.
Qed.
Lemma from_point_and_normal_ok o n f : norm3 n = 1 -> from_point_and_normal o n = Ok f -> direct (fb3 f) /\ org3 f = o /\ bw (fb3 f) = n.
Proof.
  intros N. unfold from_point_and_normal, bind, deterministic_unit_normal_vector, bind.
  destruct (deterministic_normal_vector n) as [v|] eqn:E; [|discriminate].
  destruct (unit_vector3 v) as [u|] eqn:E2; [|discriminate]. intros H; apply Ok_inj in H; subst f. cbn.
  apply det_normal_perp in E. pose proof E2 as E3. apply unit3_spec in E2 as (A & _ & _). apply unit3_ok in E3 as [_ ->].
  apply norm3_1 in A. split; auto. apply direct_wu; auto; [apply norm3_1; auto|]. rewrite dot3_mul_l, E. ring.
Qed.
Lemma from_point_and_normal_total o n : norm3 n = 1 -> exists f, from_point_and_normal o n = Ok f.
Proof.
  intros N. destruct (det_normal_exists n) as (v & E & _ & NZ).
  { rewrite N. apply Rmult_lt_reg_l with (10 ^ 7); [lra|]. rewrite Rinv_r; lra. }
  unfold from_point_and_normal, bind, deterministic_unit_normal_vector, bind. rewrite E.
  destruct (unit_vector3 v) as [u|] eqn:E2; [eauto|]. apply unit3_err in E2. tauto.
Qed.
Lemma frame_from_step_ok o w u f : norm3 w = 1 -> frame_from_step o (Some w) (Some u) = Ok f ->
  direct (fb3 f) /\ org3 f = o /\ bw (fb3 f) = w /\ dot3 (bv (fb3 f)) u = 0.
Proof.
  intros N. unfold frame_from_step, bind. destruct (unit_vector3 _) as [u'|] eqn:E; [|discriminate].
  intros H; apply Ok_inj in H; subst f. cbn. apply norm3_1 in N.
  pose proof E as E2. apply unit3_spec in E as (A & B & _). apply norm3_1 in A. apply unit3_ok in E2 as [_ E2].
  assert (O : dot3 u' w = 0).
  { rewrite E2, dot3_mul_l, dot3_sub_l, dot3_mul_l, N. ring. }
  split; [apply direct_wu; auto|]. split; auto. split; auto.
  set (r := sub3 u (mul3 w (dot3 u w))) in *.
  assert (Eu : exists n k, u = add3 (mul3 u' n) (mul3 w k)).
  { exists (norm3 r), (dot3 u w). rewrite B. unfold r. generalize (dot3 u w). intros; vec; v_eq; ring. }
  destruct Eu as (n & k & Eu). clear - Eu. subst u. transitivity (n * dot3 (cross3 w u') u' + k * dot3 (cross3 w u') w).
  - clear. vec. ring.
  - rewrite cross3_perp_l, cross3_perp_r. ring.
Qed.

(** Rotation of bases *)
Lemma rotation3_direct b ax a : dot3 ax ax = 1 -> direct b -> direct (basis3_rotation b ax a).
Proof.
  intros U [(A & B & C & D & E & F) G]. unfold direct, orthonormal, basis3_rotation. cbn.
  rewrite !rotation3_dot, rotation3_cross, G by auto. repeat split; auto.
Qed.
Lemma euler_direct b psi theta phi : direct b -> direct (euler_rotation b psi theta phi).
Proof.
  intros H. unfold euler_rotation.
  assert (Hw : dot3 (bw b) (bw b) = 1) by apply H.
  pose proof (rotation3_direct b (bw b) psi Hw H) as H1.
  assert (W : rotation3 (bw b) O3D (bw b) psi = bw b).
  { pose proof (rotation3_axis O3D (bw b) psi 1 Hw) as Q.
    replace (add3 O3D (mul3 (bw b) 1)) with (bw b) in Q by (generalize (bw b); unfold O3D; vec; v_eq; ring). auto. }
  unfold basis3_rotation in H1. rewrite W in H1.
  set (u1 := rotation3 (bu b) O3D (bw b) psi) in *. set (v1 := rotation3 (bv b) O3D (bw b) psi) in *.
  assert (Hu : dot3 u1 u1 = 1) by apply H1.
  pose proof (rotation3_direct _ u1 theta Hu H1) as H2. unfold basis3_rotation in H2. cbn in H2.
  assert (U : rotation3 u1 O3D u1 theta = u1).
  { pose proof (rotation3_axis O3D u1 theta 1 Hu) as Q.
    replace (add3 O3D (mul3 u1 1)) with u1 in Q by (generalize u1; unfold O3D; vec; v_eq; ring). auto. }
  rewrite U in H2. 
  set (v2 := rotation3 v1 O3D u1 theta) in *. set (w2 := rotation3 (bw b) O3D u1 theta) in *.
  assert (Hw2 : dot3 w2 w2 = 1) by apply H2.
  pose proof (rotation3_direct _ w2 phi Hw2 H2) as H3. unfold basis3_rotation in H3. cbn in H3.
  assert (W2 : rotation3 w2 O3D w2 phi = w2).
  { pose proof (rotation3_axis O3D w2 phi 1 Hw2) as Q.
    replace (add3 O3D (mul3 w2 1)) with w2 in Q by (generalize w2; unfold O3D; vec; v_eq; ring). auto. }
  rewrite W2 in H3. exact H3.
Qed.

(** from_point_and_vector *)
Lemma vec3_eqb_spec a b : vec3_eqb a b = true <-> a = b.
Proof.
  unfold vec3_eqb. rewrite !andb_true_iff, !Reqb_spec. split; [intros [[A B] C]; apply vec3_ext; auto|intros ->; auto].
Qed.
Lemma std_direct : direct (B3 X3D Y3D Z3D).
Proof. unfold direct, orthonormal, X3D, Y3D, Z3D, dot3, cross3. cbn. repeat split; try ring. v_eq; ring. Qed.
Lemma rotate_to main v ax : dot3 main main = 1 -> dot3 v v = 1 ->
  unit_vector3 (cross3 main (sub3 v main)) = Ok ax ->
  rotation3 main O3D ax (acos (dot3 main v)) = v.
Proof.
  intros M V E.
  assert (X : cross3 main (sub3 v main) = cross3 main v) by (clear; vec; v_eq; ring). rewrite X in E. clear X.
  pose proof E as E1. apply unit3_ok in E1 as [NZ Eax]. apply unit3_spec in E as (N1 & N2 & N3). apply norm3_1 in N1.
  set (c := dot3 main v) in *. set (n := norm3 (cross3 main v)) in *.
  assert (L : n * n = 1 - c * c).
  { unfold n. rewrite norm3_sq, lagrange3, M, V. fold c. ring. }
  assert (Hc : -1 <= c <= 1) by nra.
  assert (Cc : cos (acos c) = c) by (apply cos_acos; auto).
  assert (Cs : sin (acos c) = n).
  { rewrite sin_acos by auto. apply Rsqr_inj; [apply sqrt_pos|lra|]. rewrite Rsqr_sqrt; unfold Rsqr; nra. }
  assert (D : dot3 main ax = 0).
  { rewrite Eax. transitivity (dot3 (cross3 main v) main * / n); [generalize (/ n); clear; vec; ring|rewrite cross3_perp_l; ring]. }
  assert (X : cross3 ax main = mul3 (sub3 v (mul3 main c)) (/ n)).
  { rewrite Eax. transitivity (mul3 (sub3 (mul3 v (dot3 main main)) (mul3 main (dot3 main v))) (/ n)).
    - generalize (/ n). clear. vec. v_eq; ring.
    - rewrite M. fold c. generalize (/ n). clear. vec. v_eq; ring. }
  rewrite rotation3_rod. replace (sub3 main O3D) with main by (unfold O3D; clear; vec; v_eq; ring).
  unfold rod. rewrite D, Cc, Cs, X. clear -N3. generalize dependent n. intros n Hn. unfold O3D. vec. v_eq; field; lra.
Qed.
Lemma combine_rotation main ax a :
  main_of main (basis3_rotation (B3 X3D Y3D Z3D) ax a) = rotation3 main O3D ax a.
Proof.
  unfold main_of, basis3_rotation. cbn. rewrite !rotation3_rod. unfold rod, O3D, X3D, Y3D, Z3D. 
  generalize (cos a), (sin a). intros. vec. v_eq; ring.
Qed.
Lemma from_point_and_vector_ok p v main f : from_point_and_vector p v main = Ok f ->
  org3 f = p /\
  (exists k, 0 < k /\ v = mul3 (main_of main (fb3 f)) k) /\
  (direct (fb3 f) \/ (exists k, k < 0 /\ v = mul3 main k) /\ fb3 f = B3 (neg3 X3D) (neg3 Y3D) (neg3 Z3D)).
Proof.
  unfold from_point_and_vector. destruct (negb _) eqn:E; [discriminate|].
  assert (M : main = X3D \/ main = Y3D \/ main = Z3D).
  { apply negb_false_iff in E. rewrite !orb_true_iff, !vec3_eqb_spec in E. tauto. }
  assert (M1 : dot3 main main = 1) by (destruct M as [->|[->| ->]]; unfold X3D, Y3D, Z3D, dot3; cbn; ring).
  clear E. unfold bind. destruct (unit_vector3 v) as [u|] eqn:Eu; [|discriminate].
  apply unit3_spec in Eu as (U1 & U2 & U3). pose proof (norm3_1 _ U1) as U4.
  destruct (vec3_eqb u main) eqn:E1.
  { apply vec3_eqb_spec in E1. subst u. intros H; apply Ok_inj in H; subst f. cbn [org3 fb3]. split; auto. split; [|left; apply std_direct].
    exists (norm3 v). split; auto. rewrite <- U2 at 1. f_equal. unfold main_of, X3D, Y3D, Z3D. cbn [bu bv bw]. clear. vec. v_eq; ring. }
  destruct (vec3_eqb u (neg3 main)) eqn:E2.
  { apply vec3_eqb_spec in E2. subst u. intros H; apply Ok_inj in H; subst f. cbn [org3 fb3]. split; auto. split.
    - exists (norm3 v). split; auto. rewrite <- U2 at 1. f_equal. unfold main_of, X3D, Y3D, Z3D. cbn [bu bv bw]. clear. vec. v_eq; ring.
    - right. split; auto. exists (- norm3 v). split; [lra|]. rewrite <- U2 at 1. generalize (norm3 v). clear. vec. v_eq; ring. }
  destruct (unit_vector3 (cross3 main (sub3 u main))) as [ax|] eqn:Ea; [|discriminate].
  intros H; apply Ok_inj in H; subst f. cbn [org3 fb3]. split; auto.
  pose proof Ea as Ea'. apply unit3_spec in Ea' as (A1 & _ & _). apply norm3_1 in A1.
  assert (Q : dot3 main u / (norm3 u * norm3 main) = dot3 main u).
  { rewrite U1, (dot3_1 _ M1). field. }
  rewrite Q. set (an := acos (dot3 main u)).
  change (B3 (rotation3 X3D O3D ax an) (rotation3 Y3D O3D ax an) (rotation3 Z3D O3D ax an)) with (basis3_rotation (B3 X3D Y3D Z3D) ax an).
  split; [|left; apply rotation3_direct; auto; apply std_direct].
  exists (norm3 v). split; auto. rewrite combine_rotation. unfold an. rewrite rotate_to by auto. auto.
Qed.
Lemma from_point_and_vector_total p v main : main = X3D \/ main = Y3D \/ main = Z3D -> v <> V3 0 0 0 -> exists f, from_point_and_vector p v main = Ok f.
Proof.
  intros M NZ. assert (M1 : dot3 main main = 1) by (destruct M as [->|[->| ->]]; unfold X3D, Y3D, Z3D, dot3; cbn; ring).
  unfold from_point_and_vector. assert (E : negb (vec3_eqb main X3D || vec3_eqb main Y3D || vec3_eqb main Z3D) = false).
  { apply negb_false_iff. rewrite !orb_true_iff, !vec3_eqb_spec. tauto. }
  rewrite E. unfold bind. destruct (unit_vector3 v) as [u|] eqn:Eu; [|apply unit3_err in Eu; tauto].
  apply unit3_spec in Eu as (U1 & _ & _). apply norm3_1 in U1.
  destruct (vec3_eqb u main) eqn:E1; [eauto|]. destruct (vec3_eqb u (neg3 main)) eqn:E2; [eauto|].
  destruct (unit_vector3 (cross3 main (sub3 u main))) as [ax|] eqn:Ea; [eauto|].
  exfalso. apply unit3_err in Ea as [Ea _].
  assert (X : cross3 main (sub3 u main) = cross3 main u) by (clear; vec; v_eq; ring). rewrite X in Ea. clear X.
  pose proof (lagrange3 main u) as L. rewrite Ea, M1, U1 in L.
  assert (C : dot3 main u = 1 \/ dot3 main u = - 1).
  { assert (dot3 (V3 0 0 0) (V3 0 0 0) = 0) by (unfold dot3; cbn; ring).
    assert ((dot3 main u - 1) * (dot3 main u + 1) = 0) by lra. apply Rmult_integral in H0 as [|]; [left|right]; lra. }
  destruct C as [C|C].
  - assert (Z : dot3 (sub3 u main) (sub3 u main) = 0).
    { transitivity (dot3 u u + dot3 main main - 2 * dot3 main u); [clear; vec; ring|rewrite U1, M1, C; ring]. }
    apply dot3_zero in Z. assert (u = main). { clear - Z. vec. injection Z as A B C. v_eq; lra. }
    subst u. assert (vec3_eqb main main = true) by (apply vec3_eqb_spec; auto). congruence.
  - assert (Z : dot3 (add3 u main) (add3 u main) = 0).
    { transitivity (dot3 u u + dot3 main main + 2 * dot3 main u); [clear; vec; ring|rewrite U1, M1, C; ring]. }
    apply dot3_zero in Z. assert (u = neg3 main). { clear - Z. vec. injection Z as A B C. v_eq; lra. }
    subst u. assert (vec3_eqb (neg3 main) (neg3 main) = true) by (apply vec3_eqb_spec; auto). congruence.
Qed.
Lemma from_point_and_vector_left p : exists f, from_point_and_vector p (V3 (-1) 0 0) X3D = Ok f /\ cross3 (bu (fb3 f)) (bv (fb3 f)) = neg3 (bw (fb3 f)).
Proof.
  unfold from_point_and_vector, bind.
  assert (E : negb (vec3_eqb X3D X3D || vec3_eqb X3D Y3D || vec3_eqb X3D Z3D) = false).
  { apply negb_false_iff. rewrite !orb_true_iff, !vec3_eqb_spec. auto. }
  rewrite E. assert (N : norm3 (V3 (-1) 0 0) = 1). { apply dot3_1. unfold dot3; cbn; ring. }
  assert (Eu : unit_vector3 (V3 (-1) 0 0) = Ok (neg3 X3D)).
  { apply unit3_ok. split; [intros C; injection C as C; lra|]. rewrite N. unfold X3D. vec. v_eq; field. }
  rewrite Eu. assert (E1 : vec3_eqb (neg3 X3D) X3D = false).
  { destruct (vec3_eqb (neg3 X3D) X3D) eqn:Q; auto. apply vec3_eqb_spec in Q. unfold X3D, neg3 in Q. cbn in Q. injection Q as Q. lra. }
  rewrite E1. assert (E2 : vec3_eqb (neg3 X3D) (neg3 X3D) = true) by (apply vec3_eqb_spec; auto). rewrite E2.
  eexists; split; [reflexivity|]. cbn [fb3 bu bv bw]. unfold X3D, Y3D, Z3D. vec. v_eq; ring.
Qed.
(** is_orthonormal accepts every orthonormal basis *)
Lemma is_orthonormal_complete b tol : 0 < tol -> orthonormal b -> is_orthonormal b tol = true.
Proof.
  intros T (A & B & C & D & E & F). unfold is_orthonormal, is_orthogonal, is_normalized.
  rewrite D, E, F, Rabs_R0. rewrite !(dot3_1 _ A), !(dot3_1 _ B), !(dot3_1 _ C).
  assert (L : Rltb 0 tol = true) by (apply Rltb_spec; auto). rewrite L.
  assert (I : isclose 1 1 tol = true). { unfold isclose. apply Rleb_spec. rewrite Rminus_eq_0, Rabs_R0. apply Rle_trans with tol; [lra|apply Rmax_r]. }
  rewrite I. reflexivity.
Qed.
