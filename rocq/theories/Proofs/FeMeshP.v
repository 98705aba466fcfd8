(** Triangles and tetrahedra. *)
From Coq Require Import Reals List ZArith Lra Lia.
From Verif.Model Require Import Base RBase Vec Frame FeMesh.
From Verif.Spec Require Import VecSpec FeMeshSpec.
From Verif.Proofs Require Import VecP.
Import ListNotations.
Open Scope R_scope.

Lemma snap_near u : Rabs (snap u - u) <= / 10 ^ 16.
Proof.
  unfold snap. pose proof (pow10_inv_pos 16) as T. destruct (Rltb (Rabs u) (/ 10 ^ 16)) eqn:E.
  - apply Rltb_spec in E. replace (0 - u) with (- u) by ring. rewrite Rabs_Ropp. lra.
  - replace (u - u) with 0 by ring. rewrite Rabs_R0. lra.
Qed.
Lemma abs3 a b c d : Rabs (a - b) <= d -> Rabs ((a - b) * c) <= d * Rabs c.
Proof. intros H. rewrite Rabs_mult. apply Rmult_le_compat_r; auto. apply Rabs_pos. Qed.
Lemma snapped a b c e p v : Rabs (snap a + snap b * x2 p + snap c * y2 p - v) <= e + / 10 ^ 16 * (1 + Rabs (x2 p) + Rabs (y2 p)) \/ Rabs (a + b * x2 p + c * y2 p - v) > e.
Proof.
  destruct (Rle_dec (Rabs (a + b * x2 p + c * y2 p - v)) e) as [H|H]; [|right; lra]. left.
  pose proof (snap_near a) as Ha. pose proof (abs3 _ _ (x2 p) _ (snap_near b)) as Hb. pose proof (abs3 _ _ (y2 p) _ (snap_near c)) as Hc.
  replace (snap a + snap b * x2 p + snap c * y2 p - v) with ((snap a - a) + (snap b - b) * x2 p + (snap c - c) * y2 p + (a + b * x2 p + c * y2 p - v)) by ring.
  pose proof (Rabs_triang ((snap a - a) + (snap b - b) * x2 p + (snap c - c) * y2 p) (a + b * x2 p + c * y2 p - v)).
  pose proof (Rabs_triang ((snap a - a) + (snap b - b) * x2 p) ((snap c - c) * y2 p)). pose proof (Rabs_triang (snap a - a) ((snap b - b) * x2 p)). lra.
Qed.
Lemma det_area a b c : det33 (M33 1 (x2 a) (y2 a) 1 (x2 b) (y2 b) 1 (x2 c) (y2 c)) = area2 a b c.
Proof. unfold det33, area2. cbn [m11 m12 m13 m21 m22 m23 m31 m32 m33]. ring. Qed.
Lemma area_cross a b c : cross2 (sub2 b a) (sub2 c a) = area2 a b c.
Proof. unfold cross2, sub2, area2. cbn [x2 y2]. ring. Qed.
Lemma exact_form (x y z p q r A v : R) : A <> 0 -> x + y * p + z * q = v * A -> Rabs (1 / A * x * 1 + (1 / A * y) * p + (1 / A * z) * q - v) <= 0.
Proof. intros N H. replace (1 / A * x * 1 + 1 / A * y * p + 1 / A * z * q - v) with 0; [rewrite Rabs_R0; lra|]. replace v with (v * A / A) by (field; auto). rewrite <- H. field; auto. Qed.
Lemma form_functions_ok a b c : / 10 ^ 12 < Rabs (area2 a b c) -> exists f g h, form_functions a b c = Ok (f, g, h) /\
  forall p l m n, weights2 a b c p l m n -> let e := / 10 ^ 16 * (1 + Rabs (x2 p) + Rabs (y2 p)) in
    Rabs (affine2 f p - l) <= e /\ Rabs (affine2 g p - m) <= e /\ Rabs (affine2 h p - n) <= e.
Proof.
  intros H. pose proof (pow10_inv_pos 12) as T. assert (N : area2 a b c <> 0) by (intros Q; rewrite Q, Rabs_R0 in H; lra).
  unfold form_functions, inverse33. rewrite det_area. replace (Rleb (Rabs (area2 a b c)) (/ 10 ^ 12)) with false by (symmetry; apply Rleb_false; lra). cbn [negb bind].
  do 3 eexists. split; [reflexivity|]. intros p l m n (S & X & Y). set (e := / 10 ^ 16 * (1 + Rabs (x2 p) + Rabs (y2 p))). unfold affine2, mvec33, X3D, Y3D, Z3D. cbn [x3 y3 z3 m11 m12 m13 m21 m22 m23 m31 m32 m33].
  assert (G : forall u v w x, u + v * x2 p + w * y2 p = x -> Rabs (snap u + snap v * x2 p + snap w * y2 p - x) <= e).
  { intros u v w x Q. destruct (snapped u v w 0 p x) as [D | D]; [unfold e; lra|]. exfalso. rewrite Q in D. replace (x - x) with 0 in D by ring. rewrite Rabs_R0 in D. lra. }
  assert (El : l = 1 - m - n) by lra.
  split; [|split]; apply G; apply Rmult_eq_reg_l with (area2 a b c); auto; unfold area2 in *; rewrite X, Y; subst l; field; auto.
Qed.
Lemma form_functions_flat a b c : Rabs (area2 a b c) <= / 10 ^ 12 -> form_functions a b c = Err ValueError.
Proof. intros H. unfold form_functions, inverse33. rewrite det_area. replace (Rleb (Rabs (area2 a b c)) (/ 10 ^ 12)) with true by (symmetry; apply Rleb_spec; auto). reflexivity. Qed.
Lemma triangle_area_is a b c : triangle_area a b c = Rabs (area2 a b c) / 2.
Proof. unfold triangle_area. rewrite area_cross. reflexivity. Qed.
(** normals *)
Lemma interior_normal_ok u w : cross2 u w <> 0 -> exists n, interior_normal u w = Ok n /\ dot2 n n = 1 /\ dot2 n u = 0 /\ 0 < dot2 n w.
Proof.
  intros H. set (v := V2 (- y2 u) (x2 u)).
  assert (Nv : 0 < norm2 v). { destruct (Rle_lt_or_eq_dec 0 (norm2 v) (norm2_pos v)) as [L | L]; auto. exfalso. apply H. pose proof (norm2_sq v) as S. rewrite <- L in S. unfold v, dot2 in S. cbn [x2 y2] in S. assert (x2 u = 0) by nra. assert (y2 u = 0) by nra. unfold cross2. nra. }
  unfold interior_normal. fold v. unfold unit_vector2. replace (Reqb (norm2 v) 0) with false by (symmetry; apply Reqb_false; lra). cbn [bind].
  set (n := V2 (x2 v / norm2 v) (y2 v / norm2 v)). assert (D : dot2 n n = 1). { unfold n, dot2. cbn [x2 y2]. pose proof (norm2_sq v) as S. unfold dot2 in S. apply Rmult_eq_reg_l with (norm2 v * norm2 v); [|nra]. rewrite S at 2. field. lra. }
  assert (O : dot2 n u = 0). { unfold n, v, dot2. cbn [x2 y2]. field. fold v. lra. }
  assert (W : dot2 n w = cross2 u w / norm2 v). { unfold n, dot2, cross2. change (x2 v) with (- y2 u). change (y2 v) with (x2 u). cbn [x2 y2]. field. lra. }
  eexists. split; [reflexivity|]. destruct (Rltb (dot2 n w) 0) eqn:E.
  - apply Rltb_spec in E. assert (Q1 : dot2 (neg2 n) (neg2 n) = dot2 n n) by (unfold dot2, neg2; cbn [x2 y2]; ring). assert (Q2 : forall z, dot2 (neg2 n) z = - dot2 n z) by (intros; unfold dot2, neg2; cbn [x2 y2]; ring). rewrite Q1, !Q2. split; auto. split; lra.
  - apply Rltb_false in E. split; auto. split; auto. destruct (Req_dec (dot2 n w) 0) as [Z | Z]; [|lra]. exfalso. apply H. rewrite W in Z. apply Rmult_eq_reg_r with (/ norm2 v); [|apply Rinv_neq_0_compat; lra]. unfold Rdiv in Z. lra.
Qed.
Lemma linear_elements_ok a b c : area2 a b c <> 0 -> exists n1 n2 n3, to_linear_elements a b c = Ok [(a, b, n1); (b, c, n2); (c, a, n3)] /\
  (forall p q r n, In (p, q, r, n) [(a, b, c, n1); (b, c, a, n2); (c, a, b, n3)] -> dot2 n n = 1 /\ dot2 n (sub2 q p) = 0 /\ 0 < dot2 n (sub2 r p)).
Proof.
  intros H. assert (G : forall p q r, area2 p q r <> 0 -> exists n, interior_normal (sub2 q p) (sub2 r q) = Ok n /\ dot2 n n = 1 /\ dot2 n (sub2 q p) = 0 /\ 0 < dot2 n (sub2 r p)).
  { intros p q r Hn. destruct (interior_normal_ok (sub2 q p) (sub2 r q)) as (n & E & D & O & W); [intros Q; apply Hn; rewrite <- Q; unfold area2, cross2, sub2; cbn [x2 y2]; ring|].
    exists n. split; auto. split; auto. split; auto. replace (dot2 n (sub2 r p)) with (dot2 n (sub2 r q) + dot2 n (sub2 q p)) by (unfold dot2, sub2; cbn [x2 y2]; ring). lra. }
  destruct (G a b c H) as (n1 & E1 & P1). destruct (G b c a) as (n2 & E2 & P2); [intros Q; apply H; rewrite <- Q; unfold area2; ring|]. destruct (G c a b) as (n3 & E3 & P3); [intros Q; apply H; rewrite <- Q; unfold area2; ring|].
  exists n1, n2, n3. unfold to_linear_elements. cbv zeta. rewrite E1. cbn [bind]. rewrite E2. cbn [bind]. rewrite E3. cbn [bind]. split; auto.
  intros p q r n [Q | [Q | [Q | []]]]; apply pair_equal_spec in Q as [Q <-]; apply pair_equal_spec in Q as [Q <-]; apply pair_equal_spec in Q as [<- <-]; auto.
Qed.
Lemma triangular_element_ok a b c : / 10 ^ 12 < Rabs (area2 a b c) -> exists l f, triangular_element a b c = Ok (l, f, V2 ((x2 a + x2 b + x2 c) / 3) ((y2 a + y2 b + y2 c) / 3), triangle_area a b c) /\ to_linear_elements a b c = Ok l /\ form_functions a b c = Ok f.
Proof.
  intros H. assert (N : area2 a b c <> 0) by (intros Q; pose proof (pow10_inv_pos 12); rewrite Q, Rabs_R0 in H; lra).
  destruct (linear_elements_ok a b c N) as (n1 & n2 & n3 & E & _). destruct (form_functions_ok a b c H) as (f & g & h & F & _). unfold triangular_element. rewrite E. cbn [bind]. rewrite F. cbn [bind]. do 2 eexists. auto.
Qed.
Lemma small_triangle_flat : exists a b c, area2 a b c <> 0 /\ triangular_element a b c = Err ValueError.
Proof.
  exists (V2 0 0), (V2 (/ 10 ^ 6) 0), (V2 0 (/ 10 ^ 6)). pose proof (pow10_inv_pos 6) as T. assert (Q : area2 (V2 0 0) (V2 (/ 10 ^ 6) 0) (V2 0 (/ 10 ^ 6)) = / 10 ^ 12) by (unfold area2; cbn [x2 y2]; field).
  pose proof (pow10_inv_pos 12) as T12. assert (N : area2 (V2 0 0) (V2 (/ 10 ^ 6) 0) (V2 0 (/ 10 ^ 6)) <> 0) by (rewrite Q; lra). split; auto.
  destruct (linear_elements_ok _ _ _ N) as (n1 & n2 & n3 & E & _). unfold triangular_element. rewrite E. cbn [bind]. rewrite form_functions_flat; auto. rewrite Q, Rabs_right by lra. lra.
Qed.
(** tetrahedra *)
Lemma tetra_volume_is a b c d : tetra_volume a b c d = Rabs (volume6 a b c d) / 6.
Proof.
  unfold tetra_volume, det_of, det33, volume6. cbn [m11 m12 m13 m21 m22 m23 m31 m32 m33]. rewrite Rabs_mult, (Rabs_right (1 / 6)) by lra. unfold Rdiv. rewrite Rmult_1_l, Rmult_comm. f_equal. f_equal. ring.
Qed.
Lemma tetra_forms_are p0 p1 p2 p3 p k l m n : weights3 p0 p1 p2 p3 p k l m n -> let '(f0, f1, f2, f3) := tetra_forms p0 p1 p2 p3 in let V := volume6 p0 p1 p2 p3 in
  affine3 f0 p = k * V /\ affine3 f1 p = l * V /\ affine3 f2 p = m * V /\ affine3 f3 p = n * V.
Proof.
  intros (S & X & Y & Z). unfold tetra_forms, tetra_form, affine3, det_of, det33, volume6. cbn [m11 m12 m13 m21 m22 m23 m31 m32 m33]. rewrite X, Y, Z. unfold sub3. cbn [x3 y3 z3].
  assert (k = 1 - l - m - n) by lra. subst k. repeat split; ring.
Qed.
Lemma tetra_not_normalized : exists p0 p1 p2 p3 f0 f1 f2 f3, volume6 p0 p1 p2 p3 <> 0 /\ tetra_forms p0 p1 p2 p3 = (f0, f1, f2, f3) /\ affine3 f0 p0 = 8.
Proof.
  exists (V3 0 0 0), (V3 2 0 0), (V3 0 2 0), (V3 0 0 2). do 4 eexists. split; [unfold volume6, sub3; cbn [x3 y3 z3]; lra|]. split; [reflexivity|].
  unfold tetra_form, affine3, det_of, det33. cbn [m11 m12 m13 m21 m22 m23 m31 m32 m33 x3 y3 z3]. ring.
Qed.
