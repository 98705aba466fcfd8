(** Separating axis test of a triangle and a voxel. *)
From Coq Require Import Lra Lia Psatz.
From Verif.Model Require Import RBase Vec BBox Geometry Sat.
From Verif.Spec Require Import SatSpec.
From Verif.Proofs Require Import VecP GeometryP.
Open Scope R_scope.

(** ** Roundings *)
Lemma trunc_nonneg x : 0 <= x -> IZR (c_trunc x) <= x < IZR (c_trunc x) + 1.
Proof. intros H. unfold c_trunc. destruct (Rltb x 0) eqn:E; rb; [lra|]. pose proof (floor_spec x). lra. Qed.
Lemma trunc_neg x : x < 0 -> x <= IZR (c_trunc x) < x + 1.
Proof.
  intros H. unfold c_trunc. destruct (Rltb x 0) eqn:E; rb; [|lra]. pose proof (floor_spec (- x)).
  rewrite opp_IZR. lra.
Qed.
Lemma trunc_bounds x : x - 1 < IZR (c_trunc x) < x + 1.
Proof. destruct (Rlt_dec x 0); [pose proof (trunc_neg x)|pose proof (trunc_nonneg x)]; lra. Qed.
Lemma trunc_le_int x k : x <= IZR k -> (c_trunc x <= k)%Z.
Proof.
  intros H. destruct (Rlt_dec x 0) as [N|N].
  - pose proof (trunc_neg x N). apply Z.lt_succ_r. apply lt_IZR. rewrite succ_IZR. lra.
  - pose proof (trunc_nonneg x ltac:(lra)). apply le_IZR. lra.
Qed.
Lemma trunc_gt_int x k : IZR k + 1 <= x -> (k < c_trunc x)%Z.
Proof. intros H. pose proof (trunc_bounds x). apply lt_IZR. lra. Qed.
Lemma trunc_IZR k : c_trunc (IZR k) = k.
Proof. apply Z.le_antisymm; [apply trunc_le_int; lra|]. assert (k - 1 < c_trunc (IZR k))%Z; [|lia]. apply trunc_gt_int. rewrite minus_IZR. lra. Qed.
Lemma round_bounds x : IZR (c_round x) - 1 / 2 <= x <= IZR (c_round x) + 1 / 2.
Proof.
  unfold c_round. destruct (Rltb x 0) eqn:E; rb.
  - pose proof (floor_spec (- x + 1 / 2)). rewrite opp_IZR. lra.
  - pose proof (floor_spec (x + 1 / 2)). lra.
Qed.
Lemma round_nonneg x : 0 <= x -> (0 <= c_round x)%Z.
Proof. intros H. pose proof (round_bounds x). apply Z.lt_succ_r. apply lt_IZR. rewrite succ_IZR. lra. Qed.
Lemma round_nonpos x : x <= 0 -> (c_round x <= 0)%Z.
Proof. intros H. pose proof (round_bounds x). apply Z.lt_succ_r. apply lt_IZR. rewrite succ_IZR. lra. Qed.
Lemma round_IZR k : c_round (IZR k) = k.
Proof.
  pose proof (round_bounds (IZR k)). assert (c_round (IZR k) < k + 1)%Z by (apply lt_IZR; rewrite plus_IZR; lra).
  assert (k - 1 < c_round (IZR k))%Z by (apply lt_IZR; rewrite minus_IZR; lra). lia.
Qed.
Lemma pow9_pos : 0 < 10 ^ 9. Proof. apply pow_lt; lra. Qed.
Lemma round_digits_bounds d x : Rabs (round_digits d x - x) <= / 2 / 10 ^ d.
Proof.
  unfold round_digits. assert (P : 0 < 10 ^ d) by (apply pow_lt; lra). pose proof (round_bounds (x * 10 ^ d)) as B.
  assert (E : IZR (c_round (x * 10 ^ d)) / 10 ^ d - x = (IZR (c_round (x * 10 ^ d)) - x * 10 ^ d) * / 10 ^ d) by (field; lra).
  rewrite E, Rabs_mult, (Rabs_right (/ 10 ^ d)); [|left; apply Rinv_0_lt_compat, P].
  unfold Rdiv. apply Rmult_le_compat_r; [left; apply Rinv_0_lt_compat, P|]. apply Rabs_le. lra.
Qed.
Lemma round9_bounds x : Rabs (round9 x - x) <= / 2 / 10 ^ 9.
Proof. apply round_digits_bounds. Qed.
Lemma round9_nonneg x : 0 <= x -> 0 <= round9 x.
Proof.
  intros H. pose proof pow9_pos as P. unfold round9, round_digits. apply Rmult_le_pos; [|left; apply Rinv_0_lt_compat, P].
  apply IZR_le. apply round_nonneg. apply Rmult_le_pos; lra.
Qed.
Lemma round9_nonpos x : x <= 0 -> round9 x <= 0.
Proof.
  intros H. pose proof pow9_pos as P. unfold round9, round_digits.
  assert (IZR (c_round (x * 10 ^ 9)) <= 0) by (apply IZR_le, round_nonpos; nra).
  apply Rmult_le_reg_r with (10 ^ 9); [exact P|]. unfold Rdiv. rewrite Rmult_assoc, Rinv_l by lra. lra.
Qed.
(** a multiple of 1e-9 is left unchanged *)
Lemma round9_nano k : round9 (IZR k / 10 ^ 9) = IZR k / 10 ^ 9.
Proof. pose proof pow9_pos as P. unfold round9, round_digits. replace (IZR k / 10 ^ 9 * 10 ^ 9) with (IZR k) by (field; lra). now rewrite round_IZR. Qed.
Lemma round9_0 : round9 0 = 0.
Proof. replace 0 with (IZR 0 / 10 ^ 9) by (simpl; lra). apply round9_nano. Qed.

Lemma Rabs_le_inv x e : Rabs x <= e -> - e <= x <= e.
Proof. intros H. pose proof (Rle_abs x). pose proof (Rle_abs (- x)) as N. rewrite Rabs_Ropp in N. lra. Qed.

(** ** No false negatives for cubes *)
Lemma min_of3_le a b c : min_of3 a b c <= a /\ min_of3 a b c <= b /\ min_of3 a b c <= c.
Proof. unfold min_of3. pose proof (Rmin_l (Rmin a b) c). pose proof (Rmin_r (Rmin a b) c). pose proof (Rmin_l a b). pose proof (Rmin_r a b). lra. Qed.
Lemma max_of3_ge a b c : a <= max_of3 a b c /\ b <= max_of3 a b c /\ c <= max_of3 a b c.
Proof. unfold max_of3. pose proof (Rmax_l (Rmax a b) c). pose proof (Rmax_r (Rmax a b) c). pose proof (Rmax_l a b). pose proof (Rmax_r a b). lra. Qed.
Lemma min_of3_case a b c : min_of3 a b c = a \/ min_of3 a b c = b \/ min_of3 a b c = c.
Proof. unfold min_of3, Rmin. destruct (Rle_dec a b); destruct (Rle_dec _ c); auto. Qed.
Lemma max_of3_case a b c : max_of3 a b c = a \/ max_of3 a b c = b \/ max_of3 a b c = c.
Proof. unfold max_of3, Rmax. destruct (Rle_dec a b); destruct (Rle_dec _ c); auto. Qed.
Lemma convex_bounds r s t a b c : 0 <= r -> 0 <= s -> 0 <= t -> r + s + t = 1 ->
  min_of3 a b c <= r * a + s * b + t * c <= max_of3 a b c.
Proof.
  intros Hr Hs Ht E. pose proof (min_of3_le a b c) as (A1 & A2 & A3). pose proof (max_of3_ge a b c) as (B1 & B2 & B3).
  set (m := min_of3 a b c) in *. set (M := max_of3 a b c) in *. clearbody m M.
  replace m with (r * m + s * m + t * m) by (rewrite <- !Rmult_plus_distr_r, E; ring).
  replace M with (r * M + s * M + t * M) by (rewrite <- !Rmult_plus_distr_r, E; ring).
  split; repeat apply Rplus_le_compat; apply Rmult_le_compat_l; assumption.
Qed.

Definition between (d : R) (v0 v1 v2 ax : vec3) : Prop :=
  min_of3 (dot3 v0 ax) (dot3 v1 ax) (dot3 v2 ax) <= d <= max_of3 (dot3 v0 ax) (dot3 v1 ax) (dot3 v2 ax).
Lemma triangle_between p a b c center ax : in_triangle3 p a b c ->
  between (dot3 (sub3 p center) ax) (sub3 a center) (sub3 b center) (sub3 c center) ax.
Proof.
  intros (r & s & t & Hr & Hs & Ht & E & Ex & Ey & Ez). unfold between.
  replace (dot3 (sub3 p center) ax) with
    (r * dot3 (sub3 a center) ax + s * dot3 (sub3 b center) ax + t * dot3 (sub3 c center) ax).
  - now apply convex_bounds.
  - unfold dot3, sub3; cbn. rewrite Ex, Ey, Ez. replace r with (1 - s - t) by lra. ring.
Qed.
Lemma box_dot p center ext ax : in_box3 p center ext ->
  Rabs (dot3 (sub3 p center) ax) <= x3 ext * Rabs (x3 ax) + y3 ext * Rabs (y3 ax) + z3 ext * Rabs (z3 ax).
Proof.
  intros (Hx & Hy & Hz). unfold dot3, sub3; cbn.
  eapply Rle_trans; [apply Rabs_triang|]. apply Rplus_le_compat.
  - eapply Rle_trans; [apply Rabs_triang|]. apply Rplus_le_compat; rewrite Rabs_mult; apply Rmult_le_compat_r; auto using Rabs_pos.
  - rewrite Rabs_mult; apply Rmult_le_compat_r; auto using Rabs_pos.
Qed.
Lemma not_separating v0 v1 v2 ax f ext d : between d v0 v1 v2 ax ->
  Rabs d <= x3 ext * Rabs (z3 f) + y3 ext * Rabs (x3 f) + z3 ext * Rabs (y3 f) -> axis_separates v0 v1 v2 ax f ext = false.
Proof.
  intros [B1 B2] Hd. unfold axis_separates. destruct (Rltb _ _) eqn:E; [|reflexivity]. rb. exfalso.
  pose proof (Rle_abs d). pose proof (Rle_abs (- d)) as N. rewrite Rabs_Ropp in N.
  apply (Rlt_not_le _ _ E). apply Rmax_lub; lra.
Qed.
Lemma abs3 r s t a b c : 0 <= r -> 0 <= s -> 0 <= t -> r + s + t = 1 -> forall e, Rabs (r * a + s * b + t * c) <= e -> slab_misses a b c e = false.
Proof.
  intros Hr Hs Ht E e H. pose proof (convex_bounds r s t a b c Hr Hs Ht E) as [B1 B2]. apply Rabs_le_inv in H.
  unfold slab_misses. apply orb_false_iff; split; destruct (Rltb _ _) eqn:F; rb; try reflexivity; lra.
Qed.

Lemma sat_cubic t0 t1 t2 center e p :
  in_triangle3 p t0 t1 t2 -> in_box3 p center (V3 e e e) -> sat_test (t0, t1, t2) center (V3 e e e) = true.
Proof.
  intros HT HB.
  assert (He : 0 <= e). { destruct HB as (Hx & _ & _). cbn in Hx. pose proof (Rabs_pos (x3 p - x3 center)). lra. }
  assert (Slab : forall k : vec3 -> R, (forall u v, k (sub3 u v) = k u - k v) ->
     (forall a b c r s t, x3 p = r * x3 a + s * x3 b + t * x3 c -> y3 p = r * y3 a + s * y3 b + t * y3 c -> z3 p = r * z3 a + s * z3 b + t * z3 c ->
       k p = r * k a + s * k b + t * k c) -> Rabs (k p - k center) <= e ->
     slab_misses (k (sub3 t0 center)) (k (sub3 t1 center)) (k (sub3 t2 center)) e = false).
  { intros k K1 K2 K3. destruct HT as (r & s & t & Hr & Hs & Ht & E & Ex & Ey & Ez).
    apply (abs3 r s t); auto. rewrite !K1. rewrite (K2 _ _ _ _ _ _ Ex Ey Ez) in K3.
    replace (r * (k t0 - k center) + s * (k t1 - k center) + t * (k t2 - k center)) with (r * k t0 + s * k t1 + t * k t2 - k center); [exact K3|].
    replace r with (1 - s - t) by lra. ring. }
  assert (Ax : forall ax f, Rabs (x3 ax) + Rabs (y3 ax) + Rabs (z3 ax) <= Rabs (z3 f) + Rabs (x3 f) + Rabs (y3 f) ->
     axis_separates (sub3 t0 center) (sub3 t1 center) (sub3 t2 center) ax f (V3 e e e) = false).
  { intros ax f Hf. eapply not_separating; [apply triangle_between, HT|].
    eapply Rle_trans; [apply box_dot, HB|]. cbn. rewrite <- !Rmult_plus_distr_l. now apply Rmult_le_compat_l. }
  unfold sat_test.
  destruct HB as (Hx & Hy & Hz). cbn in Hx, Hy, Hz.
  cbn [x3 y3 z3].
  rewrite (Slab x3), (Slab y3), (Slab z3); auto.
  assert (P0 : forall f, Rabs (x3 (axis0 f)) + Rabs (y3 (axis0 f)) + Rabs (z3 (axis0 f)) <= Rabs (z3 f) + Rabs (x3 f) + Rabs (y3 f)).
  { intros f. unfold axis0; cbn. rewrite Rabs_R0, Rabs_Ropp. pose proof (Rabs_pos (x3 f)). lra. }
  assert (P1 : forall f, Rabs (x3 (axis1 f)) + Rabs (y3 (axis1 f)) + Rabs (z3 (axis1 f)) <= Rabs (z3 f) + Rabs (x3 f) + Rabs (y3 f)).
  { intros f. unfold axis1; cbn. rewrite Rabs_R0, Rabs_Ropp. pose proof (Rabs_pos (y3 f)). lra. }
  assert (P2 : forall f, Rabs (x3 (axis2 f)) + Rabs (y3 (axis2 f)) + Rabs (z3 (axis2 f)) <= Rabs (z3 f) + Rabs (x3 f) + Rabs (y3 f)).
  { intros f. unfold axis2; cbn. rewrite Rabs_R0, Rabs_Ropp. pose proof (Rabs_pos (z3 f)). lra. }
  rewrite !Ax by auto.
  destruct (Rltb _ _) eqn:F; [|reflexivity]. rb. exfalso.
  set (n := cross3 (sub3 t1 t0) (sub3 t2 t1)) in *.
  assert (HB : in_box3 p center (V3 e e e)) by (repeat split; assumption).
  pose proof (box_dot p center (V3 e e e) n HB) as B. cbn [x3 y3 z3] in B.
  assert (E : dot3 n (sub3 t0 center) = dot3 (sub3 p center) n).
  { destruct HT as (r & s & t & Hr & Hs & Ht & E & Ex & Ey & Ez). unfold n, dot3, cross3, sub3; cbn. rewrite Ex, Ey, Ez.
    replace r with (1 - s - t) by lra. ring. }
  rewrite E in F. clearbody n. lra.
Qed.
Lemma intersects_cubic t0 t1 t2 center e p :
  in_triangle3 p t0 t1 t2 -> in_box3 p center (V3 e e e) -> triangle_intersects_voxel (t0, t1, t2) center (V3 e e e) = true.
Proof. intros. unfold triangle_intersects_voxel. now rewrite (sat_cubic t0 t1 t2 center e p). Qed.
Lemma bbox_cubic b t0 t1 t2 p : ymax b - ymin b = xmax b - xmin b -> zmax b - zmin b = xmax b - xmin b ->
  xmin b <= x3 p <= xmax b -> ymin b <= y3 p <= ymax b -> zmin b <= z3 p <= zmax b ->
  in_triangle3 p t0 t1 t2 -> bbox_is_intersecting_triangle b (t0, t1, t2) = true.
Proof.
  intros Ey Ez Hx Hy Hz HT. unfold bbox_is_intersecting_triangle. rewrite Ey, Ez. apply intersects_cubic with p; [exact HT|].
  unfold in_box3, bbox_center; cbn. repeat split; apply Rabs_le; lra.
Qed.
